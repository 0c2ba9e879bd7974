(* Property theorems about the message checksum. *)
From Verif Require Import Base M_Md5 S_Md5 L_Md5b.
Local Open Scope N_scope.

(* C48.  However the data is cut into pieces, the digest is the same... *)
Theorem C48_pieces : forall mem mem' l l', length mem = 64%nat -> length mem' = 64%nat ->
  Forall (fun s => Forall (fun c => c < 256) s /\ N.of_nat (length s) < 2 ^ 32) l ->
  Forall (fun s => Forall (fun c => c < 256) s /\ N.of_nat (length s) < 2 ^ 32) l' ->
  concat l = concat l' ->
  exists d, (let! c := md5_updates (md5_init mem) l in md5_final c) = Ok d /\
            (let! c := md5_updates (md5_init mem') l' in md5_final c) = Ok d.
Proof. exact pieces_main. Qed.
Print Assumptions C48_pieces.
(* ... and it is the MD5 digest of RFC 1321... *)
Theorem C48_digest : forall mem l, length mem = 64%nat ->
  Forall (fun s => Forall (fun c => c < 256) s /\ N.of_nat (length s) < 2 ^ 32) l ->
  exists c d, md5_updates (md5_init mem) l = Ok c /\ md5_final c = Ok d /\ md5_of (concat l) d.
Proof. exact digest_main. Qed.
Print Assumptions C48_digest.
(* ... of which there is only one. *)
Theorem C48_function : forall m d d', md5_of m d -> md5_of m d' -> d = d'.
Proof. exact md5_unique. Qed.
Print Assumptions C48_function.
(* The checksum of a message in a mailbox is that digest, when the message is shorter than 2^32 bytes. *)
Theorem C48_checksum : forall mem data, length mem = 64%nat -> Forall (fun c => c < 256) data -> N.of_nat (length data) < 2 ^ 32 ->
  exists d, compute_checksum mem data = Ok d /\ md5_of data d.
Proof. exact checksum_main. Qed.
Print Assumptions C48_checksum.
(* A longer message is cut: only the length modulo 2^32 is looked at. *)
Theorem C48_long : forall mem data, Forall (fun c => c < 256) data -> length mem = 64%nat ->
  exists d, compute_checksum mem data = Ok d /\ md5_of (firstn (N.to_nat (N.of_nat (length data) mod 2 ^ 32)) data) d.
Proof. exact long_main. Qed.
Print Assumptions C48_long.

Example C48_pieces_example : Forall (fun s => Forall (fun c => c < 256) s /\ N.of_nat (length s) < 2 ^ 32) ex_md5_pieces.
Proof. exact ex_pieces_ok. Qed.
(* A known digest, from RFC 1321: 900150983cd24fb0d6963f7d28e17f72. *)
Example C48_abc_example : compute_checksum (repeat 255 64) (bs "abc") = Ok [144; 1; 80; 152; 60; 210; 79; 176; 214; 150; 63; 125; 40; 225; 127; 114].
Proof. exact ex_abc. Qed.
