(* Property theorems about the content transfer encodings. *)
From Verif Require Import Base M_Decode S_Decode L_Decode.
Local Open Scope N_scope.

(* C38.  A base64 body decodes to the bytes it encodes, whatever characters that are no base64 digits are
   scattered in it, and whatever follows the '=' signs at its end. *)
Theorem C38_decode : forall isspc e s u junk after, (forall c, c < 128 -> isspc c = isspace c) -> names isspc "base64" e ->
  Forall (fun c => c < 256) s -> spread (base64_of s) u -> (length s mod 3 = 0 -> junk = [])%nat ->
  unencode_data isspc ((u ++ junk) ++ after) (length (u ++ junk)) (Some e) = Ok s.
Proof. exact base64_main. Qed.
Print Assumptions C38_decode.
(* Any input at all is decoded within the input and within the array allocated for the result. *)
Theorem C38_fits : forall isspc e t after, (forall c, c < 128 -> isspc c = isspace c) -> names isspc "base64" e -> Forall (fun c => c < 256) t ->
  exists s, unencode_data isspc (t ++ after) (length t) (Some e) = Ok s /\ (length s <= 3 * (length t / 4))%nat.
Proof. exact base64_total. Qed.
Print Assumptions C38_fits.

(* C39.  A quoted-printable body decodes to the text it encodes. *)
Theorem C39_decode : forall isspc e s t after, (forall c, c < 128 -> isspc c = isspace c) -> names isspc "quoted-printable" e -> qp_of isspc s t ->
  unencode_data isspc (t ++ after) (length t) (Some e) = Ok s.
Proof. exact qp_main. Qed.
Print Assumptions C39_decode.
(* Any input is decoded within the memory if a byte that is no space follows it, and one more byte... *)
Theorem C39_fits : forall isspc e t x y after, (forall c, c < 128 -> isspc c = isspace c) -> names isspc "quoted-printable" e -> isspc x = false ->
  exists s, unencode_data isspc (t ++ x :: y :: after) (length t) (Some e) = Ok s /\ (length s <= length t)%nat.
Proof. exact qp_total. Qed.
Print Assumptions C39_fits.
(* ... but an input that ends in '=' is read beyond its end: beyond the NUL that ends a decoded part... *)
Theorem C39_overrun_refuted : exists t, Forall (fun c => 0 < c < 256) t /\
  unencode_data isspace (t ++ [0]) (length t) (Some (bs "quoted-printable")) = Err E_oob.
Proof. exact qp_overrun_main. Qed.
Print Assumptions C39_overrun_refuted.
(* ... or into what follows the body, which becomes part of the decoded text. *)
Theorem C39_outside_refuted : exists t after s, unencode_data isspace (t ++ after) (length t) (Some (bs "quoted-printable")) = Ok s /\
  t = bs "a=" /\ s = bs "aB" /\ after = bs "42c".
Proof. exact (ex_intro _ (bs "a=") (ex_intro _ (bs "42c") (ex_intro _ (bs "aB") (conj qp_outside (conj eq_refl (conj eq_refl eq_refl)))))). Qed.
Print Assumptions C39_outside_refuted.

(* C75.  A body that is not encoded, or marked 7bit, 8bit or binary, is taken as it is. *)
Theorem C75_plain : forall isspc e t after, (forall c, c < 128 -> isspc c = isspace c) ->
  (e = None \/ exists e', e = Some e' /\ (names isspc "7bit" e' \/ names isspc "8bit" e' \/ names isspc "binary" e')) ->
  unencode_data isspc (t ++ after) (length t) e = Ok t.
Proof. exact plain_main. Qed.
Print Assumptions C75_plain.

(* C74.  A uuencoded body does not decode to the bytes it encodes: the newline that ends a line is taken for
   the character that tells the length of the next line... *)
Theorem C74_decode_refuted : exists s t, uu_of s t /\ unencode_data isspace (t ++ repeat 0 100) (length t) (Some (bs "x-uuencode")) <> Ok s.
Proof. exact (ex_intro _ _ (ex_intro _ ex_uu (conj ex_uu_ok uu_wrong))). Qed.
Print Assumptions C74_decode_refuted.
(* ... and a short one is decoded past the end of the array for the result.  (No read fails here, because
   a hundred more bytes can be read, and a line takes up no more than 57.) *)
Theorem C74_fits_refuted : exists s t, uu_of s t /\ unencode_data isspace (t ++ repeat 0 100) (length t) (Some (bs "x-uuencode")) = Err E_oob.
Proof. exact (ex_intro _ _ (ex_intro _ ex_uu2 (conj ex_uu2_ok uu_overrun))). Qed.
Print Assumptions C74_fits_refuted.

Example C38_example : (forall c, c < 128 -> isspace c = isspace c) /\ names isspace "base64" (bs "BASE64") /\ spread (base64_of (bs "Hello, world!")) ex_b64 /\
  unencode_data isspace ((ex_b64 ++ bs "IQ==") ++ []) (length (ex_b64 ++ bs "IQ==")) (Some (bs "BASE64")) = Ok (bs "Hello, world!").
Proof. exact (conj isspace_ascii (conj (name_of "base64" (bs "BASE64") eq_refl) (conj ex_b64_ok eq_refl))). Qed.
Example C39_example : names isspace "quoted-printable" (bs "Quoted-Printable") /\ qp_of isspace (bs "caf" ++ [195; 169] ++ bs " 2 = 1+1") ex_qp /\
  unencode_data isspace (ex_qp ++ []) (length ex_qp) (Some (bs "Quoted-Printable")) = Ok (bs "caf" ++ [195; 169] ++ bs " 2 = 1+1").
Proof. exact (conj (name_of "quoted-printable" (bs "Quoted-Printable") eq_refl) (conj ex_qp_ok eq_refl)). Qed.
Example C75_example : names isspace "8bit" (bs "8Bit") /\ unencode_data isspace (bs "a=3D" ++ []) 4 (Some (bs "8Bit")) = Ok (bs "a=3D").
Proof. exact (conj (name_of "8bit" (bs "8Bit") eq_refl) eq_refl). Qed.
