(* What the transfer encodings mean, after RFC 2045, apart from the code. *)
From Verif Require Import Base.
Local Open Scope N_scope.

(* The encoding named in a Content-Transfer-Encoding header: spaces, the name in either case, anything. *)
Definition names (isspc : N -> bool) (name : string) (e : bytes) : Prop :=
  exists sp n rest, e = sp ++ n ++ rest /\ Forall (fun c => isspc c = true) sp /\ map tolower n = bs name.

(* base64: three bytes make four digits; one or two bytes left over make two or three digits, filled up with '=' *)
Definition alphabet : bytes := bs "ABCDEFGHIJKLMNOPQRSTUVWXYZabcdefghijklmnopqrstuvwxyz0123456789+/".
Definition digit (v : N) : N := nth (N.to_nat v) alphabet 0.
Fixpoint base64_of (s : bytes) : bytes :=
  match s with
  | [] => []
  | [a] => let v := a * 65536 in [digit (v / 262144); digit (v / 4096 mod 64); 61; 61]
  | [a; b] => let v := a * 65536 + b * 256 in [digit (v / 262144); digit (v / 4096 mod 64); digit (v / 64 mod 64); 61]
  | a :: b :: c :: s' =>
    let v := a * 65536 + b * 256 + c in
    digit (v / 262144) :: digit (v / 4096 mod 64) :: digit (v / 64 mod 64) :: digit (v mod 64) :: base64_of s'
  end.
(* Characters that are not base64 digits, such as line breaks, mean nothing. *)
Definition noise (c : N) : Prop := c < 256 /\ ~ In c alphabet /\ c <> 61.
Inductive spread : bytes -> bytes -> Prop :=
| spread_nil : spread [] []
| spread_keep c t u : spread t u -> spread (c :: t) (c :: u)
| spread_noise c t u : noise c -> spread t u -> spread t (c :: u).

(* quoted-printable: characters, '=' and two hexadecimal digits, '=' at the end of a line *)
Definition hex (x v : N) : Prop :=
  nth_error (bs "0123456789ABCDEF") (N.to_nat v) = Some x \/ nth_error (bs "0123456789abcdef") (N.to_nat v) = Some x.
Inductive qp_of (isspc : N -> bool) : bytes -> bytes -> Prop :=
| qp_nil : qp_of isspc [] []
| qp_char c s t : c <> 61 -> qp_of isspc s t -> qp_of isspc (c :: s) (c :: t)
| qp_hex x y a b s t : hex x a -> hex y b -> qp_of isspc s t -> qp_of isspc (16 * a + b :: s) (61 :: x :: y :: t)
| qp_soft w s t : Forall (fun c => isspc c = true /\ c <> 10) w -> qp_of isspc s t -> qp_of isspc s (61 :: w ++ 10 :: t).

(* uuencode: a "begin" line, lines of up to 45 bytes, a line of no bytes and "end" *)
Definition uu (v : N) : N := if v =? 0 then 96 else 32 + v.
Fixpoint uu_data (s : bytes) : bytes :=
  match s with
  | [] => []
  | [a] => [uu (a / 4); uu (a mod 4 * 16); uu 0; uu 0]
  | [a; b] => [uu (a / 4); uu (a mod 4 * 16 + b / 16); uu (b mod 16 * 4); uu 0]
  | a :: b :: c :: s' => uu (a / 4) :: uu (a mod 4 * 16 + b / 16) :: uu (b mod 16 * 4 + c / 64) :: uu (c mod 64) :: uu_data s'
  end.
Definition uu_line (s : bytes) : bytes := uu (N.of_nat (length s)) :: uu_data s ++ [10].
Definition uu_of (s text : bytes) : Prop :=
  exists name pieces, s = concat pieces /\ Forall (fun p => (0 < length p <= 45)%nat) pieces /\ ~ In 10 name /\
    text = bs "begin 644 " ++ name ++ [10] ++ concat (map uu_line pieces) ++ uu_line [] ++ bs "end" ++ [10].
