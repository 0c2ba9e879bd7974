(* Wildcard patterns and colon lists as the manual describes them (mairixrc.5, mbox and omit). *)
From Verif Require Import Base.
Local Open Scope N_scope.

(* A character class: single characters and ranges. *)
Inductive citem := CS (c : N) | CR (a b : N).
Inductive gitem := Gc (c : N) | Gany | Gclass (l : list citem) | Gstar | Gdstar.

Definition in_item (x : citem) (c : N) : Prop :=
  match x with CS d => c = d | CR a b => N.min a b <= c <= N.max a b end.

(* A name matches a pattern. *)
Fixpoint gmatch (p : list gitem) (s : bytes) : Prop :=
  match p with
  | [] => s = []
  | Gc c :: p' => exists s', s = c :: s' /\ gmatch p' s'
  | Gany :: p' => exists c s', s = c :: s' /\ gmatch p' s'
  | Gclass l :: p' => exists c s', s = c :: s' /\ (exists x, In x l /\ in_item x c) /\ gmatch p' s'
  | Gstar :: p' => exists a b, s = a ++ b /\ ~ In (ch "/") a /\ gmatch p' b
  | Gdstar :: p' => exists a b, s = a ++ b /\ gmatch p' b
  end.

(* Spelling. *)
Definition show_citem (x : citem) : bytes := match x with CS c => [c] | CR a b => a :: ch "-" :: [b] end.
Definition show_item (g : gitem) : bytes :=
  match g with
  | Gc c => [c]
  | Gany => bs "?"
  | Gclass l => bs "[" ++ flat_map show_citem l ++ bs "]"
  | Gstar => bs "*"
  | Gdstar => bs "**"
  end.
Definition show_pattern (p : list gitem) : bytes := flat_map show_item p.

(* Which class items can be written: ']' only first, '-' only first or last, ranges between ASCII
   characters. *)
Fixpoint class_ok (first : bool) (l : list citem) : Prop :=
  match l with
  | [] => first = false
  | CS c :: l' => c_char c /\ (c = ch "]" -> first = true) /\ (c = ch "-" -> first = true \/ l' = []) /\ class_ok false l'
  | CR a b :: l' => 0 < a < 128 /\ 0 < b < 128 /\ a <> ch "-" /\ b <> ch "]" /\ (a = ch "]" -> first = true) /\ class_ok false l'
  end.
Fixpoint pattern_ok (p : list gitem) : Prop :=
  match p with
  | [] => True
  | Gc c :: p' => c_char c /\ c <> ch "*" /\ c <> ch "?" /\ c <> ch "[" /\ pattern_ok p'
  | Gany :: p' => pattern_ok p'
  | Gclass l :: p' => class_ok true l /\ pattern_ok p'
  | Gstar :: p' => match p' with Gstar :: _ | Gdstar :: _ => False | _ => True end /\ pattern_ok p'
  | Gdstar :: p' => pattern_ok p'
  end.
(* Everything but the stars stands for one character. *)
Definition atoms (p : list gitem) : nat :=
  length (filter (fun g => match g with Gstar | Gdstar => false | _ => true end) p).

(* Colon lists: a name with its colons escaped. *)
Definition escape (name : bytes) : bytes := flat_map (fun c => if c =? ch ":" then [ch "\"; ch ":"] else [c]) name.
Fixpoint colon_list (names : list bytes) : bytes :=
  match names with [] => [] | [x] => escape x | x :: l => escape x ++ bs ":" ++ colon_list l end.
