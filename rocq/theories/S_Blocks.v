(* What a scanner description means, said about what is written in it: stimuli, lines, states, blocks within blocks.
   Nothing is said of copies of blocks, of internal states or of how they are named. *)
From Verif Require Import Base M_Charclass M_Dfasyn M_Compdfa M_Parse S_Dfasyn.

(* Something is declared in ds, after the declarations before. *)
Definition block_at (ds : list decl) (name : bytes) (before : list decl) (b : block_decl) : Prop := exists after, ds = before ++ D_block b :: after /\ b_name b = name.
(* the latest abbreviation of this name *)
Definition abbrev_at (ds : list decl) (name : bytes) (before : list decl) (alts : list stimulus) : Prop :=
  exists after, ds = before ++ D_abbrev name alts :: after /\ forall alts', ~ In (D_abbrev name alts') after.
Definition tokens_in (ds : list decl) : list bytes := flat_map (fun d => match d with D_tokens l => l | _ => [] end) ds.

(* A stimulus stands for one of these: nothing, a token, a character of a class, or a way through a block. *)
Inductive one := O_nothing | O_token (t : nat) | O_char (k : char_class) | O_block (type in_ out : bytes).
Inductive stands_for : list decl -> stimulus -> one -> Prop :=
| sf_empty ds : stands_for ds X_empty O_nothing
| sf_class ds k : stands_for ds (X_class k) (O_char k)
| sf_inline ds t i o : stands_for ds (X_inline t i o) (O_block t i o)
| sf_abbrev ds s before alts x a : abbrev_at ds s before alts -> In x alts -> stands_for before x a -> stands_for ds (X_name s) a
| sf_token ds s t : (forall alts, ~ In (D_abbrev s alts) ds) -> nth_error (tokens_in ds) t = Some s -> stands_for ds (X_name s) (O_token t).
(* A state of a block has a line. *)
Definition has_line (b : block_decl) (p : bytes) (l : line) : Prop := exists s, In s (b_states b) /\ s_name s = p /\ In l (s_lines s).
(* goes ds b p w q: in block b, declared after ds, one may come from state p to state q while reading w. *)
Inductive goes : list decl -> block_decl -> bytes -> list symbol -> bytes -> Prop :=
| goes_end ds b p : goes ds b p [] p
| goes_on ds b p l dests d u v q : has_line b p l -> l_target l = To dests -> In d dests -> reads_all ds (l_stims l) u -> goes ds b d v q -> goes ds b p (u ++ v) q
(* Stimuli are read one after the other, one of each choice. *)
with reads_all : list decl -> list (list stimulus) -> list symbol -> Prop :=
| ra_nil ds : reads_all ds [] []
| ra_cons ds alts l x a u v : In x alts -> stands_for ds x a -> reads ds a u -> reads_all ds l v -> reads_all ds (alts :: l) (u ++ v)
with reads : list decl -> one -> list symbol -> Prop :=
| r_nothing ds : reads ds O_nothing []
| r_token ds t : reads ds (O_token t) [Tok t]
| r_char ds k c : in_class c k = true -> reads ds (O_char k) [Chr c]
| r_block ds t i o before b w : block_at ds t before b -> goes before b i w o -> reads ds (O_block t i o) w.
(* sees ds b p w tag: from state p of block b one may come to the tag while reading w, in this block or within another. *)
Inductive sees : list decl -> block_decl -> bytes -> list symbol -> bytes -> Prop :=
| sees_here ds b p u q l tags tag v : goes ds b p u q -> has_line b q l -> l_target l = Marked tags -> In tag tags -> reads_all ds (l_stims l) v -> sees ds b p (u ++ v) tag
| sees_within ds b p u q l pre alts post v x t i o before c y tag : goes ds b p u q -> has_line b q l -> l_stims l = pre ++ alts :: post -> reads_all ds pre v ->
    In x alts -> stands_for ds x (O_block t i o) -> block_at ds t before c -> sees before c i y tag -> sees ds b p (u ++ v ++ y) tag.

(* The states marked Entry, in the order of the file, each with its block and the declarations before that. *)
Fixpoint entries_from (before ds : list decl) : list (list decl * block_decl * bytes) :=
  match ds with
  | [] => []
  | d :: r =>
    match d with
    | D_block b => map (fun s => (before, b, s_name s)) (filter (fun s => match s_entry s with Some _ => true | None => false end) (b_states b))
    | _ => []
    end ++ entries_from (before ++ [d]) r
  end.
(* Where scanner number j starts: the entries are numbered from the last one; without entries there is one scanner, which
   starts where the last state is described. *)
Definition starts (ds : list decl) (j : nat) (before : list decl) (b : block_decl) (p : bytes) : Prop :=
  match entries_from [] ds with
  | [] => j = 0 /\ exists after l s, ds = before ++ D_block b :: after /\ (forall c, ~ In (D_block c) after) /\ b_states b = l ++ [s] /\ p = s_name s
  | es => nth_error (rev es) j = Some (before, b, p)
  end.
(* Names without #, and blocks are used only within stimuli, as <block:in->out>. *)
Definition no_hash (s : bytes) : Prop := ~ In 35%N s.
Definition plain_stimulus (x : stimulus) : Prop := match x with X_inline t i o => no_hash t /\ no_hash i /\ no_hash o | _ => True end.
Definition plain_line (l : line) : Prop := Forall (Forall plain_stimulus) (l_stims l) /\ match l_target l with To ds => ds <> [] /\ Forall no_hash ds | Marked _ => True end.
Definition plain_decl (d : decl) : Prop :=
  match d with
  | D_block b => b_instances b = [] /\ Forall (fun s => no_hash (s_name s) /\ Forall plain_line (s_lines s)) (b_states b)
  | D_abbrev _ alts => Forall plain_stimulus alts
  | _ => True
  end.
Definition plain (ds : list decl) : Prop := Forall plain_decl ds.
(* The class is written in the description. *)
Definition class_in (ds : list decl) (k : char_class) : Prop :=
  exists d, In d ds /\ match d with
  | D_abbrev _ alts => In (X_class k) alts
  | D_block b => exists p l alts, has_line b p l /\ In alts (l_stims l) /\ In (X_class k) alts
  | _ => False
  end.

(* The lines on attributes that are written outside of groups, or in groups of this name. *)
Definition written (ds : list decl) (g : option bytes) : list attr_decl :=
  flat_map (fun d => match d, g with D_attr a, None => [a] | D_group n l, Some m => if bytes_eqb n m then l else [] | _, _ => [] end) ds.
(* Values with the expressions that give them: a name alone stands for the tag of this name. *)
Definition values (a : attr_decl) : list (bytes * expr * bool) :=
  match a with A_attrs early names => map (fun n => (n, E_TAG n, early)) names | A_expr early n e => [(n, e, early)] | _ => [] end.
(* the latest default *)
Fixpoint default_in (l : list attr_decl) : option bytes :=
  match l with
  | [] => None
  | a :: l' => match default_in l', a with Some n, _ => Some n | None, A_default n => Some n | None, _ => None end
  end.
Definition attribute (ds : list decl) (g : option bytes) : evaluator := Evaluator (flat_map values (written ds g)) (default_in (written ds g)).
Definition tag_lines (ds : list decl) : list (bytes * expr) := flat_map (fun d => match d with D_tag n e => [(n, e)] | _ => [] end) ds.
