(* The automaton of nvp.nfa as a table. *)
From Verif Require Import Base M_Decode M_Nvp.
Local Open Scope N_scope.

(* One symbol for each class of symbols the automaton does not tell apart, and the class of a symbol. *)
Definition reps : list (option N) := None :: map Some (bs "a0_. ;=*'/" ++ [34; 92; 44; 45; 53; 9; 43; 13; 200]).
Definition class_of (c : option N) : nat :=
  match c with
  | None => 0%nat
  | Some c =>
    if letter c then 1%nat else if c =? 48 then 2%nat else if c =? 95 then 3%nat else if c =? 46 then 4%nat else if c =? 32 then 5%nat
    else if c =? 59 then 6%nat else if c =? 61 then 7%nat else if c =? 42 then 8%nat else if c =? 39 then 9%nat else if c =? 47 then 10%nat
    else if c =? 34 then 11%nat else if c =? 92 then 12%nat else if c =? 45 then 14%nat else if between 49 57 c then 15%nat else if c =? 9 then 16%nat
    else if c =? 43 then 17%nat else if c =? 13 then 18%nat else if between 33 126 c then 13%nat else 19%nat
  end.
(* next state by class; 60 is none *)
Definition table : list (list nat) := (
  [[60; 1; 1; 1; 60; 0; 60; 60; 60; 60; 60; 60; 60; 60; 1; 1; 0; 60; 0; 60];
   [2; 1; 1; 1; 60; 3; 4; 5; 6; 60; 7; 60; 60; 60; 1; 1; 3; 60; 8; 60];
   [60; 60; 60; 60; 60; 60; 60; 60; 60; 60; 60; 60; 60; 60; 60; 60; 60; 60; 60; 60];
   [2; 9; 9; 9; 60; 3; 4; 5; 6; 60; 60; 60; 60; 60; 9; 9; 3; 60; 8; 60];
   [2; 1; 1; 1; 60; 10; 60; 60; 60; 60; 60; 60; 60; 60; 1; 1; 10; 60; 10; 60];
   [11; 12; 12; 12; 12; 5; 60; 12; 12; 12; 12; 13; 60; 12; 12; 12; 5; 12; 5; 60];
   [60; 14; 15; 60; 60; 16; 60; 17; 60; 60; 60; 60; 60; 60; 60; 18; 16; 60; 16; 60];
   [60; 19; 19; 19; 19; 60; 60; 60; 60; 60; 60; 60; 19; 60; 19; 19; 60; 19; 60; 60];
   [2; 60; 60; 60; 60; 8; 4; 5; 60; 60; 60; 60; 60; 60; 60; 60; 8; 60; 8; 60];
   [2; 9; 9; 9; 60; 3; 4; 5; 6; 60; 60; 60; 60; 60; 9; 9; 3; 60; 8; 60];
   [2; 1; 1; 1; 60; 10; 60; 60; 60; 60; 60; 60; 60; 60; 1; 1; 10; 60; 10; 60];
   [2; 60; 60; 60; 60; 20; 4; 60; 60; 60; 60; 60; 60; 60; 60; 60; 20; 60; 20; 60];
   [2; 12; 12; 12; 12; 21; 4; 12; 12; 12; 12; 60; 60; 12; 12; 12; 21; 12; 21; 60];
   [60; 22; 22; 22; 22; 22; 22; 22; 22; 22; 22; 60; 23; 22; 22; 22; 22; 22; 60; 60];
   [60; 60; 60; 60; 60; 60; 60; 60; 24; 60; 60; 60; 60; 60; 60; 60; 60; 60; 60; 60];
   [60; 60; 25; 60; 60; 26; 60; 27; 28; 60; 60; 60; 60; 60; 60; 25; 26; 60; 26; 60];
   [60; 60; 60; 60; 60; 16; 60; 17; 60; 60; 60; 60; 60; 60; 60; 60; 16; 60; 16; 60];
   [60; 29; 29; 29; 29; 17; 60; 60; 60; 30; 60; 60; 29; 60; 29; 29; 17; 29; 17; 60];
   [60; 60; 25; 60; 60; 26; 60; 27; 24; 60; 60; 60; 60; 60; 60; 25; 26; 60; 26; 60];
   [2; 19; 19; 19; 19; 20; 4; 60; 60; 60; 60; 60; 19; 60; 19; 19; 20; 19; 20; 60];
   [2; 60; 60; 60; 60; 20; 4; 60; 60; 60; 60; 60; 60; 60; 60; 60; 20; 60; 20; 60];
   [2; 60; 60; 60; 60; 21; 4; 60; 60; 60; 60; 60; 60; 60; 60; 60; 21; 60; 21; 60];
   [60; 22; 22; 22; 22; 22; 22; 22; 22; 22; 22; 31; 32; 22; 22; 22; 22; 22; 60; 60];
   [60; 60; 60; 60; 60; 60; 60; 60; 60; 60; 60; 22; 22; 60; 60; 60; 60; 60; 60; 60];
   [60; 60; 60; 60; 60; 24; 60; 33; 60; 60; 60; 60; 60; 60; 60; 60; 24; 60; 24; 60];
   [60; 60; 25; 60; 60; 26; 60; 27; 60; 60; 60; 60; 60; 60; 60; 25; 26; 60; 26; 60];
   [60; 60; 60; 60; 60; 26; 60; 27; 60; 60; 60; 60; 60; 60; 60; 60; 26; 60; 26; 60];
   [60; 34; 34; 34; 34; 27; 60; 34; 34; 34; 34; 35; 60; 34; 34; 34; 27; 34; 27; 60];
   [60; 60; 60; 60; 60; 28; 60; 17; 60; 60; 60; 60; 60; 60; 60; 60; 28; 60; 28; 60];
   [60; 29; 29; 29; 29; 60; 60; 60; 60; 36; 60; 60; 29; 60; 29; 29; 60; 29; 60; 60];
   [60; 60; 60; 60; 60; 60; 60; 60; 60; 37; 60; 60; 60; 60; 60; 60; 60; 60; 60; 60];
   [2; 60; 60; 60; 60; 38; 4; 60; 60; 60; 60; 60; 60; 60; 60; 60; 38; 60; 38; 60];
   [60; 60; 60; 60; 60; 60; 60; 60; 60; 60; 60; 22; 22; 60; 60; 60; 60; 60; 60; 60];
   [60; 39; 39; 39; 39; 33; 60; 39; 39; 39; 39; 60; 60; 39; 39; 39; 33; 39; 33; 60];
   [2; 34; 34; 34; 34; 40; 4; 34; 34; 34; 34; 60; 60; 34; 34; 34; 40; 34; 40; 60];
   [60; 41; 41; 41; 41; 41; 41; 41; 41; 41; 41; 60; 42; 41; 41; 41; 41; 41; 60; 60];
   [60; 60; 60; 60; 60; 60; 60; 60; 60; 43; 60; 60; 60; 60; 60; 60; 60; 60; 60; 60];
   [60; 44; 44; 44; 44; 60; 60; 44; 44; 44; 44; 60; 60; 44; 44; 44; 60; 44; 60; 60];
   [2; 60; 60; 60; 60; 38; 4; 60; 60; 60; 60; 60; 60; 60; 60; 60; 38; 60; 38; 60];
   [2; 39; 39; 39; 39; 45; 4; 39; 39; 39; 39; 60; 60; 39; 39; 39; 45; 39; 45; 60];
   [2; 60; 60; 60; 60; 40; 4; 60; 60; 60; 60; 60; 60; 60; 60; 60; 40; 60; 40; 60];
   [60; 41; 41; 41; 41; 41; 41; 41; 41; 41; 41; 46; 47; 41; 41; 41; 41; 41; 60; 60];
   [60; 60; 60; 60; 60; 60; 60; 60; 60; 60; 60; 41; 41; 60; 60; 60; 60; 60; 60; 60];
   [60; 48; 48; 48; 48; 60; 60; 48; 48; 48; 48; 60; 60; 48; 48; 48; 60; 48; 60; 60];
   [2; 44; 44; 44; 44; 49; 4; 44; 44; 44; 44; 60; 60; 44; 44; 44; 49; 44; 49; 60];
   [2; 60; 60; 60; 60; 45; 4; 60; 60; 60; 60; 60; 60; 60; 60; 60; 45; 60; 45; 60];
   [2; 60; 60; 60; 60; 50; 4; 60; 60; 60; 60; 60; 60; 60; 60; 60; 50; 60; 50; 60];
   [60; 60; 60; 60; 60; 60; 60; 60; 60; 60; 60; 41; 41; 60; 60; 60; 60; 60; 60; 60];
   [2; 48; 48; 48; 48; 51; 4; 48; 48; 48; 48; 60; 60; 48; 48; 48; 51; 48; 51; 60];
   [2; 60; 60; 60; 60; 49; 4; 60; 60; 60; 60; 60; 60; 60; 60; 60; 49; 60; 49; 60];
   [2; 60; 60; 60; 60; 50; 4; 60; 60; 60; 60; 60; 60; 60; 60; 60; 50; 60; 50; 60];
   [2; 60; 60; 60; 60; 51; 4; 60; 60; 60; 60; 60; 60; 60; 60; 60; 51; 60; 51; 60]])%nat.
Definition attributes : list (action * copier) :=
  [(GOT_NOTHING, COPY_NOWHERE); (GOT_NAME, COPY_TO_NAME); (GOT_TERMINATOR, COPY_NOWHERE); (GOT_NAME_TRAILING_SPACE, COPY_TO_NAME); (GOT_TERMINATOR, COPY_NOWHERE); (GOT_NOTHING, COPY_NOWHERE); (GOT_NOTHING, COPY_NOWHERE); (GOT_NOTHING, COPY_NOWHERE); (GOT_NOTHING, COPY_NOWHERE); (GOT_NAME, COPY_TO_NAME); (GOT_NOTHING, COPY_NOWHERE); (GOT_NAMEVALUE, COPY_NOWHERE); (GOT_NAMEVALUE, COPY_TO_VALUE); (GOT_NOTHING, COPY_NOWHERE); (GOT_NOTHING, COPY_NOWHERE); (GOT_NOTHING, COPY_NOWHERE); (GOT_NOTHING, COPY_NOWHERE); (GOT_NOTHING, COPY_NOWHERE); (GOT_NOTHING, COPY_NOWHERE); (GOT_MAJORMINOR, COPY_TO_MINOR); (GOT_NOTHING, COPY_NOWHERE); (GOT_NAMEVALUE, COPY_NOWHERE); (GOT_NOTHING, COPY_TO_VALUE); (GOT_NOTHING, COPY_NOWHERE); (GOT_NOTHING, COPY_NOWHERE); (GOT_NOTHING, COPY_NOWHERE); (GOT_NOTHING, COPY_NOWHERE); (GOT_NOTHING, COPY_NOWHERE); (GOT_NOTHING, COPY_NOWHERE); (GOT_NOTHING, COPY_TO_MINOR); (GOT_NOTHING, COPY_NOWHERE); (GOT_NAMEVALUE, COPY_NOWHERE); (GOT_NOTHING, COPY_NOWHERE); (GOT_NOTHING, COPY_NOWHERE); (GOT_NAMEVALUE_CONT, COPY_TO_VALUE); (GOT_NOTHING, COPY_NOWHERE); (GOT_NOTHING, COPY_NOWHERE); (GOT_NOTHING, COPY_NOWHERE); (GOT_NAMEVALUE, COPY_NOWHERE); (GOT_NAMEVALUE_CCONT, COPY_TO_VALUE); (GOT_NAMEVALUE_CONT, COPY_NOWHERE); (GOT_NOTHING, COPY_TO_VALUE); (GOT_NOTHING, COPY_NOWHERE); (GOT_NOTHING, COPY_NOWHERE); (GOT_NAMEVALUE_CSET, COPY_TO_VALUE); (GOT_NAMEVALUE_CCONT, COPY_NOWHERE); (GOT_NAMEVALUE_CONT, COPY_NOWHERE); (GOT_NOTHING, COPY_NOWHERE); (GOT_NAMEVALUE_CSET, COPY_TO_VALUE); (GOT_NAMEVALUE_CSET, COPY_NOWHERE); (GOT_NAMEVALUE_CONT, COPY_NOWHERE); (GOT_NAMEVALUE_CSET, COPY_NOWHERE)].
Definition next (i : nat) (c : option N) : nat := nth (class_of c) (nth i table []) 60%nat.
Definition act (i : nat) : action := fst (nth i attributes (GOT_NOTHING, COPY_NOWHERE)).
Definition cop (i : nat) : copier := snd (nth i attributes (GOT_NOTHING, COPY_NOWHERE)).

(* the states, in the order of the table *)
Fixpoint deq (x y : dstate) : bool := match x, y with [], [] => true | a :: x', b :: y' => nstate_eqb a b && deq x' y' | _, _ => false end.
Fixpoint explore (fuel : nat) (todo seen : list dstate) : list dstate :=
  match fuel with
  | O => seen
  | S f =>
    match todo with
    | [] => seen
    | d :: todo' =>
      let '(seen, new) := fold_left (fun acc r => let e := nvp_next_state d r in
         match e with [] => acc | _ => if existsb (deq e) (fst acc) then acc else (fst acc ++ [e], snd acc ++ [e]) end) reps (seen, []) in
      explore f (todo' ++ new) seen
    end
  end.
Definition states : list dstate := explore 60 [nvp_in] [nvp_in].
Definition st (i : nat) : dstate := nth i states [].
Scheme Equality for action.
Definition nonempty (d : dstate) : bool := match d with [] => false | _ => true end.
Definition check (ss : list dstate) : bool :=
  deq (nth 0 ss []) nvp_in && (length ss =? 52)%nat &&
  forallb (fun i => let d := nth i ss [] in nonempty d && action_beq (nvp_action d) (act i) && copier_beq (nvp_copier d) (cop i) &&
    forallb (fun r => deq (nvp_next_state d r) (nth (next i r) ss [])) reps) (seq 0 52).
Lemma check_ok : check states = true.
Proof. vm_compute. reflexivity. Qed.

(* No path of epsilons is longer than the fuel of close, and the attributes of the NFA states in a DFA state agree. *)
Fixpoint shallow (fuel : nat) (s : nstate) : bool := match fuel with O => false | S f => forallb (shallow f) (epsilons s) end.
Definition agree (d : dstate) : bool :=
  forallb (fun s => (action_beq (s_action (tagged s)) GOT_NOTHING || action_beq (s_action (tagged s)) (nvp_action d)) &&
                    (copier_beq (s_copier (tagged s)) COPY_NOWHERE || copier_beq (s_copier (tagged s)) (nvp_copier d))) d.
Lemma nfa_ok : shallow 30 [(main, l_in, O, O)] = true /\ forallb (fun d => agree d && forallb (fun r => forallb (shallow 30) (concat (map (moves r) d))) reps) states = true.
Proof. vm_compute. split; reflexivity. Qed.

Lemma place_eqb_eq : forall x y, place_eqb x y = true -> x = y.
Proof.
  intros [[[b l] t] i] [[[b' l'] t'] i'] H. cbn in H. rewrite !andb_true_iff in H. destruct H as [[[A B] C] D].
  apply internal_block_dec_bl in A. apply internal_label_dec_bl in B. apply Nat.eqb_eq in C, D. now subst.
Qed.
Lemma nstate_eqb_eq : forall x y, nstate_eqb x y = true -> x = y.
Proof.
  induction x as [|p x IH]; intros [|q y] H; try discriminate; [reflexivity|]. cbn in H. rewrite andb_true_iff in H. destruct H as [A B]. apply place_eqb_eq in A. apply IH in B. now subst.
Qed.
Lemma deq_eq : forall x y, deq x y = true -> x = y.
Proof.
  induction x as [|p x IH]; intros [|q y] H; try discriminate; [reflexivity|]. cbn in H. rewrite andb_true_iff in H. destruct H as [A B]. apply nstate_eqb_eq in A. apply IH in B. now subst.
Qed.
Lemma facts_of : forall ss, check ss = true -> nth 0 ss [] = nvp_in /\ length ss = 52%nat /\
  forall i, (i < 52)%nat -> nth i ss [] <> [] /\ nvp_action (nth i ss []) = act i /\ nvp_copier (nth i ss []) = cop i /\ forall r, In r reps -> nvp_next_state (nth i ss []) r = nth (next i r) ss [].
Proof.
  intros ss H. unfold check in H. apply andb_prop in H. destruct H as [H0 H]. apply andb_prop in H0. destruct H0 as [H0 HL]. split; [exact (deq_eq _ _ H0)|]. split; [exact (proj1 (Nat.eqb_eq _ _) HL)|].
  intros i L. pose proof (proj1 (forallb_forall _ _) H i (proj2 (in_seq 52 0 i) ltac:(lia))) as K. cbv beta zeta in K. apply andb_prop in K. destruct K as [K F]. apply andb_prop in K. destruct K as [K C].
  apply andb_prop in K. destruct K as [N A]. split; [intro E; rewrite E in N; discriminate N|]. split; [exact (internal_action_dec_bl _ _ A)|]. split; [exact (internal_copier_dec_bl _ _ C)|].
  intros r I. exact (deq_eq _ _ (proj1 (forallb_forall _ _) F r I)).
Qed.
Lemma facts : st 0 = nvp_in /\ length states = 52%nat /\
  forall i, (i < 52)%nat -> st i <> [] /\ nvp_action (st i) = act i /\ nvp_copier (st i) = cop i /\ forall r, In r reps -> nvp_next_state (st i) r = st (next i r).
Proof. exact (facts_of states check_ok). Qed.
Global Opaque states nvp_in nvp_next_state nvp_action nvp_copier.

(* the classes of symbols *)
Definition used : list cls := [VALUE; QVALUE_MORE; NAME1; MINOR_MORE; WHITE; BLANK; DIGIT; NOT_ZERO; ONE 92; ONE 34; ONE 61; ONE 42; ONE 48; ONE 39; ONE 47; ONE 59].
Definition rep (c : N) : N := match nth (class_of (Some c)) reps None with Some x => x | None => 0 end.
Definition all_bytes : list N := map N.of_nat (seq 0 256).
Lemma in_bytes : forall c, c < 256 -> In c all_bytes.
Proof. intros c L. apply in_map_iff. exists (N.to_nat c). split; [apply N2Nat.id|]. apply in_seq. lia. Qed.
Lemma sweep_bytes : forall P : N -> bool, forallb P all_bytes = true -> forall c, c < 256 -> P c = true.
Proof. intros P H c L. rewrite forallb_forall in H. now apply H, in_bytes. Qed.
Lemma rep_ok : forall c, c < 256 -> In (Some (rep c)) reps /\ class_of (Some (rep c)) = class_of (Some c) /\ forall k, In k used -> has k (rep c) = has k c.
Proof.
  intros c L.
  pose proof (sweep_bytes (fun c => (class_of (Some (rep c)) =? class_of (Some c))%nat && negb (class_of (Some c) =? 0)%nat && (class_of (Some c) <? 20)%nat && forallb (fun k => Bool.eqb (has k (rep c)) (has k c)) used) ltac:(vm_compute; reflexivity) c L) as H.
  cbv beta in H. rewrite !andb_true_iff in H. destruct H as [[[A B] D] F]. apply Nat.eqb_eq in A. apply Nat.ltb_lt in D. split; [|split; [exact A|]].
  - unfold rep. destruct (class_of (Some c)) as [|k]; [discriminate B|]. clear -D. do 19 (destruct k as [|k]; [cbn; tauto|]). lia.
  - intros k I. rewrite forallb_forall in F. apply eqb_prop, F, I.
Qed.
Definition uses (a : alt) : bool :=
  match a with
  | Cl (ONE x) => existsb (N.eqb x) [92; 34; 61; 42; 48; 39; 47; 59]
  | _ => true
  end.
Lemma all_used : forall b, forallb (fun d => forallb (fun t => forallb (forallb uses) (fst t)) (s_trans d)) (states_of b) = true.
Proof. intros []; vm_compute; reflexivity. Qed.
Lemma alts_used : forall b l t i alts a, nth_error (fst (nth_trans b l t)) i = Some alts -> In a alts -> uses a = true.
Proof.
  intros b l t i alts a H I. unfold nth_trans, decl_of in H. destruct (find _ (states_of b)) as [d|] eqn:F.
  - apply find_some in F. destruct F as [F _]. pose proof (all_used b) as U. rewrite forallb_forall in U. specialize (U d F).
    destruct (nth_in_or_default t (s_trans d) ([], l)) as [J|J].
    + rewrite forallb_forall in U. specialize (U _ J). rewrite forallb_forall in U. apply nth_error_In in H. specialize (U _ H). rewrite forallb_forall in U. now apply U.
    + rewrite J in H. destruct i; discriminate H.
  - cbn [s_trans] in H. destruct t, i; discriminate H.
Qed.
Lemma existsb_same : forall (A : Type) (f g : A -> bool) l, (forall a, In a l -> f a = g a) -> existsb f l = existsb g l.
Proof. induction l as [|a l IH]; intro H; [reflexivity|]. cbn. rewrite (H a (or_introl eq_refl)), IH; [reflexivity|]. intros; apply H; now right. Qed.
Lemma moves_rep : forall c s, c < 256 -> moves (Some c) s = moves (Some (rep c)) s.
Proof.
  intros c s L. destruct (rep_ok c L) as (_ & _ & U). destruct s as [|[[[b l] [|t]] i] r]; [reflexivity|reflexivity|]. cbn [moves].
  destruct (nth_error (fst (nth_trans b l t)) i) as [alts|] eqn:E; [|reflexivity].
  erewrite existsb_same; [reflexivity|]. intros a I. pose proof (alts_used _ _ _ _ _ _ E I) as V. destruct a as [k| | |]; [|reflexivity|reflexivity|reflexivity].
  symmetry. apply U. destruct k; cbn [used In]; try tauto. cbn [uses] in V. apply existsb_exists in V. destruct V as (y & J & Q). apply N.eqb_eq in Q. subst y. cbn [In] in J. intuition (subst; tauto).
Qed.
Lemma next_ok : forall i c, (i < 52)%nat -> (forall x, c = Some x -> x < 256) -> nvp_next_state (st i) c = st (next i c).
Proof.
  intros i c L B. destruct (proj2 (proj2 facts) i L) as (_ & _ & _ & F). destruct c as [c|].
  - specialize (B c eq_refl). destruct (rep_ok c B) as (I & C & _). unfold next. rewrite <- C. change (nth (class_of (Some (rep c))) (nth i table []) 60%nat) with (next i (Some (rep c))). rewrite <- (F _ I).
    Transparent nvp_next_state. unfold nvp_next_state. Opaque nvp_next_state. rewrite (map_ext _ _ (fun s => moves_rep c s B)). reflexivity.
  - apply F. now left.
Qed.

(* the loop over the table *)
Fixpoint iloop (isspc : N -> bool) (s : bytes) (i : nat) (last : action) (lc : copier) (text : bytes) (x : nvp_vars) : res (option (list nvp_entry)) :=
  let j := next i (match s with [] => None | c :: _ => Some c end) in
  if (j =? 60)%nat then Ok None else
    let x := if copier_beq (cop j) lc then x else flush lc (rev text) x in
    let text := if copier_beq (cop j) lc then text else [] in
    let! y := match act j with
              | GOT_TERMINATOR => let! x := terminator isspc last x in Ok (x, GOT_NOTHING)
              | GOT_NOTHING => Ok (Some x, last)
              | a => Ok (Some x, a)
              end in
    match fst y with
    | None => Ok None
    | Some x =>
      match s with
      | [] => Ok (Some (x_result x))
      | c :: s' => iloop isspc s' j (snd y) (cop j) (c :: text) x
      end
    end.
Lemma in_table : forallb (forallb (fun j => (j <? 52)%nat || (j =? 60)%nat)) table = true.
Proof. vm_compute. reflexivity. Qed.
Lemma next_range : forall i c, (next i c < 52)%nat \/ next i c = 60%nat.
Proof.
  intros i c. unfold next. pose proof in_table as H. destruct (nth_in_or_default i table []) as [I|E].
  - rewrite forallb_forall in H. specialize (H _ I). destruct (nth_in_or_default (class_of c) (nth i table []) 60%nat) as [J|E]; [|now right].
    rewrite forallb_forall in H. specialize (H _ J). rewrite orb_true_iff, Nat.ltb_lt, Nat.eqb_eq in H. exact H.
  - rewrite E. right. now destruct (class_of c).
Qed.
Lemma st_60 : st 60 = [].
Proof. unfold st. apply nth_overflow. rewrite (proj1 (proj2 facts)). lia. Qed.
Lemma loop_table : forall isspc s i last lc text x, (i < 52)%nat -> Forall (fun c => c < 256) s -> nvp_loop isspc s (st i) last lc text x = iloop isspc s i last lc text x.
Proof.
  induction s as [|c s IH]; intros i last lc text x L O; cbn [nvp_loop iloop].
  - rewrite next_ok by (exact L || discriminate). destruct (next_range i None) as [R|R].
    + destruct (proj2 (proj2 facts) _ R) as (NE & A & C & _). destruct (Nat.eqb_spec (next i None) 60) as [E|_]; [lia|]. destruct (st (next i None)) as [|q d] eqn:D; [contradiction|]. rewrite <- D in *. rewrite A, C. reflexivity.
    + rewrite R, st_60. reflexivity.
  - pose proof (Forall_inv O) as Oc. apply Forall_inv_tail in O. rewrite next_ok by (exact L || (intros y Y; injection Y as <-; exact Oc)). destruct (next_range i (Some c)) as [R|R].
    + destruct (proj2 (proj2 facts) _ R) as (NE & A & C & _). destruct (Nat.eqb_spec (next i (Some c)) 60) as [E|_]; [lia|]. destruct (st (next i (Some c))) as [|q d] eqn:D; [contradiction|]. rewrite <- D in *. rewrite A, C.
      match goal with |- bind ?e _ = _ => destruct e as [[[y|] a]|er] end; cbn [bind fst snd]; [|reflexivity|reflexivity]. apply IH; assumption.
    + rewrite R, st_60. reflexivity.
Qed.
Lemma make_table : forall isspc s pfx, Forall (fun c => c < 256) s -> match_string pfx s = true ->
  make_nvp isspc s pfx = iloop isspc (skipn (length pfx) s) 0 GOT_NOTHING COPY_NOWHERE [] {| x_name := None; x_minor := None; x_value := None; x_result := [] |}.
Proof.
  intros isspc s pfx O M. unfold make_nvp. rewrite M. rewrite <- (proj1 facts). apply loop_table; [lia|]. revert O. generalize (length pfx) as n. clear M. induction s as [|c s IH]; intros [|n] O; cbn [skipn]; auto. apply IH. exact (Forall_inv_tail O).
Qed.
