(* flex's choice among the rules of scan.l: which rules can begin with a character. *)
From Verif Require Import Base M_Scan S_Flex.
Local Open Scope N_scope.

Fixpoint nonempty (p : pattern) : bool :=
  match p with
  | AnyOf ws => forallb (fun w => match w with [] => false | _ => true end) ws
  | One _ => true
  | Many _ => false
  | Then a b => nonempty a || nonempty b
  end.
Fixpoint starts (p : pattern) (c : N) : bool :=
  match p with
  | AnyOf ws => existsb (fun w => match w with [] => true | d :: _ => d =? c end) ws
  | One p => p c
  | Many p => p c
  | Then a b => starts a c || (negb (nonempty a) && starts b c)
  end.
(* the greatest length of a match *)
Fixpoint bound (p : pattern) : option nat :=
  match p with
  | AnyOf ws => Some (fold_right (fun w n => Nat.max (length w) n) 0%nat ws)
  | One _ => Some 1%nat
  | Many _ => None
  | Then a b => match bound a, bound b with Some m, Some n => Some (m + n)%nat | _, _ => None end
  end.
Lemma nonempty_ok p : forall y, nonempty p = true -> matches p y -> y <> [].
Proof.
  induction p as [ws|q|q|a IHa b IHb]; intros y H M; cbn [nonempty matches] in *; try discriminate.
  - rewrite forallb_forall in H. specialize (H _ M). now destruct y.
  - destruct M as (c & -> & _). discriminate.
  - destruct M as (u & v & -> & A & B). apply orb_true_iff in H. destruct H as [H|H]; [specialize (IHa _ H A)|specialize (IHb _ H B)]; destruct u, v; try congruence; discriminate.
Qed.
Lemma starts_ok p : forall c y, matches p (c :: y) -> starts p c = true.
Proof.
  induction p as [ws|q|q|a IHa b IHb]; intros c y M; cbn [starts matches] in *.
  - apply existsb_exists. exists (c :: y). split; [exact M|apply N.eqb_refl].
  - destruct M as (d & E & Q). inversion E; subst. exact Q.
  - cbn [forallb] in M. apply andb_true_iff in M. exact (proj1 M).
  - destruct M as (u & v & E & A & B). apply orb_true_iff. destruct u as [|d u].
    + right. apply andb_true_iff. split.
      * destruct (nonempty a) eqn:NE; [|reflexivity]. exfalso. exact (nonempty_ok a [] NE A eq_refl).
      * cbn [app] in E. subst v. exact (IHb _ _ B).
    + left. cbn [app] in E. inversion E; subst. exact (IHa _ _ A).
Qed.
Lemma bound_ok p : forall n y, bound p = Some n -> matches p y -> (length y <= n)%nat.
Proof.
  induction p as [ws|q|q|a IHa b IHb]; intros n y H M; cbn [bound matches] in *; try discriminate.
  - inversion H; subst; clear H. induction ws as [|w ws IH]; [destruct M|]. cbn [fold_right]. destruct M as [-> |M]; [lia|]. specialize (IH M). lia.
  - inversion H; subst. destruct M as (c & -> & _). cbn [length]. lia.
  - destruct (bound a) as [m|]; [|discriminate]. destruct (bound b) as [k|]; [|discriminate]. inversion H; subst. destruct M as (u & v & -> & A & B).
    specialize (IHa _ _ eq_refl A). specialize (IHb _ _ eq_refl B). rewrite app_length. lia.
Qed.
Definition same_start (a b : start) : bool := match a, b with INITIAL, INITIAL | PASSTHRU, PASSTHRU | STR, STR | CHARCLASS, CHARCLASS => true | _, _ => false end.
Lemma same_start_refl a : same_start a a = true.
Proof. now destruct a. Qed.
Definition numbered : list (nat * rule) := combine (seq 0 (length rules)) rules.
Definition can (st : start) (c : N) (ir : nat * rule) : bool := same_start (where_ (snd ir)) st && starts (pat (snd ir)) c.
Definition possible (st : start) (c : N) : list nat := map fst (filter (can st c) numbered).
Lemma nth_combine {A : Type} (l : list A) : forall i n x, nth_error l i = Some x -> In ((n + i)%nat, x) (combine (seq n (length l)) l).
Proof.
  induction l as [|a l IH]; intros [|i] n x H; cbn [nth_error] in H; try discriminate; cbn [length seq combine].
  - inversion H; subst. left. now rewrite Nat.add_0_r.
  - right. rewrite <- Nat.add_succ_comm. apply IH. exact H.
Qed.
Lemma possible_in st c j r : nth_error rules j = Some r -> where_ r = st -> starts (pat r) c = true -> In j (possible st c).
Proof.
  intros H W B. unfold possible. change j with (fst (j, r)). apply in_map, filter_In. split; [exact (nth_combine rules j 0 r H)|].
  unfold can. cbn [snd]. rewrite W, same_start_refl, B. reflexivity.
Qed.
Lemma no_empty : forallb (fun r => nonempty (pat r) || negb (eol r)) rules = true.
Proof. vm_compute. reflexivity. Qed.
Lemma choose_at st b c s i r y : nth_error rules i = Some r -> applies st b (c :: s) r y -> y <> [] ->
  (forall j r' c' y', In j (possible st c) -> nth_error rules j = Some r' -> applies st b (c :: s) r' (c' :: y') -> (weight r' (c' :: y') < weight r y)%nat \/ (weight r' (c' :: y') = weight r y /\ (i <= j)%nat)) ->
  chosen st b (c :: s) r y.
Proof.
  intros H A Y G. split; [exact A|]. exists i. split; [exact H|]. intros j r' y' H' A'. destruct y' as [|c' y'].
  - left. pose proof no_empty as NE. rewrite forallb_forall in NE. specialize (NE _ (nth_error_In _ _ H')). apply orb_true_iff in NE.
    destruct A' as (_ & _ & M & _). destruct NE as [NE|NE]; [now destruct (nonempty_ok _ _ NE M)|]. unfold weight. destruct (eol r'); [discriminate|]. destruct y; [congruence|]. cbn [length]. lia.
  - apply (G j r' c' y'); try assumption. destruct A' as (W & _ & M & z & E & _). cbn [app] in E. inversion E; subst. apply (possible_in (where_ r') c' j r'); [exact H'|reflexivity|exact (starts_ok _ _ _ M)].
Qed.
(* when no other rule can have a longer match *)
Definition short (n i : nat) (j : nat) : bool :=
  match nth_error rules j with
  | Some r => negb (eol r) && match bound (pat r) with Some m => Nat.ltb m n || (Nat.leb m n && Nat.leb i j) | None => false end
  | None => false
  end.
Lemma choose_short st b c s i r y z : nth_error rules i = Some r -> where_ r = st -> bol r = false -> eol r = false -> matches (pat r) y -> c :: s = y ++ z -> y <> [] ->
  forallb (short (length y) i) (possible st c) = true -> chosen st b (c :: s) r y.
Proof.
  intros H W B E M EQ Y S. apply (choose_at st b c s i); try assumption.
  - split; [exact W|]. split; [rewrite B; discriminate|]. split; [exact M|]. exists z. split; [exact EQ|]. rewrite E. discriminate.
  - intros j r' c' y' J H' A. rewrite forallb_forall in S. specialize (S _ J). unfold short in S. rewrite H' in S. apply andb_true_iff in S. destruct S as (S1 & S2).
    destruct (bound (pat r')) as [m|] eqn:BD; [|discriminate]. destruct A as (_ & _ & M' & _). pose proof (bound_ok _ _ _ BD M') as L.
    unfold weight. rewrite E. destruct (eol r'); [discriminate|]. apply orb_true_iff in S2. destruct S2 as [S2|S2].
    + apply Nat.ltb_lt in S2. left. lia.
    + apply andb_true_iff in S2. destruct S2 as (S2 & S3). apply Nat.leb_le in S2, S3. lia.
Qed.
(* characters above 127 are all alike *)
Definition alike (p : pattern) : Prop := forall c, 127 < c -> starts p c = starts p 200.
Lemma alike_any ws : forallb (fun w => match w with [] => true | d :: _ => d <=? 127 end) ws = true -> alike (AnyOf ws).
Proof.
  intros H c C. cbn [starts]. induction ws as [|w ws IH]; [reflexivity|]. cbn [forallb existsb] in *. apply andb_true_iff in H. destruct H as (H1 & H2). rewrite (IH H2). f_equal.
  destruct w as [|d w]; [reflexivity|]. apply N.leb_le in H1. transitivity false; [apply N.eqb_neq; lia|symmetry; apply N.eqb_neq; lia].
Qed.
Lemma alike_then a b : alike a -> alike b -> alike (Then a b).
Proof. intros A B c C. cbn [starts]. now rewrite (A c C), (B c C). Qed.
Lemma between_big lo hi c : 127 < c -> hi <= 127 -> between lo hi c = false.
Proof. intros. unfold between. apply andb_false_iff. right. apply N.leb_gt. lia. Qed.
Lemma one_of_big cs c : 127 < c -> forallb (fun d => d <=? 127) cs = true -> one_of cs c = false.
Proof.
  intros C H. unfold one_of. induction cs as [|d cs IH]; [reflexivity|]. cbn [forallb existsb] in *. apply andb_true_iff in H. destruct H as (H1 & H2). rewrite (IH H2). apply N.leb_le in H1.
  replace (c =? d) with false by (symmetry; apply N.eqb_neq; lia). reflexivity.
Qed.
Lemma name_char_big c : 127 < c -> name_char c = false.
Proof. intros C. unfold name_char. rewrite !between_big, one_of_big by (reflexivity || lia). reflexivity. Qed.
Lemma rules_alike : Forall (fun r => alike (pat r)) rules.
Proof.
  apply Forall_app. split; [apply Forall_forall; intros r R; apply in_map_iff in R; destruct R as (k & <- & K); cbn [word_rule pat]; apply alike_any; revert k K; apply Forall_forall; repeat constructor|].
  repeat apply Forall_cons; try apply Forall_nil; cbn [pat mark escape]; try (apply alike_any; reflexivity); repeat apply alike_then; try (apply alike_any; reflexivity);
    intros c C; cbn [starts].
  all: try (rewrite !name_char_big by (exact C || reflexivity); reflexivity).
  all: try (unfold dot; replace (c =? 10) with false by (symmetry; apply N.eqb_neq; lia); reflexivity).
  all: try (unfold space; rewrite !one_of_big by (exact C || reflexivity); reflexivity).
  all: try (replace (c =? 34) with false by (symmetry; apply N.eqb_neq; lia); reflexivity).
  all: unfold hex_digit, octal_digit; rewrite !between_big by (exact C || reflexivity || lia); reflexivity.
Qed.
Lemma possible_big st c : 127 < c -> possible st c = possible st 200.
Proof.
  intros C. unfold possible. apply (f_equal (map fst)). apply filter_ext_in. intros jr J. unfold can. apply (f_equal (andb _)). destruct jr as (j, r). apply in_combine_r in J.
  pose proof rules_alike as R. rewrite Forall_forall in R. exact (R r J c C).
Qed.
(* checking all characters *)
Definition every : list N := map N.of_nat (seq 0 128) ++ [200].
Lemma check_all (P : list nat -> bool) (q : N -> bool) st : (forall c, 127 < c -> q c = q 200) -> forallb (fun c => negb (q c) || P (possible st c)) every = true -> forall c, q c = true -> P (possible st c) = true.
Proof.
  intros Q H c C. rewrite forallb_forall in H.
  assert (D : c <= 127 \/ 127 < c) by lia. destruct D as [D|D].
  - specialize (H c). rewrite C in H. apply H. apply in_or_app. left. apply in_map_iff. exists (N.to_nat c). split; [lia|]. apply in_seq. lia.
  - rewrite (possible_big st c D). specialize (H 200). rewrite <- (Q c D), C in H. apply H. apply in_or_app. right. now left.
Qed.
Lemma chosen_one st b s r y r' y' : chosen st b s r y -> chosen st b s r' y' -> r = r' /\ y = y'.
Proof.
  intros (A & i & H & G) (A' & i' & H' & G'). pose proof (G _ _ _ H' A') as X. pose proof (G' _ _ _ H A) as X'.
  assert (i = i') by lia. subst i'. rewrite H in H'. inversion H'; subst r'. split; [reflexivity|]. assert (L : length y = length y') by (unfold weight in *; destruct (eol r); lia).
  destruct A as (_ & _ & _ & z & E & _). destruct A' as (_ & _ & _ & z' & E' & _). rewrite E in E'. clear -E' L. revert y' L E'. induction y as [|c y IH]; intros [|c' y'] L E'; try discriminate; [reflexivity|].
  cbn [app] in E'. inversion E'; subst. f_equal. apply IH; [now inversion L|assumption].
Qed.
Lemma scans_one st b s o : scans st b s o -> forall o', scans st b s o' -> o = o'.
Proof.
  induction 1 as [st b|st b s r y N C A|st b y z r bg gv o N C A S IH|st b c s o N S IH]; intros o' S'.
  - inversion S'; subst; congruence.
  - destruct S' as [st b|st b s r' y' N' C' A'|st b y' z' r' bg' gv' o' N' C' A' S'|st b c s o' N' S'].
    + congruence.
    + reflexivity.
    + destruct (chosen_one _ _ _ _ _ _ _ C C'); subst. congruence.
    + exfalso. destruct C as (Ap & i & H & _). exact (N' r y (nth_error_In _ _ H) Ap).
  - remember (y ++ z) as s eqn:E. destruct S' as [st b|st b s r' y' N' C' A'|st b y' z' r' bg' gv' o' N' C' A' S'|st b c s o' N' S'].
    + congruence.
    + destruct (chosen_one _ _ _ _ _ _ _ C C'); subst. congruence.
    + destruct (chosen_one _ _ _ _ _ _ _ C C') as (<- & <-). apply app_inv_head in E. subst z'. rewrite A in A'. inversion A'; subst. now rewrite (IH _ S').
    + exfalso. destruct C as (Ap & i & H & _). exact (N' r y (nth_error_In _ _ H) Ap).
  - remember (c :: s) as t eqn:E. destruct S' as [st b|st b t r' y' N' C' A'|st b y' z' r' bg' gv' o' N' C' A' S'|st b c' s' o' N' S'].
    + discriminate.
    + exfalso. destruct C' as (Ap & i & H & _). exact (N _ _ (nth_error_In _ _ H) Ap).
    + exfalso. destruct C' as (Ap & i & H & _). exact (N _ _ (nth_error_In _ _ H) Ap).
    + inversion E; subst. exact (IH _ S').
Qed.
