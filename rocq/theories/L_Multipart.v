(* Splitting a multipart body. *)
From Verif Require Import Base M_Tokens M_Header M_Words M_Rfc822 S_Multipart.
Local Open Scope N_scope.

Lemma prefix_app : forall r s, prefix r (r ++ s) = true.
Proof. induction r as [|x r IH]; intros s; [reflexivity|]. cbn [prefix app]. rewrite N.eqb_refl, IH. reflexivity. Qed.
Lemma prefix_inv : forall r s, prefix r s = true -> exists y, s = r ++ y.
Proof.
  induction r as [|x r IH]; intros s H; [exists s; reflexivity|]. destruct s as [|c s]; [discriminate|]. cbn [prefix] in H.
  apply andb_true_iff in H. destruct H as [A B]. apply N.eqb_eq in A. subst c. destruct (IH _ B) as [y E]. exists y. rewrite E. reflexivity.
Qed.

(* where scan_for stops *)
Definition hit (b s : bytes) : bool := (length b + 2 <? length s)%nat && prefix (bs "--" ++ b) s.
Lemma scan_cons : forall b c s i, scan_for b (c :: s) i = if hit b (c :: s) then Some i else scan_for b s (S i).
Proof. reflexivity. Qed.
Lemma scan_some : forall b s i k, scan_for b s i = Some k -> exists x y, s = x ++ y /\ k = (i + length x)%nat /\ hit b y = true /\
  forall x1 x2, x = x1 ++ x2 -> x2 <> [] -> hit b (x2 ++ y) = false.
Proof.
  intros b. induction s as [|c s IH]; intros i k H; [discriminate|]. rewrite scan_cons in H. destruct (hit b (c :: s)) eqn:E.
  - injection H as <-. exists [], (c :: s). split; [reflexivity|]. split; [cbn; lia|]. split; [exact E|].
    intros x1 x2 F G. destruct x1; [|discriminate]. cbn in F. congruence.
  - destruct (IH _ _ H) as (x & y & A & B & C & D). exists (c :: x), y. split; [rewrite A; reflexivity|]. split; [cbn; lia|]. split; [exact C|].
    intros x1 x2 F G. destruct x1 as [|d x1].
    + cbn in F. subst x2. cbn. rewrite <- A. exact E.
    + injection F as _ F. exact (D _ _ F G).
Qed.
Lemma scan_none : forall b s i, scan_for b s i = None -> forall x y, s = x ++ y -> hit b y = false.
Proof.
  intros b. induction s as [|c s IH]; intros i H x y E.
  - destruct x; [|discriminate]. cbn in E. subst y. unfold hit. cbn [length]. destruct (length b + 2 <? 0)%nat eqn:F; [apply Nat.ltb_lt in F; lia|]. reflexivity.
  - rewrite scan_cons in H. destruct (hit b (c :: s)) eqn:F; [discriminate|]. destruct x as [|d x].
    + cbn in E. subst y. exact F.
    + injection E as <- E. exact (IH _ H _ _ E).
Qed.
Lemma hit_mark : forall b y, y <> [] -> hit b (mark b ++ y) = true.
Proof.
  intros b y H. unfold hit, mark. rewrite prefix_app, andb_true_r. apply Nat.ltb_lt. rewrite !app_length. destruct y; [congruence|]. cbn. lia.
Qed.
Lemma hit_inv : forall b s, hit b s = true -> exists y, s = mark b ++ y /\ y <> [].
Proof.
  intros b s H. unfold hit in H. apply andb_true_iff in H. destruct H as [A B]. apply Nat.ltb_lt in A. destruct (prefix_inv _ _ B) as [y E].
  exists y. split; [exact E|]. intros ->. rewrite E, !app_length in A. cbn in A. lia.
Qed.

Lemma strchr_some : forall a u v, ~ In a u -> ~ In 0 u -> strchr a (u ++ a :: v) = Ok (Some (length u)).
Proof.
  intros a. induction u as [|c u IH]; intros v A B; cbn [app strchr].
  - rewrite N.eqb_refl. reflexivity.
  - destruct (c =? a) eqn:E; [apply N.eqb_eq in E; subst c; exfalso; apply A; left; reflexivity|].
    destruct (c =? 0) eqn:F; [apply N.eqb_eq in F; subst c; exfalso; apply B; left; reflexivity|].
    rewrite IH; [reflexivity| |]; intros G; [apply A|apply B]; right; exact G.
Qed.
Lemma strchr_cases : forall a s, a <> 0 -> exists r, strchr a (s ++ [0]) = Ok r /\
  match r with
  | Some k => exists u v, s = u ++ a :: v /\ ~ In a u /\ ~ In 0 u /\ k = length u
  | None => ~ In a (cstr s)
  end.
Proof.
  intros a s Z. induction s as [|c s IH].
  - cbn. destruct (0 =? a) eqn:E; [apply N.eqb_eq in E; congruence|]. exists None. split; [reflexivity|]. intros [].
  - cbn [app strchr cstr]. destruct (c =? a) eqn:E.
    + apply N.eqb_eq in E. subst c. exists (Some O). split; [reflexivity|]. exists [], s. cbn. auto.
    + destruct (c =? 0) eqn:F; [exists None; split; [reflexivity|]; cbn; tauto|].
      destruct IH as (r & A & B). rewrite A. apply N.eqb_neq in E, F. exists (option_map S r). split; [reflexivity|]. destruct r as [k|]; cbn.
      * destruct B as (u & v & B1 & B2 & B3 & B4). exists (c :: u), v. rewrite B1, B4. split; [reflexivity|].
        split; [intros [G|G]; [congruence|auto]|]. split; [intros [G|G]; [congruence|auto]|]. reflexivity.
      * intros [G|G]; [congruence|auto].
Qed.

Lemma char_at_app : forall x c s, char_at (x ++ c :: s) (length x) c = true.
Proof. intros. unfold char_at. rewrite nth_error_app2, Nat.sub_diag by lia. cbn. apply N.eqb_refl. Qed.
Lemma char_at_nth : forall x s i c, char_at (x ++ s) (length x + i) c = char_at s i c.
Proof. intros. unfold char_at. rewrite nth_error_app2 by lia. replace (length x + i - length x)%nat with i by lia. reflexivity. Qed.
Lemma char_at_true : forall s i c, char_at s i c = true <-> nth_error s i = Some c.
Proof.
  intros. unfold char_at. split.
  - destruct (nth_error s i); [|discriminate]. intros H. apply N.eqb_eq in H. congruence.
  - intros ->. apply N.eqb_refl.
Qed.
Definition starts (x : bytes) : bool := match rev x with [] => true | c :: _ => c =? 10 end.
Lemma starts_ok : forall x, starts x = true <-> whole_lines x.
Proof.
  intros x. unfold starts, whole_lines. destruct (rev x) as [|c r] eqn:E.
  - split; [|reflexivity]. intros _. left. rewrite <- (rev_involutive x), E. reflexivity.
  - assert (F : x = rev r ++ [c]) by (rewrite <- (rev_involutive x), E; reflexivity). split.
    + intros H. apply N.eqb_eq in H. subst c. right. exists (rev r). exact F.
    + intros [H|[u H]]; [rewrite H in E; discriminate|]. rewrite H, rev_app_distr in E. cbn in E. injection E as <- _. reflexivity.
Qed.
(* what boundary_ok and end_boundary see, x being before the boundary and y behind it *)
Definition two (c d : N) (y : bytes) : bool := match y with a :: b :: _ => (a =? c) && (b =? d) | _ => false end.
Definition one (c : N) (y : bytes) : bool := match y with a :: _ => a =? c | _ => false end.
Lemma mark_length : forall b, length (mark b) = (length b + 2)%nat.
Proof. intros. unfold mark. rewrite app_length. cbn. lia. Qed.
Lemma end_view : forall b x y, end_boundary b (x ++ mark b ++ y) (length x) = two 45 45 y.
Proof.
  intros. unfold end_boundary.
  replace (length x + length b + 2)%nat with (length x + (length (mark b) + 0))%nat by (rewrite mark_length; lia).
  replace (length x + length b + 3)%nat with (length x + (length (mark b) + 1))%nat by (rewrite mark_length; lia).
  rewrite !char_at_nth. rewrite !app_length. unfold char_at.
  destruct y as [|c [|d y]]; cbn [nth_error two length]; rewrite ?andb_false_r, ?andb_false_l; try reflexivity.
  assert (E : (length x + (length (mark b) + 1) <? length x + (length (mark b) + S (S (length y))))%nat = true) by (apply Nat.ltb_lt; lia).
  rewrite E. reflexivity.
Qed.
Lemma before_view : forall x s, negb ((0 <? length x)%nat && negb (char_at (x ++ s) (length x - 1) 10)) = starts x.
Proof.
  intros. unfold starts. destruct (rev x) as [|c r] eqn:E; assert (F := rev_involutive x); rewrite E in F; cbn in F; subst x.
  - reflexivity.
  - rewrite app_length. replace (length (rev r) + length [c] - 1)%nat with (length (rev r) + 0)%nat by (cbn; lia).
    rewrite <- app_assoc, char_at_nth. cbn [app]. unfold char_at. cbn [nth_error].
    destruct (0 <? _)%nat eqn:G; [rewrite andb_true_l, negb_involutive; reflexivity|apply Nat.ltb_ge in G; cbn in G; lia].
Qed.
Lemma ok_view : forall b x y, boundary_ok b (x ++ mark b ++ y) (length x) =
  starts x && (two 45 45 y || (length y <? 2)%nat || one 10 y || two 13 10 y).
Proof.
  intros. unfold boundary_ok. rewrite end_view, before_view. f_equal.
  replace (length x + length b + 2)%nat with (length x + (length (mark b) + 0))%nat by (rewrite mark_length; lia).
  replace (length x + length b + 3)%nat with (length x + (length (mark b) + 1))%nat by (rewrite mark_length; lia).
  rewrite !char_at_nth, !app_length. unfold char_at.
  destruct y as [|c [|d y]]; cbn [nth_error two one length].
  - assert (E : (length x + (length (mark b) + 1) <? length x + (length (mark b) + 0))%nat = false) by (apply Nat.ltb_ge; lia). rewrite E. reflexivity.
  - assert (E : (length x + (length (mark b) + 1) <? length x + (length (mark b) + 1))%nat = false) by (apply Nat.ltb_ge; lia). rewrite E. cbn. reflexivity.
  - assert (E : (length x + (length (mark b) + 1) <? length x + (length (mark b) + S (S (length y))))%nat = true) by (apply Nat.ltb_lt; lia). rewrite E.
    replace (S (S (length y)) <? 2)%nat with false by (symmetry; apply Nat.ltb_ge; lia).
    destruct ((c =? 45) && (d =? 45)), (c =? 10), (c =? 13), (d =? 10); reflexivity.
Qed.

Lemma first_in : forall (a : N) s, In a s -> exists v w, s = v ++ a :: w /\ ~ In a v.
Proof.
  intros a. induction s as [|c s IH]; intros H; [destruct H|]. destruct (N.eq_dec c a) as [E|E].
  - subst c. exists [], s. split; [reflexivity|]. intros [].
  - destruct H as [H|H]; [congruence|]. destruct (IH H) as (v & w & A & B). exists (c :: v), w. rewrite A. split; [reflexivity|].
    intros [F|F]; [congruence|auto].
Qed.
Lemma whole_app : forall x y, whole_lines x -> whole_lines y -> whole_lines (x ++ y).
Proof.
  intros x y A [->|[u ->]]; [rewrite app_nil_r; exact A|]. right. exists (x ++ u). rewrite app_assoc. reflexivity.
Qed.
Lemma whole_tail : forall x y, whole_lines (x ++ y) -> whole_lines y.
Proof.
  intros x y H. destruct y as [|c y]; [left; reflexivity|]. destruct H as [H|[u H]]; [destruct x; discriminate|]. right.
  destruct (exists_last (l := c :: y)) as (w & d & E); [discriminate|]. rewrite E in *. rewrite app_assoc in H. apply app_inj_tail in H. destruct H as [_ ->].
  exists w. reflexivity.
Qed.
Lemma mark_in : forall b c, boundary_string b -> In c (mark b) -> c <> 10 /\ c <> 0.
Proof.
  intros b c [A B] H. unfold mark in H. apply in_app_or in H. destruct H as [H|H].
  - cbn in H. destruct H as [<-|[<-|[]]]; split; discriminate.
  - split; intros ->; auto.
Qed.
Lemma tail_ok : forall y, delimits y -> y <> [] /\ two 45 45 y || (length y <? 2)%nat || one 10 y || two 13 10 y = true.
Proof.
  intros y [[r ->]|(e & r & [->| ->] & ->)]; cbn [app bs two one length]; (split; [discriminate|]).
  - reflexivity.
  - cbn. rewrite ?orb_true_r. reflexivity.
  - cbn. rewrite ?orb_true_r. reflexivity.
Qed.
Lemma tail_inv : forall y, two 45 45 y || one 10 y || two 13 10 y = true -> delimits y.
Proof.
  intros [|a y]; [discriminate|]. intros H. destruct (one 10 (a :: y)) eqn:E.
  - cbn in E. apply N.eqb_eq in E. subst a. right. exists [10], y. split; [left|]; reflexivity.
  - destruct y as [|c y]; [discriminate|]. cbn [two] in H. rewrite orb_false_r in H. apply orb_true_iff in H.
    destruct H as [H|H]; apply andb_true_iff in H; destruct H as [A B]; apply N.eqb_eq in A, B; subst a c.
    + left. exists y. reflexivity.
    + right. exists [13; 10], y. split; [right|]; reflexivity.
Qed.
Lemma app_split : forall (A : Type) (a b c d : list A), a ++ b = c ++ d -> (length a <= length c)%nat -> exists m, c = a ++ m /\ b = m ++ d.
Proof.
  intros A. induction a as [|x a IH]; intros b c d E L.
  - exists c. split; [reflexivity|exact E].
  - destruct c as [|z c]; [cbn in L; lia|]. injection E as <- E. cbn in L. destruct (IH _ _ _ E) as (m & F & G); [lia|]. exists m. rewrite F. split; [reflexivity|exact G].
Qed.
Lemma skipn_app2 : forall (A : Type) (x y : list A), skipn (length x) (x ++ y) = y.
Proof. intros. rewrite skipn_app, skipn_all, Nat.sub_diag. reflexivity. Qed.

Lemma next_ok : forall b y, boundary_string b -> delimits y -> forall fuel pre t, whole_lines pre -> no_boundary b t -> (length t < fuel)%nat ->
  next_boundary fuel b (pre ++ t ++ mark b ++ y) (length pre) = Ok (B_at (length pre + length t) (two 45 45 y)).
Proof.
  intros b y B D. induction fuel as [|fuel IH]; intros pre t P T L; [lia|]. cbn [next_boundary]. rewrite skipn_app2.
  destruct (tail_ok _ D) as [D1 D2].
  destruct (scan_for b (t ++ mark b ++ y) (length pre)) as [k|] eqn:E.
  2:{ pose proof (scan_none _ _ _ E t _ eq_refl) as F. rewrite hit_mark in F by exact D1. discriminate. }
  destruct (scan_some _ _ _ _ E) as (x & z & E1 & E2 & E3 & E4).
  assert (Lx : (length x <= length t)%nat).
  { destruct (Nat.le_gt_cases (length x) (length t)) as [G|G]; [exact G|]. destruct (app_split _ _ _ _ _ E1) as (m & F1 & F2); [lia|].
    exfalso. assert (m <> []) by (intros ->; rewrite app_nil_r in F1; subst x; lia). pose proof (E4 _ _ F1 H) as G2. rewrite <- F2, hit_mark in G2 by exact D1. discriminate. }
  symmetry in E1. destruct (app_split _ _ _ _ _ E1 Lx) as (x2 & F1 & F2). destruct x2 as [|c x2].
  - rewrite app_nil_r in F1. cbn in F2. subst x. subst k. clear E1. rewrite app_assoc. rewrite <- app_length, ok_view, end_view, D2.
    rewrite (proj2 (starts_ok (pre ++ t))) by (apply whole_app; [exact P|exact (proj1 T)]). reflexivity.
  - remember (c :: x2) as x3 eqn:X3. assert (X4 : x3 <> []) by (rewrite X3; discriminate). clear X3 c x2.
    destruct (hit_inv _ _ E3) as (y' & G1 & G2). destruct T as (T1 & T2 & T3).
    assert (W : whole_lines x3) by (apply (whole_tail x); rewrite <- F1; exact T1). destruct W as [W|[u W]]; [contradiction|].
    rewrite G1 in F2. destruct (Nat.le_gt_cases (length x3) (length (mark b))) as [Q|Q].
    { exfalso. symmetry in F2. destruct (app_split _ _ _ _ _ F2 Q) as (m & Q1 & _). apply (proj1 (mark_in b 10 B ltac:(rewrite Q1, W; apply in_or_app; left; apply in_or_app; right; left; reflexivity))). reflexivity. }
    destruct (app_split _ _ _ _ _ F2) as (y2 & Q1 & Q2); [lia|].
    assert (N2 : y2 <> []) by (intros ->; rewrite app_nil_r in Q1; rewrite Q1 in Q; lia).
    assert (W2 : whole_lines y2) by (apply (whole_tail (mark b)); rewrite <- Q1, W; right; exists u; reflexivity).
    assert (I : In 10 y2) by (destruct W2 as [W2|[w W2]]; [contradiction|]; rewrite W2; apply in_or_app; right; left; reflexivity).
    destruct (first_in _ _ I) as (v & w & V1 & V2).
    assert (K : k = length (pre ++ x)) by (rewrite app_length; exact E2).
    assert (INP : pre ++ t ++ mark b ++ y = (pre ++ x) ++ mark b ++ y2 ++ mark b ++ y) by (rewrite F1, Q1, <- !app_assoc; reflexivity).
    rewrite INP, K, ok_view. destruct (starts (pre ++ x) && _) eqn:OK.
    { exfalso. apply andb_true_iff in OK. destruct OK as [O1 O2]. apply starts_ok in O1.
      assert (O3 : whole_lines x) by (apply (whole_tail pre); exact O1).
      apply (T3 x y2); [rewrite F1, Q1; reflexivity|exact O3|]. apply tail_inv.
      destruct y2 as [|c0 [|c1 y2]]; [contradiction| |].
      - destruct W2 as [W2|[w2 W2]]; [discriminate|]. destruct w2 as [|? [|]]; [|discriminate|discriminate]. injection W2 as ->. reflexivity.
      - cbn [app two one length] in *. replace (S (S (length (y2 ++ mark b ++ y))) <? 2)%nat with false in O2 by (symmetry; apply Nat.ltb_ge; lia).
        rewrite orb_false_r in O2. exact O2. }
    rewrite <- (app_assoc (pre ++ x)), skipn_app2. rewrite V1.
    replace ((mark b ++ (v ++ 10 :: w) ++ mark b ++ y) ++ [0]) with ((mark b ++ v) ++ 10 :: (w ++ mark b ++ y) ++ [0]) by (repeat (rewrite <- ?app_assoc; cbn [app]); reflexivity).
    assert (Z1 : ~ In 10 (mark b ++ v)) by (intros G; apply in_app_or in G; destruct G as [G|G]; [apply (proj1 (mark_in _ _ B G)); reflexivity|auto]).
    assert (Z2 : ~ In 0 (mark b ++ v)).
    { intros G. apply T2. rewrite F1, Q1, V1. apply in_or_app. right. rewrite app_assoc. apply in_or_app. left. exact G. }
    rewrite strchr_some by assumption. cbn [bind].
    replace ((pre ++ x) ++ mark b ++ (v ++ 10 :: w) ++ mark b ++ y) with ((pre ++ x ++ mark b ++ v ++ [10]) ++ w ++ mark b ++ y) by (rewrite <- !app_assoc; reflexivity).
    replace (length (pre ++ x) + length (mark b ++ v) + 1)%nat with (length (pre ++ x ++ mark b ++ v ++ [10])) by (rewrite !app_length; cbn [length]; lia).
    assert (T4 : t = (x ++ mark b ++ v ++ [10]) ++ w) by (rewrite F1, Q1, V1, <- !app_assoc; reflexivity).
    rewrite IH.
    + apply (f_equal Ok). f_equal. rewrite T4, !app_length. cbn [length]. lia.
    + right. exists (pre ++ x ++ mark b ++ v). rewrite <- !app_assoc. reflexivity.
    + split; [apply (whole_tail (x ++ mark b ++ v ++ [10])); rewrite <- T4; exact T1|]. split.
      * intros G. apply T2. rewrite T4. apply in_or_app. right. exact G.
      * intros x' y'' H1 H2. apply (T3 ((x ++ mark b ++ v ++ [10]) ++ x') y''); [rewrite T4, H1, <- !app_assoc; reflexivity|].
        apply whole_app; [|exact H2]. right. exists (x ++ mark b ++ v). rewrite <- !app_assoc. reflexivity.
    + rewrite T4, app_length in L. rewrite !app_length in L. cbn [length] in L. lia.
Qed.

Lemma piece_app : forall x p y, piece (x ++ p ++ y) (length x, (length x + length p)%nat) = p.
Proof.
  intros. unfold piece. cbn [fst snd]. rewrite skipn_app2. replace (length x + length p - length x)%nat with (length p) by lia.
  rewrite firstn_app, firstn_all, Nat.sub_diag. apply app_nil_r.
Qed.
Lemma line_after_ok : forall x b e s, boundary_string b -> line_end e -> line_after (x ++ mark b ++ e ++ s) (length x) = Ok (length (x ++ mark b ++ e)).
Proof.
  intros x b e s B E. unfold line_after. rewrite <- app_assoc, skipn_app2.
  assert (U : exists u, mark b ++ e = u ++ [10] /\ ~ In 10 u /\ ~ In 0 u).
  { destruct E as [->| ->].
    - exists (mark b). split; [reflexivity|]. split; intros G; apply (mark_in _ _ B) in G; tauto.
    - exists (mark b ++ [13]). split; [rewrite <- app_assoc; reflexivity|]. split; intros G; apply in_app_or in G; (destruct G as [G|[G|[]]]; [apply (mark_in _ _ B) in G; tauto|discriminate]). }
  destruct U as (u & U1 & U2 & U3). rewrite <- !app_assoc. rewrite (app_assoc (mark b)), U1. rewrite <- !app_assoc. cbn [app].
  rewrite strchr_some by assumption. cbn [bind]. apply (f_equal Ok). rewrite !app_length. cbn [length]. lia.
Qed.
Lemma line_after_mark : forall x s, exists j, line_after (x ++ s) (length x) = Ok j.
Proof.
  intros. unfold line_after. rewrite <- app_assoc, skipn_app2. destruct (strchr_cases 10 s) as (r & A & _); [discriminate|]. rewrite A. destruct r; eexists; reflexivity.
Qed.

Lemma slices_parted : forall b ps t, boundary_string b -> parted b ps t -> forall fuel pre p b0, whole_lines pre -> no_boundary b p -> (length ps < fuel)%nat ->
  exists offs, slices fuel b (pre ++ p ++ t) b0 (length pre) = Ok (offs, DTR8_OK) /\ map (piece (pre ++ p ++ t)) offs = if b0 then p :: ps else ps.
Proof.
  intros b ps t B H. induction H as [rest|e q ps t E Q H IH]; intros fuel pre p b0 P R L; (destruct fuel as [|fuel]; [lia|]); cbn [slices].
  - rewrite next_ok; try assumption.
    + cbn [bind]. destruct (line_after_mark (pre ++ p) (mark b ++ bs "--" ++ rest)) as [j J]. rewrite <- app_assoc, app_length in J. rewrite J. cbn.
      eexists. split; [reflexivity|]. destruct b0; [|reflexivity]. cbn [map]. rewrite piece_app. reflexivity.
    + left. exists rest. reflexivity.
    + rewrite !app_length. lia.
  - rewrite next_ok; try assumption.
    + cbn [bind]. assert (F : two 45 45 (e ++ q ++ t) = false) by (destruct E as [->| ->]; cbn; destruct (q ++ t); reflexivity). rewrite F. cbn [negb].
      pose proof (line_after_ok (pre ++ p) b e (q ++ t) B E) as J. rewrite <- app_assoc, app_length in J. rewrite J. cbn [bind].
      cbn [length] in L. destruct (IH fuel ((pre ++ p) ++ mark b ++ e) q true) as (offs & O1 & O2); [|exact Q|lia|].
      { destruct E as [->| ->]; right; eexists; [rewrite app_assoc|change [13; 10] with ([13] ++ [10]); rewrite !app_assoc]; reflexivity. }
      replace (((pre ++ p) ++ mark b ++ e) ++ q ++ t) with (pre ++ p ++ mark b ++ e ++ q ++ t) in O1, O2 by (rewrite <- !app_assoc; reflexivity).
      rewrite O1. cbn [bind]. eexists. split; [reflexivity|]. rewrite map_app, O2. destruct b0; [|reflexivity]. cbn [map]. rewrite piece_app. reflexivity.
    + right. exists e, (q ++ t). split; [exact E|reflexivity].
    + rewrite !app_length. lia.
Qed.
Lemma parted_length : forall b ps t, parted b ps t -> (length ps < length t)%nat.
Proof.
  intros b ps t H. induction H as [|e q ps t E Q H IH]; rewrite !app_length, mark_length; cbn [length bs]; [cbn; lia|]. destruct E as [->| ->]; cbn; lia.
Qed.
Lemma parts_main : forall b parts body, boundary_string b -> multipart b parts body ->
  exists ps, slices (S (length body)) b body false 0 = Ok (ps, DTR8_OK) /\ map (piece body) ps = parts.
Proof.
  intros b parts body B (pre & t & E & P & T). subst body. destruct (slices_parted b parts t B T (S (length (pre ++ t))) [] pre false) as (offs & A & C).
  - left. reflexivity.
  - exact P.
  - pose proof (parted_length _ _ _ T). rewrite app_length. lia.
  - exists offs. split; assumption.
Qed.
