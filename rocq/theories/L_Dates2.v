(* Lemmas about dates.c: the numbers and the month in an expression, and the date it is given. *)
From Coq Require Import Lia.
From Verif Require Import Base M_Dates S_Dates L_TokTable L_Dates.
Local Open Scope Z_scope.

Definition digs (w : bytes) : Prop := Forall (fun c => (48 <= c <= 57)%N) w.
Definition no_digit_first (s : bytes) : Prop := match s with [] => True | c :: _ => isdigit c = false end.
Lemma isdigit_ok : forall c, isdigit c = true <-> (48 <= c <= 57)%N.
Proof. intro c. unfold isdigit. now rewrite andb_true_iff, !N.leb_le. Qed.
Lemma val_from : forall w v, 0 <= v -> digs w -> v <= fold_left (fun v c => v * 10 + (Z.of_N c - 48)) w v.
Proof.
  induction w as [|c w IH]; intros v Hv D; cbn [fold_left]; [lia|]. pose proof (Forall_inv D) as Dc. cbn in Dc.
  specialize (IH (v * 10 + (Z.of_N c - 48)) ltac:(lia) (Forall_inv_tail D)). lia.
Qed.
Lemma digits_val_ok : forall w rest v, 0 <= v -> digs w -> no_digit_first rest ->
  fold_left (fun v c => v * 10 + (Z.of_N c - 48)) w v < 2 ^ 31 ->
  digits_val v (w ++ rest) = Ok (fold_left (fun v c => v * 10 + (Z.of_N c - 48)) w v, rest).
Proof.
  induction w as [|c w IH]; intros rest v Hv D R B.
  - cbn [app fold_left]. destruct rest as [|c rest]; [reflexivity|]. cbn [digits_val]. cbn in R. now rewrite R.
  - cbn [app digits_val fold_left] in *. pose proof (Forall_inv D) as Dc. cbn beta in Dc.
    rewrite (proj2 (isdigit_ok c) Dc). cbv zeta.
    pose proof (val_from w (v * 10 + (Z.of_N c - 48)) ltac:(lia) (Forall_inv_tail D)) as M.
    destruct (Z.leb_spec (2 ^ 31) (v * 10 + (Z.of_N c - 48))) as [X|X]; [lia|].
    apply IH; try assumption; [lia | exact (Forall_inv_tail D)].
Qed.
Lemma digits_val_number : forall w rest, digs w -> no_digit_first rest -> number w < 2 ^ 31 ->
  digits_val 0 (w ++ rest) = Ok (number w, rest).
Proof. intros. now apply digits_val_ok. Qed.
Lemma digits_val_none : forall s, no_digit_first s -> digits_val 0 s = Ok (0, s).
Proof. intros [|c s] H; [reflexivity|]. cbn [digits_val]. cbn in H. now rewrite H. Qed.

Lemma dig_range : forall n, 0 <= n <= 9 -> (48 <= dig n <= 57)%N /\ Z.of_N (dig n) - 48 = n.
Proof. intros n H. unfold dig. lia. Qed.
Lemma two_ok : forall n, 0 <= n <= 99 -> digs (two n) /\ number (two n) = n.
Proof.
  intros n H. unfold two.
  assert (A : 0 <= n / 10 <= 9) by (split; [apply Z.div_pos; lia | apply Z.lt_succ_r; apply Z.div_lt_upper_bound; lia]).
  assert (B : 0 <= n mod 10 <= 9) by (pose proof (Z.mod_pos_bound n 10); lia).
  destruct (dig_range _ A) as [A1 A2], (dig_range _ B) as [B1 B2]. split; [constructor; [exact A1|constructor; [exact B1|constructor]]|].
  unfold number. cbn [fold_left]. rewrite A2, B2. pose proof (Z.div_mod n 10). lia.
Qed.
Lemma number_app : forall a n, 0 <= n <= 99 -> number (a ++ two n) = number a * 100 + n.
Proof.
  intros a n H. destruct (two_ok n H) as [_ T]. unfold number in *. rewrite fold_left_app. unfold two in *. cbn [fold_left] in *. lia.
Qed.
Lemma digs_app : forall a b, digs a -> digs b -> digs (a ++ b).
Proof. intros. now apply Forall_app. Qed.
Lemma four_ok : forall n, 0 <= n <= 9999 -> digs (four n) /\ number (four n) = n.
Proof.
  intros n H. unfold four.
  assert (A : 0 <= n / 100 <= 99) by (split; [apply Z.div_pos; lia | apply Z.lt_succ_r; apply Z.div_lt_upper_bound; lia]).
  assert (B : 0 <= n mod 100 <= 99) by (pose proof (Z.mod_pos_bound n 100); lia).
  destruct (two_ok _ A) as [A1 A2], (two_ok _ B) as [B1 _]. split; [now apply digs_app|].
  rewrite number_app by exact B. rewrite A2. pose proof (Z.div_mod n 100). lia.
Qed.
Lemma day_ok : forall d w, day_word d w -> digs w /\ number w = d /\ 1 <= d <= 31 /\ w <> [].
Proof.
  intros d w [d' H|d' H].
  - destruct (dig_range d' ltac:(lia)) as [A B]. split; [constructor; [exact A|constructor]|]. split; [|split; [lia|discriminate]].
    unfold number. cbn [fold_left]. lia.
  - destruct (two_ok d' ltac:(lia)). repeat split; try assumption; try lia. discriminate.
Qed.
Lemma year_ok : forall y w, year_word y w -> digs w /\ year_fix (number w) = y - 1900 /\ 0 <= number w <= 9999 /\ w <> [] /\ 1000 <= y <= 9999.
Proof.
  intros y w [yy H|y' H].
  - destruct (two_ok yy ltac:(lia)) as [A B]. rewrite B. unfold year_fix, century.
    destruct (Z.ltb_spec 100 yy); [lia|]. destruct (Z.ltb_spec yy 70); (split; [exact A|]; split; [lia|]; split; [lia|]; split; [discriminate|lia]).
  - destruct (four_ok y' ltac:(lia)) as [A B]. rewrite B. unfold year_fix.
    destruct (Z.ltb_spec 100 y'); [|lia]. split; [exact A|]. split; [lia|]. split; [lia|]. split; [discriminate|lia].
Qed.

Lemma index_of_nth : forall l w i, nth_error l i = Some w -> NoDup l -> forall n, index_of n w l = n + Z.of_nat i.
Proof.
  induction l as [|x l IH]; intros w [|i] H ND n; cbn [nth_error index_of] in *; try discriminate.
  - injection H as ->. rewrite bytes_eqb_refl. lia.
  - inversion ND as [|? ? NI ND']; subst. destruct (bytes_eqb w x) eqn:E.
    + apply bytes_eqb_eq in E. subst. exfalso. apply NI. eapply nth_error_In. exact H.
    + rewrite (IH _ _ H ND'). lia.
Qed.
Lemma month_names_nodup : NoDup month_names.
Proof.
  assert (H : nodup (list_eq_dec N.eq_dec) month_names = month_names) by (vm_compute; reflexivity).
  rewrite <- H. apply NoDup_nodup.
Qed.
Lemma month_word_ok : forall m w, month_word m w ->
  length w = 3%nat /\ 1 <= m <= 12 /\ (forall rest, match_month (w ++ rest) = m) /\ forall rest, no_digit_first (w ++ rest).
Proof.
  intros m w H. pose proof (month_norm _ _ H) as HN. destruct H as [H1 H].
  assert (L : length w = 3%nat) by (rewrite <- (map_length norm w), HN; reflexivity). split; [exact L|]. split; [|split].
  - assert (B : nth_error months (Z.to_nat (m - 1)) <> None) by congruence. apply nth_error_Some in B. cbn [length months map] in B. lia.
  - intro rest. unfold match_month. rewrite firstn_app, L. change (firstn (3 - 3) rest) with (@nil N). rewrite app_nil_r, firstn_all2 by lia.
    change months with month_names in H. rewrite (index_of_nth _ _ _ H month_names_nodup). lia.
  - intro rest. destruct w as [|c w]; [discriminate|]. cbn [app no_digit_first].
    destruct (isdigit c) eqn:E; [|reflexivity]. apply isdigit_ok in E. injection HN as HN _. unfold norm, letter, rng in HN.
    destruct (N.leb_spec 97 c), (N.leb_spec 65 c), (N.leb_spec 52 c), (N.leb_spec c 57); cbn [andb orb] in HN; lia.
Qed.

(* The three kinds of expression with a month, and those without. *)
Section Expr.
Context (localtime : Z -> tm) (now : Z) (first : bool) (x : tm).
Lemma expr_digits : forall t w, discover_type w = Some t -> t <> DS_SCALED -> digs w -> number w < 2 ^ 31 ->
  scan_date_expr localtime now first w x = Ok (Some (apply_type first t (number w) 0 0 x)).
Proof.
  intros t w T NT D B. unfold scan_date_expr. rewrite T.
  pose proof (digits_val_number w [] D Logic.I B) as V. rewrite app_nil_r in V.
  destruct t; try congruence; rewrite V; reflexivity.
Qed.
Lemma expr_month : forall t w1 m wm w3, discover_type (w1 ++ wm ++ w3) = Some t -> t <> DS_SCALED -> month_word m wm ->
  digs w1 -> number w1 < 2 ^ 31 -> digs w3 -> number w3 < 2 ^ 31 ->
  scan_date_expr localtime now first (w1 ++ wm ++ w3) x = Ok (Some (apply_type first t (number w1) m (number w3) x)).
Proof.
  intros t w1 m wm w3 T NT M D1 B1 D3 B3. destruct (month_word_ok m wm M) as (L & R & MM & ND). unfold scan_date_expr. rewrite T.
  rewrite (digits_val_number w1 (wm ++ w3) D1 (ND w3) B1). cbn [bind]. specialize (MM w3). specialize (ND w3).
  pose proof (digits_val_number w3 [] D3 Logic.I B3) as V. rewrite app_nil_r in V.
  assert (SK : skipn 3 (wm ++ w3) = w3) by (rewrite skipn_app, L, skipn_all2 by lia; reflexivity).
  destruct (wm ++ w3) as [|c r] eqn:E; [destruct wm; [discriminate L | discriminate E]|]. rewrite MM, SK, V.
  destruct t; try congruence; destruct m; try lia; reflexivity.
Qed.
End Expr.
