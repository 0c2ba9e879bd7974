(* Lemmas about dates.c: which strings are recognised, and the numbers and the month in them. *)
From Coq Require Import Lia.
From Verif Require Import Base M_Dates S_Dates L_TokTable.
Local Open Scope N_scope.

(* Characters that the automaton cannot tell apart. *)
Definition norm (c : N) : N := if letter c then 97 else if rng 52 57 c then 52 else c.
Definition blind (p : cls) : Prop := forall c, p c = p (norm c).
Lemma blind_rng : forall a b, 48 <= a -> b <= 57 -> (a <= 52 /\ (52 <= b -> b = 57)) -> blind (rng a b).
Proof.
  intros a b Ha Hb [H1 H2] c. unfold norm. destruct (letter c) eqn:E.
  - unfold letter, rng in *. apply Bool.eq_iff_eq_true. rewrite orb_true_iff, !andb_true_iff, !N.leb_le in *. lia.
  - destruct (rng 52 57 c) eqn:E2; [|reflexivity]. unfold rng in *.
    apply Bool.eq_iff_eq_true. rewrite !andb_true_iff, !N.leb_le in *. lia.
Qed.
Lemma blind_or : forall p q, blind p -> blind q -> blind (fun c => p c || q c).
Proof. intros p q Hp Hq c. now rewrite (Hp c), (Hq c). Qed.
Lemma blind_letter : blind letter.
Proof.
  intro c. unfold norm. destruct (letter c) eqn:E; [now vm_compute|].
  destruct (rng 52 57 c) eqn:E2; [now vm_compute|]. now symmetry.
Qed.
Lemma blind_digit : blind any_digit.
Proof. apply blind_rng; lia. Qed.
Lemma fits_norm : forall l s, Forall blind l -> fits l s = fits l (map norm s).
Proof.
  induction l as [|p l IH]; intros [|c s] H; try reflexivity. cbn [fits map].
  rewrite (Forall_inv H c), (IH s (Forall_inv_tail H)). reflexivity.
Qed.
Lemma scaled_norm : forall s, scaled s = scaled (map norm s).
Proof.
  induction s as [|c s IH]; [reflexivity|]. cbn [scaled map]. rewrite (blind_digit c), IH. f_equal. f_equal.
  destruct s as [|a [|b s]]; try reflexivity. cbn [map]. apply blind_letter.
Qed.
Lemma blind_seq : forall a b, Forall (Forall blind) a -> Forall (Forall blind) b -> Forall (Forall blind) (seq a b).
Proof.
  intros a b Ha Hb. apply Forall_forall. intros l Hl. apply in_flat_map in Hl. destruct Hl as (x & Hx & Hl).
  apply in_map_iff in Hl. destruct Hl as (y & <- & Hy). rewrite Forall_forall in Ha, Hb.
  apply Forall_app. split; auto.
Qed.
Lemma blind_rules : Forall (fun r => Forall (Forall blind) (fst r)) rules.
Proof.
  assert (D : blind any_digit) by apply blind_digit.
  assert (L : blind letter) by apply blind_letter.
  assert (H1 : Forall (Forall blind) blk_one) by (repeat constructor; apply blind_rng; lia).
  assert (H2 : Forall (Forall blind) blk_day) by (repeat constructor; try exact D; apply blind_rng; lia).
  assert (H3 : Forall (Forall blind) blk_year) by
    (repeat constructor; try exact D; [apply blind_or | |]; apply blind_rng; lia).
  assert (H4 : Forall (Forall blind) blk_month) by (repeat constructor; exact L).
  assert (H5 : Forall (Forall blind) blk_ccyy) by (repeat constructor; try exact D; apply blind_rng; lia).
  assert (H6 : forall n, Forall (Forall blind) (blk_digits n)) by
    (intro n; constructor; [|constructor]; apply Forall_forall; intros x Hx; apply repeat_spec in Hx; now subst).
  unfold rules. repeat (constructor; [cbn [fst]; repeat apply blind_seq; auto|]). constructor.
Qed.
Lemma existsb_norm : forall a s, Forall (Forall blind) a -> existsb (fun l => fits l s) a = existsb (fun l => fits l (map norm s)) a.
Proof.
  induction a as [|l a IH]; intros s H; [reflexivity|]. cbn [existsb].
  rewrite (fits_norm l s (Forall_inv H)), (IH s (Forall_inv_tail H)). reflexivity.
Qed.
Lemma find_norm : forall rs s, Forall (fun r => Forall (Forall blind) (fst r)) rs ->
  find (fun r : list (list cls) * ds => existsb (fun l => fits l s) (fst r)) rs =
  find (fun r => existsb (fun l => fits l (map norm s)) (fst r)) rs.
Proof.
  induction rs as [|r rs IH]; intros s H; [reflexivity|]. cbn [find].
  rewrite (existsb_norm _ s (Forall_inv H)), (IH s (Forall_inv_tail H)). reflexivity.
Qed.
Lemma type_norm : forall s, discover_type s = discover_type (map norm s).
Proof. intro s. unfold discover_type. now rewrite scaled_norm, (find_norm _ s blind_rules). Qed.

(* Words, seen through norm. *)
Definition opts (l : list Z) : list bytes := map (fun n => map norm [dig n]) l.
Definition all_norm (l : list bytes) : list bytes := nodup (list_eq_dec N.eq_dec) l.
Definition Zs (a : Z) (n : nat) : list Z := map (fun i => (a + Z.of_nat i)%Z) (List.seq 0 n).
Lemma Zs_in : forall a n x, (a <= x < a + Z.of_nat n)%Z -> In x (Zs a n).
Proof.
  intros a n x H. unfold Zs. apply in_map_iff. exists (Z.to_nat (x - a)). split; [lia|]. apply in_seq. lia.
Qed.
Definition day_norms : list bytes := all_norm (map (fun d => map norm [dig d]) (Zs 1 9) ++ map (fun d => map norm (two d)) (Zs 10 22)).
Definition year_norms : list bytes :=
  all_norm (map (fun d => map norm (two d)) (Zs 0 10 ++ Zs 32 68) ++
    flat_map (fun a => flat_map (fun b => flat_map (fun c => map (fun d => a ++ b ++ c ++ d) (all_norm (opts (Zs 0 10))))
      (all_norm (opts (Zs 0 10)))) (all_norm (opts (Zs 0 10)))) (all_norm (opts (Zs 1 9)))).
Lemma day_norm : forall d w, day_word d w -> In (map norm w) day_norms.
Proof.
  intros d w H. apply nodup_In. apply in_or_app. destruct H as [d H | d H].
  - left. apply in_map_iff. exists d. split; [reflexivity | apply Zs_in; lia].
  - right. apply in_map_iff. exists d. split; [reflexivity | apply Zs_in; lia].
Qed.
Lemma opts_in : forall a n x, (a <= x < a + Z.of_nat n)%Z -> In [norm (dig x)] (all_norm (opts (Zs a n))).
Proof. intros. apply nodup_In. apply in_map_iff. exists x. split; [reflexivity | now apply Zs_in]. Qed.
Lemma year_norm : forall y w, year_word y w -> In (map norm w) year_norms.
Proof.
  intros y w H. refine (proj2 (nodup_In _ _ _) _). apply in_or_app. destruct H as [y H | y H].
  - left. apply in_map_iff. exists y. split; [reflexivity |]. apply in_or_app.
    destruct H; [left | right]; apply Zs_in; lia.
  - right. apply in_flat_map. exists [norm (dig (y / 100 / 10))]. split.
    { apply opts_in. split; [apply Z.div_le_lower_bound; [lia|]; apply Z.div_le_lower_bound; lia|].
      apply Z.div_lt_upper_bound; [lia|]. apply Z.div_lt_upper_bound; lia. }
    apply in_flat_map. exists [norm (dig (y / 100 mod 10))]. split.
    { apply opts_in. apply Z.mod_pos_bound. lia. }
    apply in_flat_map. exists [norm (dig (y mod 100 / 10))]. split.
    { apply opts_in. pose proof (Z.mod_pos_bound y 100). split; [apply Z.div_le_lower_bound; lia | apply Z.div_lt_upper_bound; lia]. }
    apply in_map_iff. exists [norm (dig (y mod 100 mod 10))]. split; [reflexivity|].
    apply opts_in. apply Z.mod_pos_bound. lia.
Qed.
Lemma lower_letter : forall c, islower (tolower c) = true -> letter c = true.
Proof.
  intros c. unfold tolower, islower, letter, rng, isupper.
  destruct (N.leb_spec 65 c), (N.leb_spec c 90); cbn [andb]; auto; rewrite ?orb_true_r; auto;
  intro H1; rewrite H1; reflexivity.
Qed.
Lemma months_lower : forallb (fun w => (length w =? 3)%nat && forallb islower w) months = true.
Proof. reflexivity. Qed.
Lemma month_norm : forall m w, month_word m w -> map norm w = [97; 97; 97].
Proof.
  intros m w [_ H]. apply nth_error_In in H. pose proof months_lower as M. rewrite forallb_forall in M.
  specialize (M _ H). apply andb_prop in M. destruct M as [L M]. apply Nat.eqb_eq in L. rewrite map_length in L.
  destruct w as [|a [|b [|c [|d w]]]]; try discriminate. cbn [map forallb] in M.
  apply andb_prop in M. destruct M as [Ma M]. apply andb_prop in M. destruct M as [Mb M]. apply andb_prop in M. destruct M as [Mc _].
  apply lower_letter in Ma, Mb, Mc. cbn [map]. unfold norm. now rewrite Ma, Mb, Mc.
Qed.
Definition is_type (t : ds) (s : bytes) : bool :=
  match discover_type s with
  | Some t' => match t, t' with
    | DS_D, DS_D | DS_Y, DS_Y | DS_YYMMDD, DS_YYMMDD | DS_SCALED, DS_SCALED | DS_M, DS_M | DS_DM, DS_DM | DS_MD, DS_MD
    | DS_YM, DS_YM | DS_MY, DS_MY | DS_YMD, DS_YMD | DS_DMY, DS_DMY => true
    | _, _ => false end
  | None => false
  end.
Lemma is_type_eq : forall t s, is_type t s = true -> discover_type s = Some t.
Proof. intros t s. unfold is_type. destruct (discover_type s) as [t'|]; [|discriminate]. destruct t, t'; intro; (discriminate || reflexivity). Qed.
Definition A3 : bytes := [97; 97; 97].
Lemma sweep : 
  forallb (is_type DS_D) day_norms && forallb (is_type DS_Y) year_norms && is_type DS_M A3 &&
  forallb (fun d => is_type DS_DM (d ++ A3) && is_type DS_MD (A3 ++ d)) day_norms &&
  forallb (fun y => is_type DS_YM (y ++ A3) && is_type DS_MY (A3 ++ y) &&
    forallb (fun d => is_type DS_DMY (d ++ A3 ++ y) && is_type DS_YMD (y ++ A3 ++ d)) day_norms) year_norms = true.
Proof. vm_compute. reflexivity. Qed.
Lemma sweep_day : forall d w, day_word d w -> discover_type w = Some DS_D.
Proof.
  intros d w H. rewrite type_norm. apply is_type_eq. apply day_norm in H. pose proof sweep as S.
  do 4 (apply andb_prop in S; destruct S as [S _]). rewrite forallb_forall in S. exact (S _ H).
Qed.
Lemma sweep_year : forall y w, year_word y w -> discover_type w = Some DS_Y.
Proof.
  intros y w H. rewrite type_norm. apply is_type_eq. apply year_norm in H. pose proof sweep as S.
  do 3 (apply andb_prop in S; destruct S as [S _]). apply andb_prop in S. destruct S as [_ S].
  rewrite forallb_forall in S. exact (S _ H).
Qed.
Lemma sweep_month : forall m w, month_word m w -> discover_type w = Some DS_M.
Proof. intros m w H. rewrite type_norm, (month_norm _ _ H). reflexivity. Qed.
Lemma sweep_dm : forall m d wm wd, month_word m wm -> day_word d wd ->
  discover_type (wd ++ wm) = Some DS_DM /\ discover_type (wm ++ wd) = Some DS_MD.
Proof.
  intros m d wm wd Hm Hd. rewrite (type_norm (wd ++ wm)), (type_norm (wm ++ wd)), !map_app, (month_norm _ _ Hm).
  apply day_norm in Hd. pose proof sweep as S. apply andb_prop in S. destruct S as [S _].
  apply andb_prop in S. destruct S as [_ S]. rewrite forallb_forall in S. specialize (S _ Hd).
  apply andb_prop in S. destruct S as [S1 S2]. exact (conj (is_type_eq _ _ S1) (is_type_eq _ _ S2)).
Qed.
Lemma sweep_my : forall m y wm wy, month_word m wm -> year_word y wy ->
  discover_type (wy ++ wm) = Some DS_YM /\ discover_type (wm ++ wy) = Some DS_MY.
Proof.
  intros m d wm wd Hm Hd. rewrite (type_norm (wd ++ wm)), (type_norm (wm ++ wd)), !map_app, (month_norm _ _ Hm).
  apply year_norm in Hd. pose proof sweep as S. apply andb_prop in S. destruct S as [_ S].
  rewrite forallb_forall in S. specialize (S _ Hd).
  apply andb_prop in S. destruct S as [S _]. apply andb_prop in S. destruct S as [S1 S2]. exact (conj (is_type_eq _ _ S1) (is_type_eq _ _ S2)).
Qed.
Lemma sweep_dmy : forall m d y wm wd wy, month_word m wm -> day_word d wd -> year_word y wy ->
  discover_type (wd ++ wm ++ wy) = Some DS_DMY /\ discover_type (wy ++ wm ++ wd) = Some DS_YMD.
Proof.
  intros m d y wm wd wy Hm Hd Hy. rewrite (type_norm (wd ++ wm ++ wy)), (type_norm (wy ++ wm ++ wd)), !map_app, (month_norm _ _ Hm).
  apply year_norm in Hy. apply day_norm in Hd. pose proof sweep as S. apply andb_prop in S. destruct S as [_ S].
  rewrite forallb_forall in S. specialize (S _ Hy).
  apply andb_prop in S. destruct S as [_ S]. rewrite forallb_forall in S. specialize (S _ Hd).
  apply andb_prop in S. destruct S as [S1 S2]. exact (conj (is_type_eq _ _ S1) (is_type_eq _ _ S2)).
Qed.
