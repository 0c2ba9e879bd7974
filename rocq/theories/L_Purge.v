(* Lemmas for purging. *)
From Coq Require Import Sorted.
From Verif Require Import Base M_Encoding M_TokTable S_TokTable M_DbFile S_DbFile S_Search M_Thread M_Purge S_Purge L_Encoding L_TokTable2 L_DbFile6.
Local Open Scope N_scope.

Notation count l := (N.of_nat (length (filter (fun b : bool => b) l))).
Lemma new_number_lt live x : alive live x = true -> new_number live x < count live.
Proof.
  unfold alive, new_number. generalize (N.to_nat x). clear x. intros n. revert n. induction live as [|b live IH]; intros [|n] H; cbn in H; try discriminate.
  - subst. cbn. lia.
  - specialize (IH n H). destruct b; cbn in *; lia.
Qed.
Lemma new_number_inj live x y : alive live x = true -> alive live y = true -> new_number live x = new_number live y -> x = y.
Proof.
  unfold alive, new_number. intros A B E. enough (N.to_nat x = N.to_nat y) by lia. revert A B E. generalize (N.to_nat x), (N.to_nat y). clear.
  intros n m. revert n m. induction live as [|b live IH]; intros [|n] [|m] A B E; cbn in A, B, E; try discriminate; try reflexivity.
  - subst. cbn in E. lia.
  - subst. cbn in E. lia.
  - f_equal. apply IH; auto. destruct b; cbn in E; lia.
Qed.
Lemma new_number_onto live k : k < count live -> exists x, alive live x = true /\ new_number live x = k /\ x < N.of_nat (length live).
Proof.
  revert k. induction live as [|b live IH]; intros k H; [cbn in H; lia|]. destruct b.
  - destruct (N.eq_dec k 0) as [->|NZ]; [exists 0; split; [reflexivity|]; split; [reflexivity|cbn; lia]|].
    destruct (IH (k - 1)) as (x & A & B & C); [cbn in H; lia|]. exists (x + 1). unfold alive, new_number in *. rewrite N.add_1_r, N2Nat.inj_succ. cbn.
    split; [exact A|]. split; lia.
  - destruct (IH k) as (x & A & B & C); [exact H|]. exists (x + 1). unfold alive, new_number in *. rewrite N.add_1_r, N2Nat.inj_succ. cbn. split; [exact A|]. split; lia.
Qed.
Lemma nth_filter {A} (f : A -> bool) l i a : nth_error l (N.to_nat i) = Some a -> f a = true ->
  nth_error (filter f l) (N.to_nat (new_number (map f l) i)) = Some a.
Proof.
  unfold new_number. rewrite Nat2N.id. generalize (N.to_nat i). clear i. induction l as [|x l IH]; intros [|n] E F; cbn in E; try discriminate.
  - injection E as ->. cbn. rewrite F. reflexivity.
  - specialize (IH n E F). cbn. destruct (f x); cbn; exact IH.
Qed.
Lemma count_filter {A} (f : A -> bool) l : length (filter (fun b : bool => b) (map f l)) = length (filter f l).
Proof. induction l as [|x l IH]; [reflexivity|]. cbn. destruct (f x); cbn; now rewrite IH. Qed.
Lemma alive_nth {A} (f : A -> bool) l i : alive (map f l) i = true <-> exists a, nth_error l (N.to_nat i) = Some a /\ f a = true.
Proof.
  unfold alive. split.
  - intros H. destruct (nth_error l (N.to_nat i)) as [a|] eqn:E.
    + exists a. split; [reflexivity|]. apply (map_nth_error f) in E. now rewrite (nth_error_nth _ _ _ E) in H.
    + apply nth_error_None in E. rewrite nth_overflow in H by now rewrite map_length. discriminate.
  - intros (a & E & F). apply (map_nth_error f) in E. rewrite (nth_error_nth _ _ _ E). exact F.
Qed.
Lemma index_array live : forall j i, nth_error (new_index_array live j) i =
  match nth_error live i with None => None | Some false => Some None | Some true => Some (Some (j + N.of_nat (length (filter (fun b : bool => b) (firstn i live))))) end.
Proof.
  induction live as [|b live IH]; intros j [|i]; try reflexivity; destruct b; cbn [new_index_array nth_error]; try reflexivity.
  - cbn. do 2 f_equal. lia.
  - rewrite IH. destruct (nth_error live i) as [[]|]; try reflexivity. cbn. do 2 f_equal. lia.
  - rewrite IH. destruct (nth_error live i) as [[]|]; reflexivity.
Qed.

(* mailboxes *)
Definition box_number (bxs : list mbox) (fi : N) : N := new_number (map has_path bxs) fi.
Definition move_box (bxs : list mbox) (m : msg) : msg :=
  match src m with S_mbox fi mi => with_src m (S_mbox (box_number bxs fi) mi) | _ => m end.
Definition boxed (bxs : list mbox) (m : msg) : Prop :=
  forall fi mi, src m = S_mbox fi mi -> exists mb, nth_error bxs (N.to_nat fi) = Some mb /\ has_path mb = true.
Lemma renumber_ok bxs ms : Forall (boxed bxs) ms -> renumber_mboxen (new_index_array (map has_path bxs) 0) ms = Ok (map (move_box bxs) ms).
Proof.
  induction 1 as [|m ms HM _ IH]; [reflexivity|]. cbn [renumber_mboxen map]. rewrite IH. unfold move_box at 2.
  destruct (src m) as [| | |fi mi] eqn:E; cbn [bind]; try reflexivity. destruct (HM fi mi E) as (mb & EN & HP). rewrite index_array.
  rewrite (map_nth_error has_path _ _ EN), HP. cbn [bind]. do 5 f_equal.
Qed.
Lemma move_id bxs m : forallb has_path bxs = true -> boxed bxs m -> move_box bxs m = m.
Proof.
  intros H B. unfold move_box. destruct (src m) as [| | |fi mi] eqn:E; try reflexivity. replace (box_number bxs fi) with fi; [rewrite <- E; now destruct m|].
  destruct (B fi mi E) as (mb & EN & _). unfold box_number, new_number.
  assert (L : (N.to_nat fi < length bxs)%nat) by (apply nth_error_Some; congruence).
  assert (F : forall n, filter (fun b : bool => b) (firstn n (map has_path bxs)) = firstn n (map has_path bxs)).
  { intros n. clear - H. revert n. induction bxs as [|x l IH]; intros [|n]; try reflexivity. cbn in *. apply andb_true_iff in H as [-> H]. now rewrite IH. }
  rewrite F, firstn_length, map_length. lia.
Qed.
Lemma cull_boxes_ok db : Forall (boxed (mboxen db)) (msgs db) ->
  cull_dead_mboxen db = Ok (with_boxes db (map (move_box (mboxen db)) (msgs db)) (filter has_path (mboxen db))).
Proof.
  intros H. unfold cull_dead_mboxen. destruct (forallb has_path (mboxen db)) eqn:E.
  - f_equal. rewrite (map_ext_in _ id), map_id by (intros m I; rewrite Forall_forall in H; apply move_id; auto).
    replace (filter has_path (mboxen db)) with (mboxen db); [now destruct db|]. clear - E. induction (mboxen db) as [|x l IH]; [reflexivity|]. cbn in *. apply andb_true_iff in E as [-> E]. now rewrite <- IH.
  - rewrite renumber_ok by exact H. reflexivity.
Qed.
Lemma run_of_app b l1 l2 : run_of b (l1 ++ l2) = run_of b l1 ++ run_of b l2.
Proof. unfold run_of. apply flat_map_app. Qed.
Lemma run_live b ms : run_of b (filter is_live ms) = run_of b ms.
Proof. unfold run_of. induction ms as [|m ms IH]; [reflexivity|]. cbn [filter flat_map]. unfold is_live. destruct (src m) eqn:E; cbn [flat_map]; rewrite ?E, <- ?IH; reflexivity. Qed.
Lemma run_move bxs ms b : Forall (boxed bxs) ms -> alive (map has_path bxs) b = true -> run_of (box_number bxs b) (map (move_box bxs) ms) = run_of b ms.
Proof.
  intros H A. unfold run_of. induction H as [|m ms HM _ IH]; [reflexivity|]. cbn [map flat_map]. rewrite IH. f_equal.
  unfold move_box. destruct (src m) as [| | |fi mi] eqn:E; rewrite ?E; try reflexivity. cbn [with_src src].
  assert (AF : alive (map has_path bxs) fi = true) by (apply alive_nth; now apply (HM fi mi)).
  destruct (N.eqb_spec fi b) as [->|NE]; [now rewrite N.eqb_refl|]. destruct (N.eqb_spec (box_number bxs fi) (box_number bxs b)) as [X|]; [|reflexivity].
  apply new_number_inj in X; auto; congruence.
Qed.
Lemma run_none ms bxs b : Forall (boxed bxs) ms -> count (map has_path bxs) <= b -> run_of b (map (move_box bxs) ms) = [].
Proof.
  intros H L. unfold run_of. induction H as [|m ms HM _ IH]; [reflexivity|]. cbn [map flat_map]. rewrite IH, app_nil_r.
  unfold move_box. destruct (src m) as [| | |fi mi] eqn:E; rewrite ?E; try reflexivity. cbn [with_src src].
  assert (AF : alive (map has_path bxs) fi = true) by (apply alive_nth; now apply (HM fi mi)). apply new_number_lt in AF. fold (box_number bxs fi) in AF.
  destruct (N.eqb_spec (box_number bxs fi) b) as [X|]; [lia|reflexivity].
Qed.
Lemma In_renumber live xs y : In y (renumber live xs) <-> exists x, In x xs /\ alive live x = true /\ y = new_number live x.
Proof. unfold renumber. rewrite in_map_iff. split; [intros (x & <- & X); apply filter_In in X as []; eauto|intros (x & A & B & ->); exists x; split; [reflexivity|now apply filter_In]]. Qed.
Lemma renumber_below live xs : Forall (fun y => y < count live) (renumber live xs).
Proof. apply Forall_forall. intros y Y. apply In_renumber in Y as (x & _ & A & ->). now apply new_number_lt. Qed.

(* one table *)
Definition tab_rel (live : list bool) (t t' : toktable matches) : Prop :=
  forall w ys, (exists m', In (w, m') (entries t') /\ lists m' ys) <->
    ys <> [] /\ exists m xs, In (w, m) (entries t) /\ lists m xs /\ ys = renumber live xs.
Lemma lists_fun m xs ys : lists m xs -> lists m ys -> xs = ys.
Proof. intros (q & A) (q' & B). congruence. Qed.
Definition tab_ok (h : bytes -> N) (n : N) (t : toktable matches) : Prop :=
  index_table h t /\ forall w m, In (w, m) (entries t) -> c_string w /\ exists xs, lists m xs /\ xs <> [] /\ Forall (fun x => x < n) xs.
Definition tab2_ok (h : bytes -> N) (n : N) (t : toktable (matches * matches)) : Prop :=
  index_table2 h t /\ forall w m0 m1, In (w, (m0, m1)) (entries t) -> c_string w /\ exists xs ys, lists m0 xs /\ xs <> [] /\ lists m1 ys /\ Forall (fun x => x < n) xs /\ Forall (fun x => x < n) ys.
Lemma purge_one h live t : tab_ok h (N.of_nat (length live)) t -> N.of_nat (length live) <= 63 * 2 ^ 24 ->
  exists t' bound, (forall fuel, (bound <= fuel)%nat -> recode_table fuel (recode1 (new_index_array live 0)) dead1 t = Ok t') /\
    tab_ok h (count live) t' /\ tab_rel live t t'.
Proof.
  intros [HI HE] HL. destruct (purge_table h live t HI HL) as (t' & bound & E & HI' & R).
  { intros w m ys i I L J. destruct (HE w m I) as (_ & xs & LX & _ & F). rewrite (lists_fun _ _ _ L LX) in J. rewrite Forall_forall in F. auto. }
  exists t', bound. split; [exact E|]. split; [|exact R]. split; [exact HI'|]. intros w m' I.
  destruct (index_table_distinct h t' HI') as (_ & _ & D). destruct (D w m' I) as (ys & LY & _).
  destruct (proj1 (R w ys)) as (NE & m & xs & I0 & LX & EY); [eauto|]. destruct (HE w m I0) as (CS & _). split; [exact CS|].
  exists ys. split; [exact LY|]. split; [exact NE|]. rewrite EY. apply renumber_below.
Qed.
Lemma purge_two h live t : tab2_ok h (N.of_nat (length live)) t -> N.of_nat (length live) <= 63 * 2 ^ 24 ->
  (forall w m0 m1 xs ys, In (w, (m0, m1)) (entries t) -> lists m0 xs -> lists m1 ys -> incl ys xs) ->
  exists t' bound, (forall fuel, (bound <= fuel)%nat -> recode_table fuel (recode2 (new_index_array live 0)) dead2 t = Ok t') /\
    tab2_ok h (count live) t' /\
    forall w ys zs, (exists m0 m1, In (w, (m0, m1)) (entries t') /\ lists m0 ys /\ lists m1 zs) <->
      ~ (ys = [] /\ zs = []) /\ exists m0 m1 xs us, In (w, (m0, m1)) (entries t) /\ lists m0 xs /\ lists m1 us /\ ys = renumber live xs /\ zs = renumber live us.
Proof.
  intros [HI HE] HL HS. destruct (purge_table2 h live t HI HL) as (t' & bound & E & HI' & R).
  { intros w m0 m1 ys i I L J. destruct (HE w m0 m1 I) as (_ & xs & us & LX & _ & LU & F & G). rewrite Forall_forall in F, G.
    destruct L as [L|L]; [rewrite (lists_fun _ _ _ L LX) in J|rewrite (lists_fun _ _ _ L LU) in J]; auto. }
  exists t', bound. split; [exact E|]. split; [|exact R]. split; [exact HI'|]. intros w m0' m1' I.
  destruct (index_table2_distinct h t' HI') as (_ & _ & D). destruct (D w m0' m1' I) as (ys & zs & LY & LZ & _).
  destruct (proj1 (R w ys zs)) as (NE & m0 & m1 & xs & us & I0 & LX & LU & EY & EZ); [eauto 6|]. destruct (HE w m0 m1 I0) as (CS & _). split; [exact CS|].
  exists ys, zs. split; [exact LY|]. split; [|split; [exact LZ|split; [rewrite EY|rewrite EZ]; apply renumber_below]].
  intros ->. apply NE. split; [reflexivity|]. destruct zs as [|z zs]; [reflexivity|]. exfalso.
  assert (IZ : In z (renumber live us)) by (rewrite <- EZ; now left). apply In_renumber in IZ as (x & X & A & ->).
  apply (HS w m0 m1 xs us I0 LX LU) in X. assert (IY : In (new_number live x) (renumber live xs)) by (apply In_renumber; eauto). rewrite <- EY in IY. destruct IY.
Qed.

Lemma In_snoc_new vs x z : vs = [] \/ last vs 0 <= x -> In z (snoc_new vs x) <-> In z vs \/ z = x.
Proof.
  intros H. destruct vs as [|v vs]; [cbn; intuition|]. destruct H as [H|H]; [discriminate|]. unfold snoc_new. destruct (N.ltb_spec (last (v :: vs) 0) x).
  - rewrite in_app_iff. cbn. intuition.
  - assert (E : last (v :: vs) 0 = x) by lia. split; [now left|]. intros [X| ->]; [exact X|]. rewrite <- E. destruct (@exists_last _ (v :: vs)) as (l & a & EL); [discriminate|]. rewrite EL, last_last. apply in_or_app. right. now left.
Qed.
(* the second list of an identifier is part of the first *)
Definition ok2i (p : matches * matches) : Prop := exists vs us, mlist (fst p) vs /\ mlist (snd p) us /\ incl us vs.
Lemma rec_mlist live m vs m' : N.of_nat (length live) <= 63 * 2 ^ 24 -> mlist m vs -> recode_encoding (new_index_array live 0) m = Ok m' -> mlist m' (renumber live vs).
Proof.
  intros HL H E. assert (HB : Forall (fun v => v < N.of_nat (length live))%N vs).
  { unfold recode_encoding in E. destruct (mlist_lists m vs H) as [q R]. rewrite R in E. apply recode_values_range in E. now rewrite new_index_length in E. }
  destruct (recode_encoding_ok live m vs HL H HB) as (m2 & A & B). rewrite E in A. injection A as <-. exact B.
Qed.
Lemma index2_incl hashf t : index_table2 hashf t -> ginv hashf ok2i t.
Proof.
  induction 1 as [|t w x b t' HT IH Hx HA|t ents t' HT IH HF HA|t live fuel t' HT IH HL HA].
  - apply ginv_new.
  - eapply ginv_add; [exact IH| | |exact HA].
    + exists [], []. repeat split; try apply mlist_init. intros z [].
    + intros [p q] [p' q'] (vs & us & V & U & I). unfold upd2. cbn [fst snd] in *.
      destruct (add_index p x) as [m0|] eqn:E0; [|discriminate].
      pose proof (add_index_ge _ _ _ _ V E0) as L0. destruct (mlist_add p vs x V Hx L0) as (n0 & A0 & B0). rewrite E0 in A0. injection A0 as <-.
      assert (X0 : forall z, In z (snoc_new vs x) <-> In z vs \/ z = x) by (intros z; now apply In_snoc_new).
      destruct b.
      * destruct (add_index q x) as [m1|] eqn:E1; [|discriminate]. intros [= <- <-].
        pose proof (add_index_ge _ _ _ _ U E1) as L1. destruct (mlist_add q us x U Hx L1) as (n1 & A1 & B1). rewrite E1 in A1. injection A1 as <-.
        exists (snoc_new vs x), (snoc_new us x). split; [exact B0|]. split; [exact B1|]. intros z Z. apply In_snoc_new in Z; [|exact L1]. apply X0. destruct Z; [left; auto|now right].
      * intros [= <- <-]. exists (snoc_new vs x), us. split; [exact B0|]. split; [exact U|]. intros z Z. apply X0. left. auto.
  - assert (NF : NoDup (map fst ents)).
    { rewrite (Forall2_fst_map _ _ _ (fun a b (Q : _ /\ _) => proj1 Q) HF). eapply ginv_nodup; exact IH. }
    eapply (ginv_load hashf ok2i false ents t' NF); [|exact HA]. intros w p HI.
    destruct (Forall2_in_r _ _ _ _ HF HI) as ([w0 p0] & I0 & _ & R1 & R2). cbn in R1, R2.
    apply entries_toks in I0 as (k & K1 & K2 & K3). destruct (proj2 IH k K1) as (vs & us & V & U & I). subst p0.
    exists vs, us. split; [eapply mlist_reload; eassumption|]. split; [eapply mlist_reload; eassumption|exact I].
  - eapply ginv_purge; [exact IH| |exact HA]. intros [p q] [p' q'] (vs & us & V & U & I). unfold recode2. cbn [fst snd] in *.
    destruct (recode_encoding _ p) as [a|] eqn:E1; [|discriminate]. cbn [bind].
    destruct (recode_encoding _ q) as [c|] eqn:E2; [|discriminate]. cbn [bind]. intros [= <- <-].
    exists (renumber live vs), (renumber live us). cbn [fst snd]. split; [eapply (rec_mlist live p)|split; [eapply (rec_mlist live q)|]]; try eassumption.
    intros z Z. apply In_renumber in Z as (y & Y & A & ->). apply In_renumber. exists y. auto.
Qed.
Lemma ids_incl hashf t w m0 m1 xs ys : index_table2 hashf t -> In (w, (m0, m1)) (entries t) -> lists m0 xs -> lists m1 ys -> incl ys xs.
Proof.
  intros HI I LX LY. destruct (index2_incl hashf t HI) as [_ H]. apply entries_toks in I as (k & K & _ & EP). destruct (H k K) as (vs & us & V & U & N).
  rewrite EP in V, U. cbn [fst snd] in V, U. destruct (mlist_lists _ _ V) as [q1 R1], (mlist_lists _ _ U) as [q2 R2]. destruct LX as (q3 & R3), LY as (q4 & R4).
  assert (xs = vs) by congruence. assert (ys = us) by congruence. now subst.
Qed.
