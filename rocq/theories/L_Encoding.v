From Coq Require Import Sorted.
From Verif Require Import Base M_Encoding L_Bits.
Local Open Scope N_scope.

Definition LIM : N := 1056964608. (* 63 * 2^24 *)

Lemma nth_error_mid {A} (pre mid post : list A) k :
  (k < length mid)%nat -> nth_error (pre ++ mid ++ post) (length pre + k) = nth_error mid k.
Proof.
  intros H. rewrite nth_error_app2 by lia.
  replace (length pre + k - length pre)%nat with k by lia.
  now rewrite nth_error_app1.
Qed.

Lemma insert_value_length v b : insert_value v = Some b -> (1 <= length b <= 4)%nat.
Proof.
  unfold insert_value. destruct (v <=? 127); [intros [= <-]; cbn; lia|].
  destruct (v <=? 16383); [intros [= <-]; cbn; lia|].
  cbv zeta. destruct (N.shiftr v 24 <=? 63); intros [= <-]; cbn; lia.
Qed.

Lemma insert_value_some v : v < 2 ^ 30 -> exists b, insert_value v = Some b.
Proof.
  intros H. unfold insert_value. destruct (v <=? 127); [eauto|]. destruct (v <=? 16383); [eauto|].
  cbv zeta. rewrite shiftr_div. destruct (v / 2 ^ 24 <=? 63) eqn:E; [eauto|].
  apply N.leb_gt in E. change (2^24) with 16777216 in *. change (2^30) with 1073741824 in *. lia.
Qed.

Lemma first_byte_4 a : a < 63 ->
  (N.lor a 192 =? 255) = false /\ (N.land (N.lor a 192) 192 =? 192) = true /\ N.land (N.lor a 192) 63 = a.
Proof.
  intros H.
  pose (f := fun a : N => if a <? 63 then negb (N.lor a 192 =? 255) &&
     ((N.land (N.lor a 192) 192 =? 192) && (N.land (N.lor a 192) 63 =? a)) else true).
  assert (S : f a = true) by (apply (byte_sweep f); [now vm_compute|lia]).
  unfold f in S. replace (a <? 63) with true in S by (symmetry; apply N.ltb_lt; lia).
  apply andb_true_iff in S as [S1 S2]. apply andb_true_iff in S2 as [S2 S3].
  apply negb_true_iff in S1. apply N.eqb_eq in S3. auto.
Qed.

Lemma first_byte_2 a : a < 64 ->
  (N.lor a 128 =? 255) = false /\ (N.land (N.lor a 128) 192 =? 192) = false /\
  (N.land (N.lor a 128) 128 =? 0) = false /\ N.land (N.lor a 128) 127 = a.
Proof.
  intros H.
  pose (f := fun a : N => if a <? 64 then negb (N.lor a 128 =? 255) &&
     (negb (N.land (N.lor a 128) 192 =? 192) && (negb (N.land (N.lor a 128) 128 =? 0) &&
      (N.land (N.lor a 128) 127 =? a))) else true).
  assert (S : f a = true) by (apply (byte_sweep f); [now vm_compute|lia]).
  unfold f in S. replace (a <? 64) with true in S by (symmetry; apply N.ltb_lt; lia).
  apply andb_true_iff in S as [S1 S2]. apply andb_true_iff in S2 as [S2 S3].
  apply andb_true_iff in S3 as [S3 S4].
  apply negb_true_iff in S1, S2, S3. apply N.eqb_eq in S4. auto.
Qed.

Lemma first_byte_1 a : a <= 127 ->
  (a =? 255) = false /\ (N.land a 192 =? 192) = false /\ (N.land a 128 =? 0) = true.
Proof.
  intros H.
  pose (f := fun a : N => if a <=? 127 then negb (a =? 255) &&
     (negb (N.land a 192 =? 192) && (N.land a 128 =? 0)) else true).
  assert (S : f a = true) by (apply (byte_sweep f); [now vm_compute|lia]).
  unfold f in S. replace (a <=? 127) with true in S by (symmetry; apply N.leb_le; lia).
  apply andb_true_iff in S as [S1 S2]. apply andb_true_iff in S2 as [S2 S3].
  apply negb_true_iff in S1, S2. auto.
Qed.

(* Reading what insert_value wrote, wherever it sits. *)
Lemma ilr_read_insert v b pre post e acc :
  v < LIM -> insert_value v = Some b -> (length pre + length b <= e)%nat ->
  ilr_read (pre ++ b ++ post) (length pre) e acc = R_val (u32 (acc + v)) (length pre + length b).
Proof.
  intros Hv Hi He. unfold LIM in Hv.
  pose proof (insert_value_length _ _ Hi) as HL.
  unfold ilr_read. destruct (Nat.leb_spec e (length pre)) as [C|_]; [lia|].
  assert (G : forall k, (k < length b)%nat ->
     nth_error (pre ++ b ++ post) (length pre + k) = nth_error b k)
    by (intros; now apply nth_error_mid).
  pose proof (G 0%nat ltac:(lia)) as G0. rewrite Nat.add_0_r in G0. rewrite G0.
  unfold insert_value in Hi. destruct (v <=? 127) eqn:E1.
  - injection Hi as <-. apply N.leb_le in E1. cbn [nth_error].
    destruct (first_byte_1 v E1) as (F1 & F2 & F3). rewrite F1, F2, F3. cbn. reflexivity.
  - apply N.leb_gt in E1. destruct (v <=? 16383) eqn:E2.
    + injection Hi as <-. apply N.leb_le in E2. cbn [nth_error length] in *.
      assert (HA : N.shiftr v 8 < 64) by (rewrite shiftr_div; change (2^8) with 256; lia).
      destruct (first_byte_2 _ HA) as (F1 & F2 & F3 & F4). rewrite F1, F2, F3, F4. cbn [negb].
      destruct (Nat.ltb_spec e (length pre + 2)) as [C|_]; [lia|].
      rewrite (G 1%nat) by lia. cbn [nth_error]. f_equal. f_equal. f_equal.
      rewrite land255, shiftl_mul, shiftr_div. change (2^8) with 256. lia.
    + cbv zeta in Hi. destruct (N.shiftr v 24 <=? 63) eqn:E3; [|discriminate].
      injection Hi as <-. apply N.leb_gt in E2. cbn [nth_error length] in *.
      assert (HA : N.shiftr v 24 < 63) by (rewrite shiftr_div; change (2^24) with 16777216; lia).
      destruct (first_byte_4 _ HA) as (F1 & F2 & F3). rewrite F1, F2, F3.
      destruct (Nat.ltb_spec e (length pre + 4)) as [C|_]; [lia|].
      rewrite (G 1%nat), (G 2%nat), (G 3%nat) by lia. cbn [nth_error]. f_equal. f_equal. f_equal.
      rewrite !land255, !shiftl_mul, !shiftr_div.
      change (2^8) with 256. change (2^16) with 65536. change (2^24) with 16777216. lia.
Qed.

(* The byte string of a list of increments. *)
Fixpoint enc_incs (ds : list N) : option bytes :=
  match ds with
  | [] => Some []
  | d :: ds' => match insert_value d, enc_incs ds' with
                | Some b, Some r => Some (b ++ r) | _, _ => None end
  end.

Fixpoint sums (acc : N) (ds : list N) : list N :=
  match ds with [] => [] | d :: ds' => (acc + d) :: sums (acc + d) ds' end.

Lemma enc_incs_app ds d b c : enc_incs ds = Some b -> insert_value d = Some c ->
  enc_incs (ds ++ [d]) = Some (b ++ c).
Proof.
  revert b; induction ds as [|x ds IH]; cbn; intros b Hb Hc.
  - injection Hb as <-. rewrite Hc. cbn. now rewrite app_nil_r.
  - destruct (insert_value x); [|discriminate]. destruct (enc_incs ds) as [r|]; [|discriminate].
    injection Hb as <-. rewrite (IH r eq_refl Hc). now rewrite app_assoc.
Qed.

Lemma enc_incs_length ds b : enc_incs ds = Some b -> (length ds <= length b)%nat.
Proof.
  revert b; induction ds as [|d ds IH]; cbn; intros b.
  - intros [= <-]. cbn. lia.
  - destruct (insert_value d) as [c|] eqn:E; [|discriminate].
    destruct (enc_incs ds) as [r|]; [|discriminate]. intros [= <-].
    apply insert_value_length in E. rewrite app_length. specialize (IH r eq_refl). lia.
Qed.

Definition sum_list (ds : list N) : N := fold_right N.add 0 ds.

Lemma ilr_loop_incs ds : forall b pre post e acc fuel,
  Forall (fun d => d < LIM) ds -> enc_incs ds = Some b ->
  acc + sum_list ds < 2 ^ 32 ->
  (length pre + length b <= e)%nat ->
  ((e = length pre + length b)%nat \/ exists t, post = 255 :: t) ->
  (length ds < fuel)%nat ->
  ilr_loop fuel (pre ++ b ++ post) (length pre) e acc = RA_ok (sums acc ds) (length pre + length b).
Proof.
  induction ds as [|d ds IH]; intros b pre post e acc fuel Hd Hb Hs He Hpost Hf.
  - cbn in Hb. injection Hb as <-. destruct fuel as [|f]; [cbn in Hf; lia|].
    cbn [ilr_loop]. cbn [length app sums]. rewrite Nat.add_0_r in *.
    unfold ilr_read. destruct (Nat.leb_spec e (length pre)) as [C|C]; [reflexivity|].
    destruct Hpost as [Hp|[t ->]]; [cbn in Hp; lia|].
    rewrite nth_error_app2 by lia. rewrite Nat.sub_diag. cbn. reflexivity.
  - cbn in Hb. destruct (insert_value d) as [c|] eqn:Ec; [|discriminate].
    destruct (enc_incs ds) as [r|] eqn:Er; [|discriminate]. injection Hb as <-.
    destruct fuel as [|f]; [cbn in Hf; lia|]. cbn [ilr_loop sums].
    inversion Hd as [|? ? Hd1 Hd2]; subst. rewrite app_length in *.
    rewrite <- app_assoc. rewrite (ilr_read_insert d c pre (r ++ post)); [|assumption|assumption|lia].
    change (sum_list (d :: ds)) with (d + sum_list ds) in Hs.
    rewrite u32_small by lia.
    replace (pre ++ c ++ r ++ post) with ((pre ++ c) ++ r ++ post) by now rewrite <- app_assoc.
    replace (length pre + length c)%nat with (length (pre ++ c)) by now rewrite app_length.
    rewrite (IH r (pre ++ c) post e (acc + d) f); [rewrite app_length; f_equal; lia|assumption|reflexivity|lia| | |cbn in Hf; lia].
    + rewrite app_length. lia.
    + rewrite app_length. destruct Hpost; [left; lia|right; assumption].
Qed.

(* Invariant: the bytes of [m] encode the increments [ds], whose running sums are the numbers
   recorded. *)
Record enc_inv (m : matches) (vs : list N) : Prop := {
  ei_ds : exists ds, enc_incs ds = Some (msginfo m) /\ sums 0 ds = vs /\ Forall (fun d => d < LIM) ds
                     /\ sum_list ds = last vs 0 ;
  ei_high : vs <> [] -> highest m = last vs 0
}.

Lemma sums_app ds d acc : sums acc (ds ++ [d]) = sums acc ds ++ [acc + sum_list ds + d].
Proof.
  revert acc; induction ds as [|x ds IH]; intros acc; cbn [sums app sum_list fold_right].
  - f_equal. lia.
  - rewrite IH. change (fold_right N.add 0 ds) with (sum_list ds). replace (acc + x + sum_list ds + d) with (acc + (x + sum_list ds) + d) by lia. reflexivity.
Qed.

Lemma sums_nil_iff ds acc : sums acc ds = [] <-> ds = [].
Proof. destruct ds; cbn; split; congruence. Qed.

Lemma mn_zero_iff m vs : enc_inv m vs -> (mn m =? 0) = true <-> vs = [].
Proof.
  intros [(ds & H1 & H2 & _) _]. unfold mn. rewrite N.eqb_eq. split; intros H.
  - apply enc_incs_length in H1. destruct ds; [now subst|cbn in H1; lia].
  - subst vs. apply sums_nil_iff in H. subst ds. cbn in H1. injection H1 as <-. reflexivity.
Qed.

Lemma check_and_enlarge_info m : msginfo (check_and_enlarge m) = msginfo m /\ highest (check_and_enlarge m) = highest m.
Proof. unfold check_and_enlarge. destruct (_ <=? _); auto. Qed.

Lemma enc_inv_enlarge m vs : enc_inv m vs -> enc_inv (check_and_enlarge m) vs.
Proof.
  intros [H1 H2]. destruct (check_and_enlarge_info m) as [E1 E2].
  split; rewrite ?E1, ?E2; assumption.
Qed.

Lemma sum_list_app a b : sum_list (a ++ b) = sum_list a + sum_list b.
Proof. induction a as [|x a IH]; [cbn [app]; change (sum_list []) with 0; lia|]. change (sum_list ((x::a)++b)) with (x + sum_list (a ++ b)). change (sum_list (x::a)) with (x + sum_list a). lia. Qed.

(* Number-list view of one insertion. *)
Definition snoc_new (vs : list N) (x : N) : list N :=
  match vs with [] => [x] | _ => if last vs 0 <? x then vs ++ [x] else vs end.

Lemma last_app1 {A} (l : list A) x d : last (l ++ [x]) d = x.
Proof. apply last_last. Qed.

Lemma insert_index_inv m vs x :
  enc_inv m vs ->
  (match vs with [] => x < LIM | _ => last vs 0 <= x /\ x - last vs 0 < LIM end) ->
  exists m', insert_index m x = Some m' /\ enc_inv m' (snoc_new vs x) /\ mmax m' = mmax m /\
    (mn m' <= mn m + 4) /\ highest m' = x.
Proof.
  intros Hi Hx. unfold insert_index.
  assert (HB : LIM <= 2 ^ 30) by now vm_compute.
  destruct (mn m =? 0) eqn:En.
  - apply (mn_zero_iff _ _ Hi) in En. subst vs.
    destruct (insert_value_some x) as [b Hb]; [lia|]. rewrite Hb.
    eexists; split; [reflexivity|]. cbn [snoc_new highest mmax].
    destruct Hi as [(ds & H1 & H2 & H3 & H4) _]. apply sums_nil_iff in H2. subst ds.
    cbn in H1. injection H1 as <-.
    repeat split; try reflexivity.
    + exists [x]. cbn. rewrite Hb, app_nil_r. repeat split; [|lia].
      constructor; [assumption|constructor].
    + unfold mn; cbn. apply insert_value_length in Hb. lia.
  - assert (Hvs : vs <> []) by (intros ->; rewrite (proj2 (mn_zero_iff _ _ Hi) eq_refl) in En; discriminate).
    destruct vs as [|v0 vs']; [congruence|]. set (vs := v0 :: vs') in *.
    assert (Hh : highest m = last vs 0) by (apply Hi; assumption).
    rewrite Hh. destruct Hx as [Hx1 Hx2].
    destruct (x <? last vs 0) eqn:E1; [apply N.ltb_lt in E1; lia|].
    unfold snoc_new. destruct (last vs 0 <? x) eqn:E2.
    + destruct (insert_value_some (x - last vs 0)) as [b Hb]; [lia|]. rewrite Hb.
      eexists; split; [reflexivity|].
      destruct Hi as [(ds & H1 & H2 & H3 & H4) _].
      change (match vs with [] => [x] | _ :: _ => vs ++ [x] end) with (vs ++ [x]).
      apply N.ltb_lt in E2. repeat split; cbn [highest mmax msginfo]; try reflexivity.
      * exists (ds ++ [x - last vs 0]). repeat split.
        -- now apply enc_incs_app.
        -- rewrite sums_app, H2. f_equal. f_equal. lia.
        -- apply Forall_app; split; [assumption|]. constructor; [assumption|constructor].
        -- rewrite last_app1, sum_list_app. cbn [sum_list fold_right]. lia.
      * intros _. now rewrite last_app1.
      * unfold mn; cbn. rewrite app_length. apply insert_value_length in Hb. lia.
    + eexists; split; [reflexivity|].
      change (match vs with [] => [x] | _ :: _ => vs end) with vs.
      apply N.ltb_ge in E2. assert (x = last vs 0) by (apply N.ltb_ge in E1; lia). subst x.
      destruct Hi as [Hi1 Hi2]. repeat split; cbn; try assumption; try reflexivity.
      unfold mn; cbn. lia.
Qed.

Lemma add_index_inv m vs x :
  enc_inv m vs ->
  (match vs with [] => x < LIM | _ => last vs 0 <= x /\ x - last vs 0 < LIM end) ->
  exists m', add_index m x = Some m' /\ enc_inv m' (snoc_new vs x).
Proof.
  intros Hi Hx. apply enc_inv_enlarge in Hi.
  destruct (insert_index_inv _ _ _ Hi Hx) as (m' & H1 & H2 & _). eauto.
Qed.

Lemma enc_inv_init : enc_inv init_matches [].
Proof.
  split; [|congruence]. exists []. repeat split; constructor.
Qed.

(* The abstract effect of a whole history. *)
Definition snoc_all (vs xs : list N) : list N := fold_left snoc_new xs vs.

Fixpoint gaps_ok (prev : N) (xs : list N) : Prop :=
  match xs with [] => True | x :: xs' => prev <= x /\ x - prev < LIM /\ gaps_ok x xs' end.

Lemma last_snoc_new vs x : vs <> [] -> last vs 0 <= x -> last (snoc_new vs x) 0 = x.
Proof.
  intros Hv Hx. destruct vs as [|a vs]; [congruence|]. unfold snoc_new.
  destruct (_ <? _) eqn:E; [now rewrite last_app1|]. apply N.ltb_ge in E. lia.
Qed.
Lemma snoc_new_nonnil vs x : snoc_new vs x <> [].
Proof. destruct vs as [|a vs]; cbn [snoc_new]; [congruence|]. destruct (_ <? _); cbn; congruence. Qed.

Lemma add_indices_inv xs : forall m vs,
  enc_inv m vs ->
  (match vs with [] => gaps_ok 0 xs | _ => gaps_ok (last vs 0) xs end) ->
  exists m', add_indices m xs = Some m' /\ enc_inv m' (snoc_all vs xs).
Proof.
  induction xs as [|x xs IH]; intros m vs Hi Hg.
  - exists m. split; [reflexivity|assumption].
  - cbn [add_indices]. destruct (add_index_inv m vs x Hi) as (m1 & H1 & H2).
    { destruct vs; cbn [gaps_ok] in Hg; destruct Hg as (A & B & _); [lia|split; assumption]. }
    rewrite H1. destruct (IH m1 (snoc_new vs x) H2) as (m2 & H3 & H4).
    { destruct (snoc_new vs x) as [|a l] eqn:E; [now apply snoc_new_nonnil in E|]. rewrite <- E.
      destruct vs as [|v0 vs'].
      - cbn in E. injection E as <- <-. cbn. cbn in Hg. tauto.
      - rewrite last_snoc_new; [|congruence|]; cbn [gaps_ok] in Hg; tauto. }
    exists m2. split; [assumption|]. exact H4.
Qed.

(* snoc_all computes the distinct members in order. *)
Definition ssorted (l : list N) : Prop := forall i j a b,
  (i < j)%nat -> nth_error l i = Some a -> nth_error l j = Some b -> a < b.

Lemma nth_error_last {A} (l : list A) d : (0 < length l)%nat -> nth_error l (length l - 1) = Some (last l d).
Proof.
  induction l as [|y l IH]; cbn [length]; [lia|]. intros _. destruct l as [|z l]; [reflexivity|].
  change (last (y :: z :: l) d) with (last (z :: l) d). rewrite <- IH by (cbn; lia).
  cbn [length]. replace (S (S (length l)) - 1)%nat with (S (length l)) by lia.
  replace (S (length l) - 1)%nat with (length l) by lia. reflexivity.
Qed.

Lemma ssorted_app_last l x : ssorted l -> (l = [] \/ last l 0 < x) -> ssorted (l ++ [x]).
Proof.
  intros Hs Hl i j a b Hij Ha Hb.
  destruct (Nat.lt_ge_cases j (length l)) as [Lj|Gj].
  - rewrite nth_error_app1 in Ha, Hb by lia. exact (Hs i j a b Hij Ha Hb).
  - assert (j = length l).
    { assert (j < length (l ++ [x]))%nat by (apply nth_error_Some; congruence).
      rewrite app_length in *. cbn in *. lia. }
    subst j. rewrite nth_error_app2, Nat.sub_diag in Hb by lia. cbn in Hb. injection Hb as <-.
    rewrite nth_error_app1 in Ha by lia.
    destruct Hl as [->|Hl]; [cbn in Hij; lia|].
    assert (HB : nth_error l (length l - 1) = Some (last l 0)).
    { apply nth_error_last. lia. }
    destruct (Nat.eq_dec i (length l - 1)) as [->|Hne].
    + rewrite HB in Ha. injection Ha as <-. assumption.
    + assert (a < last l 0) by (eapply (Hs i (length l - 1)%nat); [lia|eassumption|assumption]). lia.
Qed.

Lemma snoc_new_spec vs x : ssorted vs -> (vs = [] \/ last vs 0 <= x) ->
  ssorted (snoc_new vs x) /\ (forall v, In v (snoc_new vs x) <-> In v vs \/ v = x).
Proof.
  intros Hs Hl. destruct vs as [|a vs']; [cbn [snoc_new]; split|].
  - intros i j u w Hij Hu Hw. destruct j as [|[|j]]; cbn in *; try lia; try discriminate.
  - intros v; cbn; intuition.
  - set (vs := a :: vs') in *. destruct Hl as [Hl|Hl]; [discriminate|].
    unfold snoc_new. change (match vs with [] => [x] | _ :: _ => if last vs 0 <? x then vs ++ [x] else vs end)
      with (if last vs 0 <? x then vs ++ [x] else vs).
    destruct (last vs 0 <? x) eqn:E.
    + apply N.ltb_lt in E. split; [apply ssorted_app_last; auto|].
      intros v. rewrite in_app_iff. cbn. intuition.
    + apply N.ltb_ge in E. assert (x = last vs 0) by lia. subst x. split; [assumption|].
      intros v. split; [auto|]. intros [H|H]; [assumption|]. subst v.
      assert (vs <> []) by discriminate. clear -H.
      rewrite (app_removelast_last 0 H) at 2. apply in_app_iff. right. now left.
Qed.

Lemma snoc_all_spec xs : forall vs, ssorted vs ->
  (match vs with [] => gaps_ok 0 xs | _ => gaps_ok (last vs 0) xs end) ->
  ssorted (snoc_all vs xs) /\ (forall v, In v (snoc_all vs xs) <-> In v vs \/ In v xs).
Proof.
  induction xs as [|x xs IH]; intros vs Hs Hg.
  - cbn. split; [assumption|]. intuition.
  - cbn [snoc_all fold_left]. fold (snoc_all (snoc_new vs x) xs).
    assert (HL : vs = [] \/ last vs 0 <= x).
    { destruct vs; [now left|right]. cbn [gaps_ok] in Hg. tauto. }
    destruct (snoc_new_spec vs x Hs HL) as [S1 S2].
    destruct (IH (snoc_new vs x) S1) as [I1 I2].
    { destruct (snoc_new vs x) as [|a l] eqn:E; [now apply snoc_new_nonnil in E|]. rewrite <- E.
      destruct vs as [|v0 vs'].
      - cbn in E. injection E as <- <-. cbn. cbn in Hg. tauto.
      - rewrite last_snoc_new; [|congruence|]; cbn [gaps_ok] in Hg; tauto. }
    split; [assumption|]. intros v. rewrite I2, S2. cbn. intuition.
Qed.

(* Reading back. *)
Lemma enc_inv_read m vs : enc_inv m vs -> last vs 0 < 2 ^ 32 ->
  read_matches m = RA_ok vs (length (msginfo m)) /\
  (forall pre tail, read_list_at (pre ++ msginfo m ++ 255 :: tail) (length pre)
      = RA_ok vs (length pre + length (msginfo m))%nat).
Proof.
  intros [(ds & H1 & H2 & H3 & H4) _] HL. pose proof (enc_incs_length _ _ H1) as HX. split.
  - unfold read_matches.
    pose proof (ilr_loop_incs ds (msginfo m) [] [] (length (msginfo m)) 0 (S (length (msginfo m)))) as R.
    cbn [app length] in R. rewrite app_nil_r in R. rewrite <- H2. apply R; auto; lia.
  - intros pre tail. unfold read_list_at. rewrite <- H2.
    apply ilr_loop_incs; auto; try lia; rewrite ?app_length; cbn; try lia.
    right. eauto.
Qed.

(* Buffer capacity. *)
Definition cap_ok (m : matches) : Prop :=
  mn m <= mmax m /\ (mmax m = 0 \/ 16 <= mmax m).

Lemma enlarge_room m : cap_ok m -> mn m + 4 <= mmax (check_and_enlarge m) /\ cap_ok (check_and_enlarge m).
Proof.
  unfold cap_ok, check_and_enlarge. intros [H1 H2].
  destruct (mmax m <=? mn m + 4) eqn:E.
  - unfold mn in *. cbn [mmax msginfo]. destruct (mmax m =? 0) eqn:E0; rewrite ?shiftr_div in *; change (2^1) with 2; lia.
  - apply N.leb_gt in E. unfold mn in *. lia.
Qed.

Lemma insert_index_cap m x m' : insert_index m x = Some m' -> mn m' <= mn m + 4 /\ mmax m' = mmax m.
Proof.
  unfold insert_index. destruct (mn m =? 0).
  - destruct (insert_value x) as [b|] eqn:E; [|discriminate]. intros [= <-]. unfold mn; cbn.
    rewrite app_length. apply insert_value_length in E. lia.
  - destruct (x <? highest m); [discriminate|]. destruct (highest m <? x).
    + destruct (insert_value (x - highest m)) as [b|] eqn:E; [|discriminate]. intros [= <-]. unfold mn; cbn.
      rewrite app_length. apply insert_value_length in E. lia.
    + intros [= <-]. unfold mn; cbn. lia.
Qed.

Lemma add_index_cap m x m' : cap_ok m -> add_index m x = Some m' ->
  mn m' <= mmax (check_and_enlarge m) /\ cap_ok m'.
Proof.
  intros Hc Ha. destruct (enlarge_room m Hc) as [R1 [R2 R3]].
  unfold add_index in Ha. apply insert_index_cap in Ha as [A1 A2].
  assert (mn (check_and_enlarge m) = mn m) by (unfold mn; now rewrite (proj1 (check_and_enlarge_info m))).
  unfold cap_ok. lia.
Qed.

Lemma add_indices_cap xs : forall m m', cap_ok m -> add_indices m xs = Some m' -> cap_ok m'.
Proof.
  induction xs as [|x xs IH]; cbn; intros m m' Hc H; [now injection H as <-|].
  destruct (add_index m x) as [m1|] eqn:E; [|discriminate].
  eapply IH; [|eassumption]. eapply add_index_cap; eassumption.
Qed.

(* Memory safety and termination of reading. *)
Lemma ilr_read_safe data pos e acc : (e <= length data)%nat ->
  match ilr_read data pos e acc with
  | R_oob _ => False
  | R_val a p => (pos < p <= e)%nat /\ a < 2 ^ 32
  | R_end => True
  end.
Proof.
  intros He. unfold ilr_read. destruct (Nat.leb_spec e pos) as [C|C]; [exact I|].
  assert (N32 : forall x, u32 x < 2 ^ 32) by (intros; unfold u32; apply N.mod_lt; now vm_compute).
  destruct (nth_error data pos) as [x0|] eqn:E0; [|apply nth_error_None in E0; lia].
  destruct (x0 =? 255); [exact I|]. destruct (N.land x0 192 =? 192).
  - destruct (Nat.ltb_spec e (pos + 4)) as [C4|C4]; [exact I|].
    destruct (nth_error data (pos + 1)) eqn:E1; [|apply nth_error_None in E1; lia].
    destruct (nth_error data (pos + 2)) eqn:E2; [|apply nth_error_None in E2; lia].
    destruct (nth_error data (pos + 3)) eqn:E3; [|apply nth_error_None in E3; lia].
    split; [lia|apply N32].
  - destruct (negb _).
    + destruct (Nat.ltb_spec e (pos + 2)) as [C2|C2]; [exact I|].
      destruct (nth_error data (pos + 1)) eqn:E1; [|apply nth_error_None in E1; lia].
      split; [lia|apply N32].
    + split; [lia|apply N32].
Qed.

Lemma ilr_loop_safe fuel : forall data pos e acc, (e <= length data)%nat -> (e - pos < fuel)%nat ->
  exists vs q, ilr_loop fuel data pos e acc = RA_ok vs q /\ (q = pos \/ pos < q <= e)%nat /\
    (length vs <= q - pos)%nat.
Proof.
  induction fuel as [|f IH]; intros data pos e acc He Hf; [lia|].
  cbn [ilr_loop]. pose proof (ilr_read_safe data pos e acc He) as S.
  destruct (ilr_read data pos e acc) as [|a p|o].
  - exists [], pos. split; [reflexivity|]. cbn. lia.
  - destruct S as [S _]. destruct (IH data p e a He ltac:(lia)) as (vs & q & H1 & H2 & H3).
    rewrite H1. exists (a :: vs), q. split; [reflexivity|]. cbn. lia.
  - contradiction.
Qed.

Lemma read_list_at_safe data off :
  exists vs q, read_list_at data off = RA_ok vs q /\ (q = off \/ off < q <= length data)%nat /\ (length vs <= q - off)%nat.
Proof. unfold read_list_at. apply ilr_loop_safe; lia. Qed.

Lemma copy_list_cap g data off m : copy_list g data off = Some m -> cap_ok m.
Proof.
  unfold copy_list. destruct (read_list_at data off) as [vs pos| |] eqn:E; try discriminate.
  intros [= <-]. unfold cap_ok, mn; cbn [msginfo mmax].
  destruct (_ <? 16) eqn:E1; [apply N.ltb_lt in E1|apply N.ltb_ge in E1];
  rewrite firstn_length; lia.
Qed.

Fixpoint scan_nul (s : bytes) : option bytes :=
  match s with
  | [] => None
  | b :: s' => if b =? 0 then Some [] else
               match scan_nul s' with Some t => Some (b :: t) | None => None end
  end.

Lemma scan_nul_spec s t : scan_nul s = Some t <-> exists r, s = t ++ 0 :: r /\ Forall (fun b => b <> 0) t.
Proof.
  revert t; induction s as [|b s IH]; intros t; cbn.
  - split; [discriminate|]. intros (r & H & _). destruct t; discriminate.
  - destruct (b =? 0) eqn:E.
    + apply N.eqb_eq in E. subst b. split.
      * intros [= <-]. exists s. split; [reflexivity|constructor].
      * intros (r & H & F). destruct t as [|c t]; [reflexivity|].
        cbn in H. injection H as H _. inversion F; congruence.
    + apply N.eqb_neq in E. destruct (scan_nul s) as [u|].
      * split.
        -- intros [= <-]. destruct (proj1 (IH u) eq_refl) as (r & -> & F). exists r. split; [reflexivity|]. now constructor.
        -- intros (r & H & F). destruct t as [|c t]; [cbn in H; injection H as H _; congruence|].
           cbn in H. injection H as -> Hs. inversion F; subst. f_equal.
           assert (Some u = Some t) as [= ->]; [|reflexivity]. apply IH. eauto.
      * split; [discriminate|]. intros (r & H & F).
        destruct t as [|c t]; [cbn in H; injection H as H _; congruence|].
        cbn in H. injection H as -> Hs. inversion F; subst.
        assert (None = Some t); [|discriminate]. apply IH. eauto.
Qed.

Lemma skipn_nth_cons {A} (l : list A) p x : nth_error l p = Some x -> skipn p l = x :: skipn (p + 1) l.
Proof.
  revert p; induction l as [|a l IH]; intros p H; destruct p as [|p]; cbn in *; try discriminate.
  - now injection H as ->.
  - rewrite (IH p H). reflexivity.
Qed.

Lemma token_loop_scan fuel : forall data p, (length data - p < fuel)%nat ->
  token_loop fuel data p = match scan_nul (skipn p data) with Some t => T_ok t | None => T_none end.
Proof.
  induction fuel as [|f IH]; intros data p Hf; [lia|]. cbn [token_loop].
  destruct (Nat.ltb_spec p (length data)) as [L|G].
  - destruct (nth_error data p) as [b|] eqn:E; [|apply nth_error_None in E; lia].
    rewrite (skipn_nth_cons _ _ _ E). cbn [scan_nul]. destruct (b =? 0); [reflexivity|].
    rewrite IH by lia. destruct (scan_nul _); reflexivity.
  - rewrite skipn_all2 by lia. reflexivity.
Qed.

Lemma get_db_token_spec data off :
  (exists t, get_db_token data off = T_ok t /\
      exists r, skipn off data = t ++ 0 :: r /\ Forall (fun b => b <> 0) t)
  \/ (get_db_token data off = T_none /\ ~ In 0 (skipn off data)).
Proof.
  unfold get_db_token. rewrite token_loop_scan by lia.
  destruct (scan_nul (skipn off data)) as [t|] eqn:E.
  - left. exists t. split; [reflexivity|]. now apply scan_nul_spec.
  - right. split; [reflexivity|]. intros H. revert E H. generalize (skipn off data). intros l.
    induction l as [|b l IH]; cbn; [tauto|]. destruct (b =? 0) eqn:Eb; [discriminate|].
    apply N.eqb_neq in Eb. destruct (scan_nul l); [discriminate|]. intros _ [H|H]; [congruence|].
    now apply IH.
Qed.

Lemma ssorted_Strongly l : ssorted l -> StronglySorted N.lt l.
Proof.
  induction l as [|a l IH]; intros H; constructor.
  - apply IH. intros i j x y Hij Hx Hy. exact (H (S i) (S j) x y ltac:(lia) Hx Hy).
  - apply Forall_forall. intros x Hx. apply In_nth_error in Hx as [k Hk].
    exact (H 0%nat (S k) a x ltac:(lia) eq_refl Hk).
Qed.
Lemma Strongly_ssorted l : StronglySorted N.lt l -> ssorted l.
Proof.
  induction l as [|a l IH]; intros H i j x y Hij Hx Hy.
  - destruct i; discriminate.
  - inversion H as [|? ? H1 H2]; subst. destruct j as [|j]; [lia|]. cbn in Hy.
    destruct i as [|i].
    + cbn in Hx. injection Hx as <-. rewrite Forall_forall in H2. apply H2. eapply nth_error_In; eassumption.
    + cbn in Hx. apply (IH H1 i j); auto. lia.
Qed.
