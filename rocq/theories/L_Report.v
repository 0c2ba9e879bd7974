(* Proofs for M_Report. *)
From Verif Require Import Base M_Report S_Output S_Report.
Local Open Scope N_scope.

Lemma low_digits_ok room : forall x, x < 10 ^ N.of_nat room -> exists l, low_digits room x = Ok l /\ (length l <= room)%nat /\
  Forall (fun c => 48 <= c <= 57) l /\ fold_right (fun c v => 10 * v + (c - 48)) 0 l = x /\ (0 < x -> exists i c, l = i ++ [c] /\ c <> 48).
Proof.
  induction room as [|room IH]; intros x H.
  - assert (x = 0) by (cbn in H; lia). subst. exists []. repeat split; auto. lia.
  - cbn [low_digits]. destruct (x =? 0) eqn:E.
    + exists []. cbn. repeat split; auto; lia.
    + rewrite Nat2N.inj_succ, N.pow_succ_r' in H. destruct (IH (x / 10)) as (l & E1 & L & F & V & T); [lia|]. rewrite E1. cbn [bind].
      exists (48 + x mod 10 :: l). repeat split.
      * cbn [length]. lia.
      * constructor; [lia|exact F].
      * cbn [fold_right]. rewrite V. lia.
      * intros _. destruct (N.eq_dec (x / 10) 0) as [Z0|Z0].
        -- exists [], (48 + x mod 10). rewrite Z0 in *. assert (l = []) by (destruct room; cbn [low_digits] in E1; rewrite N.eqb_refl in E1; congruence). subst l. split; [reflexivity|lia].
        -- destruct T as (i & c & -> & Hc); [lia|]. exists (48 + x mod 10 :: i), c. split; [reflexivity|exact Hc].
Qed.
Lemma fold_back l : fold_left (fun v c => 10 * v + (c - 48)) (rev l) 0 = fold_right (fun c v => 10 * v + (c - 48)) 0 l.
Proof. rewrite <- (rev_involutive l) at 2. rewrite fold_left_rev_right. reflexivity. Qed.

Lemma emit_positive x : 0 < x < 2 ^ 31 -> exists b, emit_int (Z.of_N x) = Ok b /\ written x b.
Proof.
  intros H. unfold emit_int. replace (Z.of_N x =? - 2 ^ 31)%Z with false by lia. replace (Z.abs_N (Z.of_N x)) with x by lia.
  destruct (low_digits_ok 20 x) as (l & E & L & F & V & T); [change (10 ^ N.of_nat 20) with 100000000000000000000; lia|]. rewrite E. cbn [bind].
  replace (Z.of_N x <? 0)%Z with false by lia. cbn [app]. rewrite rev_length. replace (20 <? length l)%nat with false by (symmetry; apply Nat.ltb_ge; exact L).
  eexists. split; [reflexivity|]. split; [|split].
  - apply Forall_rev, F.
  - rewrite fold_back. exact V.
  - destruct T as (i & c & -> & Hc); [lia|]. rewrite rev_app_distr. cbn [rev app]. destruct (rev i); [exact Logic.I|exact Hc].
Qed.
Lemma emit_any x b : emit_int x = Ok b -> ((x < 0)%Z /\ exists r, b = 45 :: r) \/ (x = 0%Z /\ b = []) \/ ((0 < x)%Z /\ ((x < 2 ^ 31)%Z -> written (Z.to_N x) b)).
Proof.
  intros E. destruct (Z.ltb_spec x 0) as [L|L].
  - left. split; [exact L|]. unfold emit_int in E. destruct (x =? _)%Z; [discriminate|]. destruct (low_digits _ _); [|discriminate]. cbn [bind] in E.
    replace (x <? 0)%Z with true in E by lia. cbn [app] in E. destruct (_ <? _)%nat; [discriminate|]. injection E as <-. eexists. reflexivity.
  - right. destruct (Z.eq_dec x 0) as [->|NZ]; [left; split; [reflexivity|]; vm_compute in E; congruence|]. right. split; [lia|]. intros B.
    destruct (emit_positive (Z.to_N x)) as (b' & E' & W); [lia|]. rewrite Z2N.id in E' by lia. congruence.
Qed.

Lemma report_ok file line size : 0 < line < 2 ^ 31 -> 0 < size < 2 ^ 31 -> exists m, out_of_mem file (Z.of_N line) size = Ok (m, 2) /\ tells file line size m.
Proof.
  intros HL HS. unfold out_of_mem. destruct (emit_positive line HL) as (l & -> & Wl). cbn [bind].
  replace (int_of_u32 (u32 size)) with (Z.of_N size) by (unfold int_of_u32, u32; rewrite N.mod_small by lia; replace (size <? 2 ^ 31) with true by lia; reflexivity).
  destruct (emit_positive size HS) as (s & -> & Ws). cbn [bind]. eexists. split; [reflexivity|]. exists l, s. auto.
Qed.

(* The number after the last comma is the same. *)
Lemma split_digits l s l' s' : Forall (fun c => c <> 44) l -> Forall (fun c => c <> 44) l' -> l ++ bs ", " ++ s = l' ++ bs ", " ++ s' -> l = l' /\ s = s'.
Proof.
  change (bs ", ") with [44; 32]. revert l'. induction l as [|c l IH]; intros [|c' l'] F F' E; cbn [app] in E.
  - injection E as ->. auto.
  - exfalso. inversion F'; subst. injection E as E1 E2. congruence.
  - exfalso. inversion F; subst. injection E as E1 E2. congruence.
  - inversion F; inversion F'; subst. injection E as -> E. destruct (IH l') as (-> & ->); auto.
Qed.
Lemma written_digits n b : written n b -> Forall (fun c => c <> 44) b.
Proof. intros (F & _). eapply Forall_impl; [|exact F]. cbn. lia. Qed.
Lemma written_inj m n b : written m b -> written n b -> m = n.
Proof. intros (_ & <- & _) (_ & <- & _). reflexivity. Qed.

Local Opaque bs.
Lemma report_other file line size m code : 0 < line < 2 ^ 31 -> size < 2 ^ 64 -> size = 0 \/ 2 ^ 31 <= size -> out_of_mem file (Z.of_N line) size = Ok (m, code) -> ~ tells file line size m.
Proof.
  intros HL HS B E (l & s & Wl & Ws & Em). unfold out_of_mem in E. destruct (emit_positive line HL) as (l0 & E0 & W0). rewrite E0 in E. cbn [bind] in E.
  destruct (emit_int (int_of_u32 (u32 size))) as [s0|] eqn:ES; [|discriminate]. cbn [bind] in E. injection E as E _. rewrite <- E in Em.
  apply app_inv_head in Em. apply app_inv_head in Em. apply app_inv_head in Em.
  apply split_digits in Em; [|exact (written_digits _ _ W0)|exact (written_digits _ _ Wl)]. destruct Em as (_ & Em). apply app_inv_tail in Em. subst s0.
  destruct (emit_any _ _ ES) as [(N0 & r & ->)|[(Z0 & ->)|(P & W)]].
  - destruct Ws as (F & _). inversion F; subst. lia.
  - destruct Ws as (_ & _ & []).
  - assert (R : (int_of_u32 (u32 size) < 2 ^ 31)%Z) by (unfold int_of_u32, u32; destruct (_ <? _) eqn:X; lia).
    pose proof (written_inj _ _ _ (W R) Ws) as Q. unfold int_of_u32, u32 in *. destruct (size mod 2 ^ 32 <? 2 ^ 31) eqn:X; lia.
Qed.
