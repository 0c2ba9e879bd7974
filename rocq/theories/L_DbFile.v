From Coq Require Import Sorted.
From Verif Require Import Base L_Bits M_Encoding M_TokTable S_TokTable M_DbFile S_DbFile L_TokTable2.
Local Open Scope N_scope.

(* ---- memory ---- *)
Definition holds (F : bytes) (off : N) (b : bytes) : Prop :=
  off + blen b <= blen F /\
  forall k, (k < length b)%nat -> nth_error F (N.to_nat off + k) = nth_error b k.

Lemma nth_error_skipn {A} (l : list A) n k : nth_error (skipn n l) k = nth_error l (n + k).
Proof. revert l; induction n; intros [|a l]; cbn; auto. now destruct k. Qed.
Lemma nth_error_firstn {A} (l : list A) n k : (k < n)%nat -> nth_error (firstn n l) k = nth_error l k.
Proof. revert l k; induction n; intros [|a l] [|k] H; cbn; auto; try lia. apply IHn. lia. Qed.
Lemma nth_ext {A} (l l' : list A) : length l = length l' ->
  (forall k, (k < length l)%nat -> nth_error l k = nth_error l' k) -> l = l'.
Proof.
  revert l'; induction l as [|a l IH]; intros [|b l'] HL HN; cbn in HL; try discriminate; [reflexivity|].
  pose proof (HN 0%nat ltac:(cbn; lia)) as H0. cbn in H0. injection H0 as <-. f_equal. apply IH; [lia|].
  intros k Hk. exact (HN (S k) ltac:(cbn; lia)).
Qed.

Lemma holds_sub F off b : holds F off b -> sub F off (blen b) = Some b.
Proof.
  intros [H1 H2]. unfold sub. unfold blen in *.
  destruct (off + N.of_nat (length b) <=? N.of_nat (length F)) eqn:E; [|apply N.leb_gt in E; lia].
  f_equal. apply nth_ext.
  - rewrite firstn_length, skipn_length. lia.
  - intros k Hk. rewrite firstn_length, skipn_length in Hk.
    rewrite nth_error_firstn by lia. rewrite nth_error_skipn. apply H2. lia.
Qed.
Lemma holds_split F off b : holds F off b -> exists pre tail, F = pre ++ b ++ tail /\ length pre = N.to_nat off.
Proof.
  intros H. pose proof (holds_sub _ _ _ H) as HS. destruct H as [H1 _]. unfold sub in HS.
  destruct (off + blen b <=? N.of_nat (length F)) eqn:E; [|discriminate]. injection HS as HS.
  exists (firstn (N.to_nat off) F), (skipn (N.to_nat off + length b) F). unfold blen in *. split.
  - rewrite <- HS at 1. rewrite <- (firstn_skipn (N.to_nat off) F) at 1. f_equal.
    rewrite <- (firstn_skipn (N.to_nat (N.of_nat (length b))) (skipn (N.to_nat off) F)) at 1. f_equal.
    rewrite Nat2N.id. clear. revert F. induction (N.to_nat off) as [|n IH]; intros [|a F]; cbn; auto.
    now rewrite skipn_nil.
  - rewrite firstn_length. lia.
Qed.
Lemma split_holds pre b tail : holds (pre ++ b ++ tail) (N.of_nat (length pre)) b.
Proof.
  split; [unfold blen; rewrite !app_length; lia|]. intros k Hk.
  rewrite Nat2N.id, nth_error_app2 by lia. replace (length pre + k - length pre)%nat with k by lia.
  now rewrite nth_error_app1.
Qed.
Lemma holds_app F off a b : holds F off (a ++ b) -> holds F off a /\ holds F (off + blen a) b.
Proof.
  intros [H1 H2]. unfold blen in *. rewrite app_length in *. split; split; try (unfold blen; lia); intros k Hk.
  - rewrite H2 by lia. now rewrite nth_error_app1.
  - replace (N.to_nat (off + N.of_nat (length a)) + k)%nat with (N.to_nat off + (length a + k))%nat by lia.
    rewrite H2 by lia. rewrite nth_error_app2 by lia. f_equal. lia.
Qed.

Lemma splice_nth (d : bytes) off b k : (off + length b <= length d)%nat ->
  nth_error (firstn off d ++ b ++ skipn (off + length b) d) k =
  if (k <? off)%nat then nth_error d k else
  if (k <? off + length b)%nat then nth_error b (k - off) else nth_error d k.
Proof.
  intros H. assert (L : length (firstn off d) = off) by (rewrite firstn_length; lia).
  destruct (Nat.ltb_spec k off).
  - rewrite nth_error_app1 by lia. now apply nth_error_firstn.
  - rewrite nth_error_app2 by lia. rewrite L. destruct (Nat.ltb_spec k (off + length b)).
    + now rewrite nth_error_app1 by lia.
    + rewrite nth_error_app2 by lia. rewrite nth_error_skipn. f_equal. lia.
Qed.

Lemma splice_ok d off b : off + blen b <= blen d ->
  exists d', splice d off b = Ok d' /\ length d' = length d /\ holds d' off b /\
    forall o c, holds d o c -> (o + blen c <= off \/ off + blen b <= o) -> holds d' o c.
Proof.
  intros H. unfold splice, blen in *.
  destruct (off + N.of_nat (length b) <=? N.of_nat (length d)) eqn:E; [|apply N.leb_gt in E; lia].
  eexists. split; [reflexivity|].
  set (d' := firstn (N.to_nat off) d ++ b ++ skipn (N.to_nat off + length b) d).
  assert (L : length d' = length d).
  { unfold d'. rewrite !app_length, firstn_length, skipn_length. lia. }
  assert (HN := fun k => splice_nth d (N.to_nat off) b k ltac:(lia)). fold d' in HN.
  split; [exact L|]. split; [split; unfold blen; [rewrite L; lia|]|].
  - intros k Hk. rewrite HN. destruct (Nat.ltb_spec (N.to_nat off + k) (N.to_nat off)); [lia|].
    destruct (Nat.ltb_spec (N.to_nat off + k) (N.to_nat off + length b)); [|lia]. f_equal. lia.
  - intros o c [A B] D. unfold blen in *. split; [unfold blen; rewrite L; lia|]. intros k Hk. rewrite HN.
    destruct (Nat.ltb_spec (N.to_nat o + k) (N.to_nat off)); [now apply B|].
    destruct (Nat.ltb_spec (N.to_nat o + k) (N.to_nat off + length b)); [lia|]. now apply B.
Qed.

Definition wbytes (w : write) : bytes := match w with W32 _ v => le32 v | WB _ b => b end.
Lemma span_len w : snd (span w) = fst (span w) + blen (wbytes w).
Proof. destruct w; reflexivity. Qed.

Lemma apply_write_splice w d : apply_write w d = splice d (fst (span w)) (wbytes w).
Proof. now destruct w. Qed.

Lemma apply_writes_holds ws : forall d, Forall (fun w => snd (span w) <= blen d) ws ->
  ForallOrdPairs disjoint ws ->
  exists F, apply_writes ws d = Ok F /\ length F = length d /\
    (forall w, In w ws -> holds F (fst (span w)) (wbytes w)) /\
    (forall o c, holds d o c -> Forall (fun w => o + blen c <= fst (span w) \/ snd (span w) <= o) ws -> holds F o c).
Proof.
  induction ws as [|w ws IH]; intros d HB HD; cbn [apply_writes].
  - exists d. split; [reflexivity|split; [reflexivity|split; [intros w []|auto]]].
  - inversion HB as [|? ? B1 B2]; inversion HD as [|? ? D1 D2]; subst.
    rewrite apply_write_splice. rewrite span_len in B1.
    destruct (splice_ok d (fst (span w)) (wbytes w) B1) as (d1 & E & L & H & K). rewrite E. cbn [bind].
    assert (LB : blen d1 = blen d) by (unfold blen; now rewrite L).
    destruct (IH d1) as (F & EF & LF & HF & KF).
    { now rewrite LB. }
    { assumption. }
    exists F. split; [exact EF|]. split; [congruence|]. split.
    + intros v [<-|Hv]; [|now apply HF]. apply KF; [exact H|].
      eapply Forall_impl; [|exact D1]. intros v. unfold disjoint. rewrite (span_len w). tauto.
    + intros o c Hc Hd. inversion Hd as [|? ? Hd1 Hd2]; subst. apply KF; [|exact Hd2].
      apply K; [exact Hc|]. rewrite span_len in Hd1. tauto.
Qed.

(* ---- words and byte runs of a trace ---- *)
Definition words (ws : list write) : list N := flat_map (fun w => match w with W32 i _ => [i] | _ => [] end) ws.
Definition chars (ws : list write) : list (N * bytes) :=
  flat_map (fun w => match w with WB o b => [(o, b)] | _ => [] end) ws.
Fixpoint chain (c : N) (l : list (N * bytes)) (c' : N) : Prop :=
  match l with [] => c = c' | (o, b) :: l' => o = c /\ chain (c + blen b) l' c' end.

Lemma words_app a b : words (a ++ b) = words a ++ words b.
Proof. apply flat_map_app. Qed.
Lemma chars_app a b : chars (a ++ b) = chars a ++ chars b.
Proof. apply flat_map_app. Qed.
Lemma chain_app l1 : forall c l2 c1 c2, chain c l1 c1 -> chain c1 l2 c2 -> chain c (l1 ++ l2) c2.
Proof.
  induction l1 as [|[o b] l1 IH]; cbn; intros c l2 c1 c2 H H2; [now subst|].
  destruct H as [-> H]. split; [reflexivity|]. eapply IH; eauto.
Qed.
Lemma chain_le l : forall c c', chain c l c' -> c <= c'.
Proof. induction l as [|[o b] l IH]; cbn; intros c c' H; [lia|]. destruct H as [-> H]. apply IH in H. lia. Qed.
Lemma chain_in l : forall c c' o b, chain c l c' -> In (o, b) l -> c <= o /\ o + blen b <= c'.
Proof.
  induction l as [|[o1 b1] l IH]; cbn; intros c c' o b H Hi; [contradiction|]. destruct H as [-> H].
  destruct Hi as [[= -> ->]|Hi].
  - apply chain_le in H. lia.
  - destruct (IH _ _ _ _ H Hi). lia.
Qed.
Lemma in_words ws i v : In (W32 i v) ws -> In i (words ws).
Proof. intros H. apply in_flat_map. exists (W32 i v). split; [exact H|now left]. Qed.
Lemma in_chars ws o b : In (WB o b) ws -> In (o, b) (chars ws).
Proof. intros H. apply in_flat_map. exists (WB o b). split; [exact H|now left]. Qed.

Lemma trace_disjoint K ws : forall c0 c1, NoDup (words ws) -> Forall (fun i => i < K) (words ws) ->
  chain c0 (chars ws) c1 -> 4 * K <= c0 ->
  Forall (fun w => snd (span w) <= c1) ws /\ ForallOrdPairs disjoint ws.
Proof.
  intros c0 c1 HN HK HC H0. pose proof (chain_le _ _ _ HC) as LE.
  split.
  - apply Forall_forall. intros [i v|o b] Hw; cbn [span snd].
    + apply in_words in Hw. rewrite Forall_forall in HK. apply HK in Hw. lia.
    + apply in_chars in Hw. destruct (chain_in _ _ _ _ _ HC Hw). lia.
  - clear LE. revert c0 HN HK HC H0. induction ws as [|w ws IH]; intros c0 HN HK HC H0; [constructor|].
    destruct w as [i v|o b]; cbn [words chars flat_map app] in *.
    + inversion HN as [|? ? N1 N2]; inversion HK as [|? ? K1 K2]; subst. constructor.
      * apply Forall_forall. intros [j u|o b] Hw; unfold disjoint; cbn [span fst snd].
        -- assert (i <> j) by (intros ->; apply N1; eapply in_words; eassumption). lia.
        -- apply in_chars in Hw. destruct (chain_in _ _ _ _ _ HC Hw). lia.
      * eapply IH; eauto.
    + destruct HC as [-> HC]. constructor.
      * apply Forall_forall. intros [j u|o b'] Hw; unfold disjoint; cbn [span fst snd].
        -- rewrite Forall_forall in HK. apply in_words in Hw. apply HK in Hw. lia.
        -- apply in_chars in Hw. destruct (chain_in _ _ _ _ _ HC Hw). lia.
      * eapply IH; eauto. lia.
Qed.

Definition inr (lo hi : N) (l : list N) : Prop := Forall (fun x => lo <= x < hi) l.
Lemma nodup_ranges a b c l1 l2 : NoDup l1 -> NoDup l2 -> inr a b l1 -> inr b c l2 -> a <= b -> b <= c ->
  NoDup (l1 ++ l2) /\ inr a c (l1 ++ l2).
Proof.
  unfold inr. rewrite !Forall_forall. intros N1 N2 R1 R2 ? ?. split.
  - induction l1 as [|x l1 IH]; [exact N2|]. inversion N1; subst. cbn. constructor.
    + rewrite in_app_iff. intros [H'|H']; [auto|]. specialize (R1 x (or_introl eq_refl)).
      specialize (R2 x H'). lia.
    + apply IH; [assumption|]. intros y Hy. apply R1. now right.
  - intros x Hx. apply in_app_iff in Hx as [Hx|Hx]; [apply R1 in Hx|apply R2 in Hx]; lia.
Qed.

(* Words NoDup in [lo,hi), bytes chained from c to c'. *)
Definition wspec (ws : list write) (lo hi c c' : N) : Prop :=
  NoDup (words ws) /\ inr lo hi (words ws) /\ chain c (chars ws) c'.
Lemma wspec_app w1 w2 a b d c c1 c2 : wspec w1 a b c c1 -> wspec w2 b d c1 c2 -> a <= b -> b <= d ->
  wspec (w1 ++ w2) a d c c2.
Proof.
  intros (N1 & R1 & C1) (N2 & R2 & C2) H H'. unfold wspec. rewrite words_app, chars_app.
  destruct (nodup_ranges a b d _ _ N1 N2 R1 R2 H H'). split; [assumption|]. split; [assumption|].
  eapply chain_app; eauto.
Qed.
