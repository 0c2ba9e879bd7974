(* C05-C07. *)
From Coq Require Import Permutation Sorted.
From Verif Require Import Base M_Encoding M_TokTable S_Encoding S_TokTable L_Bits L_Encoding L_Encoding2 L_TokTable.

Lemma small_LIM x : small x -> (x < LIM)%N.
Proof. unfold small, LIM. change (63 * 2 ^ 24)%N with 1056964608%N. tauto. Qed.
Lemma LIM_small x : (x < LIM)%N -> small x.
Proof. unfold small, LIM. change (63 * 2 ^ 24)%N with 1056964608%N. tauto. Qed.

(* A list whose content is known and small. *)
Definition mlist (m : matches) (vs : list N) : Prop :=
  enc_inv m vs /\ Forall small vs /\ StronglySorted N.lt vs.

Lemma mlist_init : mlist init_matches [].
Proof. split; [apply enc_inv_init|]. split; constructor. Qed.

Lemma Forall_last {A} (Q : A -> Prop) l d : Forall Q l -> Q d -> Q (last l d).
Proof.
  intros HF Hd. destruct l as [|a l]; [exact Hd|].
  rewrite Forall_forall in HF. apply HF. apply last_In. congruence.
Qed.
Lemma mlist_last m vs : mlist m vs -> (last vs 0 < LIM)%N.
Proof.
  intros (_ & H & _). apply small_LIM. apply Forall_last; [exact H|]. now vm_compute.
Qed.

Lemma mlist_lists m vs : mlist m vs -> lists m vs.
Proof.
  intros H. pose proof (mlist_last _ _ H) as HL. destruct H as (H & _ & _).
  destruct (enc_inv_read m vs H) as [R _]; [eapply N.lt_trans; [exact HL|now vm_compute]|].
  eexists; exact R.
Qed.
Lemma lists_fun m a b : lists m a -> lists m b -> a = b.
Proof. intros [q H] [q' H']. congruence. Qed.

Lemma mlist_add m vs x : mlist m vs -> small x -> (vs = [] \/ last vs 0 <= x)%N ->
  exists m', add_index m x = Some m' /\ mlist m' (snoc_new vs x).
Proof.
  intros HM Hx Hl. pose proof (mlist_last _ _ HM) as HL. destruct HM as (H1 & H2 & H3).
  apply small_LIM in Hx.
  destruct (add_index_inv m vs x H1) as (m' & A & B).
  { destruct vs as [|v vs]; [exact Hx|]. destruct Hl as [Hl|Hl]; [discriminate|]. split; [exact Hl|]. lia. }
  exists m'. split; [exact A|]. destruct (snoc_new_spec vs x) as [S1 S2].
  - now apply Strongly_ssorted.
  - assumption.
  - split; [exact B|]. split; [|now apply ssorted_Strongly].
    apply Forall_forall. intros v Hv. apply S2 in Hv as [Hv| ->]; [|now apply LIM_small].
    rewrite Forall_forall in H2. now apply H2.
Qed.

Lemma add_index_ge m vs x m' : mlist m vs -> add_index m x = Some m' -> (vs = [] \/ last vs 0 <= x)%N.
Proof.
  intros HM HA. destruct vs as [|v vs]; [now left|right].
  unfold add_index, insert_index in HA.
  assert (HI : enc_inv (check_and_enlarge m) (v :: vs)) by (apply enc_inv_enlarge; apply HM).
  destruct (mn (check_and_enlarge m) =? 0)%N eqn:E.
  - apply (mn_zero_iff _ _ HI) in E. discriminate.
  - rewrite (ei_high _ _ HI) in HA by discriminate.
    destruct (x <? last (v :: vs) 0)%N eqn:E2; [discriminate|]. now apply N.ltb_ge in E2.
Qed.

Lemma mlist_reload m m' vs : mlist m vs -> reloaded m m' -> mlist m' vs.
Proof.
  intros HM (g & pre & tail & H). pose proof (mlist_last _ _ HM) as HL. destruct HM as (H1 & H2 & H3).
  destruct (enc_inv_copy g m vs pre tail H1) as (m2 & E & _ & I & _).
  - eapply N.lt_trans; [exact HL|now vm_compute].
  - rewrite E in H. injection H as <-. split; [exact I|]. split; assumption.
Qed.

(* New numbers. *)
Lemma new_index_nth live : forall j i,
  nth_error (new_index_array live j) i =
  match nth_error live i with
  | None => None
  | Some false => Some None
  | Some true => Some (Some (j + N.of_nat (length (filter (fun b => b) (firstn i live))))%N)
  end.
Proof.
  induction live as [|b live IH]; intros j i; [destruct i; reflexivity|].
  destruct i as [|i].
  - destruct b; cbn; [|reflexivity]. do 2 f_equal. lia.
  - destruct b; cbn [new_index_array nth_error firstn filter length]; rewrite IH;
      destruct (nth_error live i) as [[|]|]; try reflexivity. do 2 f_equal. lia.
Qed.

Lemma new_number_lt live x : (x < N.of_nat (length live))%N -> alive live x = true ->
  (new_number live x < N.of_nat (length live))%N.
Proof.
  intros H _. unfold new_number.
  assert (length (filter (fun b : bool => b) (firstn (N.to_nat x) live)) <= N.to_nat x).
  { transitivity (length (firstn (N.to_nat x) live)); [|rewrite firstn_length; lia].
    generalize (firstn (N.to_nat x) live). intros l. induction l as [|[|] l IH]; cbn; lia. }
  lia.
Qed.

Lemma filter_firstn_mono (live : list bool) a b : a < b -> nth a live false = true ->
  length (filter (fun b => b) (firstn a live)) < length (filter (fun b => b) (firstn b live)).
Proof.
  revert a b. induction live as [|c live IH]; intros a b Hab Ha; [destruct a; discriminate|].
  destruct b as [|b]; [lia|]. destruct a as [|a].
  - cbn in Ha. subst c. cbn [firstn filter length]. lia.
  - cbn [firstn filter]. cbn in Ha. specialize (IH a b ltac:(lia) Ha). destruct c; cbn [length]; lia.
Qed.

Lemma new_number_mono live x y : alive live x = true -> (x < y)%N -> (new_number live x < new_number live y)%N.
Proof.
  intros Hx Hxy. unfold new_number.
  assert (length (filter (fun b : bool => b) (firstn (N.to_nat x) live)) <
          length (filter (fun b : bool => b) (firstn (N.to_nat y) live))).
  { apply filter_firstn_mono; [lia|exact Hx]. }
  lia.
Qed.

Lemma StronglySorted_app_inv {A} (R : A -> A -> Prop) l x : StronglySorted R (l ++ [x]) ->
  StronglySorted R l /\ Forall (fun a => R a x) l.
Proof.
  induction l as [|a l IH]; cbn; intros H; [split; constructor|].
  inversion H as [|? ? H1 H2]; subst. destruct (IH H1) as [A1 A2]. apply Forall_app in H2 as [B1 B2].
  inversion B2; subst. split; constructor; auto.
Qed.

Lemma int_small v : (v < LIM)%N -> (int_of_u32 v <? 0)%Z = false.
Proof.
  intros H. unfold LIM in H. unfold int_of_u32. change (2 ^ 31)%N with 2147483648%N.
  destruct (v <? 2147483648)%N eqn:E; [lia|]. apply N.ltb_ge in E. lia.
Qed.

Lemma renumber_cons live v vs : renumber live (v :: vs) =
  if alive live v then new_number live v :: renumber live vs else renumber live vs.
Proof. unfold renumber. cbn [filter]. destruct (alive live v); reflexivity. Qed.

Lemma snoc_new_above vs x : (forall v, In v vs -> v < x)%N -> snoc_new vs x = vs ++ [x].
Proof.
  intros H. destruct vs as [|a vs]; [reflexivity|]. unfold snoc_new.
  destruct (last (a :: vs) 0 <? x)%N eqn:E; [reflexivity|]. apply N.ltb_ge in E.
  assert (HI : In (last (a :: vs) 0%N) (a :: vs)) by (apply last_In; discriminate). specialize (H _ HI). lia.
Qed.

Lemma recode_values_ok live : (N.of_nat (length live) <= LIM)%N -> forall vs m acc,
  mlist m acc -> StronglySorted N.lt vs -> Forall (fun v => v < N.of_nat (length live))%N vs ->
  (forall a v, In a acc -> In v vs -> alive live v = true -> a < new_number live v)%N ->
  exists m', recode_values (new_index_array live 0) vs m = Ok m' /\ mlist m' (acc ++ renumber live vs).
Proof.
  intros HL. induction vs as [|v vs IH]; intros m acc HM HS HB HA.
  - exists m. cbn. rewrite app_nil_r. auto.
  - inversion HS as [|? ? S1 S2]; subst. inversion HB as [|? ? B1 B2]; subst.
    cbn [recode_values]. rewrite int_small by lia. rewrite new_index_nth.
    rewrite renumber_cons. rewrite Forall_forall in S2.
    destruct (nth_error live (N.to_nat v)) as [[|]|] eqn:E.
    + assert (AV : alive live v = true) by (unfold alive; erewrite nth_error_nth by exact E; reflexivity).
      rewrite AV. rewrite N.add_0_l. change (N.of_nat (length (filter (fun b : bool => b) (firstn (N.to_nat v) live)))) with (new_number live v).
      assert (SM : small (new_number live v)).
      { apply LIM_small. pose proof (new_number_lt live v B1 AV). lia. }
      assert (LT : forall a, In a acc -> (a < new_number live v)%N) by (intros a Ha; apply HA; auto; now left).
      destruct (mlist_add m acc (new_number live v) HM SM) as (m1 & E1 & M1).
      { destruct acc as [|a acc]; [now left|right]. apply N.lt_le_incl. apply LT. apply last_In. discriminate. }
      rewrite E1. rewrite snoc_new_above in M1 by assumption.
      destruct (IH m1 (acc ++ [new_number live v]) M1 S1 B2) as (m2 & E2 & M2).
      { intros a u Ha Hu AU. apply in_app_iff in Ha as [Ha|[<-|[]]].
        - apply HA; auto. now right.
        - apply new_number_mono; auto. }
      exists m2. rewrite <- app_assoc in M2. auto.
    + assert (AV : alive live v = false) by (unfold alive; erewrite nth_error_nth by exact E; reflexivity).
      rewrite AV. apply IH; auto. intros a u Ha Hu. apply HA; auto. now right.
    + apply nth_error_None in E. lia.
Qed.

Lemma recode_encoding_ok live m vs : (N.of_nat (length live) <= LIM)%N -> mlist m vs ->
  Forall (fun v => v < N.of_nat (length live))%N vs ->
  exists m', recode_encoding (new_index_array live 0) m = Ok m' /\ mlist m' (renumber live vs).
Proof.
  intros HL HM HB. unfold recode_encoding. destruct (mlist_lists m vs HM) as [q ->].
  apply (recode_values_ok live HL vs _ []); auto.
  - split; [|split; constructor]. split; [|congruence]. exists []. repeat split; constructor.
  - apply HM.
  - intros a v [].
Qed.

Lemma mlist_empty m vs : mlist m vs -> m_empty m = true <-> vs = [].
Proof. intros [H _]. unfold m_empty. now apply mn_zero_iff. Qed.

(* recode_values Ok implies numbers in range, needed when reachability only says it succeeded. *)
Lemma recode_values_range nidx : forall vs m m', recode_values nidx vs m = Ok m' ->
  Forall (fun v => v < N.of_nat (length nidx))%N vs.
Proof.
  induction vs as [|v vs IH]; intros m m' H; [constructor|]. cbn [recode_values] in H.
  destruct (int_of_u32 v <? 0)%Z; [discriminate|].
  destruct (nth_error nidx (N.to_nat v)) as [o|] eqn:E; [|discriminate].
  assert (L : N.to_nat v < length nidx) by (apply nth_error_Some; congruence).
  destruct o as [n|].
  - destruct (add_index m n); [|discriminate]. constructor; [lia|]. eapply IH; eassumption.
  - constructor; [lia|]. eapply IH; eassumption.
Qed.
Lemma new_index_length live : forall j, length (new_index_array live j) = length live.
Proof. induction live as [|[|] l IH]; intros j; cbn; auto. Qed.

(* Generic reachability: table invariant plus a payload invariant. *)
Section Gen.
Context {P : Type} (hashf : bytes -> N) (okp : P -> Prop).
Definition ginv (t : toktable P) : Prop := tinv hashf t /\ forall k, In k (toks (slots t)) -> okp (pay k).

Lemma ginv_amap t : ginv t <-> tinv hashf t /\ forall w p, amap t w = Some p -> okp p.
Proof.
  unfold ginv. split; intros [A B]; split; auto.
  - intros w p H. apply alook_some in H.
    + destruct H as (k & K1 & K2 & <-). now apply B.
    + destruct A as [->|A]; [constructor|apply A].
  - intros k Hk. apply (B (text k)). apply alook_some; eauto.
    destruct A as [->|A]; [constructor|apply A].
Qed.
Lemma ginv_new : ginv new_toktable.
Proof. split; [now left|]. intros k []. Qed.

Lemma ginv_add {U} pinit (upd : U -> P -> option P) t w u t' : ginv t -> okp pinit ->
  (forall p p', okp p -> upd u p = Some p' -> okp p') ->
  add_token hashf pinit upd t w u = Ok t' -> ginv t'.
Proof.
  intros HG HI HU HA. apply ginv_amap in HG as [HT HP]. apply ginv_amap.
  destruct (upd u (cur pinit (amap t (map tolower w)))) as [p'|] eqn:E.
  - destruct (add_token_ok hashf pinit upd t w u p' HT E) as (t2 & A & B & C).
    rewrite HA in A. injection A as <-. split; [now right|].
    intros v p. rewrite C. destruct (bytes_eqb _ v); [|apply HP]. intros [= <-].
    eapply HU; [|exact E]. unfold cur. destruct (amap t (map tolower w)) eqn:EA; [eapply HP; eassumption|assumption].
  - exfalso. (* the update failed, so add_token cannot have succeeded *)
    revert HA. unfold add_token. cbv zeta. set (lc := map tolower w) in *.
    assert (HND : NoDup (texts (slots t))) by (destruct HT as [->|HT]; [constructor|apply HT]).
    assert (E1 : exists t1, (if (hwm t <=? tn t)%N then enlarge t else Ok t) = Ok t1 /\ tinv1 hashf t1 /\
      Permutation (toks (slots t1)) (toks (slots t))).
    { destruct (hwm t <=? tn t)%N eqn:EE.
      - destruct (enlarge_ok hashf t HT) as (t1 & A & B & _ & D & F). eauto 6.
      - destruct HT as [->|HT]; [discriminate|]. exists t. auto. }
    destruct E1 as (t1 & E1 & HT1 & HPm). rewrite E1. cbn [bind].
    assert (AM : amap t1 lc = amap t lc) by (apply alook_perm; [apply HT1|assumption]).
    destruct HT1 as [Hm Ht Hc Hrr Hh Hp Hn Hs].
    destruct (probe_ok hashf (tmask t1) (slots t1) lc Hm Hp Hn Hs) as (x & X1 & X2 & X3).
    { unfold tsize in *. lia. }
    rewrite X1. cbn [bind]. rewrite Nnat.Nat2N.id, get_nth by assumption.
    destruct X3 as [(k & G & K & KI)|(G & NI & _)]; rewrite G.
    + assert (AK : amap t1 lc = Some (pay k)) by (apply alook_some; [assumption|eauto]).
      rewrite <- AM, AK in E. cbn [cur] in E. rewrite E. discriminate.
    + assert (AK : amap t1 lc = None) by (apply alook_none; exact NI).
      rewrite <- AM, AK in E. cbn [cur pay] in *. rewrite E. discriminate.
Qed.

Lemma entries_toks (t : toktable P) w p : In (w, p) (entries t) <-> exists k, In k (toks (slots t)) /\ text k = w /\ pay k = p.
Proof.
  unfold entries. rewrite in_map_iff. split.
  - intros (k & [= <- <-] & H). eauto.
  - intros (k & H & <- & <-). eauto.
Qed.
Lemma entries_fst (t : toktable P) : map fst (entries t) = texts (slots t).
Proof. unfold entries, texts. rewrite map_map. reflexivity. Qed.

Lemma ginv_load dup ents t' : NoDup (map fst ents) -> (forall w p, In (w, p) ents -> okp p) ->
  import_toktable hashf dup ents = Ok t' -> ginv t' /\ Permutation (entries t') ents.
Proof.
  intros HN HP HI. destruct (import_ok hashf dup ents HN) as (t2 & A & B & C).
  rewrite HI in A. injection A as <-. split; [|auto]. split; [now right|].
  intros k Hk. apply (HP (text k)). rewrite <- C. apply entries_toks. eauto.
Qed.

Lemma recode_slots_total (rec : P -> res P) dead sl r : recode_slots rec dead sl = Ok r ->
  forall k, In k (toks sl) -> exists p, rec (pay k) = Ok p.
Proof.
  revert r; induction sl as [|o sl IH]; intros r H k Hk; [contradiction|]. destruct o as [c|]; cbn [recode_slots toks] in *.
  - destruct (rec (pay c)) as [p|] eqn:E; [|discriminate]. cbn [bind] in H.
    destruct (recode_slots rec dead sl) as [r'|]; [|discriminate]. destruct Hk as [<-|Hk]; [eauto|]. eapply IH; eauto.
  - destruct (recode_slots rec dead sl) as [r'|]; [|discriminate]. eapply IH; eauto.
Qed.

Lemma close_gaps_det mask : forall f1 f2 (sl a b : list (option (token P))), close_gaps f1 mask sl = Ok a -> close_gaps f2 mask sl = Ok b -> a = b.
Proof.
  induction f1 as [|f1 IH]; intros [|f2] sl a b; cbn [close_gaps]; try discriminate.
  destruct (close_pass mask (seq 0 (length sl)) sl false) as [[s m]|]; [|discriminate]. cbn [bind fst snd].
  destruct m; [apply IH|congruence].
Qed.
Lemma recode_table_det (rec : P -> res P) dead t f1 f2 a b :
  recode_table f1 rec dead t = Ok a -> recode_table f2 rec dead t = Ok b -> a = b.
Proof.
  unfold recode_table. destruct (recode_slots rec dead (slots t)) as [[s n]|]; [|discriminate]. cbn [bind fst snd].
  destruct (0 <? n)%N; [|cbn; congruence].
  destruct (close_gaps f1 (tmask t) s) as [x|] eqn:E1; [|discriminate].
  destruct (close_gaps f2 (tmask t) s) as [y|] eqn:E2; [|discriminate].
  rewrite (close_gaps_det _ _ _ _ _ _ E1 E2). cbn. congruence.
Qed.

Lemma ginv_purge (rec : P -> res P) dead fuel t t' : ginv t ->
  (forall p p', okp p -> rec p = Ok p' -> okp p') ->
  recode_table fuel rec dead t = Ok t' -> ginv t'.
Proof.
  intros HG HR HA. destruct HG as [HT HP].
  assert (TOT : forall k, In k (toks (slots t)) -> exists p, rec (pay k) = Ok p).
  { unfold recode_table in HA. destruct (recode_slots rec dead (slots t)) as [r|] eqn:E; [|discriminate].
    eapply recode_slots_total; eassumption. }
  destruct (recode_table_ok hashf rec dead t HT TOT) as (t2 & b & A & B & C).
  rewrite (recode_table_det rec dead t fuel b t' t2 HA (A b ltac:(lia))).
  apply ginv_amap. split; [assumption|]. intros w p' H. apply C in H as (p & H1 & H2 & H3).
  apply HR with p; [|assumption]. destruct (proj1 (ginv_amap t) (conj HT HP)) as [_ Q]. eapply Q; eassumption.
Qed.
End Gen.

Definition ok1 (m : matches) : Prop := exists vs, mlist m vs.
Definition ok2 (p : matches * matches) : Prop := ok1 (fst p) /\ ok1 (snd p).

Lemma ok1_upd x m m' : small x -> ok1 m -> upd1 x m = Some m' -> ok1 m'.
Proof.
  intros Hx [vs H] E. unfold upd1 in E. pose proof (add_index_ge _ _ _ _ H E) as HL.
  destruct (mlist_add m vs x H Hx HL) as (m2 & A & B). rewrite E in A. injection A as <-. eexists; eassumption.
Qed.
Lemma ok1_rec live m m' : (N.of_nat (length live) <= 63 * 2 ^ 24)%N -> ok1 m ->
  recode1 (new_index_array live 0) m = Ok m' -> ok1 m'.
Proof.
  intros HL [vs H] E. unfold recode1 in E.
  assert (HB : Forall (fun v => v < N.of_nat (length live))%N vs).
  { unfold recode_encoding in E. destruct (mlist_lists m vs H) as [q R]. rewrite R in E.
    apply recode_values_range in E. now rewrite new_index_length in E. }
  destruct (recode_encoding_ok live m vs HL H HB) as (m2 & A & B). rewrite E in A. injection A as <-. eexists; eassumption.
Qed.

Lemma Forall2_fst_map {A B C} (R : A * B -> A * C -> Prop) l l' : (forall a b, R a b -> fst b = fst a) ->
  Forall2 R l l' -> map fst l' = map fst l.
Proof. intros H F. induction F as [|a b l l' HR F IH]; [reflexivity|]. cbn. rewrite IH. f_equal. now apply H. Qed.
Lemma Forall2_in_r {A B} (R : A -> B -> Prop) l l' b : Forall2 R l l' -> In b l' -> exists a, In a l /\ R a b.
Proof.
  intros F. induction F as [|x y l l' HR F IH]; intros []; [subst; exists x; split; [now left|assumption]|].
  destruct IH as (a & A1 & A2); [assumption|]. exists a. split; [now right|assumption].
Qed.
Lemma ginv_nodup {P} hashf okp (t : toktable P) : ginv hashf okp t -> NoDup (map fst (entries t)).
Proof. intros [HT _]. rewrite entries_fst. destruct HT as [->|HT]; [constructor|apply HT]. Qed.

Lemma index_table_ginv hashf t : index_table hashf t -> ginv hashf ok1 t.
Proof.
  induction 1 as [|t w x t' HT IH Hx HA|t ents t' HT IH HF HA|t live fuel t' HT IH HL HA].
  - apply ginv_new.
  - eapply ginv_add; [exact IH| | |exact HA].
    + exists []. apply mlist_init.
    + intros p p'. now apply ok1_upd.
  - assert (NF : NoDup (map fst ents)).
    { rewrite (Forall2_fst_map _ _ _ (fun a b (Q : _ /\ _) => proj1 Q) HF). eapply ginv_nodup; exact IH. }
    eapply (ginv_load hashf ok1 true ents t' NF); [|exact HA]. intros w p HI.
    destruct (Forall2_in_r _ _ _ _ HF HI) as ([w0 p0] & I0 & _ & R). cbn in R.
    apply entries_toks in I0 as (k & K1 & K2 & K3). destruct (proj2 IH k K1) as [vs V].
    exists vs. eapply mlist_reload; [|exact R]. now rewrite <- K3.
  - eapply ginv_purge; [exact IH| |exact HA]. intros p p'. now apply ok1_rec.
Qed.

Lemma index_table2_ginv hashf t : index_table2 hashf t -> ginv hashf ok2 t.
Proof.
  induction 1 as [|t w x b t' HT IH Hx HA|t ents t' HT IH HF HA|t live fuel t' HT IH HL HA].
  - apply ginv_new.
  - eapply ginv_add; [exact IH| | |exact HA].
    + split; exists []; apply mlist_init.
    + intros [p q] [p' q'] [O1 O2]. unfold upd2. cbn [fst snd] in *.
      destruct (add_index p x) as [m0|] eqn:E0; [|discriminate]. destruct b.
      * destruct (add_index q x) as [m1|] eqn:E1; [|discriminate]. intros [= <- <-].
        split; cbn; eapply ok1_upd; [exact Hx| exact O1|exact E0|exact Hx|exact O2|exact E1].
      * intros [= <- <-]. split; cbn; [|exact O2]. eapply ok1_upd; [exact Hx|exact O1|exact E0].
  - assert (NF : NoDup (map fst ents)).
    { rewrite (Forall2_fst_map _ _ _ (fun a b (Q : _ /\ _) => proj1 Q) HF). eapply ginv_nodup; exact IH. }
    eapply (ginv_load hashf ok2 false ents t' NF); [|exact HA]. intros w p HI.
    destruct (Forall2_in_r _ _ _ _ HF HI) as ([w0 p0] & I0 & _ & R1 & R2). cbn in R1, R2.
    apply entries_toks in I0 as (k & K1 & K2 & K3). destruct (proj2 IH k K1) as [[vs V] [vs' V']]. subst p0.
    split; [exists vs|exists vs']; eapply mlist_reload; eassumption.
  - eapply ginv_purge; [exact IH| |exact HA]. intros [p q] [p' q'] [O1 O2]. unfold recode2. cbn [fst snd] in *.
    destruct (recode_encoding _ p) as [a|] eqn:E1; [|discriminate]. cbn [bind].
    destruct (recode_encoding _ q) as [c|] eqn:E2; [|discriminate]. cbn [bind]. intros [= <- <-].
    split; cbn; [eapply (ok1_rec live p)|eapply (ok1_rec live q)]; eassumption.
Qed.

(* ---- C05 ---- *)
Lemma upd1_runs xs : forall o vs,
  mlist (cur init_matches o) vs -> (o = None -> vs = []) -> Forall small xs ->
  (match vs with [] => gaps_ok 0%N xs | _ => gaps_ok (last vs 0%N) xs end) ->
  exists o', runs init_matches upd1 o xs = Some o' /\ mlist (cur init_matches o') (snoc_all vs xs) /\
    (o' = None <-> o = None /\ xs = []).
Proof.
  induction xs as [|x xs IH]; intros o vs HM HO HF HG.
  - exists o. cbn. split; [reflexivity|]. split; [assumption|]. tauto.
  - inversion HF as [|? ? F1 F2]; subst. cbn [runs].
    assert (HL : (vs = [] \/ last vs 0 <= x)%N).
    { destruct vs; [now left|right]. cbn [gaps_ok] in HG. tauto. }
    destruct (mlist_add _ _ x HM F1 HL) as (m1 & E1 & M1). unfold upd1 at 1. rewrite E1.
    destruct (IH (Some m1) (snoc_new vs x)) as (o' & A & B & C); auto.
    + discriminate.
    + destruct (snoc_new vs x) as [|a l] eqn:E; [now apply snoc_new_nonnil in E|]. rewrite <- E.
      destruct vs as [|v0 vs'].
      * cbn in E. injection E as <- <-. cbn. cbn in HG. tauto.
      * rewrite last_snoc_new; [|congruence|]; cbn [gaps_ok] in HG; tauto.
    + exists o'. split; [assumption|]. split; [exact B|]. rewrite C. split; [intros [? _]; discriminate|intros [_ ?]; discriminate].
Qed.

Lemma sorted_gaps xs : forall prev, StronglySorted N.le xs -> Forall small xs -> Forall (N.le prev) xs -> gaps_ok prev xs.
Proof.
  induction xs as [|x xs IH]; intros prev HS HF HP; cbn [gaps_ok]; [exact I|].
  inversion HS; inversion HF; inversion HP; subst. split; [assumption|]. split; [|now apply IH].
  assert (small x) by assumption. apply small_LIM in H. lia.
Qed.

Lemma us_of_sorted {U} (key : U -> N) w (hs : list (bytes * U)) :
  StronglySorted N.le (map (fun h => key (snd h)) hs) -> StronglySorted N.le (map key (us_of w hs)).
Proof.
  unfold us_of. induction hs as [|[v u] hs IH]; cbn [map filter fst snd]; intros H; [constructor|].
  inversion H as [|? ? H1 H2]; subst. destruct (bytes_eqb _ w); [|now apply IH].
  cbn [map snd]. constructor; [now apply IH|]. rewrite Forall_forall in *. intros x Hx.
  apply H2. apply in_map_iff in Hx as (y & Y1 & Y2). apply in_map_iff in Y2 as (z & Z1 & Z2).
  apply filter_In in Z2 as [Z2 _]. apply in_map_iff. exists z. split; [now subst|assumption].
Qed.
Lemma us_of_in {U} w (hs : list (bytes * U)) u : In u (us_of w hs) <-> exists v, In (v, u) hs /\ map tolower v = w.
Proof.
  unfold us_of. rewrite in_map_iff. split.
  - intros ([v u'] & E & H). cbn in E. subst u'. apply filter_In in H as [H1 H2]. cbn in H2.
    apply bytes_eqb_eq in H2. eauto.
  - intros (v & H & E). exists (v, u). split; [reflexivity|]. apply filter_In. split; [assumption|]. cbn. now apply bytes_eqb_eq.
Qed.
Lemma amap_new {P} w : amap (@new_toktable P) w = None.
Proof. reflexivity. Qed.

Lemma amap_entries {P} hashf (t : toktable P) w p : tinv hashf t -> amap t w = Some p <-> In (w, p) (entries t).
Proof.
  intros HT. rewrite entries_toks. unfold amap. apply alook_some.
  destruct HT as [->|HT]; [constructor|apply HT].
Qed.
Lemma tinv_count {P} hashf (t : toktable P) : tinv hashf t -> tn t = N.of_nat (length (entries t)).
Proof. intros HT. unfold entries. rewrite map_length. destruct HT as [->|HT]; [reflexivity|apply HT]. Qed.

Lemma snoc_all_nil xs : Forall small xs -> StronglySorted N.le xs ->
  StronglySorted N.lt (snoc_all [] xs) /\ forall v, In v (snoc_all [] xs) <-> In v xs.
Proof.
  intros HF HS. destruct (snoc_all_spec xs []) as [S1 S2].
  - intros i j a b _ Hx. destruct i; discriminate.
  - apply sorted_gaps; auto. apply Forall_forall. intros x _. lia.
  - split; [now apply ssorted_Strongly|]. intros v. rewrite S2. cbn. tauto.
Qed.

Lemma table_is_map hashf (hs : list (bytes * N)) :
  StronglySorted N.le (map snd hs) -> Forall small (map snd hs) ->
  exists t, add_tokens hashf init_matches upd1 new_toktable hs = Ok t /\
    NoDup (map fst (entries t)) /\ tn t = N.of_nat (length (entries t)) /\
    (forall w, In w (map fst (entries t)) <-> exists v i, In (v, i) hs /\ map tolower v = w) /\
    (forall w m, In (w, m) (entries t) -> exists ys, lists m ys /\ StronglySorted N.lt ys /\
        forall i, In i ys <-> exists v, In (v, i) hs /\ map tolower v = w).
Proof.
  intros HS HF.
  assert (HSM : forall w, Forall small (us_of w hs)).
  { intros w. apply Forall_forall. intros i Hi. apply us_of_in in Hi as (v & V & _).
    rewrite Forall_forall in HF. apply HF. apply in_map_iff. exists (v, i). auto. }
  assert (HSS : forall w, StronglySorted N.le (us_of w hs)).
  { intros w. rewrite <- (map_id (us_of w hs)). apply us_of_sorted with (key := fun x => x). exact HS. }
  assert (RW : forall w, exists o', runs init_matches upd1 None (us_of w hs) = Some o' /\
      mlist (cur init_matches o') (snoc_all [] (us_of w hs)) /\ (o' = None <-> us_of w hs = [])).
  { intros w. destruct (upd1_runs (us_of w hs) None []) as (o' & A & B & C); auto.
    - apply mlist_init.
    - apply sorted_gaps; auto. apply Forall_forall. intros; lia.
    - exists o'. split; [assumption|]. split; [assumption|]. rewrite C. tauto. }
  destruct (add_tokens_ok hashf init_matches upd1 hs new_toktable) as (t & A & B & C).
  - now left.
  - intros w. rewrite amap_new. destruct (RW w) as (o' & -> & _). discriminate.
  - exists t. split; [assumption|].
    split; [rewrite entries_fst; destruct B as [->|B]; [constructor|apply B]|].
    split; [eapply tinv_count; exact B|].
    assert (OW : forall w m, In (w, m) (entries t) -> mlist m (snoc_all [] (us_of w hs)) /\ us_of w hs <> []).
    { intros w m H. apply (amap_entries hashf t w m B) in H. specialize (C w). rewrite amap_new in C.
      destruct (RW w) as (o' & R1 & R2 & R3). rewrite R1, H in C. injection C as ->. cbn in R2. split; [exact R2|].
      intros E. apply R3 in E. discriminate. }
    split.
    + intros w. split.
      * intros H. apply in_map_iff in H as ([w' m] & E & H). cbn in E. subst w'.
        destruct (OW w m H) as [_ NE]. destruct (us_of w hs) as [|i us] eqn:EU; [congruence|].
        assert (In i (us_of w hs)) by (rewrite EU; now left). apply us_of_in in H0 as (v & V1 & V2). eauto.
      * intros (v & i & H & E). specialize (C w). rewrite amap_new in C. destruct (RW w) as (o' & R1 & R2 & R3).
        rewrite R1 in C. injection C as ->. destruct (amap t w) as [m|] eqn:EA.
        -- apply (amap_entries hashf t w m B) in EA. apply in_map_iff. exists (w, m). auto.
        -- exfalso. assert (us_of w hs = []) by now apply R3.
           assert (In i (us_of w hs)) by (apply us_of_in; eauto). rewrite H0 in H1. contradiction.
    + intros w m H. destruct (OW w m H) as [M _]. exists (snoc_all [] (us_of w hs)).
      destruct (snoc_all_nil (us_of w hs)) as [S1 S2]; auto.
      split; [now apply mlist_lists|]. split; [exact S1|]. intros i. rewrite S2. apply us_of_in.
Qed.

(* The two-list table. *)
Definition ms2 (us : list (N * bool)) : list N := map fst us.
Definition ms2t (us : list (N * bool)) : list N := map fst (filter snd us).

Lemma upd2_runs us : forall o vs0 vs1,
  mlist (fst (cur (init_matches, init_matches) o)) vs0 -> mlist (snd (cur (init_matches, init_matches) o)) vs1 ->
  Forall small (ms2 us) ->
  (match vs0 with [] => gaps_ok 0%N (ms2 us) | _ => gaps_ok (last vs0 0%N) (ms2 us) end) ->
  (match vs1 with [] => gaps_ok 0%N (ms2t us) | _ => gaps_ok (last vs1 0%N) (ms2t us) end) ->
  exists o', runs (init_matches, init_matches) upd2 o us = Some o' /\
    mlist (fst (cur (init_matches, init_matches) o')) (snoc_all vs0 (ms2 us)) /\
    mlist (snd (cur (init_matches, init_matches) o')) (snoc_all vs1 (ms2t us)) /\
    (o' = None <-> o = None /\ us = []).
Proof.
  assert (STEP : forall vs x xs, match vs with [] => gaps_ok 0%N (x :: xs) | _ => gaps_ok (last vs 0%N) (x :: xs) end ->
     (vs = [] \/ last vs 0 <= x)%N /\
     match snoc_new vs x with [] => gaps_ok 0%N xs | _ => gaps_ok (last (snoc_new vs x) 0%N) xs end).
  { intros vs x xs HG. split.
    - destruct vs; [now left|right]. cbn [gaps_ok] in HG. tauto.
    - destruct (snoc_new vs x) as [|a l] eqn:E; [now apply snoc_new_nonnil in E|]. rewrite <- E.
      destruct vs as [|v0 vs'].
      + cbn in E. injection E as <- <-. cbn. cbn in HG. tauto.
      + rewrite last_snoc_new; [|congruence|]; cbn [gaps_ok] in HG; tauto. }
  induction us as [|[x b] us IH]; intros o vs0 vs1 M0 M1 HF G0 G1.
  - exists o. cbn. split; [reflexivity|]. split; [assumption|]. split; [assumption|]. tauto.
  - cbn [ms2 map fst] in HF, G0. inversion HF as [|? ? F1 F2]; subst. cbn [runs].
    destruct (STEP _ _ _ G0) as [L0 G0'].
    destruct (mlist_add _ _ x M0 F1 L0) as (m0 & E0 & N0). unfold upd2 at 1. cbn [fst snd]. rewrite E0.
    destruct b.
    + unfold ms2t in G1. cbn [filter snd map fst] in G1. destruct (STEP _ _ _ G1) as [L1 G1'].
      destruct (mlist_add _ _ x M1 F1 L1) as (m1 & E1 & N1). rewrite E1.
      destruct (IH (Some (m0, m1)) (snoc_new vs0 x) (snoc_new vs1 x)) as (o' & A & B & C & D); auto.
      exists o'. split; [assumption|]. split; [exact B|]. split; [exact C|]. rewrite D.
      split; [intros [? _]; discriminate|intros [_ ?]; discriminate].
    + destruct (IH (Some (m0, snd (cur (init_matches, init_matches) o))) (snoc_new vs0 x) vs1) as (o' & A & B & C & D); auto.
      exists o'. split; [assumption|]. split; [exact B|]. split; [exact C|]. rewrite D.
      split; [intros [? _]; discriminate|intros [_ ?]; discriminate].
Qed.

Lemma sorted_filter2 us : StronglySorted N.le (ms2 us) -> StronglySorted N.le (ms2t us).
Proof.
  unfold ms2, ms2t. induction us as [|[x b] us IH]; cbn [map filter fst snd]; intros H; [constructor|].
  inversion H as [|? ? H1 H2]; subst. destruct b; [|now apply IH]. cbn [map fst]. constructor; [now apply IH|].
  rewrite Forall_forall in *. intros y Hy. apply H2. apply in_map_iff in Hy as (z & Z1 & Z2).
  apply filter_In in Z2 as [Z2 _]. apply in_map_iff. eauto.
Qed.
Lemma ms2t_sub us i : In i (ms2t us) <-> In (i, true) us.
Proof.
  unfold ms2t. rewrite in_map_iff. split.
  - intros ([j b] & E & H). cbn in E. subst j. apply filter_In in H as [H1 H2]. cbn in H2. now subst b.
  - intros H. exists (i, true). split; [reflexivity|]. apply filter_In. auto.
Qed.

Lemma table2_is_map hashf (hs : list (bytes * (N * bool))) :
  StronglySorted N.le (map (fun h => fst (snd h)) hs) -> Forall small (map (fun h => fst (snd h)) hs) ->
  exists t, add_tokens hashf (init_matches, init_matches) upd2 new_toktable hs = Ok t /\
    NoDup (map fst (entries t)) /\ tn t = N.of_nat (length (entries t)) /\
    (forall w, In w (map fst (entries t)) <-> exists v i b, In (v, (i, b)) hs /\ map tolower v = w) /\
    (forall w m0 m1, In (w, (m0, m1)) (entries t) -> exists ys zs, lists m0 ys /\ lists m1 zs /\
        StronglySorted N.lt ys /\ StronglySorted N.lt zs /\
        (forall i, In i ys <-> exists v b, In (v, (i, b)) hs /\ map tolower v = w) /\
        (forall i, In i zs <-> exists v, In (v, (i, true)) hs /\ map tolower v = w)).
Proof.
  intros HS HF.
  assert (HSM : forall w, Forall small (ms2 (us_of w hs))).
  { intros w. apply Forall_forall. intros i Hi. apply in_map_iff in Hi as (u & <- & Hi). apply us_of_in in Hi as (v & V & _).
    rewrite Forall_forall in HF. apply HF. apply in_map_iff. exists (v, u). auto. }
  assert (HSS : forall w, StronglySorted N.le (ms2 (us_of w hs))) by (intros w; apply us_of_sorted with (key := fst); exact HS).
  assert (HST : forall w, StronglySorted N.le (ms2t (us_of w hs))) by (intros w; now apply sorted_filter2).
  assert (HSMT : forall w, Forall small (ms2t (us_of w hs))).
  { intros w. apply Forall_forall. intros i Hi. apply ms2t_sub in Hi. specialize (HSM w). rewrite Forall_forall in HSM.
    apply HSM. apply in_map_iff. exists (i, true). auto. }
  set (pi := (init_matches, init_matches)).
  assert (RW : forall w, exists o', runs pi upd2 None (us_of w hs) = Some o' /\
      mlist (fst (cur pi o')) (snoc_all [] (ms2 (us_of w hs))) /\
      mlist (snd (cur pi o')) (snoc_all [] (ms2t (us_of w hs))) /\ (o' = None <-> us_of w hs = [])).
  { intros w. destruct (upd2_runs (us_of w hs) None [] []) as (o' & A & B & C & D); auto.
    - apply mlist_init.
    - apply mlist_init.
    - apply sorted_gaps; auto. apply Forall_forall. intros; lia.
    - apply sorted_gaps; auto. apply Forall_forall. intros; lia.
    - exists o'. split; [assumption|]. split; [assumption|]. split; [assumption|]. rewrite D. tauto. }
  destruct (add_tokens_ok hashf pi upd2 hs new_toktable) as (t & A & B & C).
  - now left.
  - intros w. rewrite amap_new. destruct (RW w) as (o' & -> & _). discriminate.
  - exists t. split; [assumption|].
    split; [rewrite entries_fst; destruct B as [->|B]; [constructor|apply B]|].
    split; [eapply tinv_count; exact B|].
    assert (OW : forall w m0 m1, In (w, (m0, m1)) (entries t) -> mlist m0 (snoc_all [] (ms2 (us_of w hs))) /\
        mlist m1 (snoc_all [] (ms2t (us_of w hs))) /\ us_of w hs <> []).
    { intros w m0 m1 H. apply (amap_entries hashf t w _ B) in H. specialize (C w). rewrite amap_new in C.
      destruct (RW w) as (o' & R1 & R2 & R3 & R4). rewrite R1, H in C. injection C as ->. cbn in R2, R3. split; [exact R2|].
      split; [exact R3|]. intros E. apply R4 in E. discriminate. }
    split.
    + intros w. split.
      * intros H. apply in_map_iff in H as ([w' [m0 m1]] & E & H). cbn in E. subst w'.
        destruct (OW w m0 m1 H) as (_ & _ & NE). destruct (us_of w hs) as [|[i b] us] eqn:EU; [congruence|].
        assert (In (i, b) (us_of w hs)) by (rewrite EU; now left). apply us_of_in in H0 as (v & V1 & V2). eauto.
      * intros (v & i & b & H & E). specialize (C w). rewrite amap_new in C. destruct (RW w) as (o' & R1 & _ & _ & R3).
        rewrite R1 in C. injection C as ->. destruct (amap t w) as [m|] eqn:EA.
        -- apply (amap_entries hashf t w m B) in EA. apply in_map_iff. exists (w, m). auto.
        -- exfalso. assert (us_of w hs = []) by now apply R3.
           assert (In (i, b) (us_of w hs)) by (apply us_of_in; eauto). rewrite H0 in H1. contradiction.
    + intros w m0 m1 H. destruct (OW w m0 m1 H) as (M0 & M1 & _).
      exists (snoc_all [] (ms2 (us_of w hs))), (snoc_all [] (ms2t (us_of w hs))).
      destruct (snoc_all_nil (ms2 (us_of w hs))) as [S1 S2]; auto.
      destruct (snoc_all_nil (ms2t (us_of w hs))) as [S3 S4]; auto.
      split; [now apply mlist_lists|]. split; [now apply mlist_lists|]. split; [exact S1|]. split; [exact S3|]. split.
      * intros i. rewrite S2. unfold ms2. rewrite in_map_iff. split.
        -- intros ([j b] & E & HI). cbn in E. subst j. apply us_of_in in HI as (v & V1 & V2). eauto.
        -- intros (v & b & V1 & V2). exists (i, b). split; [reflexivity|]. apply us_of_in. eauto.
      * intros i. rewrite S4, ms2t_sub. apply us_of_in.
Qed.

(* Any later state: one entry per word and an exact count. *)
Lemma index_table_distinct hashf t : index_table hashf t ->
  NoDup (map fst (entries t)) /\ tn t = N.of_nat (length (entries t)) /\
  (forall w m, In (w, m) (entries t) -> exists ys, lists m ys /\ StronglySorted N.lt ys).
Proof.
  intros H. apply index_table_ginv in H as G. split; [eapply ginv_nodup; exact G|]. destruct G as [G1 G2].
  split; [eapply tinv_count; exact G1|]. intros w m HI. apply entries_toks in HI as (k & K1 & K2 & <-).
  destruct (G2 k K1) as [vs V]. exists vs. split; [now apply mlist_lists|apply V].
Qed.
Lemma index_table2_distinct hashf t : index_table2 hashf t ->
  NoDup (map fst (entries t)) /\ tn t = N.of_nat (length (entries t)) /\
  (forall w m0 m1, In (w, (m0, m1)) (entries t) -> exists ys zs, lists m0 ys /\ lists m1 zs /\
      StronglySorted N.lt ys /\ StronglySorted N.lt zs).
Proof.
  intros H. apply index_table2_ginv in H as G. split; [eapply ginv_nodup; exact G|]. destruct G as [G1 G2].
  split; [eapply tinv_count; exact G1|]. intros w m0 m1 HI. apply entries_toks in HI as (k & K1 & K2 & K3).
  destruct (G2 k K1) as [[vs V] [vs' V']]. rewrite K3 in *. cbn in *. exists vs, vs'. repeat split; try (now apply mlist_lists); [apply V|apply V'].
Qed.

(* One more insertion into any such table. *)
Lemma index_table_insert hashf t w x : index_table hashf t -> small x ->
  (forall m ys i, In (map tolower w, m) (entries t) -> lists m ys -> In i ys -> (i <= x)%N) ->
  exists t', add_token hashf init_matches upd1 t w x = Ok t' /\
    (forall v, v <> map tolower w -> forall m, In (v, m) (entries t') <-> In (v, m) (entries t)) /\
    exists m' ys', In (map tolower w, m') (entries t') /\ lists m' ys' /\
      forall i, In i ys' <-> i = x \/ exists m ys, In (map tolower w, m) (entries t) /\ lists m ys /\ In i ys.
Proof.
  intros HT Hx Hmax. apply index_table_ginv in HT as G. destruct G as [GT GP].
  set (lc := map tolower w) in *.
  assert (EX : exists vs, mlist (cur init_matches (amap t lc)) vs /\ (amap t lc = None -> vs = [])).
  { destruct (amap t lc) as [m|] eqn:E.
    - apply (amap_entries hashf t lc m GT) in E. apply entries_toks in E as (k & K1 & K2 & <-).
      destruct (GP k K1) as [vs V]. exists vs. split; [exact V|discriminate].
    - exists []. split; [apply mlist_init|reflexivity]. }
  destruct EX as (vs & MV & EV).
  assert (HL : (vs = [] \/ last vs 0 <= x)%N).
  { destruct vs as [|v vs]; [now left|right]. destruct (amap t lc) as [m|] eqn:E; [|specialize (EV eq_refl); discriminate].
    apply (amap_entries hashf t lc m GT) in E. apply (Hmax m (v :: vs)); [exact E|now apply mlist_lists|]. apply last_In. discriminate. }
  destruct (mlist_add _ _ x MV Hx HL) as (m1 & E1 & M1).
  destruct (add_token_ok hashf init_matches upd1 t w x m1 GT E1) as (t' & A & B & C).
  exists t'. split; [exact A|]. fold lc in C. split.
  - intros v Hv m. rewrite <- (amap_entries hashf t' v m (or_intror B)), <- (amap_entries hashf t v m GT), C.
    destruct (bytes_eqb lc v) eqn:E; [apply bytes_eqb_eq in E; congruence|tauto].
  - exists m1, (snoc_new vs x). split.
    + apply (amap_entries hashf t' lc m1 (or_intror B)). rewrite C, bytes_eqb_refl. reflexivity.
    + split; [now apply mlist_lists|]. intros i.
      destruct (snoc_new_spec vs x) as [_ S2]; [apply Strongly_ssorted; apply MV|exact HL|]. rewrite S2.
      destruct (amap t lc) as [m|] eqn:E.
      * apply (amap_entries hashf t lc m GT) in E. cbn in MV. split.
        -- intros [H|H]; [|now left]. right. exists m, vs. split; [exact E|]. split; [now apply mlist_lists|exact H].
        -- intros [H|(m' & ys & H1 & H2 & H3)]; [now right|left].
           apply (amap_entries hashf t lc m' GT) in H1. apply (amap_entries hashf t lc m GT) in E. rewrite E in H1. injection H1 as <-.
           rewrite (lists_fun m vs ys); [exact H3|now apply mlist_lists|exact H2].
      * rewrite (EV eq_refl). cbn. split; [intros [[]|H]; now left|]. intros [H|(m' & ys & H1 & _)]; [now right|].
        apply (amap_entries hashf t lc m' GT) in H1. congruence.
Qed.

(* ---- C07 ---- *)
Lemma renumber_nil live xs : renumber live xs = [] <-> (forall x, In x xs -> alive live x = false).
Proof.
  unfold renumber. split.
  - intros H x Hx. destruct (alive live x) eqn:E; [|reflexivity].
    assert (In (new_number live x) (map (new_number live) (filter (alive live) xs))) by (apply in_map; apply filter_In; auto).
    rewrite H in H0. contradiction.
  - intros H. destruct (filter (alive live) xs) as [|a l] eqn:E; [reflexivity|].
    assert (In a (filter (alive live) xs)) by (rewrite E; now left). apply filter_In in H0 as [H1 H2]. rewrite (H a H1) in H2. discriminate.
Qed.

Lemma purge_table hashf live t : index_table hashf t -> (N.of_nat (length live) <= 63 * 2 ^ 24)%N ->
  (forall w m ys i, In (w, m) (entries t) -> lists m ys -> In i ys -> (i < N.of_nat (length live))%N) ->
  exists t' bound, (forall fuel, bound <= fuel ->
      recode_table fuel (recode1 (new_index_array live 0)) dead1 t = Ok t') /\
    index_table hashf t' /\
    forall w ys, (exists m', In (w, m') (entries t') /\ lists m' ys) <->
      ys <> [] /\ exists m xs, In (w, m) (entries t) /\ lists m xs /\ ys = renumber live xs.
Proof.
  intros HT HL HB. apply index_table_ginv in HT as G. destruct G as [GT GP].
  assert (TOT : forall w m vs, In (w, m) (entries t) -> mlist m vs ->
     exists p, recode1 (new_index_array live 0) m = Ok p /\ mlist p (renumber live vs)).
  { intros w m vs HI HM. apply recode_encoding_ok; auto. apply Forall_forall. intros i Hi.
    exact (HB w m vs i HI (mlist_lists m vs HM) Hi). }
  assert (TOK : forall k, In k (toks (slots t)) -> exists p, recode1 (new_index_array live 0) (pay k) = Ok p).
  { intros k Hk. destruct (GP k Hk) as [vs V]. destruct (TOT (text k) (pay k) vs) as (p & E & _); [apply entries_toks; eauto|exact V|eauto]. }
  destruct (recode_table_ok hashf (recode1 (new_index_array live 0)) dead1 t GT TOK) as (t' & b & A & B & C).
  exists t', b. split; [exact A|]. split; [eapply IT_purge; [exact HT|exact HL|exact (A b ltac:(lia))]|].
  intros w ys. split.
  - intros (m' & H1 & H2). apply (amap_entries hashf t' w m' B) in H1. apply C in H1 as (p & P1 & P2 & P3).
    apply (amap_entries hashf t w p GT) in P1. assert (P1' := P1). apply entries_toks in P1 as (k & K1 & K2 & K3).
    destruct (GP k K1) as [vs V]. rewrite K3 in V. destruct (TOT w p vs P1' V) as (p2 & Q1 & Q2).
    rewrite P2 in Q1. injection Q1 as <-. assert (ys = renumber live vs) by (eapply lists_fun; [exact H2|now apply mlist_lists]).
    split; [|exists p, vs; split; [exact P1'|split; [now apply mlist_lists|assumption]]].
    intros ->. symmetry in H. apply (mlist_empty _ _ Q2) in H. unfold dead1 in P3. congruence.
  - intros (NE & m & xs & H1 & H2 & ->). assert (H1' := H1). apply entries_toks in H1 as (k & K1 & K2 & K3).
    destruct (GP k K1) as [vs V]. rewrite K3 in V. assert (xs = vs) by (eapply lists_fun; [exact H2|now apply mlist_lists]). subst xs.
    destruct (TOT w m vs H1' V) as (p2 & Q1 & Q2). exists p2. split; [|now apply mlist_lists].
    apply (amap_entries hashf t' w p2 B). apply C. exists m. split; [now apply (amap_entries hashf t w m GT)|]. split; [exact Q1|].
    unfold dead1. destruct (m_empty p2) eqn:E; [|reflexivity]. apply (mlist_empty _ _ Q2) in E. contradiction.
Qed.

Lemma purge_table2 hashf live t : index_table2 hashf t -> (N.of_nat (length live) <= 63 * 2 ^ 24)%N ->
  (forall w m0 m1 ys i, In (w, (m0, m1)) (entries t) -> lists m0 ys \/ lists m1 ys -> In i ys -> (i < N.of_nat (length live))%N) ->
  exists t' bound, (forall fuel, bound <= fuel ->
      recode_table fuel (recode2 (new_index_array live 0)) dead2 t = Ok t') /\
    index_table2 hashf t' /\
    forall w ys zs, (exists m0 m1, In (w, (m0, m1)) (entries t') /\ lists m0 ys /\ lists m1 zs) <->
      ~ (ys = [] /\ zs = []) /\ exists m0 m1 xs us, In (w, (m0, m1)) (entries t) /\ lists m0 xs /\ lists m1 us /\
         ys = renumber live xs /\ zs = renumber live us.
Proof.
  intros HT HL HB. apply index_table2_ginv in HT as G. destruct G as [GT GP].
  assert (TOT : forall w m0 m1 vs us, In (w, (m0, m1)) (entries t) -> mlist m0 vs -> mlist m1 us ->
     exists p0 p1, recode2 (new_index_array live 0) (m0, m1) = Ok (p0, p1) /\ mlist p0 (renumber live vs) /\ mlist p1 (renumber live us)).
  { intros w m0 m1 vs us HI HM0 HM1.
    destruct (recode_encoding_ok live m0 vs HL HM0) as (p0 & E0 & Q0).
    { apply Forall_forall. intros i Hi. exact (HB w m0 m1 vs i HI (or_introl (mlist_lists m0 vs HM0)) Hi). }
    destruct (recode_encoding_ok live m1 us HL HM1) as (p1 & E1 & Q1).
    { apply Forall_forall. intros i Hi. exact (HB w m0 m1 us i HI (or_intror (mlist_lists m1 us HM1)) Hi). }
    exists p0, p1. unfold recode2. cbn [fst snd]. rewrite E0. cbn [bind]. rewrite E1. auto. }
  assert (TOK : forall k, In k (toks (slots t)) -> exists p, recode2 (new_index_array live 0) (pay k) = Ok p).
  { intros k Hk. destruct (GP k Hk) as [[vs V] [us V']]. destruct (pay k) as [m0 m1] eqn:EP.
    destruct (TOT (text k) m0 m1 vs us) as (p0 & p1 & E & _); [apply entries_toks; eauto|exact V|exact V'|eauto]. }
  destruct (recode_table_ok hashf (recode2 (new_index_array live 0)) dead2 t GT TOK) as (t' & b & A & B & C).
  exists t', b. split; [exact A|]. split; [eapply IT2_purge; [exact HT|exact HL|exact (A b ltac:(lia))]|].
  intros w ys zs. split.
  - intros (m0' & m1' & H1 & H2 & H3). apply (amap_entries hashf t' w _ B) in H1. apply C in H1 as ([p0 p1] & P1 & P2 & P3).
    apply (amap_entries hashf t w _ GT) in P1. assert (P1' := P1). apply entries_toks in P1 as (k & K1 & K2 & K3).
    destruct (GP k K1) as [[vs V] [us V']]. rewrite K3 in V, V'. cbn in V, V'.
    destruct (TOT w p0 p1 vs us P1' V V') as (q0 & q1 & Q & Q1 & Q2).
    rewrite P2 in Q. injection Q as <- <-.
    assert (E1 : ys = renumber live vs) by (eapply lists_fun; [exact H2|now apply mlist_lists]).
    assert (E2 : zs = renumber live us) by (eapply lists_fun; [exact H3|now apply mlist_lists]).
    split.
    + intros [-> ->]. symmetry in E1, E2. apply (mlist_empty _ _ Q1) in E1. apply (mlist_empty _ _ Q2) in E2.
      unfold dead2 in P3. cbn in P3. rewrite E1, E2 in P3. discriminate.
    + exists p0, p1, vs, us. split; [exact P1'|]. split; [now apply mlist_lists|]. split; [now apply mlist_lists|]. auto.
  - intros (NE & m0 & m1 & xs & us & H1 & H2 & H3 & -> & ->). assert (H1' := H1). apply entries_toks in H1 as (k & K1 & K2 & K3).
    destruct (GP k K1) as [[vs V] [vs' V']]. rewrite K3 in V, V'. cbn in V, V'.
    assert (xs = vs) by (eapply lists_fun; [exact H2|now apply mlist_lists]).
    assert (us = vs') by (eapply lists_fun; [exact H3|now apply mlist_lists]). subst xs us.
    destruct (TOT w m0 m1 vs vs' H1' V V') as (q0 & q1 & Q & Q1 & Q2). exists q0, q1.
    split; [|split; now apply mlist_lists].
    apply (amap_entries hashf t' w _ B). apply C. exists (m0, m1). split; [now apply (amap_entries hashf t w _ GT)|]. split; [exact Q|].
    unfold dead2. cbn. destruct (m_empty q0 && m_empty q1)%bool eqn:E; [|reflexivity]. apply andb_true_iff in E as [Ea Eb].
    apply (mlist_empty _ _ Q1) in Ea. apply (mlist_empty _ _ Q2) in Eb. tauto.
Qed.

(* ---- C06 ---- *)
Section Term.
Context {P : Type}.
Record winv (t : toktable P) : Prop := {
  wi_mask : is_mask (length (slots t)) (tmask t);
  wi_two : 2 <= length (slots t);
  wi_cnt : tn t = N.of_nat (length (toks (slots t)));
  wi_room : (tn t < tsize t)%N;
  wi_hwm : (hwm t < tsize t)%N
}.
Definition winv0 t : Prop := t = new_toktable \/ winv t.

Lemma probe_gen_finds stop (sl : list (option (token P))) mask h : is_mask (length sl) mask -> length (toks sl) < length sl ->
  exists x, probe_gen stop (length sl) sl mask (N.land h mask) = Ok (N.of_nat x) /\ x < length sl /\ stops stop sl x.
Proof.
  intros HM HL. destruct (free_exists sl HL) as (i & Hi & Gi).
  pose proof (home_lt (length sl) mask h HM) as Hh.
  replace (N.land h mask) with (N.of_nat (N.to_nat (N.land h mask))) by lia.
  set (hh := N.to_nat (N.land h mask)) in *.
  destruct (probe_gen_spec stop sl mask HM (length sl) hh (dist (length sl) hh i)) as (d & D1 & D2 & D3 & D4); auto.
  { now apply dist_lt. }
  { rewrite cyc_dist by assumption. unfold stops. now rewrite Gi. }
  exists (cyc (length sl) hh d). split; [exact D2|]. split; [|exact D3].
  apply cyc_lt; [assumption|]. pose proof (dist_lt (length sl) hh i Hh Hi). lia.
Qed.

Lemma rehash_w mask old : forall sl : list (option (token P)), is_mask (length sl) mask ->
  length (toks sl) + length (toks old) < length sl ->
  exists sl', rehash mask old sl = Ok sl' /\ length sl' = length sl /\ length (toks sl') = length (toks old) + length (toks sl).
Proof.
  induction old as [|o old IH]; intros sl HM HL; [exists sl; cbn; auto|].
  destruct o as [k|]; cbn [rehash toks length] in *; [|now apply IH].
  unfold place. rewrite probe_free_is_gen.
  destruct (probe_gen_finds (fun _ => false) sl mask (hashval k) HM) as (x & E & Hx & Sx); [lia|].
  rewrite E. cbn [bind]. rewrite Nnat.Nat2N.id.
  assert (G : get sl x = None) by (unfold stops in Sx; destruct (get sl x); [discriminate|reflexivity]).
  pose proof (Permutation_length (toks_set_some sl x k Hx G)) as PL. cbn [length] in PL.
  destruct (IH (set_nth sl x (Some k))) as (s2 & A & B & C).
  - now rewrite set_nth_length.
  - rewrite set_nth_length. lia.
  - exists s2. rewrite set_nth_length in B. split; [assumption|]. split; [assumption|lia].
Qed.

Lemma enlarge_w t : winv0 t -> exists t', enlarge t = Ok t' /\ winv t' /\ (tn t' + 1 < tsize t')%N.
Proof.
  intros [->|[Hm Ht Hc Hr Hh]]; unfold enlarge.
  - change (tsize (@new_toktable P) =? 0)%N with true. cbv zeta. cbn iota. eexists; split; [reflexivity|].
    assert (HL : length (repeat (@None (token P)) (N.to_nat 1024)) = N.to_nat 1024) by apply repeat_length.
    split; [split|]; unfold tsize; cbn [slots tmask tn hwm]; rewrite ?HL, ?toks_repeat_none, ?Nnat.N2Nat.id.
    + exists 10%N. split; reflexivity.
    + lia.
    + reflexivity.
    + now vm_compute.
    + now vm_compute.
    + now vm_compute.
  - destruct (tsize t =? 0)%N eqn:E0; [apply N.eqb_eq in E0; unfold tsize in E0; lia|].
    cbv zeta. rewrite shiftl_mul. change (2^1)%N with 2%N. set (size := (tsize t * 2)%N).
    assert (HL : length (repeat (@None (token P)) (N.to_nat size)) = N.to_nat size) by apply repeat_length.
    assert (HM2 : is_mask (N.to_nat size) (size - 1)).
    { destruct Hm as (k & K1 & K2). exists (N.succ k). rewrite Nnat.N2Nat.id.
      unfold size, tsize. rewrite K1, N.pow_succ_r'. split; lia. }
    destruct (rehash_w (size - 1) (slots t) (repeat None (N.to_nat size))) as (sl' & E1 & L1 & C1).
    + now rewrite HL.
    + rewrite HL, toks_repeat_none. cbn [length]. unfold size. unfold tsize in *. lia.
    + rewrite E1. cbn [bind]. eexists; split; [reflexivity|]. rewrite HL in L1. rewrite toks_repeat_none in C1. cbn [length] in C1.
      split; [split|]; unfold tsize; cbn [slots tmask tn hwm]; rewrite ?L1, ?Nnat.N2Nat.id; unfold size; unfold tsize in *; auto; try lia.
      apply hwm_lt. lia.
Qed.

Lemma toks_set_some_len (sl : list (option (token P))) x k c : get sl x = Some c -> length (toks (set_nth sl x (Some k))) = length (toks sl).
Proof.
  revert x; induction sl as [|o sl IH]; intros [|x] G; cbn in G; try discriminate.
  - subst o. reflexivity.
  - destruct o; cbn [set_nth toks length]; [f_equal|]; now apply IH.
Qed.

Lemma add_token_w {U} hashf pinit (upd : U -> P -> option P) t w u : winv0 t ->
  (exists t', add_token hashf pinit upd t w u = Ok t' /\ winv t') \/ add_token hashf pinit upd t w u = Err E_assert.
Proof.
  intros HT. unfold add_token. cbv zeta.
  assert (E1 : exists t1, (if (hwm t <=? tn t)%N then enlarge t else Ok t) = Ok t1 /\ winv t1 /\ (tn t1 + 1 < tsize t1)%N).
  { destruct (hwm t <=? tn t)%N eqn:EE; [now apply enlarge_w|].
    destruct HT as [->|HT]; [discriminate|]. exists t. split; [reflexivity|]. split; [assumption|].
    apply N.leb_gt in EE. pose proof (wi_hwm _ HT). lia. }
  destruct E1 as (t1 & E1 & [Hm Ht Hc Hr Hh] & HR). rewrite E1. cbn [bind].
  rewrite probe_is_gen.
  destruct (probe_gen_finds (fun k => bytes_eqb (map tolower w) (text k)) (slots t1) (tmask t1) (hashf (map tolower w)) Hm) as (x & E & Hx & Sx).
  { unfold tsize in *. lia. }
  rewrite E. cbn [bind]. rewrite Nnat.Nat2N.id, get_nth by assumption.
  destruct (get (slots t1) x) as [k|] eqn:G.
  - destruct (upd u (pay k)) as [p'|]; [left|now right]. eexists; split; [reflexivity|].
    split; unfold tsize in *; cbn [slots tmask tn hwm]; rewrite ?set_nth_length; auto.
    rewrite (toks_set_some_len _ _ _ _ G). assumption.
  - cbn [pay text hashval]. destruct (upd u pinit) as [p'|]; [left|now right]. eexists; split; [reflexivity|].
    set (k' := {| text := map tolower w; hashval := hashf (map tolower w); pay := p' |}).
    pose proof (Permutation_length (toks_set_some (slots t1) x k' Hx G)) as PL. cbn [length] in PL.
    split; unfold tsize in *; cbn [slots tmask tn hwm]; rewrite ?set_nth_length; auto. lia.
Qed.

Lemma import_loop_w hashf dup mask ents : forall sl : list (option (token P)), is_mask (length sl) mask ->
  length ents + length (toks sl) < length sl ->
  (exists sl', import_loop hashf dup mask ents sl = Ok sl' /\ length sl' = length sl /\
     length (toks sl') = length ents + length (toks sl)) \/ import_loop hashf dup mask ents sl = Err (E_exit 1).
Proof.
  induction ents as [|[w p] ents IH]; intros sl HM HL; [left; exists sl; cbn; auto|].
  cbn [import_loop length] in *.
  set (stop := if dup then (fun k : token P => bytes_eqb w (text k)) else fun _ => false).
  assert (E : (if dup then probe (length sl) sl mask w (N.land (hashf w) mask) else probe_free (length sl) sl mask (N.land (hashf w) mask))
      = probe_gen stop (length sl) sl mask (N.land (hashf w) mask)).
  { unfold stop. destruct dup; [apply probe_is_gen|apply probe_free_is_gen]. }
  rewrite E. destruct (probe_gen_finds stop sl mask (hashf w) HM) as (x & EX & Hx & Sx); [lia|].
  rewrite EX. cbn [bind]. rewrite Nnat.Nat2N.id, get_nth by assumption.
  destruct (get sl x) as [c|] eqn:G; [now right|].
  set (k := {| text := w; hashval := hashf w; pay := p |}).
  pose proof (Permutation_length (toks_set_some sl x k Hx G)) as PL. cbn [length] in PL.
  destruct (IH (set_nth sl x (Some k))) as [(s2 & A & B & C)|A].
  - now rewrite set_nth_length.
  - rewrite set_nth_length. lia.
  - left. exists s2. rewrite set_nth_length in B. split; [assumption|]. split; [assumption|lia].
  - now right.
Qed.

Lemma import_w hashf dup (ents : list (bytes * P)) :
  (exists t, import_toktable hashf dup ents = Ok t /\ winv t) \/ import_toktable hashf dup ents = Err (E_exit 1).
Proof.
  unfold import_toktable. cbv zeta.
  destruct (pow2_from_ok (N.of_nat (length ents)) (S (length ents)) 1%N 0%N) as (s & k & E1 & E2 & E3); [reflexivity|lia|lia|].
  rewrite E1. cbn [bind]. rewrite shiftl_mul. change (2^1)%N with 2%N. set (size := (s * 2)%N).
  assert (0 < s)%N by (subst s; pose proof (N.pow_nonzero 2 k); lia).
  assert (HL : length (repeat (@None (token P)) (N.to_nat size)) = N.to_nat size) by apply repeat_length.
  assert (HM : is_mask (N.to_nat size) (size - 1)).
  { exists (N.succ k). rewrite Nnat.N2Nat.id. unfold size. rewrite N.pow_succ_r', E2. lia. }
  destruct (import_loop_w hashf dup (size - 1) ents (repeat None (N.to_nat size))) as [(sl & A1 & A2 & A3)|A1].
  - now rewrite HL.
  - rewrite HL, toks_repeat_none. cbn [length]. unfold size. lia.
  - left. rewrite A1. cbn [bind]. eexists; split; [reflexivity|]. rewrite HL in A2. rewrite toks_repeat_none in A3. cbn [length] in A3.
    split; unfold tsize; cbn [slots tmask tn hwm]; rewrite ?A2, ?Nnat.N2Nat.id; auto; try (unfold size; lia).
    rewrite shiftr_div. change (2^1)%N with 2%N. unfold size. lia.
  - right. rewrite A1. reflexivity.
Qed.

Lemma recode_slots_len (rec : P -> res P) dead sl : forall sl' nd, recode_slots rec dead sl = Ok (sl', nd) ->
  length sl' = length sl /\ (nd + N.of_nat (length (toks sl')) = N.of_nat (length (toks sl)))%N.
Proof.
  induction sl as [|o sl IH]; cbn [recode_slots]; intros sl' nd H.
  - injection H as <- <-. cbn. auto.
  - destruct o as [k|].
    + destruct (rec (pay k)) as [p|]; [|discriminate]. cbn [bind] in H.
      destruct (recode_slots rec dead sl) as [[s1 n1]|]; [|discriminate]. cbn [bind fst snd] in H.
      destruct (IH s1 n1 eq_refl) as [A B]. destruct (dead p); injection H as <- <-; cbn [length toks]; lia.
    + destruct (recode_slots rec dead sl) as [[s1 n1]|]; [|discriminate]. cbn [bind fst snd] in H.
      destruct (IH s1 n1 eq_refl) as [A B]. injection H as <- <-. cbn [length toks]; lia.
Qed.

Lemma recode_total_w (rec : P -> res P) dead sl : (forall k, In k (toks sl) -> exists p, rec (pay k) = Ok p) ->
  exists r, recode_slots rec dead sl = Ok r.
Proof.
  induction sl as [|o sl IH]; cbn [recode_slots toks]; intros H; [eauto|]. destruct o as [k|].
  - destruct (H k) as [p Hp]; [now left|]. rewrite Hp. cbn [bind]. destruct IH as [r Hr]; [intros; apply H; now right|].
    rewrite Hr. cbn [bind]. destruct (dead p); eauto.
  - destruct IH as [r Hr]; [exact H|]. rewrite Hr. cbn. eauto.
Qed.

Lemma recode_w (rec : P -> res P) dead t : winv0 t -> (forall k, In k (toks (slots t)) -> exists p, rec (pay k) = Ok p) ->
  exists bound t', (forall fuel, bound <= fuel -> recode_table fuel rec dead t = Ok t').
Proof.
  intros HT HR. destruct (recode_total_w rec dead (slots t) HR) as [[s1 nd] E1].
  destruct (recode_slots_len _ _ _ _ _ E1) as [L1 C1].
  unfold recode_table. rewrite E1. cbn [bind fst snd]. destruct (0 <? nd)%N eqn:E0.
  - destruct HT as [->|HT]; [cbn in E1; injection E1 as <- <-; discriminate|].
    destruct (close_gaps_ok (tmask t) (S (mu (tmask t) (length s1) 0 s1)) s1) as (s2 & A & _); [lia|rewrite L1; apply HT|].
    exists (S (mu (tmask t) (length s1) 0 s1)). eexists. intros fuel Hf. rewrite (A fuel Hf). reflexivity.
  - exists 0. eexists. intros; reflexivity.
Qed.

Lemma recode_winv (rec : P -> res P) dead fuel t t' : winv0 t -> recode_table fuel rec dead t = Ok t' -> winv0 t'.
Proof.
  intros HT HA. unfold recode_table in HA. destruct (recode_slots rec dead (slots t)) as [[s1 nd]|] eqn:E1; [|discriminate].
  cbn [bind fst snd] in HA. destruct (recode_slots_len _ _ _ _ _ E1) as [L1 C1].
  destruct HT as [->|HT].
  - cbn in E1. injection E1 as <- <-. cbn in HA. injection HA as <-. now left.
  - right. assert (EX : exists s2, (if (0 <? nd)%N then close_gaps fuel (tmask t) s1 else Ok s1) = Ok s2 /\ length s2 = length s1 /\ length (toks s2) = length (toks s1)).
    { destruct (0 <? nd)%N; [|exists s1; auto].
      destruct (close_gaps fuel (tmask t) s1) as [s2|] eqn:E2; [|discriminate]. exists s2. split; [reflexivity|].
      destruct (close_gaps_ok (tmask t) (S (mu (tmask t) (length s1) 0 s1)) s1) as (s3 & A & B & C & _); [lia|rewrite L1; apply HT|].
      rewrite (close_gaps_det _ _ _ _ _ _ E2 (A _ (le_n _))). split; [assumption|]. now apply Permutation_length. }
    destruct EX as (s2 & E2 & L2 & C2). rewrite E2 in HA. cbn [bind] in HA. injection HA as <-.
    destruct HT as [Hm Ht Hc Hr Hh]. split; unfold tsize in *; cbn [slots tmask tn hwm]; rewrite ?L2, ?L1, ?C2; auto; lia.
Qed.
End Term.

Lemma any_table_winv {P U} hashf pinit (upd : U -> P -> option P) t : any_table hashf pinit upd t -> winv0 t.
Proof.
  induction 1 as [|t w u t' HT IH HA|dup ents t' HA|rec dead fuel t t' HT IH HA].
  - now left.
  - right. destruct (add_token_w hashf pinit upd t w u IH) as [(t2 & A & B)|A]; rewrite HA in A; [now injection A as <-|discriminate].
  - right. destruct (import_w hashf dup ents) as [(t2 & A & B)|A]; rewrite HA in A; [now injection A as <-|discriminate].
  - eapply recode_winv; eassumption.
Qed.

Lemma insertion_terminates {P U} hashf (pinit : P) (upd : U -> P -> option P) t : any_table hashf pinit upd t ->
  (forall w u, (exists t', add_token hashf pinit upd t w u = Ok t') \/ add_token hashf pinit upd t w u = Err E_assert) /\
  (forall rec dead, (forall w p, In (w, p) (entries t) -> exists p', rec p = Ok p') ->
     exists bound t', forall fuel, bound <= fuel -> recode_table fuel rec dead t = Ok t').
Proof.
  intros HT. apply any_table_winv in HT. split.
  - intros w u. destruct (add_token_w hashf pinit upd t w u HT) as [(t' & A & _)|A]; [left; eauto|now right].
  - intros rec dead HR. apply recode_w; [assumption|]. intros k Hk. apply (HR (text k)). apply entries_toks. eauto.
Qed.
Lemma loading_terminates {P} hashf dup (ents : list (bytes * P)) :
  (exists t, import_toktable hashf dup ents = Ok t) \/ import_toktable hashf dup ents = Err (E_exit 1).
Proof. destruct (import_w hashf dup ents) as [(t & A & _)|A]; [left; eauto|now right]. Qed.
