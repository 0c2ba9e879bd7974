(* Hash table: probing, growth, loading, purging. *)
From Coq Require Import Permutation.
From Verif Require Import Base M_Encoding M_TokTable L_Bits.

Lemma bytes_eqb_eq a b : bytes_eqb a b = true <-> a = b.
Proof.
  revert b; induction a as [|x a IH]; intros [|y b]; cbn; try (split; congruence).
  rewrite andb_true_iff, N.eqb_eq, IH. split; [intros [-> ->]; reflexivity|intros [= -> ->]; auto].
Qed.
Lemma bytes_eqb_refl a : bytes_eqb a a = true.
Proof. now apply bytes_eqb_eq. Qed.
Lemma bytes_eqb_neq a b : bytes_eqb a b = false <-> a <> b.
Proof.
  split; intros H.
  - intros E. apply bytes_eqb_eq in E. congruence.
  - destruct (bytes_eqb a b) eqn:E; [apply bytes_eqb_eq in E; contradiction|reflexivity].
Qed.
Lemma bytes_dec (a b : bytes) : {a = b} + {a <> b}.
Proof. destruct (bytes_eqb a b) eqn:E; [left; now apply bytes_eqb_eq|right; now apply bytes_eqb_neq]. Qed.

Lemma set_nth_length {A} (l : list A) i x : length (set_nth l i x) = length l.
Proof. revert i; induction l as [|a l IH]; intros [|i]; cbn; auto. Qed.
Lemma nth_error_set_nth_eq {A} (l : list A) i x : i < length l -> nth_error (set_nth l i x) i = Some x.
Proof. revert i; induction l as [|a l IH]; intros [|i] H; cbn in *; try lia; [reflexivity|]. apply IH. lia. Qed.
Lemma nth_error_set_nth_neq {A} (l : list A) i j x : i <> j -> nth_error (set_nth l i x) j = nth_error l j.
Proof. revert i j; induction l as [|a l IH]; intros [|i] [|j] H; cbn; try reflexivity; try congruence. apply IH. congruence. Qed.

(* Cyclic arithmetic without mod. *)
Definition cyc (n h d : nat) : nat := if h + d <? n then h + d else h + d - n.
Definition dist (n h i : nat) : nat := if h <=? i then i - h else i + n - h.
Definition nxt (n i : nat) : nat := if i + 1 <? n then i + 1 else 0.

Ltac cyc_lia := unfold cyc, dist, nxt in *;
  repeat match goal with
  | |- context [?a <? ?b] => destruct (Nat.ltb_spec a b)
  | |- context [?a <=? ?b] => destruct (Nat.leb_spec a b)
  | H : context [?a <? ?b] |- _ => destruct (Nat.ltb_spec a b)
  | H : context [?a <=? ?b] |- _ => destruct (Nat.leb_spec a b)
  end; lia.

Lemma cyc_0 n h : h < n -> cyc n h 0 = h.
Proof. intros. cyc_lia. Qed.
Lemma cyc_S n h d : h < n -> d < n -> cyc n h (S d) = cyc n (nxt n h) d.
Proof. intros. cyc_lia. Qed.
Lemma cyc_lt n h d : h < n -> d <= n -> cyc n h d < n.
Proof. intros. cyc_lia. Qed.
Lemma nxt_lt n i : i < n -> nxt n i < n.
Proof. intros. cyc_lia. Qed.
Lemma cyc_dist n h i : h < n -> i < n -> cyc n h (dist n h i) = i.
Proof. intros. cyc_lia. Qed.
Lemma dist_lt n h i : h < n -> i < n -> dist n h i < n.
Proof. intros. cyc_lia. Qed.
Lemma dist_cyc n h d : h < n -> d < n -> dist n h (cyc n h d) = d.
Proof. intros. cyc_lia. Qed.

(* Masks. *)
Definition is_mask (n : nat) (mask : N) : Prop := exists k : N, N.of_nat n = (2 ^ k)%N /\ mask = (2 ^ k - 1)%N.

Lemma land_mask k x : N.land x (2 ^ k - 1) = (x mod 2 ^ k)%N.
Proof.
  rewrite <- N.land_ones. f_equal. rewrite N.ones_equiv. lia.
Qed.

Lemma is_mask_pos n mask : is_mask n mask -> 0 < n.
Proof. intros (k & H & _). assert (2 ^ k <> 0)%N by (apply N.pow_nonzero; lia). lia. Qed.

Lemma home_lt n mask h : is_mask n mask -> N.to_nat (N.land h mask) < n.
Proof.
  intros (k & H & ->). rewrite land_mask.
  assert (2 ^ k <> 0)%N by (apply N.pow_nonzero; lia).
  pose proof (N.mod_lt h (2 ^ k) H0). lia.
Qed.

Lemma mask_nxt n mask i : is_mask n mask -> i < n -> N.land (N.of_nat i + 1) mask = N.of_nat (nxt n i).
Proof.
  intros (k & H & ->) Hi. rewrite land_mask. unfold nxt.
  destruct (Nat.ltb_spec (i + 1) n) as [L|G].
  - rewrite N.mod_small; lia.
  - replace (N.of_nat i + 1)%N with (2 ^ k)%N by lia. apply N.mod_same. lia.
Qed.

Section T.
Context {P : Type}.
Implicit Types (sl : list (option (token P))) (t : toktable P) (w : bytes).

Definition get sl (i : nat) : option (token P) :=
  match nth_error sl i with Some o => o | None => None end.

Lemma get_nth sl i : i < length sl -> nth_error sl i = Some (get sl i).
Proof.
  intros H. unfold get. destruct (nth_error sl i) eqn:E; [reflexivity|].
  apply nth_error_None in E. lia.
Qed.
Lemma get_some_lt sl i k : get sl i = Some k -> i < length sl.
Proof.
  unfold get. destruct (nth_error sl i) eqn:E; [|discriminate]. intros _.
  apply nth_error_Some. congruence.
Qed.
Lemma get_set_eq sl i x : i < length sl -> get (set_nth sl i x) i = x.
Proof. intros H. unfold get. now rewrite nth_error_set_nth_eq. Qed.
Lemma get_set_neq sl i j x : i <> j -> get (set_nth sl i x) j = get sl j.
Proof. intros H. unfold get. now rewrite nth_error_set_nth_neq. Qed.

Lemma toks_set_some sl i k : i < length sl -> get sl i = None -> Permutation (toks (set_nth sl i (Some k))) (k :: toks sl).
Proof.
  revert i; induction sl as [|o sl IH]; intros [|i] H G; cbn [length] in H; try lia.
  - cbn in G. subst o. cbn. reflexivity.
  - cbn [set_nth]. assert (Permutation (toks (set_nth sl i (Some k))) (k :: toks sl)) as HP.
    { apply IH; [lia|]. exact G. }
    destruct o as [a|]; cbn [toks]; [|assumption].
    rewrite HP. apply perm_swap.
Qed.
Lemma toks_set_none sl i k : get sl i = Some k -> Permutation (toks sl) (k :: toks (set_nth sl i None)).
Proof.
  revert i; induction sl as [|o sl IH]; intros [|i] G; cbn in G; try discriminate.
  - cbn in G. subst o. cbn. reflexivity.
  - cbn [set_nth]. specialize (IH i G). destruct o as [a|]; cbn [toks]; [|assumption].
    rewrite IH. apply perm_swap.
Qed.
Lemma toks_in sl k : In k (toks sl) <-> exists i, get sl i = Some k.
Proof.
  induction sl as [|o sl IH]; cbn [toks].
  - split; [intros []|]. intros [[|i] H]; discriminate.
  - destruct o as [a|]; cbn [In]; rewrite ?IH.
    + split.
      * intros [->|[i H]]; [exists 0; reflexivity|exists (S i); exact H].
      * intros [[|i] H]; [left; cbn in H; congruence|right; exists i; exact H].
    + split; [intros [i H]; exists (S i); exact H|]. intros [[|i] H]; [discriminate|exists i; exact H].
Qed.
Lemma toks_length sl : length (toks sl) <= length sl.
Proof. induction sl as [|[a|] sl IH]; cbn; lia. Qed.
Lemma toks_repeat_none n : toks (repeat (@None (token P)) n) = [].
Proof. induction n; cbn; auto. Qed.
Lemma free_exists sl : length (toks sl) < length sl -> exists i, i < length sl /\ get sl i = None.
Proof.
  induction sl as [|[a|] sl IH]; cbn [toks length]; intros H; [lia| |].
  - destruct IH as (i & H1 & H2); [lia|]. exists (S i). split; [lia|exact H2].
  - exists 0. split; [lia|reflexivity].
Qed.

(* Probing, generically in the reason to stop at an occupied slot. *)
Fixpoint probe_gen (stop : token P -> bool) (fuel : nat) sl (mask idx : N) : res N :=
  match fuel with
  | O => Err E_fuel
  | S f =>
    match nth_error sl (N.to_nat idx) with
    | None => Err E_oob
    | Some None => Ok idx
    | Some (Some tok) => if stop tok then Ok idx else probe_gen stop f sl mask (N.land (idx + 1) mask)
    end
  end.
Lemma probe_is_gen w fuel : forall sl mask idx,
  probe fuel sl mask w idx = probe_gen (fun k => bytes_eqb w (text k)) fuel sl mask idx.
Proof. induction fuel as [|f IH]; intros; cbn; [reflexivity|]. destruct (nth_error _ _) as [[k|]|]; auto. destruct (bytes_eqb _ _); auto. Qed.
Lemma probe_free_is_gen fuel : forall sl mask idx,
  probe_free fuel sl mask idx = probe_gen (fun _ => false) fuel sl mask idx.
Proof. induction fuel as [|f IH]; intros; cbn; [reflexivity|]. destruct (nth_error _ _) as [[k|]|]; auto. Qed.

Definition stops (stop : token P -> bool) sl i : Prop :=
  match get sl i with None => True | Some k => stop k = true end.

Lemma stops_dec stop sl i : {stops stop sl i} + {~ stops stop sl i}.
Proof. unfold stops. destruct (get sl i) as [k|]; [destruct (stop k); [left|right]; congruence|left; exact I]. Qed.

Lemma probe_gen_spec stop sl mask : is_mask (length sl) mask -> forall fuel h d0,
  h < length sl -> d0 < fuel -> fuel <= length sl -> stops stop sl (cyc (length sl) h d0) ->
  exists d, d <= d0 /\ probe_gen stop fuel sl mask (N.of_nat h) = Ok (N.of_nat (cyc (length sl) h d)) /\
    stops stop sl (cyc (length sl) h d) /\ forall d', d' < d -> ~ stops stop sl (cyc (length sl) h d').
Proof.
  intros HM. set (n := length sl) in *. induction fuel as [|f IH]; intros h d0 Hh Hd Hf Hs; [lia|].
  cbn [probe_gen]. rewrite Nnat.Nat2N.id. rewrite get_nth by exact Hh.
  destruct (stops_dec stop sl h) as [S0|NS0].
  - exists 0. rewrite cyc_0 by lia. split; [lia|]. split; [|split; [exact S0|intros; lia]].
    unfold stops in S0. destruct (get sl h) as [k|]; [rewrite S0|]; reflexivity.
  - assert (d0 <> 0) by (intros ->; rewrite cyc_0 in Hs by lia; contradiction).
    destruct d0 as [|d1]; [lia|].
    destruct (IH (nxt n h) d1) as (d & D1 & D2 & D3 & D4); [now apply nxt_lt|lia|lia| |].
    { rewrite <- cyc_S by lia. exact Hs. }
    exists (S d). rewrite cyc_S by lia. split; [lia|]. split; [|split; [exact D3|]].
    + unfold stops in NS0. destruct (get sl h) as [k|]; [|tauto]. destruct (stop k); [tauto|].
      rewrite mask_nxt with (n := n) by assumption. exact D2.
    + intros [|d'] Hd'; [rewrite cyc_0 by lia; exact NS0|]. rewrite cyc_S by lia. apply D4. lia.
Qed.

(* Path invariant. *)
Definition home (mask : N) (k : token P) : nat := N.to_nat (N.land (hashval k) mask).
Definition paths (mask : N) sl : Prop := forall i k d,
  get sl i = Some k -> d < dist (length sl) (home mask k) i ->
  get sl (cyc (length sl) (home mask k) d) <> None.
Definition texts sl : list bytes := map text (toks sl).
Definition hashed (hashf : bytes -> N) sl : Prop := forall k, In k (toks sl) -> hashval k = hashf (text k).

Lemma same_text_same_slot sl i j a b : NoDup (texts sl) -> get sl i = Some a -> get sl j = Some b ->
  text a = text b -> i = j.
Proof.
  unfold texts. revert i j; induction sl as [|o sl IH]; intros i j HN Gi Gj E; [destruct i; discriminate|].
  destruct o as [c|]; cbn [toks map] in HN.
  - inversion HN as [|? ? N1 N2]; subst. destruct i as [|i], j as [|j]; [reflexivity| | |].
    + exfalso. apply N1. cbn in Gi. injection Gi as ->. rewrite E. apply in_map. apply toks_in. exists j; exact Gj.
    + exfalso. apply N1. cbn in Gj. injection Gj as ->. rewrite <- E. apply in_map. apply toks_in. exists i; exact Gi.
    + f_equal. eapply IH; eauto.
  - destruct i as [|i]; [discriminate|]. destruct j as [|j]; [discriminate|]. f_equal. eapply IH; eauto.
Qed.

Lemma paths_set_free mask sl i k : is_mask (length sl) mask -> paths mask sl -> i < length sl ->
  get sl i = None ->
  (forall d, d < dist (length sl) (home mask k) i -> get sl (cyc (length sl) (home mask k) d) <> None) ->
  paths mask (set_nth sl i (Some k)).
Proof.
  intros HM HP Hi Gi Hk j c d. rewrite set_nth_length. intros Gj Hd.
  set (x := cyc (length sl) (home mask c) d).
  destruct (Nat.eq_dec i x) as [->|Hne]; [rewrite get_set_eq by assumption; discriminate|].
  rewrite get_set_neq by assumption.
  destruct (Nat.eq_dec i j) as [->|Hij].
  - rewrite get_set_eq in Gj by assumption. injection Gj as <-. now apply Hk.
  - rewrite get_set_neq in Gj by assumption. eapply HP; eassumption.
Qed.

Lemma place_ok mask sl k : is_mask (length sl) mask -> paths mask sl -> length (toks sl) < length sl ->
  exists sl', place mask sl k = Ok sl' /\ length sl' = length sl /\
    Permutation (toks sl') (k :: toks sl) /\ paths mask sl'.
Proof.
  intros HM HP HL. destruct (free_exists sl HL) as (i & Hi & Gi).
  pose proof (home_lt (length sl) mask (hashval k) HM) as Hh. fold (home mask k) in Hh.
  unfold place. rewrite probe_free_is_gen.
  replace (N.land (hashval k) mask) with (N.of_nat (home mask k)) by (unfold home; lia).
  destruct (probe_gen_spec (fun _ => false) sl mask HM (length sl) (home mask k)
             (dist (length sl) (home mask k) i)) as (d & D1 & D2 & D3 & D4); auto.
  { now apply dist_lt. }
  { rewrite cyc_dist by assumption. unfold stops. now rewrite Gi. }
  rewrite D2. cbn [bind]. rewrite Nnat.Nat2N.id.
  assert (Dn : d < length sl) by (pose proof (dist_lt (length sl) (home mask k) i Hh Hi); lia).
  set (x := cyc (length sl) (home mask k) d) in *.
  assert (Hx : x < length sl) by (apply cyc_lt; lia).
  assert (Gx : get sl x = None).
  { unfold stops in D3. destruct (get sl x); [discriminate|reflexivity]. }
  eexists. split; [reflexivity|]. split; [apply set_nth_length|]. split; [now apply toks_set_some|].
  apply paths_set_free; auto. intros d' Hd' E. apply (D4 d').
  - subst x. rewrite dist_cyc in Hd' by lia. exact Hd'.
  - unfold stops. now rewrite E.
Qed.

Lemma rehash_ok mask old : forall sl, is_mask (length sl) mask -> paths mask sl ->
  length (toks sl) + length (toks old) < length sl ->
  exists sl', rehash mask old sl = Ok sl' /\ length sl' = length sl /\
    Permutation (toks sl') (toks old ++ toks sl) /\ paths mask sl'.
Proof.
  induction old as [|o old IH]; intros sl HM HP HL.
  - exists sl. cbn. auto.
  - destruct o as [k|]; cbn [rehash toks] in *.
    + cbn [length] in HL. destruct (place_ok mask sl k HM HP) as (s1 & E1 & L1 & P1 & H1); [lia|].
      rewrite E1. cbn [bind]. destruct (IH s1) as (s2 & E2 & L2 & P2 & H2).
      * now rewrite L1.
      * assumption.
      * rewrite L1, (Permutation_length P1). cbn [length]. lia.
      * exists s2. split; [assumption|]. split; [congruence|]. split; [|assumption].
        rewrite P2, P1. cbn [app]. symmetry. apply Permutation_middle.
    + apply IH; assumption.
Qed.

(* Table invariant. *)
Record tinv1 (hashf : bytes -> N) t : Prop := {
  ti_mask : is_mask (length (slots t)) (tmask t);
  ti_two : 2 <= length (slots t);
  ti_cnt : tn t = N.of_nat (length (toks (slots t)));
  ti_room : (tn t < tsize t)%N;
  ti_hwm : (hwm t < tsize t)%N;
  ti_paths : paths (tmask t) (slots t);
  ti_nodup : NoDup (texts (slots t));
  ti_hash : hashed hashf (slots t)
}.
Definition tinv (hashf : bytes -> N) t : Prop := t = new_toktable \/ tinv1 hashf t.

Lemma get_repeat_none n i : get (repeat None n) i = None.
Proof.
  unfold get. destruct (nth_error (repeat (@None (token P)) n) i) as [o|] eqn:E; [|reflexivity].
  apply nth_error_In in E. apply repeat_spec in E. assumption.
Qed.
Lemma paths_repeat mask n : paths mask (repeat None n).
Proof. intros i k d H. rewrite get_repeat_none in H. discriminate. Qed.

Lemma hwm_lt s : (0 < s -> N.shiftr s 2 + N.shiftr s 3 < s)%N.
Proof. rewrite !shiftr_div. change (2^2)%N with 4%N. change (2^3)%N with 8%N. lia. Qed.

Lemma enlarge_ok hashf t : tinv hashf t ->
  exists t', enlarge t = Ok t' /\ tinv1 hashf t' /\ tn t' = tn t /\ (tn t' + 1 < tsize t')%N /\
    Permutation (toks (slots t')) (toks (slots t)).
Proof.
  intros [->|[Hm Ht Hc Hr Hh Hp Hn Hs]]; unfold enlarge.
  - change (tsize (@new_toktable P) =? 0)%N with true. cbv zeta. cbn iota.
    eexists; split; [reflexivity|].
    assert (HL : length (repeat (@None (token P)) (N.to_nat 1024)) = N.to_nat 1024) by apply repeat_length.
    split; [|split; [reflexivity|split]].
    + split; unfold tsize; cbn [slots tmask tn hwm]; rewrite ?HL, ?toks_repeat_none.
      * exists 10%N. split; [rewrite Nnat.N2Nat.id; reflexivity|reflexivity].
      * lia.
      * reflexivity.
      * now rewrite Nnat.N2Nat.id.
      * rewrite Nnat.N2Nat.id. apply hwm_lt. lia.
      * apply paths_repeat.
      * unfold texts. rewrite toks_repeat_none. constructor.
      * intros k. rewrite toks_repeat_none. intros [].
    + unfold tsize. cbn [slots tn]. rewrite HL. now vm_compute.
    + cbn [slots]. rewrite toks_repeat_none. reflexivity.
  - destruct (tsize t =? 0)%N eqn:E0; [apply N.eqb_eq in E0; unfold tsize in E0; lia|].
    cbv zeta. rewrite shiftl_mul. change (2^1)%N with 2%N.
    set (size := (tsize t * 2)%N).
    assert (HL : length (repeat (@None (token P)) (N.to_nat size)) = N.to_nat size) by apply repeat_length.
    assert (HM2 : is_mask (N.to_nat size) (size - 1)).
    { destruct Hm as (k & K1 & K2). exists (N.succ k). rewrite Nnat.N2Nat.id.
      unfold size, tsize. rewrite K1, N.pow_succ_r'. split; lia. }
    destruct (rehash_ok (size - 1) (slots t) (repeat None (N.to_nat size))) as (sl' & E1 & L1 & P1 & H1).
    + now rewrite HL.
    + apply paths_repeat.
    + rewrite HL, toks_repeat_none. cbn [length]. unfold size. unfold tsize in *. lia.
    + rewrite E1. cbn [bind]. eexists; split; [reflexivity|].
      rewrite toks_repeat_none, app_nil_r in P1. rewrite HL in L1.
      split; [|split; [reflexivity|split]]; [|unfold tsize in *; cbn [slots tn]; rewrite L1; unfold size, tsize; lia|exact P1].
      split; unfold tsize; cbn [slots tmask tn hwm]; rewrite ?L1.
      * exact HM2.
      * unfold size, tsize. lia.
      * now rewrite (Permutation_length P1).
      * rewrite Nnat.N2Nat.id. unfold size. unfold tsize in *. lia.
      * rewrite Nnat.N2Nat.id. apply hwm_lt. unfold size, tsize. lia.
      * exact H1.
      * unfold texts. rewrite P1. exact Hn.
      * intros k Hk. apply Hs. now rewrite <- P1.
Qed.

(* Abstract lookup. *)
Definition alook (l : list (token P)) w : option P :=
  match find (fun k => bytes_eqb (text k) w) l with Some k => Some (pay k) | None => None end.

Lemma alook_some l w p : NoDup (map text l) ->
  alook l w = Some p <-> exists k, In k l /\ text k = w /\ pay k = p.
Proof.
  intros HN. unfold alook. split.
  - destruct (find _ l) as [k|] eqn:E; [|discriminate]. intros [= <-].
    apply find_some in E as [E1 E2]. apply bytes_eqb_eq in E2. eauto.
  - intros (k & K1 & K2 & K3). destruct (find _ l) as [c|] eqn:E.
    + apply find_some in E as [E1 E2]. apply bytes_eqb_eq in E2.
      assert (c = k); [|congruence]. clear -HN E1 K1 K2 E2.
      assert (T : text c = text k) by congruence. clear K2 E2.
      induction l as [|a l IH]; [contradiction|]. cbn in HN. inversion HN as [|? ? N1 N2]; subst.
      destruct E1 as [<-|E1], K1 as [<-|K1]; auto.
      * exfalso. apply N1. rewrite T. now apply in_map.
      * exfalso. apply N1. rewrite <- T. now apply in_map.
    + apply find_none with (x := k) in E; [|assumption]. rewrite K2, bytes_eqb_refl in E. discriminate.
Qed.
Lemma alook_none l w : alook l w = None <-> ~ In w (map text l).
Proof.
  unfold alook. destruct (find _ l) as [k|] eqn:E.
  - apply find_some in E as [E1 E2]. apply bytes_eqb_eq in E2. split; [discriminate|].
    intros H. exfalso. apply H. rewrite <- E2. now apply in_map.
  - split; [|reflexivity]. intros _ H. apply in_map_iff in H as (k & K1 & K2).
    apply find_none with (x := k) in E; [|assumption]. rewrite K1, bytes_eqb_refl in E. discriminate.
Qed.
Lemma alook_perm l l' w : NoDup (map text l) -> Permutation l l' -> alook l w = alook l' w.
Proof.
  intros HN HP. assert (HN' : NoDup (map text l')) by (rewrite <- HP; assumption).
  destruct (alook l w) as [p|] eqn:E.
  - symmetry. apply (alook_some l' w p HN'). apply (alook_some l w p HN) in E as (k & K1 & K2).
    exists k. split; [now rewrite <- HP|assumption].
  - symmetry. apply alook_none. apply alook_none in E. now rewrite <- HP.
Qed.

Definition amap t w : option P := alook (toks (slots t)) w.

(* Probing for a word meets it if present, else a free slot whose path is full. *)
Lemma probe_ok hashf mask sl w : is_mask (length sl) mask -> paths mask sl -> NoDup (texts sl) ->
  hashed hashf sl -> length (toks sl) < length sl ->
  exists x, probe (length sl) sl mask w (N.land (hashf w) mask) = Ok (N.of_nat x) /\ x < length sl /\
   ((exists k, get sl x = Some k /\ text k = w /\ In k (toks sl)) \/
    (get sl x = None /\ ~ In w (texts sl) /\
     forall d, d < dist (length sl) (N.to_nat (N.land (hashf w) mask)) x ->
       get sl (cyc (length sl) (N.to_nat (N.land (hashf w) mask)) d) <> None)).
Proof.
  intros HM HP HN HH HL. destruct (free_exists sl HL) as (i & Hi & Gi).
  pose proof (home_lt (length sl) mask (hashf w) HM) as Hh.
  set (h := N.to_nat (N.land (hashf w) mask)) in *.
  rewrite probe_is_gen. replace (N.land (hashf w) mask) with (N.of_nat h) by (unfold h; lia).
  set (stop := fun k : token P => bytes_eqb w (text k)).
  destruct (probe_gen_spec stop sl mask HM (length sl) h (dist (length sl) h i)) as (d & D1 & D2 & D3 & D4); auto.
  { now apply dist_lt. }
  { rewrite cyc_dist by assumption. unfold stops. now rewrite Gi. }
  assert (Dn : d < length sl) by (pose proof (dist_lt (length sl) h i Hh Hi); lia).
  set (x := cyc (length sl) h d) in *.
  exists x. split; [exact D2|]. split; [apply cyc_lt; lia|].
  unfold stops in D3. destruct (get sl x) as [k|] eqn:Gx.
  - left. exists k. split; [reflexivity|]. split; [symmetry; apply bytes_eqb_eq; exact D3|].
    apply toks_in. eauto.
  - right. split; [reflexivity|]. split.
    + intros HI. unfold texts in HI. apply in_map_iff in HI as (k & K1 & K2).
      pose proof (HH k K2) as K3. apply toks_in in K2 as (j & Gj).
      assert (Hj : j < length sl) by (eapply get_some_lt; eassumption).
      assert (Eh : home mask k = h) by (unfold home, h; now rewrite K3, K1).
      destruct (Nat.lt_ge_cases d (dist (length sl) h j)) as [L|G].
      * apply (HP j k d Gj); [now rewrite Eh|]. rewrite Eh. exact Gx.
      * destruct (Nat.eq_dec d (dist (length sl) h j)) as [->|Hne].
        { subst x. rewrite cyc_dist in Gx by assumption. congruence. }
        apply (D4 (dist (length sl) h j)); [lia|]. rewrite cyc_dist by assumption.
        unfold stops. rewrite Gj. unfold stop. now rewrite K1, bytes_eqb_refl.
    + intros d' Hd' E. apply (D4 d').
      * subst x. rewrite dist_cyc in Hd' by lia. exact Hd'.
      * unfold stops. now rewrite E.
Qed.

(* Overwriting the payload in place. *)
Lemma toks_set_pay sl i k p : get sl i = Some k ->
  let k' := {| text := text k; hashval := hashval k; pay := p |} in
  exists rest, Permutation (toks sl) (k :: rest) /\ Permutation (toks (set_nth sl i (Some k'))) (k' :: rest).
Proof.
  intros G k'. exists (toks (set_nth sl i None)). split; [now apply toks_set_none|].
  revert i G; induction sl as [|o sl IH]; intros [|i] G; cbn in G; try discriminate.
  - subst o. cbn. reflexivity.
  - specialize (IH i G). destruct o as [a|]; cbn [set_nth toks]; [|exact IH].
    rewrite IH. apply perm_swap.
Qed.

Lemma paths_set_same mask sl i k k' : get sl i = Some k -> hashval k' = hashval k -> paths mask sl ->
  paths mask (set_nth sl i (Some k')).
Proof.
  intros G E HP j c d. rewrite set_nth_length. intros Gj Hd.
  assert (Hi : i < length sl) by (eapply get_some_lt; eassumption).
  set (x := cyc (length sl) (home mask c) d).
  destruct (Nat.eq_dec i x) as [->|Hne]; [rewrite get_set_eq by assumption; discriminate|].
  rewrite get_set_neq by assumption.
  destruct (Nat.eq_dec i j) as [->|Hij].
  - rewrite get_set_eq in Gj by assumption. injection Gj as <-.
    assert (home mask k' = home mask k) by (unfold home; now rewrite E). subst x. rewrite H in *. eapply HP; eassumption.
  - rewrite get_set_neq in Gj by assumption. eapply HP; eassumption.
Qed.

Lemma alook_cons k l w : alook (k :: l) w = if bytes_eqb (text k) w then Some (pay k) else alook l w.
Proof. unfold alook. cbn. destruct (bytes_eqb (text k) w); reflexivity. Qed.

Section Add.
Context {U : Type} (hashf : bytes -> N) (pinit : P) (upd : U -> P -> option P).

Definition cur (o : option P) : P := match o with Some p => p | None => pinit end.

Lemma add_token_ok t w u p' : tinv hashf t ->
  upd u (cur (amap t (map tolower w))) = Some p' ->
  exists t', add_token hashf pinit upd t w u = Ok t' /\ tinv1 hashf t' /\
    (forall v, amap t' v = if bytes_eqb (map tolower w) v then Some p' else amap t v).
Proof.
  intros HT HU. unfold add_token. set (lc := map tolower w) in *. cbv zeta.
  assert (E1 : exists t1, (if (hwm t <=? tn t)%N then enlarge t else Ok t) = Ok t1 /\ tinv1 hashf t1 /\
      (tn t1 + 1 < tsize t1)%N /\ Permutation (toks (slots t1)) (toks (slots t)) /\ NoDup (texts (slots t))).
  { assert (HND : NoDup (texts (slots t))).
    { destruct HT as [->|HT]; [constructor|apply HT]. }
    destruct (hwm t <=? tn t)%N eqn:E.
    - destruct (enlarge_ok hashf t HT) as (t1 & A & B & _ & D & F). eauto 6.
    - destruct HT as [->|HT]; [discriminate|]. apply N.leb_gt in E.
      exists t. split; [reflexivity|]. split; [assumption|]. split; [|auto].
      pose proof (ti_hwm _ _ HT). lia. }
  destruct E1 as (t1 & E1 & HT1 & HR & HP & HND). rewrite E1. cbn [bind].
  destruct HT1 as [Hm Ht Hc Hrr Hh Hp Hn Hs].
  assert (AM : forall v, amap t1 v = amap t v) by (intros v; apply alook_perm; assumption).
  destruct (probe_ok hashf (tmask t1) (slots t1) lc Hm Hp Hn Hs) as (x & X1 & X2 & X3).
  { unfold tsize in *. lia. }
  rewrite X1. cbn [bind]. rewrite Nnat.Nat2N.id, get_nth by assumption.
  destruct X3 as [(k & G & K & KI)|(G & NI & HPth)]; rewrite G.
  - assert (AK : amap t1 lc = Some (pay k)) by (apply alook_some; [assumption|eauto]).
    rewrite <- AM, AK in HU. cbn [cur] in HU. rewrite HU.
    eexists; split; [reflexivity|].
    set (k' := {| text := text k; hashval := hashval k; pay := p' |}).
    destruct (toks_set_pay (slots t1) x k p' G) as (rest & R1 & R2). fold k' in R2.
    assert (TX : map text (k' :: rest) = map text (k :: rest)) by reflexivity.
    split.
    + split; unfold tsize; cbn [slots tn tmask hwm]; rewrite ?set_nth_length; auto.
      * rewrite Hc. f_equal. rewrite (Permutation_length R1), (Permutation_length R2). reflexivity.
      * eapply paths_set_same; [exact G|reflexivity|exact Hp].
      * unfold texts. rewrite R2, TX, <- R1. exact Hn.
      * intros c Hc'. rewrite R2 in Hc'. destruct Hc' as [<-|Hc'].
        -- cbn. apply Hs. assumption.
        -- apply Hs. rewrite R1. now right.
    + intros v. rewrite <- AM. unfold amap. cbn [slots].
      rewrite (alook_perm _ (k' :: rest)); [|rewrite R2, TX, <- R1; exact Hn|exact R2].
      rewrite (alook_perm (toks (slots t1)) (k :: rest)); [|exact Hn|exact R1].
      rewrite !alook_cons. cbn [text pay k']. rewrite K. destruct (bytes_eqb lc v); reflexivity.
  - assert (AK : amap t1 lc = None) by (apply alook_none; exact NI).
    rewrite <- AM, AK in HU. cbn [cur pay text hashval] in *. rewrite HU.
    eexists; split; [reflexivity|].
    set (k' := {| text := lc; hashval := hashf lc; pay := p' |}).
    assert (R : Permutation (toks (set_nth (slots t1) x (Some k'))) (k' :: toks (slots t1))) by now apply toks_set_some.
    assert (NR : NoDup (map text (k' :: toks (slots t1)))) by (cbn; constructor; assumption).
    split.
    + split; unfold tsize; cbn [slots tn tmask hwm]; rewrite ?set_nth_length; auto.
      * rewrite (Permutation_length R). cbn [length]. lia.
      * apply paths_set_free; auto.
      * unfold texts. rewrite R. exact NR.
      * intros c Hc'. rewrite R in Hc'. destruct Hc' as [<-|Hc']; [reflexivity|]. now apply Hs.
    + intros v. rewrite <- AM. unfold amap. cbn [slots].
      rewrite (alook_perm _ (k' :: toks (slots t1))); [|rewrite R; exact NR|exact R].
      rewrite alook_cons. reflexivity.
Qed.

(* Histories. *)
Fixpoint runs (o : option P) (us : list U) : option (option P) :=
  match us with
  | [] => Some o
  | u :: us' => match upd u (cur o) with Some p => runs (Some p) us' | None => None end
  end.
Definition us_of w (hs : list (bytes * U)) : list U :=
  map snd (filter (fun h => bytes_eqb (map tolower (fst h)) w) hs).

Lemma add_tokens_ok hs : forall t, tinv hashf t ->
  (forall w, runs (amap t w) (us_of w hs) <> None) ->
  exists t', add_tokens hashf pinit upd t hs = Ok t' /\ tinv hashf t' /\
    forall w, runs (amap t w) (us_of w hs) = Some (amap t' w).
Proof.
  induction hs as [|[w u] hs IH]; intros t HT HR.
  - exists t. cbn. auto.
  - cbn [add_tokens]. set (lc := map tolower w).
    assert (US : forall v, us_of v ((w, u) :: hs) = if bytes_eqb lc v then u :: us_of v hs else us_of v hs).
    { intros v. unfold us_of. cbn [filter fst]. fold lc. destruct (bytes_eqb lc v); reflexivity. }
    assert (HU : exists p', upd u (cur (amap t lc)) = Some p').
    { specialize (HR lc). rewrite US, bytes_eqb_refl in HR. cbn [runs] in HR.
      destruct (upd u (cur (amap t lc))); [eauto|congruence]. }
    destruct HU as [p' HU]. destruct (add_token_ok t w u p' HT HU) as (t1 & A1 & A2 & A3).
    rewrite A1. cbn [bind].
    assert (STEP : forall v, runs (amap t v) (us_of v ((w, u) :: hs)) = runs (amap t1 v) (us_of v hs)).
    { intros v. rewrite US, A3. fold lc. destruct (bytes_eqb lc v) eqn:E; [|reflexivity].
      apply bytes_eqb_eq in E. subst v. cbn [runs]. now rewrite HU. }
    destruct (IH t1) as (t2 & B1 & B2 & B3).
    + now right.
    + intros v. rewrite <- STEP. apply HR.
    + exists t2. split; [assumption|]. split; [assumption|]. intros v. rewrite STEP. apply B3.
Qed.
End Add.

(* Loading. *)
Lemma pow2_from_ok n : forall fuel s k, s = (2 ^ k)%N -> (0 < fuel) -> (n + 1 <= s + N.of_nat fuel)%N ->
  exists s' k', pow2_from fuel s n = Ok s' /\ s' = (2 ^ k')%N /\ (n <= s')%N.
Proof.
  induction fuel as [|f IH]; intros s k Hk Hf Hs; [lia|]. cbn [pow2_from].
  assert (0 < s)%N by (subst s; pose proof (N.pow_nonzero 2 k); lia).
  destruct (s <? n)%N eqn:E.
  - apply N.ltb_lt in E. apply (IH _ (N.succ k)).
    + rewrite shiftl_mul, N.pow_succ_r', Hk. change (2^1)%N with 2%N. lia.
    + lia.
    + rewrite shiftl_mul. change (2^1)%N with 2%N. lia.
  - apply N.ltb_ge in E. eauto.
Qed.

Lemma import_loop_ok hashf dup mask ents : forall sl, is_mask (length sl) mask -> paths mask sl ->
  NoDup (texts sl) -> hashed hashf sl -> NoDup (map fst ents ++ texts sl) ->
  length ents + length (toks sl) < length sl ->
  exists sl', import_loop hashf dup mask ents sl = Ok sl' /\ length sl' = length sl /\ paths mask sl' /\
    Permutation (toks sl') (map (fun e => {| text := fst e; hashval := hashf (fst e); pay := snd e |}) ents ++ toks sl).
Proof.
  induction ents as [|[w p] ents IH]; intros sl HM HP HN HH HD HL.
  - exists sl. cbn. auto.
  - cbn [import_loop map fst snd length app] in *. set (k := {| text := w; hashval := hashf w; pay := p |}).
    inversion HD as [|? ? D1 D2]; subst.
    assert (NI : ~ In w (texts sl)) by (intros H; apply D1; apply in_app_iff; now right).
    assert (EX : exists x, (if dup then probe (length sl) sl mask w (N.land (hashf w) mask)
                   else probe_free (length sl) sl mask (N.land (hashf w) mask)) = Ok (N.of_nat x) /\
       x < length sl /\ get sl x = None /\ paths mask (set_nth sl x (Some k))).
    { destruct dup.
      - destruct (probe_ok hashf mask sl w HM HP HN HH) as (x & X1 & X2 & X3); [lia|].
        destruct X3 as [(c & G & K & KI)|(G & _ & HPth)].
        + exfalso. apply NI. rewrite <- K. now apply in_map.
        + exists x. split; [assumption|]. split; [assumption|]. split; [assumption|].
          apply paths_set_free; auto.
      - destruct (place_ok mask sl k HM HP) as (s1 & E1 & _ & _ & H1); [lia|].
        unfold place in E1. cbn [hashval k] in E1.
        destruct (probe_free (length sl) sl mask (N.land (hashf w) mask)) as [y|e] eqn:EP; [|discriminate].
        cbn [bind] in E1. injection E1 as <-.
        rewrite probe_free_is_gen in EP.
        pose proof (home_lt (length sl) mask (hashf w) HM) as Hh.
        destruct (free_exists sl) as (i & Hi & Gi); [lia|].
        replace (N.land (hashf w) mask) with (N.of_nat (N.to_nat (N.land (hashf w) mask))) in EP by lia.
        set (h := N.to_nat (N.land (hashf w) mask)) in *.
        destruct (probe_gen_spec (fun _ => false) sl mask HM (length sl) h (dist (length sl) h i)) as (d & Dd1 & Dd2 & Dd3 & Dd4); auto.
        { now apply dist_lt. }
        { rewrite cyc_dist by assumption. unfold stops. now rewrite Gi. }
        rewrite Dd2 in EP. injection EP as <-. rewrite Nnat.Nat2N.id in H1.
        assert (Dn : d < length sl) by (pose proof (dist_lt (length sl) h i Hh Hi); lia).
        exists (cyc (length sl) h d). split; [reflexivity|]. split; [apply cyc_lt; lia|]. split; [|exact H1].
        unfold stops in Dd3. destruct (get sl (cyc (length sl) h d)); [discriminate|reflexivity]. }
    destruct EX as (x & X1 & X2 & X3 & X4). rewrite X1. cbn [bind].
    rewrite Nnat.Nat2N.id, get_nth, X3 by assumption.
    assert (R : Permutation (toks (set_nth sl x (Some k))) (k :: toks sl)) by now apply toks_set_some.
    destruct (IH (set_nth sl x (Some k))) as (s2 & A1 & A2 & A3 & A4).
    + now rewrite set_nth_length.
    + assumption.
    + unfold texts. rewrite R. cbn. constructor; assumption.
    + intros c Hc. rewrite R in Hc. destruct Hc as [<-|Hc]; [reflexivity|now apply HH].
    + unfold texts. rewrite R. cbn [map]. rewrite <- Permutation_middle. exact HD.
    + rewrite set_nth_length, (Permutation_length R). cbn [length]. lia.
    + exists s2. rewrite set_nth_length in A2. split; [assumption|]. split; [assumption|]. split; [assumption|].
      rewrite A4, R. symmetry. apply Permutation_middle.
Qed.

Lemma import_ok hashf dup ents : NoDup (map fst ents) ->
  exists t, import_toktable hashf dup ents = Ok t /\ tinv1 hashf t /\ Permutation (entries t) ents.
Proof.
  intros HN. unfold import_toktable. cbv zeta.
  destruct (pow2_from_ok (N.of_nat (length ents)) (S (length ents)) 1%N 0%N) as (s & k & E1 & E2 & E3); [reflexivity|lia|lia|].
  rewrite E1. cbn [bind]. rewrite shiftl_mul. change (2^1)%N with 2%N. set (size := (s * 2)%N).
  assert (0 < s)%N by (subst s; pose proof (N.pow_nonzero 2 k); lia).
  assert (HL : length (repeat (@None (token P)) (N.to_nat size)) = N.to_nat size) by apply repeat_length.
  assert (HM : is_mask (N.to_nat size) (size - 1)).
  { exists (N.succ k). rewrite Nnat.N2Nat.id. unfold size. rewrite N.pow_succ_r', E2. lia. }
  destruct (import_loop_ok hashf dup (size - 1) ents (repeat None (N.to_nat size))) as (sl & A1 & A2 & A3 & A4).
  - now rewrite HL.
  - apply paths_repeat.
  - unfold texts. rewrite toks_repeat_none. constructor.
  - intros c. rewrite toks_repeat_none. intros [].
  - unfold texts. rewrite toks_repeat_none. cbn. now rewrite app_nil_r.
  - rewrite HL, toks_repeat_none. cbn [length]. unfold size. lia.
  - rewrite A1. cbn [bind]. eexists; split; [reflexivity|].
    rewrite toks_repeat_none, app_nil_r in A4. rewrite HL in A2.
    assert (LE : length (toks sl) = length ents) by (rewrite (Permutation_length A4); apply map_length).
    split; [split|]; unfold tsize, entries; cbn [slots tmask tn hwm]; rewrite ?A2, ?Nnat.N2Nat.id; auto.
    + unfold size; lia.
    + unfold size; lia.
    + rewrite shiftr_div. change (2^1)%N with 2%N. unfold size. lia.
    + unfold texts. rewrite A4, map_map. exact HN.
    + intros c Hc. rewrite A4 in Hc. apply in_map_iff in Hc as (e & <- & _). reflexivity.
    + rewrite A4, map_map. cbn. replace (map (fun x => (fst x, snd x)) ents) with ents; [reflexivity|].
      clear. induction ents as [|[a b] l IH]; cbn; congruence.
Qed.

(* Purging. *)
Lemma recode_slots_ok (rec : P -> res P) dead sl :
  (forall k, In k (toks sl) -> exists p, rec (pay k) = Ok p) ->
  exists sl' nd, recode_slots rec dead sl = Ok (sl', nd) /\ length sl' = length sl /\
    (nd + N.of_nat (length (toks sl')) = N.of_nat (length (toks sl)))%N /\
    (forall i, match get sl i with
               | None => get sl' i = None
               | Some k => exists p, rec (pay k) = Ok p /\
                   get sl' i = if dead p then None
                               else Some {| text := text k; hashval := hashval k; pay := p |} end) /\
    (forall w p', (exists k', In k' (toks sl') /\ text k' = w /\ pay k' = p') <->
       exists k, In k (toks sl) /\ text k = w /\ rec (pay k) = Ok p' /\ dead p' = false) /\
    (NoDup (texts sl) -> NoDup (texts sl')).
Proof.
  intros HR. induction sl as [|o sl IH].
  - exists [], 0%N. cbn. repeat split; auto.
    + intros [|i]; reflexivity.
    + intros (k & [] & _).
    + intros (k & [] & _).
  - assert (IH' := IH ltac:(intros k Hk; apply HR; destruct o; [right|]; exact Hk)). clear IH.
    destruct IH' as (s1 & nd & E & L & C & G & I & ND).
    destruct o as [k|]; cbn [recode_slots].
    + destruct (HR k) as [p Hp]; [now left|]. rewrite Hp. cbn [bind]. rewrite E. cbn [bind fst snd].
      destruct (dead p) eqn:Ed.
      * exists (None :: s1), (nd + 1)%N. split; [reflexivity|]. cbn [length toks]. split; [lia|]. split; [lia|].
        split; [|split].
        -- intros [|i]; cbn [get nth_error]; [exists p; rewrite Ed; auto|]. apply G.
        -- intros w p'. rewrite I. split; [intros (c & C1 & C2); exists c; split; [now right|assumption]|].
           intros (c & [<-|C1] & C2 & C3 & C4); [congruence|eauto].
        -- unfold texts. cbn [toks map]. intros H. inversion H; subst. now apply ND.
      * exists (Some {| text := text k; hashval := hashval k; pay := p |} :: s1), nd.
        split; [reflexivity|]. cbn [length toks]. split; [lia|]. split; [lia|]. split; [|split].
        -- intros [|i]; cbn [get nth_error]; [exists p; rewrite Ed; auto|]. apply G.
        -- intros w p'. split.
           ++ intros (c & [<-|C1] & C2 & C3).
              ** cbn in C2, C3. subst. exists k. split; [now left|]. auto.
              ** destruct (proj1 (I w p')) as (c' & D1 & D2); [eauto|]. exists c'. split; [now right|assumption].
           ++ intros (c & [<-|C1] & C2 & C3 & C4).
              ** eexists. split; [now left|]. cbn. split; congruence.
              ** destruct (proj2 (I w p')) as (c' & D1 & D2); [eauto|]. exists c'. split; [now right|assumption].
        -- unfold texts. cbn [toks map]. intros H. inversion H as [|? ? H1 H2]; subst. constructor; [|now apply ND].
           cbn. intros HI. apply H1. apply in_map_iff in HI as (c & C1 & C2).
           destruct (proj1 (I (text k) (pay c))) as (c' & D1 & D2 & _); [eauto|]. rewrite <- D2. now apply in_map.
    + rewrite E. cbn [bind fst snd]. exists (None :: s1), nd. split; [reflexivity|]. cbn [length toks].
      split; [lia|]. split; [lia|]. split; [|split; [exact I|exact ND]].
      intros [|i]; [reflexivity|apply G].
Qed.

Lemma find_gap_ok mask sl i : is_mask (length sl) mask -> i < length sl -> forall fuel j,
  j < length sl -> dist (length sl) j i < fuel ->
  exists g, find_gap fuel sl mask (N.of_nat j) (N.of_nat i) = Ok g /\
    match g with
    | None => forall d, d < dist (length sl) j i -> get sl (cyc (length sl) j d) <> None
    | Some x => exists d, x = N.of_nat (cyc (length sl) j d) /\ d < dist (length sl) j i /\
                 get sl (cyc (length sl) j d) = None
    end.
Proof.
  intros HM Hi. set (n := length sl) in *. induction fuel as [|f IH]; intros j Hj Hf; [lia|].
  cbn [find_gap]. destruct (N.eqb_spec (N.of_nat j) (N.of_nat i)) as [E|E].
  - apply Nnat.Nat2N.inj in E. subst j. exists None. split; [reflexivity|].
    intros d Hd. exfalso. cyc_lia.
  - assert (Hne : j <> i) by congruence. rewrite Nnat.Nat2N.id, get_nth by assumption.
    destruct (get sl j) as [k|] eqn:G.
    + rewrite mask_nxt with (n := n) by assumption.
      assert (HD : dist n j i = S (dist n (nxt n j) i)) by cyc_lia.
      destruct (IH (nxt n j)) as (g & E1 & E2); [now apply nxt_lt|lia|]. rewrite E1.
      exists g. split; [reflexivity|]. pose proof (dist_lt n (nxt n j) i (nxt_lt n j Hj) Hi).
      destruct g as [x|].
      * destruct E2 as (d & D1 & D2 & D3). exists (S d). rewrite cyc_S by lia. split; [assumption|]. split; [lia|assumption].
      * intros [|d] Hd; [rewrite cyc_0 by lia; congruence|]. rewrite cyc_S by lia. apply E2. lia.
    + exists (Some (N.of_nat j)). split; [reflexivity|]. exists 0. rewrite cyc_0 by lia.
      split; [reflexivity|]. split; [cyc_lia|assumption].
Qed.

(* Total displacement: decreases with every move. *)
Fixpoint mu (mask : N) (n i : nat) sl : nat :=
  match sl with
  | [] => 0
  | None :: sl' => mu mask n (S i) sl'
  | Some k :: sl' => dist n (home mask k) i + mu mask n (S i) sl'
  end.
Lemma mu_set_some mask n k sl : forall i0 j, j < length sl -> get sl j = None ->
  mu mask n i0 (set_nth sl j (Some k)) = mu mask n i0 sl + dist n (home mask k) (i0 + j).
Proof.
  induction sl as [|o sl IH]; intros i0 [|j] Hj G; cbn [length] in Hj; try lia.
  - cbn in G. subst o. cbn [set_nth mu]. rewrite Nat.add_0_r. lia.
  - cbn [set_nth]. destruct o as [c|]; cbn [mu]; rewrite (IH (S i0) j) by (try lia; exact G);
      replace (S i0 + j) with (i0 + S j) by lia; lia.
Qed.
Lemma mu_set_none mask n k sl : forall i0 i, get sl i = Some k ->
  mu mask n i0 (set_nth sl i None) + dist n (home mask k) (i0 + i) = mu mask n i0 sl.
Proof.
  induction sl as [|o sl IH]; intros i0 [|i] G; cbn in G; try discriminate.
  - subst o. cbn [set_nth mu]. rewrite Nat.add_0_r. lia.
  - specialize (IH (S i0) i G). cbn [set_nth]. replace (S i0 + i) with (i0 + S i) in IH by lia.
    destruct o as [c|]; cbn [mu]; lia.
Qed.

Lemma close_one_ok mask sl i : is_mask (length sl) mask -> i < length sl ->
  exists sl' mv, close_one mask sl (N.of_nat i) = Ok (sl', mv) /\ length sl' = length sl /\
    Permutation (toks sl') (toks sl) /\
    (mv = true -> mu mask (length sl) 0 sl' < mu mask (length sl) 0 sl) /\
    (mv = false -> sl' = sl /\ forall k d, get sl i = Some k -> d < dist (length sl) (home mask k) i ->
                      get sl (cyc (length sl) (home mask k) d) <> None).
Proof.
  intros HM Hi. unfold close_one. rewrite Nnat.Nat2N.id, get_nth by assumption.
  destruct (get sl i) as [k|] eqn:G.
  - pose proof (home_lt (length sl) mask (hashval k) HM) as Hh. fold (home mask k) in Hh.
    replace (N.land (hashval k) mask) with (N.of_nat (home mask k)) by (unfold home; lia).
    destruct (N.eqb_spec (N.of_nat (home mask k)) (N.of_nat i)) as [E|E].
    + apply Nnat.Nat2N.inj in E. exists sl, false. repeat split; auto; [discriminate|].
      intros c d [= <-] Hd. exfalso. rewrite E in Hd. cyc_lia.
    + assert (Hne : home mask k <> i) by congruence.
      destruct (find_gap_ok mask sl i HM Hi (S (length sl)) (home mask k) Hh) as (g & E1 & E2).
      { pose proof (dist_lt (length sl) (home mask k) i Hh Hi). lia. }
      rewrite E1. cbn [bind]. destruct g as [x|].
      * destruct E2 as (d & -> & D2 & D3). rewrite !Nnat.Nat2N.id.
        pose proof (dist_lt (length sl) (home mask k) i Hh Hi) as DL.
        set (j := cyc (length sl) (home mask k) d) in *.
        assert (Hj : j < length sl) by (apply cyc_lt; lia).
        assert (Hji : j <> i) by congruence.
        set (s1 := set_nth sl j (Some k)).
        assert (G1 : get s1 i = Some k) by (unfold s1; rewrite get_set_neq; assumption).
        eexists _, true. split; [reflexivity|]. split; [unfold s1; now rewrite !set_nth_length|].
        split; [|split; [intros _|discriminate]].
        -- apply Permutation_cons_inv with (a := k). fold s1.
           rewrite <- (toks_set_none s1 i k G1). unfold s1. now apply toks_set_some.
        -- fold s1. pose proof (mu_set_none mask (length sl) k s1 0 i G1) as M1.
           pose proof (mu_set_some mask (length sl) k sl 0 j Hj D3) as M2. fold s1 in M2.
           cbn [Nat.add] in *. unfold j in M2 at 1. rewrite dist_cyc in M2 by lia. 
           assert (dist (length sl) (home mask k) j = d) by (unfold j; apply dist_cyc; lia). lia.
      * exists sl, false. repeat split; auto; [discriminate|]. intros c d [= <-]. apply E2.
  - exists sl, false. repeat split; auto; discriminate.
Qed.

Lemma close_pass_ok mask is : forall sl mv, is_mask (length sl) mask -> (forall i, In i is -> i < length sl) ->
  exists sl' mv', close_pass mask is sl mv = Ok (sl', mv') /\ length sl' = length sl /\
    Permutation (toks sl') (toks sl) /\ mu mask (length sl) 0 sl' <= mu mask (length sl) 0 sl /\
    (mv = true -> mv' = true) /\
    (mv = false -> mv' = true -> mu mask (length sl) 0 sl' < mu mask (length sl) 0 sl) /\
    (mv' = false -> sl' = sl /\ forall i k d, In i is -> get sl i = Some k ->
         d < dist (length sl) (home mask k) i -> get sl (cyc (length sl) (home mask k) d) <> None).
Proof.
  induction is as [|i is IH]; intros sl mv HM HI.
  - exists sl, mv. cbn. repeat split; auto; try congruence.
  - cbn [close_pass]. destruct (close_one_ok mask sl i HM) as (s1 & m1 & E1 & L1 & P1 & A1 & B1); [apply HI; now left|].
    rewrite E1. cbn [bind fst snd].
    destruct (IH s1 (mv || m1)) as (s2 & m2 & E2 & L2 & P2 & M2 & T2 & A2 & B2).
    { now rewrite L1. }
    { intros x Hx. rewrite L1. apply HI. now right. }
    rewrite L1 in *. exists s2, m2. split; [assumption|]. split; [assumption|].
    split; [now rewrite P2|].
    assert (M1 : mu mask (length sl) 0 s1 <= mu mask (length sl) 0 sl).
    { destruct m1; [specialize (A1 eq_refl); lia|]. destruct (B1 eq_refl) as [-> _]. lia. }
    split; [lia|]. split; [|split].
    + intros ->. apply T2. reflexivity.
    + intros -> Hm2. cbn [orb] in *. destruct m1.
      * specialize (A1 eq_refl). lia.
      * specialize (A2 eq_refl Hm2). lia.
    + intros Hm2. destruct (B2 Hm2) as [-> B2'].
      assert (m1 = false).
      { destruct m1; [|reflexivity]. rewrite orb_true_r in T2. rewrite (T2 eq_refl) in Hm2. discriminate. }
      destruct (B1 H) as [-> B1']. split; [reflexivity|]. intros x k d [<-|Hx]; [apply B1'|now apply B2'].
Qed.

Lemma close_gaps_ok mask : forall b sl, mu mask (length sl) 0 sl < b -> is_mask (length sl) mask ->
  exists sl', (forall fuel, b <= fuel -> close_gaps fuel mask sl = Ok sl') /\ length sl' = length sl /\
    Permutation (toks sl') (toks sl) /\ paths mask sl'.
Proof.
  induction b as [|b IH]; intros sl Hb HM; [lia|].
  destruct (close_pass_ok mask (seq 0 (length sl)) sl false HM) as (s1 & m1 & E1 & L1 & P1 & M1 & _ & A1 & B1).
  { intros i Hi. apply in_seq in Hi. lia. }
  destruct m1.
  - specialize (A1 eq_refl eq_refl). destruct (IH s1) as (s2 & E2 & L2 & P2 & H2).
    + rewrite L1. lia.
    + now rewrite L1.
    + exists s2. split; [|split; [congruence|split; [now rewrite P2|assumption]]].
      intros [|f] Hf; [lia|]. cbn [close_gaps]. rewrite E1. cbn [bind fst snd]. apply E2. lia.
  - destruct (B1 eq_refl) as [-> B1']. exists sl. split; [|split; [reflexivity|split; [reflexivity|]]].
    + intros [|f] Hf; [lia|]. cbn [close_gaps]. rewrite E1. reflexivity.
    + intros i k d Gi. apply B1'; [|assumption]. apply in_seq. apply get_some_lt in Gi. lia.
Qed.

Lemma recode_table_ok hashf (rec : P -> res P) dead t : tinv hashf t ->
  (forall k, In k (toks (slots t)) -> exists p, rec (pay k) = Ok p) ->
  exists t' b, (forall fuel, b <= fuel -> recode_table fuel rec dead t = Ok t') /\ tinv hashf t' /\
    forall w p', amap t' w = Some p' <-> exists p, amap t w = Some p /\ rec p = Ok p' /\ dead p' = false.
Proof.
  intros HT HR.
  assert (HN0 : NoDup (texts (slots t))) by (destruct HT as [->|HT]; [constructor|apply HT]).
  destruct (recode_slots_ok rec dead (slots t) HR) as (s1 & nd & E1 & L1 & C1 & G1 & I1 & N1).
  specialize (N1 HN0).
  assert (MAIN : exists s2 b, (forall fuel, b <= fuel ->
       (if (0 <? nd)%N then close_gaps fuel (tmask t) s1 else Ok s1) = Ok s2) /\ length s2 = length s1 /\
       Permutation (toks s2) (toks s1) /\ (tinv1 hashf t -> paths (tmask t) s2)).
  { destruct HT as [->|HT].
    - cbn in E1. injection E1 as <- <-. exists [], 0. cbn. repeat split; auto.
      intros [_ X _ _ _ _ _ _]. cbn in X. lia.
    - destruct (0 <? nd)%N eqn:E0.
      + destruct (close_gaps_ok (tmask t) (S (mu (tmask t) (length s1) 0 s1)) s1) as (s2 & A & B & C & D); [lia| |].
        * rewrite L1. apply HT.
        * exists s2, (S (mu (tmask t) (length s1) 0 s1)). auto.
      + exists s1, 0. repeat split; auto. intros _. apply N.ltb_ge in E0. assert (nd = 0%N) by lia. subst nd.
        assert (SAME : forall i, get s1 i = None -> get (slots t) i = None).
        { (* no token was dropped, so occupancy is unchanged *)
          clear -C1 G1 L1. revert s1 C1 G1 L1. induction (slots t) as [|o sl IH]; intros [|o1 s1] C1 G1 L1 i Hi; cbn [length] in L1; try lia.
          - destruct i; reflexivity.
          - assert (GT : forall i, match get sl i with
               | None => get s1 i = None
               | Some k => exists p, rec (pay k) = Ok p /\
                   get s1 i = if dead p then None
                               else Some {| text := text k; hashval := hashval k; pay := p |} end) by (intros x; exact (G1 (S x))).
            assert (LE : length (toks s1) <= length (toks sl)).
            { clear -GT L1. assert (L : length s1 = length sl) by lia. clear L1.
              revert s1 GT L. induction sl as [|q sl IH]; intros [|q1 s1] GT L; cbn [length] in L; try lia.
              assert (IH' : length (toks s1) <= length (toks sl)) by (apply IH; [intros x; exact (GT (S x))|lia]).
              specialize (GT 0). cbn in GT. destruct q as [a|].
              - cbn [toks length]. destruct q1; cbn [toks length]; lia.
              - cbn in GT. subst q1. cbn. lia. }
            pose proof (G1 0) as G0. cbn in G0. destruct o as [k|].
            + destruct G0 as (p & _ & G0). destruct (dead p).
              * subst o1. cbn [toks length] in C1. lia.
              * subst o1. cbn [toks length] in C1. destruct i as [|i]; [discriminate|].
                apply (IH s1); [lia|exact GT|lia|exact Hi].
            + subst o1. cbn [toks] in C1. destruct i as [|i]; [reflexivity|].
              apply (IH s1); [lia|exact GT|lia|exact Hi]. }
        intros i k d Gi Hd E. apply SAME in E. pose proof (G1 i) as Gi'.
        destruct (get (slots t) i) as [c|] eqn:Gc; [|congruence].
        destruct Gi' as (p & _ & Gi'). rewrite Gi in Gi'. destruct (dead p); [discriminate|]. injection Gi' as ->.
        rewrite L1 in *. apply (ti_paths _ _ HT i c d Gc Hd). exact E. }
  destruct MAIN as (s2 & b & E2 & L2 & P2 & PT).
  exists {| slots := s2; tn := tn t - nd; hwm := hwm t; tmask := tmask t |}, b.
  split; [|split].
  - intros fuel Hf. unfold recode_table. rewrite E1. cbn [bind fst snd]. rewrite (E2 fuel Hf). reflexivity.
  - destruct HT as [->|HT].
    + left. cbn in E1. injection E1 as <- <-. destruct s2; [reflexivity|discriminate].
    + right. pose proof HT as [Hm Ht Hc Hrr Hh Hp Hn Hs].
      split; unfold tsize in *; cbn [slots tn hwm tmask]; rewrite ?L2, ?L1; auto.
      * rewrite (Permutation_length P2). lia.
      * lia.
      * unfold texts. rewrite P2. exact N1.
      * intros k Hk. rewrite P2 in Hk. apply toks_in in Hk as (i & Gi). specialize (G1 i).
        destruct (get (slots t) i) as [c|] eqn:Gc; [|congruence]. destruct G1 as (p & _ & G1).
        rewrite Gi in G1. destruct (dead p); [discriminate|]. injection G1 as ->. cbn. apply Hs. apply toks_in. eauto.
  - intros w p'. unfold amap. cbn [slots].
    rewrite (alook_perm _ (toks s1)); [|rewrite P2; exact N1|exact P2].
    rewrite (alook_some _ _ _ N1), I1. split.
    + intros (k & K1 & K2 & K3 & K4). exists (pay k). split; [|auto]. apply alook_some; eauto.
    + intros (p & A & B & C). apply alook_some in A; [|assumption]. destruct A as (k & K1 & K2 & K3). subst p.
      exists k. auto.
Qed.

End T.
