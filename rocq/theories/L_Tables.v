(* The tables: next_state finds what the automaton says. *)
From Coq Require Import Sorted.
From Verif Require Import Base M_Charclass M_Dfasyn M_Compdfa S_Dfasyn L_Charclass L_Charclass2 L_Nfa2 L_Nfa3 L_Compdfa2 L_Compdfa4.
Local Open Scope nat_scope.

Lemma as_short_id z : (-1 <= z < 32768)%Z -> as_short z = z.
Proof. intros H. unfold as_short. rewrite Z.mod_small by lia. lia. Qed.

Lemma flat_rows {A B} (f : A -> list B) k : forall l i t x, (forall a, In a l -> length (f a) = k) -> nth_error l i = Some x -> t < k -> nth_error (flat_map f l) (k * i + t) = nth_error (f x) t.
Proof.
  induction l as [|a l IH]; intros [|i] t x H E T; cbn in E; try discriminate; cbn [flat_map].
  - injection E as ->. rewrite Nat.mul_0_r. cbn [Nat.add]. rewrite nth_error_app1; [reflexivity|]. rewrite H by (left; reflexivity). exact T.
  - rewrite nth_error_app2; rewrite (H a) by (left; reflexivity); [|lia]. replace (k * S i + t - k) with (k * i + t) by lia. apply IH; auto. intros; apply H; right; assumption.
Qed.
Section Tables.
Variables (evs : list evaluator) (nodes : list dfa_node) (nt : nat).
Hypothesis good : Forall (sane evs nt (length nodes)) nodes.
Hypothesis few : (Z.of_nat (length nodes) < 32768)%Z.
Let n := length nodes.
Lemma node_nth i : i < n -> nth_error nodes i = Some (node nodes i).
Proof. intros L. unfold node. apply nth_error_nth'. exact L. Qed.
Lemma entry_small i t : i < n -> (-1 <= nth t (d_map (node nodes i)) (-1) < 32768)%Z.
Proof. intros L. destruct (step_in evs nodes nt good i t L) as [->|(j & Lj & _ & ->)]; lia. Qed.
Lemma uncompressed_ok i tk : i < n -> next_state_uncompressed nt (uncompressed_table nodes) (Z.of_nat i) tk = Ok (nstep nodes (Z.of_nat i) tk).
Proof.
  intros L. unfold next_state_uncompressed. destruct (node_sane evs nodes nt good i L) as (A & _).
  destruct (Z.lt_ge_cases tk 0) as [Q|Q]; [replace (tk <? 0)%Z with true by lia; rewrite nstep_neg by exact Q; reflexivity|]. replace (tk <? 0)%Z with false by lia. cbn [orb]. rewrite nstep_nat by lia.
  destruct (Z.of_nat nt <=? tk)%Z eqn:T; [rewrite nth_overflow by lia; reflexivity|].
  replace (Z.of_nat nt * Z.of_nat i + tk <? 0)%Z with false by lia. replace (Z.to_nat (Z.of_nat nt * Z.of_nat i + tk)) with (nt * i + Z.to_nat tk) by lia.
  unfold uncompressed_table. rewrite (flat_rows (fun d => map as_short (d_map d)) nt nodes i (Z.to_nat tk) (node nodes i)); [|intros a Ha; rewrite map_length; rewrite Forall_forall in good; apply (good a Ha)|apply node_nth; exact L|lia].
  rewrite nth_error_map, (nth_error_nth' _ (-1)%Z) by lia. cbn [option_map]. rewrite as_short_id by (apply entry_small; exact L). reflexivity.
Qed.

(* default states *)
Definition def_ok (defs : list Z) : Prop := forall i z, nth_error defs i = Some z -> z = (-1)%Z \/ exists j, z = Z.of_nat j /\ j < i /\ nth_error defs j = Some (-1)%Z.
Lemma best_ok d tc : forall before best bd j, best_default d nt tc before best bd = Some j -> best = Some j \/ exists e def, In (j, (e, def)) before /\ (def < 0)%Z.
Proof.
  induction before as [|[i [e def]] r IH]; intros best bd j E; cbn [best_default] in E; [auto|].
  assert (K : forall best' bd', best_default d nt tc r best' bd' = Some j -> (best' = best \/ best' = Some i /\ (def < 0)%Z) -> best = Some j \/ exists e0 def0, In (j, (e0, def0)) ((i, (e, def)) :: r) /\ (def0 < 0)%Z).
  { intros best' bd' E' H. apply IH in E'. destruct E' as [->|(e' & def' & A & B)]; [|right; exists e', def'; split; [right; exact A|exact B]]. destruct H as [H|[H Hd]]; [auto|]. injection H as ->. right. exists e, def. split; [left; reflexivity|exact Hd]. }
  destruct (0 <=? def)%Z eqn:Q; [eapply K; eauto|]. destruct (bd <=? _); [eapply K; eauto|]. destruct (tc <=? _); [eapply K; eauto|]. destruct (_ && _); eapply K; eauto. right. split; [reflexivity|lia].
Qed.
Lemma combine_nth_in {A B} (l : list A) (m : list B) : forall a j e x, In (j, (e, x)) (List.combine (seq a (length m)) (List.combine l m)) -> a <= j /\ nth_error m (j - a) = Some x.
Proof.
  revert l. induction m as [|y m IH]; intros l a j e x H; cbn [length seq List.combine] in H; [contradiction|]. destruct l as [|z l]; cbn [List.combine] in H; [contradiction|]. destruct H as [H|H].
  - injection H as <- _ <-. rewrite Nat.sub_diag. split; [lia|reflexivity].
  - apply IH in H. destruct H as (H1 & H2). split; [lia|]. replace (j - a) with (S (j - S a)) by lia. exact H2.
Qed.
Lemma default_ok : forall rest defs, def_ok defs -> def_ok (find_default_states nt nodes rest defs) /\ length (find_default_states nt nodes rest defs) = length defs + length rest.
Proof.
  induction rest as [|d rest IH]; intros defs H; cbn [find_default_states]; [split; [exact H|cbn; lia]|].
  set (z := match best_default _ _ _ _ _ _ with Some j => _ | None => _ end). assert (K : def_ok (defs ++ [z])).
  { assert (Old : forall j x, nth_error defs j = Some x -> nth_error (defs ++ [z]) j = Some x) by (intros j x E; rewrite nth_error_app1; [exact E|apply nth_error_Some; congruence]).
    intros i x E. destruct (Nat.lt_ge_cases i (length defs)) as [Q|Q].
    - rewrite nth_error_app1 in E by exact Q. destruct (H i x E) as [X|(j & A & B & C)]; [auto|]. right. exists j. auto.
    - rewrite nth_error_app2 in E by exact Q. destruct (i - length defs) as [|k] eqn:Ei; cbn in E; [|destruct k; discriminate]. injection E as <-. unfold z. destruct (best_default _ _ _ _ _ _) as [j|] eqn:B; [|auto]. right. exists j. split; [reflexivity|].
      apply best_ok in B. destruct B as [B|(e & def & B & Neg)]; [discriminate|]. apply combine_nth_in in B. destruct B as (_ & B). rewrite Nat.sub_0_r in B. split; [|].
      + assert (j < length defs) by (apply nth_error_Some; congruence). lia.
      + apply Old. destruct (H j def B) as [X|(j' & X & _)]; [congruence|lia]. }
  destruct (IH _ K) as (A & B). split; [exact A|]. rewrite B, app_length. cbn. lia.
Qed.

(* looking for a token *)
Lemma bisect_ok token tk : forall fuel l h, h <= length token -> (forall i j, l <= i < j -> j < h -> (nth i token 0 < nth j token 0)%N) -> h - l < fuel ->
  exists r, bisect fuel token l h tk = Ok r /\ match r with Some m => l <= m < h /\ Z.of_N (nth m token 0%N) = tk | None => forall m, l <= m < h -> Z.of_N (nth m token 0%N) <> tk end.
Proof.
  induction fuel as [|fuel IH]; intros l h Lh Sd Fu; [lia|]. cbn [bisect]. destruct (h <=? l) eqn:Q; [exists None; split; [reflexivity|]; intros; lia|].
  set (m := (h + l) / 2). assert (Hm : l <= m < h) by (unfold m; lia). destruct (nth_error token m) as [x|] eqn:E; [|apply nth_error_None in E; lia]. pose proof (nth_error_nth _ _ 0%N E) as Ex.
  destruct (Z.of_N x =? tk)%Z eqn:T; [exists (Some m); split; [reflexivity|]; rewrite Ex; lia|]. destruct (m =? l) eqn:M.
  - exists None. split; [reflexivity|]. intros k Hk. assert (k = m) by (unfold m in *; lia). subst k. rewrite Ex. lia.
  - destruct (tk <? Z.of_N x)%Z eqn:C.
    + destruct (IH l m ltac:(lia) ltac:(intros; apply Sd; lia) ltac:(lia)) as (r & E1 & R). exists r. split; [exact E1|]. destruct r as [k|]; [split; [lia|apply R]|]. intros k Hk. destruct (Nat.lt_ge_cases k m) as [X|X]; [apply R; lia|].
      assert ((x <= nth k token 0)%N); [|lia]. rewrite <- Ex. destruct (Nat.eq_dec k m) as [->|Y]; [lia|]. specialize (Sd m k ltac:(lia) ltac:(lia)). lia.
    + destruct (IH m h ltac:(lia) ltac:(intros; apply Sd; lia) ltac:(lia)) as (r & E1 & R). exists r. split; [exact E1|]. destruct r as [k|]; [split; [lia|apply R]|]. intros k Hk. destruct (Nat.lt_ge_cases k m) as [X|X]; [|apply R; lia].
      specialize (Sd k m ltac:(lia) ltac:(lia)). lia.
Qed.
Lemma bases_nth : forall rows a i, i <= length rows -> nth_error (bases a rows) i = Some (N.of_nat (a + length (concat (firstn i rows))) mod 65536)%N.
Proof.
  induction rows as [|r rows IH]; intros a [|i] L; cbn [length] in L; try lia; cbn [bases nth_error firstn concat length]; rewrite ?Nat.add_0_r; auto. rewrite IH by lia. rewrite app_length. do 3 f_equal. lia.
Qed.
Lemma concat_nth {A} (rows : list (list A)) : forall i r k, nth_error rows i = Some r -> k < length r -> nth_error (concat rows) (length (concat (firstn i rows)) + k) = nth_error r k.
Proof.
  induction rows as [|r0 rows IH]; intros [|i] r k E L; cbn in E; try discriminate; cbn [firstn concat length].
  - injection E as ->. cbn. rewrite nth_error_app1 by exact L. reflexivity.
  - rewrite app_length, nth_error_app2 by lia. replace (length r0 + length (concat (firstn i rows)) + k - length r0) with (length (concat (firstn i rows)) + k) by lia. apply IH; assumption.
Qed.
Lemma firstn_S_len {A} (rows : list (list A)) : forall i r, nth_error rows i = Some r -> length (concat (firstn (S i) rows)) = length (concat (firstn i rows)) + length r /\ length (concat (firstn (S i) rows)) <= length (concat rows).
Proof.
  induction rows as [|r0 rows IH]; intros [|i] r E; cbn in E; try discriminate.
  - injection E as ->. cbn [firstn concat length]. rewrite !app_length. cbn. lia.
  - destruct (IH i r E) as (A1 & B). change (firstn (S (S i)) (r0 :: rows)) with (r0 :: firstn (S i) rows). change (firstn (S i) (r0 :: rows)) with (r0 :: firstn i rows). cbn [concat]. rewrite !app_length. lia.
Qed.

(* the compressed tables *)
Variable defs : list Z.
Hypothesis defs_ok : def_ok defs.
Hypothesis defs_len : length defs = n.
Hypothesis tokens : nt <= 256.
Let rows := map (included nt nodes) (List.combine nodes defs).
Hypothesis size : (N.of_nat (length (concat rows)) < 65536)%N.
Let T := compressed_tables nt nodes defs.
Lemma row_nth i : i < n -> exists z, nth_error defs i = Some z /\ nth_error rows i = Some (included nt nodes (node nodes i, z)).
Proof.
  intros L. destruct (nth_error defs i) as [z|] eqn:E; [|apply nth_error_None in E; lia]. exists z. split; [reflexivity|]. unfold rows. apply map_nth_error.
  pose proof (node_nth i L) as N. clear - E N. revert E N. generalize (node nodes i) as d. revert i. generalize nodes as l. induction defs as [|w m IH]; intros [|x l] [|i] d E N; cbn in *; try discriminate; [congruence|]. eapply IH; eauto.
Qed.
Lemma seq_sorted : forall k a, StronglySorted lt (seq a k).
Proof. induction k as [|k IH]; intros a; cbn; constructor; auto. apply Forall_forall. intros x Hx. apply in_seq in Hx. lia. Qed.
Lemma filter_sorted f l : StronglySorted lt l -> StronglySorted lt (filter f l).
Proof.
  induction 1 as [|x l H IH F]; cbn; [constructor|]. destruct (f x); [|exact IH]. constructor; [exact IH|]. rewrite Forall_forall in *. intros y Hy. apply filter_In in Hy. apply F, Hy.
Qed.
Lemma sorted_nth l : StronglySorted lt l -> forall i j, i < j -> j < length l -> nth i l 0 < nth j l 0.
Proof.
  induction 1 as [|x l H IH F]; intros i j L1 L2; cbn in L2; [lia|]. destruct j as [|j]; [lia|]. destruct i as [|i]; cbn; [|apply IH; lia]. rewrite Forall_forall in F. apply F. apply nth_In. lia.
Qed.
Lemma included_in d z t x : In (t, x) (included nt nodes (d, z)) <-> t < nt /\ check_include_char nodes d z t = true /\ x = nth t (d_map d) (-1)%Z.
Proof.
  unfold included. cbn [fst snd]. rewrite in_map_iff. split.
  - intros (u & E & H). injection E as -> <-. apply filter_In in H. destruct H as (A & B). apply in_seq in A. split; [lia|]. split; [exact B|reflexivity].
  - intros (A & B & ->). exists t. split; [reflexivity|]. apply filter_In. split; [apply in_seq; lia|exact B].
Qed.
Lemma lookup i z tk : i < n -> nth_error defs i = Some z -> exists l h r, nth_error (tb_base T) i = Some l /\ nth_error (tb_base T) (S i) = Some h /\ bisect (S (N.to_nat h - N.to_nat l)) (tb_token T) (N.to_nat l) (N.to_nat h) tk = Ok r /\
  match r with
  | Some m => (0 <= tk)%Z /\ nth_error (tb_nextstate T) m = Some (nth (Z.to_nat tk) (d_map (node nodes i)) (-1)%Z)
  | None => (tk < 0)%Z \/ nt <= Z.to_nat tk \/ check_include_char nodes (node nodes i) z (Z.to_nat tk) = false
  end.
Proof.
  intros L Ez. destruct (row_nth i L) as (z' & Ez' & Er). assert (z' = z) by congruence. subst z'. clear Ez'. set (row := included nt nodes (node nodes i, z)) in *.
  assert (Li : i < length rows) by (apply nth_error_Some; congruence). destruct (firstn_S_len rows i row Er) as (S1 & S2). set (off := length (concat (firstn i rows))) in *.
  exists (N.of_nat off), (N.of_nat (off + length row)). cbn [T compressed_tables tb_base tb_token tb_nextstate].
  pose proof (bases_nth rows 0 i ltac:(lia)) as B1. pose proof (bases_nth rows 0 (S i) ltac:(lia)) as B2. cbn [Nat.add] in B1, B2. fold off in B1. rewrite S1 in B2. rewrite N.mod_small in B1, B2 by lia.
  assert (TN : forall k, k < length row -> exists t x, nth_error row k = Some (t, x) /\ t < nt /\ nth (off + k) (map (fun tz => N.of_nat (fst tz) mod 256)%N (concat rows)) 0%N = N.of_nat t /\ nth_error (map (fun tz => as_short (snd tz)) (concat rows)) (off + k) = Some (nth t (d_map (node nodes i)) (-1)%Z)).
  { intros k Hk. pose proof (concat_nth rows i row k Er Hk) as C. fold off in C. destruct (nth_error row k) as [[t x]|] eqn:E; [|apply nth_error_None in E; lia]. exists t, x. split; [reflexivity|].
    pose proof (nth_error_In _ _ E) as I. apply included_in in I. destruct I as (Lt & Ck & ->). split; [exact Lt|]. split.
    - apply nth_error_nth. rewrite nth_error_map, C. cbn [option_map fst]. rewrite N.mod_small by lia. reflexivity.
    - rewrite nth_error_map, C. cbn [option_map snd]. rewrite as_short_id by (apply entry_small; exact L). reflexivity. }
  destruct (bisect_ok (map (fun tz => N.of_nat (fst tz) mod 256)%N (concat rows)) tk (S (N.to_nat (N.of_nat (off + length row)) - N.to_nat (N.of_nat off))) (N.to_nat (N.of_nat off)) (N.to_nat (N.of_nat (off + length row)))) as (r & Eb & R).
  - rewrite map_length. lia.
  - rewrite !Nat2N.id. intros a b Hab Hb. destruct (TN (a - off) ltac:(lia)) as (ta & xa & Ea & _ & Na & _). destruct (TN (b - off) ltac:(lia)) as (tb & xb & Eb & _ & Nb & _). replace (off + (a - off)) with a in Na by lia. replace (off + (b - off)) with b in Nb by lia. rewrite Na, Nb.
    assert (ta < tb); [|lia]. unfold row, included in Ea, Eb. cbn [fst snd] in Ea, Eb. rewrite nth_error_map in Ea, Eb. set (fl := filter (check_include_char nodes (node nodes i) z) (seq 0 nt)) in *.
    destruct (nth_error fl (a - off)) as [ua|] eqn:Ua; [|discriminate]. destruct (nth_error fl (b - off)) as [ub|] eqn:Ub; [|discriminate]. cbn [option_map] in Ea, Eb. injection Ea as -> _. injection Eb as -> _.
    rewrite <- (nth_error_nth _ _ 0 Ua), <- (nth_error_nth _ _ 0 Ub). apply sorted_nth; [apply filter_sorted, seq_sorted|lia|apply nth_error_Some; congruence].
  - lia.
  - exists r. split; [exact B1|]. split; [exact B2|]. split; [exact Eb|]. rewrite !Nat2N.id in R. destruct r as [m|].
    + destruct R as (R1 & R2). destruct (TN (m - off) ltac:(lia)) as (t & x & _ & Lt & Nm & Sm). replace (off + (m - off)) with m in Nm, Sm by lia. rewrite Nm in R2. split; [lia|]. etransitivity; [exact Sm|]. do 2 f_equal. lia.
    + destruct (Z.lt_ge_cases tk 0) as [Q|Q]; [auto|]. right. destruct (Nat.lt_ge_cases (Z.to_nat tk) nt) as [Q2|Q2]; [|auto]. right. destruct (check_include_char nodes (node nodes i) z (Z.to_nat tk)) eqn:C; [|reflexivity]. exfalso.
      assert (I : In (Z.to_nat tk, nth (Z.to_nat tk) (d_map (node nodes i)) (-1)%Z) row) by (apply included_in; auto). apply In_nth_error in I. destruct I as (k & Ek). assert (Hk : k < length row) by (apply nth_error_Some; congruence).
      destruct (TN k Hk) as (t & x & Et & _ & Nt & _). rewrite Ek in Et. injection Et as <- _. apply (R (off + k)); [lia|]. rewrite Nt. lia.
Qed.
Lemma nstep_all i tk : i < n -> nstep nodes (Z.of_nat i) tk = if (tk <? 0)%Z then (-1)%Z else nth (Z.to_nat tk) (d_map (node nodes i)) (-1)%Z.
Proof. intros L. destruct (tk <? 0)%Z eqn:Q; [apply nstep_neg; lia|apply nstep_nat; lia]. Qed.
Lemma beyond i tk : i < n -> nt <= Z.to_nat tk -> nth (Z.to_nat tk) (d_map (node nodes i)) (-1)%Z = (-1)%Z.
Proof. intros L H. apply nth_overflow. destruct (node_sane evs nodes nt good i L) as (A & _). lia. Qed.
Lemma def_short z i : nth_error defs i = Some z -> nth_error (tb_defstate T) i = Some z.
Proof.
  intros E. cbn [T compressed_tables tb_defstate]. rewrite nth_error_map, E. cbn [option_map]. f_equal. apply as_short_id. assert (i < length defs) by (apply nth_error_Some; congruence). destruct (defs_ok i z E) as [->|(j & -> & Lj & _)]; lia.
Qed.
Lemma one_step f i tk : i < n -> nth_error defs i = Some (-1)%Z -> next_state_compressed (S f) T (Z.of_nat i) tk = Ok (nstep nodes (Z.of_nat i) tk).
Proof.
  intros L E. cbn [next_state_compressed]. replace (Z.of_nat i <? 0)%Z with false by lia. rewrite Nat2Z.id. destruct (lookup i (-1)%Z tk L E) as (l & h & r & E1 & E2 & E3 & R). rewrite E1, E2, E3. cbn [bind]. rewrite (nstep_all i tk L). destruct r as [m|].
  - destruct R as (R1 & R2). rewrite R2. replace (tk <? 0)%Z with false by lia. reflexivity.
  - rewrite (def_short _ _ E). assert (X : next_state_compressed f T (-1) tk = Ok (-1)%Z) by (destruct f; reflexivity). rewrite X. f_equal. destruct (tk <? 0)%Z eqn:Q; [reflexivity|]. symmetry. destruct R as [R|[R|R]]; [lia|apply beyond; assumption|].
    unfold check_include_char in R. cbn [Z.leb Z.compare] in R. destruct (step_in evs nodes nt good i (Z.to_nat tk) L) as [Y|(j & _ & _ & Y)]; rewrite Y in *; lia.
Qed.
Lemma compressed_ok f i tk : i < n -> next_state_compressed (S (S f)) T (Z.of_nat i) tk = Ok (nstep nodes (Z.of_nat i) tk).
Proof.
  intros L. destruct (row_nth i L) as (z & Ez & _). destruct (defs_ok i z Ez) as [->|(j & -> & Lj & Ej)]; [apply one_step; assumption|].
  assert (Lj' : j < n) by lia. remember (S f) as f1 eqn:F1. cbn [next_state_compressed]. replace (Z.of_nat i <? 0)%Z with false by lia. rewrite Nat2Z.id. destruct (lookup i _ tk L Ez) as (l & h & r & E1 & E2 & E3 & R). rewrite E1, E2, E3. cbn [bind]. rewrite (nstep_all i tk L). destruct r as [m|].
  - destruct R as (R1 & R2). rewrite R2. replace (tk <? 0)%Z with false by lia. reflexivity.
  - rewrite (def_short _ _ Ez), F1, (one_step f j tk Lj' Ej), (nstep_all j tk Lj'). f_equal. destruct (tk <? 0)%Z eqn:Q; [reflexivity|]. destruct R as [R|[R|R]]; [lia|rewrite !beyond by assumption; reflexivity|].
    unfold check_include_char in R. replace (0 <=? Z.of_nat j)%Z with true in R by lia. rewrite Nat2Z.id in R. lia.
Qed.
End Tables.
