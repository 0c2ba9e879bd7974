(* An mbox match folder, taken apart again. *)
From Verif Require Import Base M_DbFile M_Mbox S_Mbox L_Mbox L_Mbox2 M_Output S_Output.
Local Open Scope N_scope.

Section Back.
Variable from_ok : bytes -> bool.
Hypothesis FOK : forall x, from_ok (skipn 5 from_line ++ x) = true.
Definition good (b : bytes) : Prop := whole_lines b /\ no_from b.
Definition boxed (bodies : list bytes) : bytes := concat (map (fun b => from_line ++ b) bodies).

Lemma skipn_pre (a b : bytes) k : k = length a -> skipn k (a ++ b) = b.
Proof. intros ->. now rewrite skipn_app, skipn_all, Nat.sub_diag. Qed.
Lemma from_in (va pre x : bytes) q : va = pre ++ x -> N.of_nat (length pre) <= q -> from va q = skipn (N.to_nat q - length pre) x.
Proof. intros -> H. unfold from. rewrite skipn_app, skipn_all2 by lia. reflexivity. Qed.
Lemma sep_after va pre body rest q : va = pre ++ body ++ rest -> good body ->
  separator from_ok va (N.of_nat (length pre)) q -> N.of_nat (length pre + length body) <= q.
Proof.
  intros E [(s & ES) NF] (LS & r & EF & _). destruct (N.le_gt_cases (N.of_nat (length pre + length body)) q) as [H|H]; [exact H|exfalso].
  assert (L : N.of_nat (length pre) <= q) by (destruct LS as [->|[X _]]; lia).
  rewrite (from_in va pre (body ++ rest) q E L) in EF. set (k := (N.to_nat q - length pre)%nat) in *.
  assert (KB : (k < length body)%nat) by lia. rewrite skipn_app in EF. replace (k - length body)%nat with 0%nat in EF by lia. cbn [skipn] in EF.
  assert (L5 : (5 <= length (skipn k body))%nat).
  { destruct (Nat.le_gt_cases 5 (length (skipn k body))) as [X|X]; [exact X|exfalso].
    assert (SK : exists s', skipn k body = s' ++ [10]).
    { exists (skipn k s). rewrite ES, skipn_app. rewrite ES, app_length in KB. cbn [length] in KB. replace (k - length s)%nat with 0%nat by lia. reflexivity. }
    destruct SK as (s' & SK). rewrite SK in EF, X. rewrite app_length in X. cbn [length] in X. rewrite <- app_assoc in EF.
    do 5 (destruct s' as [|? s']; [cbn in EF; discriminate EF|cbn [app] in EF; apply (f_equal (fun l => match l with [] => [] | _ :: t => t end)) in EF; cbn [tl app bs] in EF]).
    cbn [length] in X. lia. }
  assert (E5 : exists c, skipn k body = bs "From " ++ c).
  { exists (skipn 5 (skipn k body)). rewrite <- (firstn_skipn 5 (skipn k body)) at 1. f_equal.
    apply (f_equal (firstn 5)) in EF. rewrite firstn_app in EF. replace (5 - length (skipn k body))%nat with 0%nat in EF by lia.
    rewrite firstn_O, app_nil_r in EF. exact EF. }
  destruct E5 as (c & E5). destruct (NF (firstn k body) c) as [N1 N2]; [now rewrite <- E5, firstn_skipn|].
  destruct LS as [->|[L2 NL]].
  - apply N1. unfold k. replace (N.to_nat (N.of_nat (length pre)) - length pre)%nat with 0%nat by lia. reflexivity.
  - apply N2. assert (K0 : (0 < k)%nat) by lia. rewrite E in NL. rewrite nth_error_app2 in NL by lia.
    replace (N.to_nat (q - 1) - length pre)%nat with (k - 1)%nat in NL by lia. rewrite nth_error_app1 in NL by lia.
    rewrite <- (firstn_skipn (k - 1) body). rewrite firstn_app. rewrite firstn_firstn. rewrite firstn_length.
    replace (Nat.min k (k - 1))%nat with (k - 1)%nat by lia. replace (k - Nat.min (k - 1) (length body))%nat with 1%nat by lia.
    destruct (skipn (k - 1) body) as [|x y] eqn:EX.
    + apply (f_equal (@length N)) in EX. rewrite skipn_length in EX. cbn in EX. lia.
    + cbn [firstn]. rewrite last_last. assert (nth_error (skipn (k - 1) body) 0 = Some x) by now rewrite EX.
      rewrite nth_error_skipn' in H0. rewrite Nat.add_0_r in H0. congruence.
Qed.
Lemma sep_here va pre x b : va = pre ++ from_line ++ x -> (b = N.of_nat (length pre) \/ b < N.of_nat (length pre) /\ exists p', pre = p' ++ [10]) ->
  separator from_ok va b (N.of_nat (length pre)).
Proof.
  intros E L. split.
  - destruct L as [->|[L (p' & ->)]]; [now left|right; split; [exact L|]]. rewrite E, app_length. cbn [length]. rewrite <- app_assoc. rewrite nth_error_app2 by lia.
    replace (N.to_nat (N.of_nat (length p' + 1) - 1) - length p')%nat with 0%nat by lia. reflexivity.
  - exists (skipn 5 from_line ++ x). split; [|apply FOK]. rewrite (from_in va pre _ _ E) by lia. replace (N.to_nat (N.of_nat (length pre)) - length pre)%nat with 0%nat by lia. reflexivity.
Qed.
Lemma next_from_line x n : x <> [] -> next_line n (from_line ++ x) = Ok (Some (n + 44)).
Proof.
  intros H. assert (G : forall l m, ~ In 10 l -> next_line m (l ++ 10 :: x) = Ok (Some (m + N.of_nat (length l) + 1))).
  { induction l as [|c l IH]; intros m NI.
    - cbn [app next_line]. destruct x as [|y x]; [congruence|]. change (10 =? 10) with true. cbv iota. cbn [length]. apply (f_equal Ok), (f_equal Some). lia.
    - assert (E : next_line m ((c :: l) ++ 10 :: x) = if c =? 10 then Ok (Some (m + 1)) else next_line (m + 1) (l ++ 10 :: x)) by (destruct l; reflexivity).
      rewrite E. destruct (N.eqb_spec c 10) as [->|_]; [exfalso; apply NI; now left|]. rewrite IH by (intros X; apply NI; now right). apply (f_equal Ok), (f_equal Some). cbn [length]. lia. }
  unfold from_line, bs_nl. rewrite <- app_assoc. change ([10] ++ x) with (10 :: x). rewrite G; [|cbn; intuition discriminate]. change (length (bs "From mairix@mairix Mon Jan  1 12:34:56 1970")) with 43%nat. apply (f_equal Ok), (f_equal Some). lia.
Qed.
Lemma loop_back va : forall bodies fuel pre body, va = pre ++ from_line ++ body ++ boxed bodies -> good body -> Forall good bodies -> (length bodies + 1 < fuel)%nat ->
  exists ms, msg_loop fuel 0 start_of_next_line (find_next_from from_ok) va (Some (N.of_nat (length pre))) = Ok ms /\ map (part va) ms = body :: bodies.
Proof.
  induction bodies as [|b2 bodies IH]; intros fuel pre body E G GS FU; (destruct fuel as [|fuel]; [lia|]); cbn [msg_loop].
  - assert (SN : start_of_next_line (N.of_nat (length pre)) va = Ok (Some (N.of_nat (length pre) + 44))).
    { unfold start_of_next_line. rewrite E, Nat2N.id, skipn_pre by reflexivity. apply next_from_line. destruct G as [(s & ->) _]. destruct s; discriminate. }
    rewrite SN. cbn [bind]. set (p1 := pre ++ from_line). assert (L1 : N.of_nat (length pre) + 44 = N.of_nat (length p1)) by (unfold p1; rewrite app_length; change (length from_line) with 44%nat; lia).
    rewrite L1. assert (E1 : va = p1 ++ body ++ []) by (rewrite E; unfold p1; now rewrite <- app_assoc).
    destruct (find_next_ok from_ok va (N.of_nat (length p1))) as [(p & _ & SP & _)|[FN _]].
    + exfalso. pose proof (sep_after va p1 body [] p E1 G SP) as X. destruct SP as [_ (r & EF & _)].
      rewrite (from_in va p1 (body ++ []) p E1) in EF by lia. rewrite skipn_all2 in EF by (rewrite app_nil_r; lia). discriminate.
    + rewrite FN. cbn [bind]. change (0 =? 0) with true. cbv iota. destruct fuel as [|fuel]; [lia|]. cbn [msg_loop bind].
      eexists. split; [reflexivity|]. cbn [map]. f_equal. unfold part. cbn [fst snd]. rewrite E1, Nat2N.id, skipn_pre by reflexivity.
      rewrite !app_length, app_nil_r. cbn [length]. rewrite firstn_all2 by lia. reflexivity.
  - assert (SN : start_of_next_line (N.of_nat (length pre)) va = Ok (Some (N.of_nat (length pre) + 44))).
    { unfold start_of_next_line. rewrite E, Nat2N.id, skipn_pre by reflexivity. apply next_from_line. destruct G as [(s & ->) _]. destruct s; discriminate. }
    rewrite SN. cbn [bind]. set (p1 := pre ++ from_line). assert (L1 : N.of_nat (length pre) + 44 = N.of_nat (length p1)) by (unfold p1; rewrite app_length; change (length from_line) with 44%nat; lia).
    rewrite L1. assert (E1 : va = p1 ++ body ++ boxed (b2 :: bodies)) by (rewrite E; unfold p1; now rewrite <- app_assoc).
    assert (E2 : va = (p1 ++ body) ++ from_line ++ b2 ++ boxed bodies).
    { rewrite E1, <- app_assoc. unfold boxed. cbn [map concat]. now rewrite <- app_assoc. }
    assert (SH : separator from_ok va (N.of_nat (length p1)) (N.of_nat (length (p1 ++ body)))).
    { eapply sep_here; [exact E2|]. right. rewrite app_length. destruct G as [(s & ->) _]. rewrite app_length. cbn [length]. split; [lia|]. exists (p1 ++ s). now rewrite <- app_assoc. }
    destruct (find_next_ok from_ok va (N.of_nat (length p1))) as [(p & FN & SP & LE)|[_ NO]]; [|exfalso; exact (NO _ SH)].
    assert (p = N.of_nat (length (p1 ++ body))) as ->.
    { apply N.le_antisymm; [now apply LE|]. rewrite app_length. eapply sep_after; eassumption. }
    rewrite FN. cbn [bind]. rewrite N.add_0_r. inversion GS as [|x l Gb GS' EQ]; subst x l. cbn [length] in FU.
    destruct (IH fuel (p1 ++ body) b2 E2 Gb GS' ltac:(lia)) as (ms & EM & MM). rewrite EM. cbn [bind].
    eexists. split; [reflexivity|]. cbn [map]. rewrite MM. f_equal. unfold part. cbn [fst snd]. rewrite E1 at 1. rewrite Nat2N.id, skipn_pre by reflexivity.
    rewrite app_length. replace (N.to_nat (N.of_nat (length p1 + length body) - N.of_nat (length p1))) with (length body) by lia.
    rewrite firstn_app, firstn_all, Nat.sub_diag, firstn_O. apply app_nil_r.
Qed.
Lemma boxed_len bodies : (length bodies <= length (boxed bodies))%nat.
Proof.
  unfold boxed. induction bodies as [|b l IH]; [cbn; lia|]. cbn [map concat length]. rewrite !app_length. change (length from_line) with 44%nat. lia.
Qed.
Lemma split_back bodies : Forall good bodies ->
  exists ms, build_new_message_list from_ok None (boxed bodies) = Ok ms /\ map (part (boxed bodies)) ms = bodies.
Proof.
  intros G. destruct bodies as [|b bodies].
  - exists []. split; [reflexivity|]. reflexivity.
  - inversion G as [|x l G1 G2]; subst x l. set (va := boxed (b :: bodies)).
    assert (E : va = [] ++ from_line ++ b ++ boxed bodies) by (unfold va, boxed; cbn [map concat app]; now rewrite <- app_assoc).
    assert (M : is_mmdf va = false).
    { unfold is_mmdf. replace (bytes_eqb (firstn 5 va) mmdf_sep) with false; [apply andb_false_r|]. rewrite E. reflexivity. }
    unfold build_new_message_list. rewrite M. cbv zeta iota.
    pose proof (sep_here va [] (b ++ boxed bodies) 0 E (or_introl eq_refl)) as SH.
    destruct (find_next_ok from_ok va 0) as [(p & FN & SP & LE)|[_ NO]]; [|exfalso; exact (NO _ SH)].
    assert (p = 0) as -> by (specialize (LE _ SH); cbn [length] in LE; change (N.of_nat 0) with 0 in LE; lia).
    rewrite FN. cbn [bind]. change 0 with (N.of_nat (length (@nil N))) at 2. eapply loop_back; try eassumption.
    pose proof (boxed_len (b :: bodies)) as X. fold va in X. cbn [length] in X. try lia.
Qed.
End Back.

Lemma from_nth (x a c : bytes) : x = a ++ bs "From " ++ c -> forall j, (j < 5)%nat -> exists z, nth_error x (length a + j) = Some z /\ z <> 10.
Proof.
  intros -> j H. rewrite nth_error_app2 by lia. replace (length a + j - length a)%nat with j by lia.
  destruct j as [|[|[|[|[|j]]]]]; [eexists; split; [reflexivity|discriminate]..|lia].
Qed.
Lemma nth_inside (t u a c : bytes) : t ++ u = a ++ bs "From " ++ c -> (length a + 5 <= length t)%nat -> exists c', t = a ++ bs "From " ++ c'.
Proof.
  intros E L. exists (skipn (length a + 5) t). rewrite <- (firstn_skipn (length a + 5) t) at 1. rewrite app_assoc. f_equal.
  apply (f_equal (firstn (length a + 5))) in E. rewrite firstn_app in E. replace (length a + 5 - length t)%nat with 0%nat in E by lia.
  rewrite firstn_O, app_nil_r in E. rewrite E, app_assoc, firstn_app. rewrite firstn_all2 by (rewrite app_length; cbn; lia).
  rewrite app_length. change (length (bs "From ")) with 5%nat. rewrite Nat.sub_diag, firstn_O. apply app_nil_r.
Qed.
Lemma no_from_nl t k : no_from t -> no_from (t ++ repeat 10 k).
Proof.
  intros NF a c E. destruct (Nat.le_gt_cases (length a + 5) (length t)) as [L|L].
  - destruct (nth_inside _ _ _ _ E L) as (c' & E'). eapply NF. exact E'.
  - exfalso. destruct (from_nth _ a c E 4 ltac:(lia)) as (z & NZ & Z). rewrite nth_error_app2 in NZ by lia. apply nth_error_In, repeat_spec in NZ. congruence.
Qed.
Lemma prefix_of (x b a r : bytes) : x ++ b = a ++ r -> (length x <= length a)%nat -> exists a', a = x ++ a'.
Proof.
  intros E L. exists (skipn (length x) a). rewrite <- (firstn_skipn (length x) a) at 1. f_equal.
  apply (f_equal (firstn (length x))) in E. rewrite !firstn_app, Nat.sub_diag, firstn_O, app_nil_r, firstn_all in E.
  replace (length x - length a)%nat with 0%nat in E by lia. rewrite firstn_O, app_nil_r in E. now symmetry.
Qed.
Lemma no_from_app s b : no_from (s ++ [10]) -> no_from b -> no_from ((s ++ [10]) ++ b).
Proof.
  intros NA NB a c E. destruct (Nat.le_gt_cases (length a + 5) (length (s ++ [10]))) as [L|L].
  - destruct (nth_inside _ _ _ _ E L) as (c' & E'). eapply NA. exact E'.
  - destruct (Nat.le_gt_cases (length (s ++ [10])) (length a)) as [L2|L2].
    + assert (exists a', a = (s ++ [10]) ++ a') as (a' & EA).
      { eapply prefix_of; eassumption. }
      subst a. rewrite <- !app_assoc in E. do 2 apply app_inv_head in E. destruct (NB a' c E) as [N1 N2]. split; [destruct s; discriminate|].
      destruct (exists_last N1) as (a2 & z & ->). rewrite app_assoc, last_last. rewrite last_last in N2. exact N2.
    + exfalso. rewrite app_length in L, L2. cbn [length] in L, L2.
      destruct (from_nth _ a c E (length s - length a) ltac:(lia)) as (z & NZ & Z). replace (length a + (length s - length a))%nat with (length s) in NZ by lia.
      rewrite <- app_assoc in NZ. rewrite nth_error_app2, Nat.sub_diag in NZ by lia. cbn in NZ. congruence.
Qed.
Lemma terminate_nl t : exists k, mbox_terminate t = repeat 10 k.
Proof.
  unfold mbox_terminate. destruct (rev t) as [|c [|c' r]]; [now exists 1%nat|destruct (c =? 10); [now exists 0%nat|now exists 1%nat]|].
  destruct (negb (c =? 10)); [now exists 2%nat|]. destruct (negb (c' =? 10)); [now exists 1%nat|now exists 0%nat].
Qed.
Lemma terminate_ends t s : exists s', (s ++ [10]) ++ t ++ mbox_terminate t = s' ++ [10].
Proof.
  unfold mbox_terminate, bs_nl. destruct (rev t) as [|c [|c' r]] eqn:E; apply (f_equal (@rev N)) in E; rewrite rev_involutive in E; cbn [rev app] in E; subst t.
  - exists (s ++ [10]). reflexivity.
  - destruct (N.eqb_spec c 10) as [->|_]; [exists (s ++ [10]); now rewrite <- !app_assoc|exists ((s ++ [10]) ++ [c]); now rewrite <- !app_assoc].
  - destruct (N.eqb_spec c 10) as [->|_]; cbn [negb]; [|exists (((s ++ [10]) ++ (rev r ++ [c']) ++ [c]) ++ [10]); now rewrite <- !app_assoc].
    destruct (N.eqb_spec c' 10) as [->|_]; cbn [negb]; [exists ((s ++ [10]) ++ rev r ++ [10]); now rewrite <- !app_assoc|exists ((s ++ [10]) ++ (rev r ++ [c']) ++ [10]); now rewrite <- !app_assoc].
Qed.
Lemma no_from_source w : ~ In 10 w -> no_from (source_line w).
Proof.
  intros NI a c E. assert (X : a <> []) by (intros ->; discriminate E). split; [exact X|].
  destruct (exists_last X) as (a' & z & ->). rewrite last_last. intros ->. unfold source_line, bs_nl in E. rewrite app_assoc in E.
  assert (Y : In 10 (bs "X-source-folder: " ++ w)).
  { assert (L : (length a' < length (bs "X-source-folder: " ++ w))%nat).
    { apply (f_equal (@length N)) in E. rewrite !app_length in E. rewrite app_length. cbn [length] in E. change (length (bs "From ")) with 5%nat in E. lia. }
    apply (f_equal (fun l => nth_error l (length a'))) in E. rewrite nth_error_app1 in E by exact L. rewrite <- app_assoc in E.
    rewrite (nth_error_app2 a') in E by lia. rewrite Nat.sub_diag in E. cbn in E. eapply nth_error_In. exact E. }
  apply in_app_iff in Y as [Y|Y]; [|now apply NI]. revert Y. cbn. intuition discriminate.
Qed.
Definition body_of (x : bytes * bytes) : bytes := source_line (fst x) ++ snd x ++ mbox_terminate (snd x).
Lemma results_back from_ok l : (forall x, from_ok (skipn 5 from_line ++ x) = true) -> Forall (fun x => ~ In 10 (fst x) /\ no_from (snd x)) l ->
  let va := concat (map (fun x => mbox_record (fst x) (snd x)) l) in
  exists ms, build_new_message_list from_ok None va = Ok ms /\ map (part va) ms = map (fun x => source_line (fst x) ++ snd x ++ mbox_terminate (snd x)) l.
Proof.
  intros FOK H va. assert (E : va = boxed (map body_of l)).
  { unfold va, boxed. rewrite map_map. f_equal. }
  rewrite E. change (map (fun x => source_line (fst x) ++ snd x ++ mbox_terminate (snd x)) l) with (map body_of l). apply split_back; [exact FOK|].
  apply Forall_map. eapply Forall_impl; [|exact H]. intros [w t] [NI NF]. cbn [fst snd] in *. unfold body_of. cbn [fst snd]. split.
  - unfold source_line, bs_nl. rewrite (app_assoc (bs "X-source-folder: ")). apply terminate_ends.
  - unfold source_line, bs_nl. rewrite (app_assoc (bs "X-source-folder: ")). apply no_from_app.
    + pose proof (no_from_source w NI) as X. unfold source_line, bs_nl in X. now rewrite app_assoc in X.
    + destruct (terminate_nl t) as (k & ->). now apply no_from_nl.
Qed.

(* A message with a line like the separator comes back as two. *)
Definition only_mairix (s : bytes) : bool := bytes_eqb (firstn 39 s) (skipn 5 from_line).
Lemma only_mairix_ok x : only_mairix (skipn 5 from_line ++ x) = true.
Proof. reflexivity. Qed.
Definition quoting : bytes := bs "Hello" ++ [10] ++ from_line ++ bs "bye" ++ [10].
Lemma one_becomes_two : exists ms, build_new_message_list only_mairix None (mbox_record (bs "/m/1") quoting) = Ok ms /\ length ms = 2%nat.
Proof. eexists. split; [vm_compute; reflexivity|reflexivity]. Qed.
