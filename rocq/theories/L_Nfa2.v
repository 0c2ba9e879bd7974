(* The subset construction. *)
From Coq Require Import Permutation Sorted.
From Verif Require Import Base M_Charclass M_Dfasyn M_Compdfa S_Dfasyn L_Charclass L_Charclass2 L_Nfa.
From Verif Require L_Mbox.
Local Open Scope nat_scope.

Lemma combine_seq_in {A} (l : list A) : forall a p x, In (p, x) (List.combine (seq a (length l)) l) <-> a <= p /\ nth_error l (p - a) = Some x.
Proof.
  induction l as [|y l IH]; intros a p x; cbn [length seq List.combine].
  - split; [intros []|]. intros [_ H]. destruct (p - a); discriminate.
  - cbn [In]. rewrite IH. split.
    + intros [E|[L E]]; [injection E as <- <-; split; [lia|rewrite Nat.sub_diag; reflexivity]|]. split; [lia|]. replace (p - a) with (S (p - S a)) by lia. exact E.
    + intros [L E]. destruct (Nat.eq_dec p a) as [->|N]; [left; rewrite Nat.sub_diag in E; injection E as ->; reflexivity|right]. split; [lia|]. replace (p - a) with (S (p - S a)) in E by lia. exact E.
Qed.
Lemma tags_of_ok b nfas tag : In tag (tags_of b nfas) <-> exists q st, has nfas q = true /\ nth_error b q = Some st /\ In tag (tags st).
Proof.
  unfold tags_of. rewrite in_flat_map. split.
  - intros ([q st] & I & T). cbn [fst snd] in T. rewrite is_set_has in T. destruct (has nfas q) eqn:E; [|destruct T]. apply combine_seq_in in I. destruct I as [_ I]. rewrite Nat.sub_0_r in I. eauto.
  - intros (q & st & H & I & T). exists (q, st). split; [apply combine_seq_in; rewrite Nat.sub_0_r; split; [lia|exact I]|]. cbn [fst snd]. rewrite is_set_has, H. exact T.
Qed.
Lemma newest_ok nfas : forall r, match find_newest nfas (length r) r with
  | Some k => exists d, nth_error (rev r) k = Some d /\ d_nfas d = nfas
  | None => forall d, In d r -> d_nfas d <> nfas end.
Proof.
  induction r as [|d r IH]; cbn [find_newest length]; [intros d []|]. replace (S (length r) - 1) with (length r) by lia.
  destruct (_ && _ && bytes_eqb nfas (d_nfas d)) eqn:E.
  - apply andb_true_iff in E. destruct E as [_ E]. apply L_Mbox.bytes_eqb_iff in E. exists d. split; [|auto]. cbn [rev]. rewrite nth_error_app2 by (rewrite rev_length; lia). rewrite rev_length, Nat.sub_diag. reflexivity.
  - destruct (find_newest nfas (length r) r) as [k|].
    + destruct IH as (e & H & X). exists e. split; [|exact X]. cbn [rev]. rewrite nth_error_app1; [exact H|]. apply nth_error_Some. congruence.
    + intros e [<-|I]; [|apply IH; exact I]. intros X. rewrite X, !N.eqb_refl in E. rewrite (proj2 (L_Mbox.bytes_eqb_iff nfas nfas) eq_refl) in E. discriminate.
Qed.
Lemma find_dfa_ok nfas nodes : match find_dfa nfas nodes with
  | Some k => nth_error (map d_nfas nodes) k = Some nfas
  | None => ~ In nfas (map d_nfas nodes) end.
Proof.
  unfold find_dfa. pose proof (newest_ok nfas (rev nodes)) as H. rewrite rev_length in H. destruct (find_newest nfas (length nodes) (rev nodes)) as [k|].
  - destruct H as (d & E & X). rewrite rev_involutive in E. rewrite nth_error_map, E. cbn. congruence.
  - intros I. apply in_map_iff in I. destruct I as (d & X & I). apply (H d); [apply -> in_rev; exact I|exact X].
Qed.

Section Subset.
Variables (b : block) (eclo : list (list N)) (R : rules) (nt : nat).
Let n := length b.
Hypothesis lenc : length eclo = n.
Hypothesis range : forall p y q, edge b p y q -> q < n.
Hypothesis eclo_ok : forall p, p < n -> row_ok n (nth p eclo []) /\ forall q, has (nth p eclo []) q = true <-> eps b p q.

Lemma transmap_ok s t : (forall y d, In (y, d) (transitions s) -> d < n) -> row_ok n (transmap n eclo s t) /\
  forall q, has (transmap n eclo s t) q = true <-> exists d, In (TT_TOKEN t, d) (transitions s) /\ eps b d q.
Proof.
  unfold transmap. assert (G : forall ts x, (forall y d, In (y, d) ts -> d < n) -> row_ok n x ->
    let x' := fold_left (fun x tr => match tr with (TT_TOKEN t', d) => if (t' =? t)%nat then or_row x (nth d eclo []) else x | _ => x end) ts x in
    row_ok n x' /\ forall q, has x' q = true <-> has x q = true \/ exists d, In (TT_TOKEN t, d) ts /\ eps b d q).
  { induction ts as [|[y d] ts IH]; intros x D O; cbn [fold_left].
    - split; [exact O|]. intros q. split; [auto|]. intros [H|(d & [] & _)]. exact H.
    - assert (D' : forall y d, In (y, d) ts -> d < n) by (intros; eapply D; right; eassumption). pose proof (D y d (or_introl eq_refl)) as Dd.
      assert (Skip : (forall t', y = TT_TOKEN t' -> t' <> t) -> forall q, (exists d0, In (TT_TOKEN t, d0) ((y, d) :: ts) /\ eps b d0 q) <-> exists d0, In (TT_TOKEN t, d0) ts /\ eps b d0 q).
      { intros Nt q. split; intros (e & I & X); exists e; (split; [|exact X]); [|right; exact I]. destruct I as [I|I]; [|exact I]. injection I as Y _. exfalso. eapply Nt; [exact Y|reflexivity]. }
      destruct y as [|t'|k].
      + destruct (IH x D' O) as [A B]. split; [exact A|]. intros q. rewrite B, Skip; [reflexivity|discriminate].
      + destruct (Nat.eqb_spec t' t) as [->|Nt].
        * destruct (eclo_ok d Dd) as [Oe He]. destruct (IH (or_row x (nth d eclo [])) D') as [A B]; [apply or_ok; assumption|]. split; [exact A|]. intros q. rewrite B.
          rewrite or_has by (destruct O, Oe; lia). rewrite orb_true_iff, He. split.
          -- intros [[H|H]|(e & I & X)]; [auto|right; exists d; split; [left; reflexivity|exact H]|right; exists e; split; [right; exact I|exact X]].
          -- intros [H|(e & [I|I] & X)]; [auto|injection I as ->; auto|right; exists e; auto].
        * destruct (IH x D' O) as [A B]. split; [exact A|]. intros q. rewrite B, Skip; [reflexivity|]. intros t'' E. injection E as <-. exact Nt.
      + destruct (IH x D' O) as [A B]. split; [exact A|]. intros q. rewrite B, Skip; [reflexivity|discriminate]. }
  intros D. destruct (G (transitions s) (repeat 0%N (round_up n)) D (zero_ok n)) as [A B]. split; [exact A|]. intros q. rewrite B, zero_has. split; [intros [H|H]; [discriminate|exact H]|auto].
Qed.
Lemma anytrans_no s t : (forall y d, In (y, d) (transitions s) -> d < n) -> anytrans eclo s t = false -> forall d, ~ In (TT_TOKEN t, d) (transitions s).
Proof.
  intros D H d I. assert (X : anytrans eclo s t = true); [|congruence]. unfold anytrans. apply existsb_exists. exists (TT_TOKEN t, d). split; [exact I|]. rewrite Nat.eqb_refl. cbn [andb].
  destruct (eclo_ok d (D _ _ I)) as [O He]. apply (any_has n); [exact O|]. exists d. apply He. constructor.
Qed.
Lemma targets_ok nfas t : row_ok n (fst (targets b eclo nfas t)) /\
  (forall q, has (fst (targets b eclo nfas t)) q = true <-> exists p d, has nfas p = true /\ edge b p (TT_TOKEN t) d /\ eps b d q) /\
  (snd (targets b eclo nfas t) = true <-> exists q, has (fst (targets b eclo nfas t)) q = true).
Proof.
  unfold targets. fold n. set (f := fun (x : list N * bool) (js : nat * state) => _).
  assert (G : forall l x, (forall p s y d, In (p, s) l -> In (y, d) (transitions s) -> d < n) -> row_ok n (fst x) -> (snd x = true <-> exists q, has (fst x) q = true) ->
    row_ok n (fst (fold_left f l x)) /\ (forall q, has (fst (fold_left f l x)) q = true <-> has (fst x) q = true \/ exists p s d, In (p, s) l /\ has nfas p = true /\ In (TT_TOKEN t, d) (transitions s) /\ eps b d q) /\
    (snd (fold_left f l x) = true <-> exists q, has (fst (fold_left f l x)) q = true)).
  { induction l as [|[p s] l IH]; intros x D O A; cbn [fold_left].
    - split; [exact O|]. split; [|exact A]. intros q. split; [auto|]. intros [H|(p & s & d & [] & _)]. exact H.
    - assert (D' : forall p s y d, In (p, s) l -> In (y, d) (transitions s) -> d < n) by (intros; eapply D; [right; eassumption|eassumption]).
      assert (Ds : forall y d, In (y, d) (transitions s) -> d < n) by (intros; eapply D; [left; reflexivity|eassumption]).
      assert (fx : f x (p, s) = if has nfas p && anytrans eclo s t then (or_row (fst x) (transmap n eclo s t), snd x || existsb (fun w => negb (w =? 0)%N) (transmap n eclo s t)) else x) by (unfold f; cbn [fst snd]; rewrite is_set_has; reflexivity).
      rewrite fx. clear fx. destruct (has nfas p && anytrans eclo s t) eqn:E.
      + apply andb_true_iff in E. destruct E as [E1 E2]. destruct (transmap_ok s t Ds) as [Ot Ht].
        destruct (IH (or_row (fst x) (transmap n eclo s t), snd x || existsb (fun w => negb (w =? 0)%N) (transmap n eclo s t)) D') as (B & C & F).
        * apply or_ok; assumption.
        * cbn [fst snd]. rewrite orb_true_iff, A, (any_has n) by exact Ot. split.
          -- intros [(q & H)|(q & H)]; exists q; rewrite or_has by (destruct O, Ot; lia); rewrite H; [reflexivity|apply orb_true_r].
          -- intros (q & H). rewrite or_has in H by (destruct O, Ot; lia). apply orb_true_iff in H. destruct H; [left|right]; eauto.
        * split; [exact B|]. split; [|exact F]. intros q. rewrite C. cbn [fst]. rewrite or_has by (destruct O, Ot; lia). rewrite orb_true_iff, Ht. split.
          -- intros [[H|(d & I & X)]|(p' & s' & d & I & X)]; [auto|right; exists p, s, d; repeat split; auto; left; reflexivity|right; exists p', s', d; split; [right; exact I|exact X]].
          -- intros [H|(p' & s' & d & [I|I] & X & Y & Z)]; [auto|injection I as -> ->; left; right; eauto|right; exists p', s', d; auto].
      + destruct (IH x D' O A) as (B & C & F). split; [exact B|]. split; [|exact F]. intros q. rewrite C. split.
        * intros [H|(p' & s' & d & I & X)]; [auto|right; exists p', s', d; split; [right; exact I|exact X]].
        * intros [H|(p' & s' & d & [I|I] & X & Y & Z)]; [auto| |right; exists p', s', d; auto]. injection I as -> ->. exfalso. rewrite X in E. cbn in E. exact (anytrans_no _ _ Ds E _ Y). }
  assert (Dn : forall p s y d, In (p, s) (List.combine (seq 0 n) b) -> In (y, d) (transitions s) -> d < n).
  { intros p s y d I J. apply combine_seq_in in I. destruct I as [_ I]. rewrite Nat.sub_0_r in I. apply (range p y d). exists s. auto. }
  destruct (G (List.combine (seq 0 n) b) (repeat 0%N (round_up n), false) Dn (zero_ok n)) as (A & B & C).
  - cbn [fst snd]. split; [discriminate|]. intros (q & H). rewrite zero_has in H. discriminate.
  - split; [exact A|]. split; [|exact C]. intros q. rewrite B. cbn [fst]. rewrite zero_has. split.
    + intros [H|(p & s & d & I & X & Y & Z)]; [discriminate|]. exists p, d. apply combine_seq_in in I. destruct I as [_ I]. rewrite Nat.sub_0_r in I. repeat split; auto. exists s. auto.
    + intros (p & d & X & (s & I & Y) & Z). right. exists p, s, d. repeat split; auto. apply combine_seq_in. rewrite Nat.sub_0_r. split; [lia|exact I].
Qed.

Definition clean (nfas : list N) : Prop := existsb (fun m => match defined (r_defs R) m with Some _ => true | None => false end) (tags_of b nfas) = false.
Definition node_ok (d : dfa_node) : Prop := row_ok n (d_nfas d) /\ clean (d_nfas d) /\ evaluate_attrs (r_fuel R) (r_defs R) (tags_of b (d_nfas d)) (r_evs R) = Ok (d_attrs d, d_early d, d_one d).
Lemma find_or_add_ok nfas nodes i nodes' : row_ok n nfas -> Forall node_ok nodes -> NoDup (map d_nfas nodes) -> find_or_add R b nt nfas nodes = Ok (i, nodes') ->
  nth_error (map d_nfas nodes') i = Some nfas /\ Forall node_ok nodes' /\ NoDup (map d_nfas nodes') /\
  (nodes' = nodes \/ i = length nodes /\ exists d, d_map d = repeat (-1)%Z nt /\ nodes' = nodes ++ [d]).
Proof.
  intros O F D E. unfold find_or_add in E. pose proof (find_dfa_ok nfas nodes) as H. destruct (find_dfa nfas nodes) as [k|].
  - injection E as <- <-. repeat split; auto.
  - unfold add_dfa in E. destruct (existsb _ (tags_of b nfas)) eqn:Q; [discriminate|].
    destruct (evaluate_attrs (r_fuel R) (r_defs R) (tags_of b nfas) (r_evs R)) as [[[vs early] one]|] eqn:V; [|discriminate]. cbn [bind] in E. injection E as <- <-.
    set (d := Node nfas (repeat (-1)%Z nt) vs early one). split; [|split; [|split]].
    + rewrite map_app, nth_error_app2 by (rewrite map_length; lia). rewrite map_length, Nat.sub_diag. reflexivity.
    + apply Forall_app. split; [exact F|]. constructor; [|constructor]. split; [exact O|]. split; [exact Q|exact V].
    + rewrite map_app. cbn. clear - D H. apply Permutation_NoDup with (l := nfas :: map d_nfas nodes); [|constructor; assumption]. apply Permutation_cons_append.
    + right. split; [reflexivity|]. exists d. auto.
Qed.
Lemma entries_ok : forall entries nodes is_ nodes', (forall e, In e entries -> e < n) -> Forall node_ok nodes -> NoDup (map d_nfas nodes) -> Forall (fun d => d_map d = repeat (-1)%Z nt) nodes ->
  add_entries R b nt eclo entries nodes = Ok (is_, nodes') ->
  Forall node_ok nodes' /\ NoDup (map d_nfas nodes') /\ Forall (fun d => d_map d = repeat (-1)%Z nt) nodes' /\ (exists ex, nodes' = nodes ++ ex) /\
  Forall2 (fun e i => exists row, nth_error (map d_nfas nodes') i = Some row /\ forall q, has row q = true <-> eps b e q) entries is_ /\ (forall i, length nodes <= i < length nodes' -> In i is_).
Proof.
  induction entries as [|e es IH]; intros nodes is_ nodes' Re F D M E; cbn [add_entries] in E.
  - injection E as <- <-. repeat split; auto; [exists []; rewrite app_nil_r; reflexivity|intros; lia].
  - destruct (find_or_add R b nt (or_row (repeat 0%N (round_up (length b))) (nth e eclo [])) nodes) as [[i nodes1]|] eqn:E1; [|discriminate]. cbn [bind] in E.
    destruct (add_entries R b nt eclo es nodes1) as [[is1 nodes2]|] eqn:E2; [|discriminate]. cbn [bind] in E. injection E as <- <-.
    destruct (eclo_ok e (Re e (or_introl eq_refl))) as [Oe He]. pose proof (zero_ok n) as Oz.
    apply find_or_add_ok in E1; auto; [|apply or_ok; assumption]. destruct E1 as (A & B & C & X).
    assert (M1 : Forall (fun d => d_map d = repeat (-1)%Z nt) nodes1).
    { destruct X as [->|(_ & d & Ed & ->)]; [exact M|]. apply Forall_app. split; [exact M|]. constructor; auto. }
    apply IH in E2; auto; [|intros e' I; apply Re; right; exact I]. destruct E2 as (A2 & B2 & C2 & (ex2 & ->) & F2 & X2). split; [exact A2|]. split; [exact B2|]. split; [exact C2|].
    split; [|split].
    + destruct X as [->|(_ & d & Ed & ->)]; [eauto|]. rewrite <- app_assoc. eauto.
    + constructor; [|exact F2]. exists (or_row (repeat 0%N (round_up (length b))) (nth e eclo [])). split.
      * rewrite map_app. rewrite nth_error_app1; [exact A|]. apply nth_error_Some. congruence.
      * intros q. rewrite or_has by (destruct Oz, Oe; fold n; lia). rewrite zero_has. cbn [orb]. apply He.
    + intros j J. destruct X as [->|(-> & d & Ed & ->)]; [right; apply X2; exact J|]. rewrite !app_length in J. cbn [length] in J. destruct (Nat.eq_dec j (length nodes)) as [->|N]; [left; reflexivity|right; apply X2; rewrite !app_length; cbn [length]; lia].
Qed.
Definition target_ok (rows : list (list N)) (nfas : list N) (t : nat) (z : Z) : Prop :=
  if snd (targets b eclo nfas t) then exists j, z = Z.of_nat j /\ nth_error rows j = Some (fst (targets b eclo nfas t)) else z = (-1)%Z.
Lemma target_more rows ex nfas t z : target_ok rows nfas t z -> target_ok (rows ++ ex) nfas t z.
Proof. unfold target_ok. destruct (snd (targets b eclo nfas t)); [|auto]. intros (j & E & H). exists j. split; [exact E|]. rewrite nth_error_app1; [exact H|]. apply nth_error_Some. congruence. Qed.
Lemma map_tokens_ok nfas : forall k t nodes zs nodes', Forall node_ok nodes -> NoDup (map d_nfas nodes) -> map_tokens R b nt eclo nfas k t nodes = Ok (zs, nodes') ->
  length zs = k /\ Forall node_ok nodes' /\ NoDup (map d_nfas nodes') /\ (exists ex, nodes' = nodes ++ ex /\ Forall (fun d => d_map d = repeat (-1)%Z nt) ex) /\
  (forall i, i < k -> target_ok (map d_nfas nodes') nfas (t + i) (nth i zs (-1)%Z)) /\ (forall j, length nodes <= j < length nodes' -> exists i, i < k /\ nth i zs (-1)%Z = Z.of_nat j).
Proof.
  induction k as [|k IH]; intros t nodes zs nodes' F D E; cbn [map_tokens] in E.
  - injection E as <- <-. repeat split; auto; [exists []; rewrite app_nil_r; auto|intros; lia|intros; lia].
  - destruct (targets_ok nfas t) as (O & _ & _). destruct (targets b eclo nfas t) as [row any] eqn:T. cbn [fst snd] in O.
    assert (X : exists z nodes1, (if any then let! (i, nodes') := find_or_add R b nt row nodes in Ok (Z.of_nat i, nodes') else Ok ((-1)%Z, nodes)) = Ok (z, nodes1) /\
      (let! (zs, nodes'') := map_tokens R b nt eclo nfas k (S t) nodes1 in Ok (z :: zs, nodes'')) = Ok (zs, nodes')).
    { destruct (if any then _ else _) as [[z nodes1]|]; [|discriminate]. eauto. }
    destruct X as (z & nodes1 & X & E'). clear E.
    assert (Y : Forall node_ok nodes1 /\ NoDup (map d_nfas nodes1) /\ (exists ex, nodes1 = nodes ++ ex /\ Forall (fun d => d_map d = repeat (-1)%Z nt) ex) /\ target_ok (map d_nfas nodes1) nfas t z /\ (forall j, length nodes <= j < length nodes1 -> z = Z.of_nat j)).
    { unfold target_ok. rewrite T. cbn [fst snd]. destruct any.
      - destruct (find_or_add R b nt row nodes) as [[i nodes2]|] eqn:E1; [|discriminate]. cbn [bind] in X. injection X as <- <-. apply find_or_add_ok in E1; auto. destruct E1 as (A & B & C & Q).
        split; [exact B|]. split; [exact C|]. split; [|split; [exists i; auto|]].
        + destruct Q as [->|(_ & d & Ed & ->)]; [exists []; rewrite app_nil_r; auto|exists [d]; auto].
        + intros j J. destruct Q as [->|(-> & d & Ed & ->)]; [lia|]. rewrite app_length in J. cbn in J. f_equal. lia.
      - injection X as <- <-. repeat split; auto; [exists []; rewrite app_nil_r; auto|intros; lia]. }
    destruct Y as (F1 & D1 & (ex1 & E1 & M1) & T1 & N1).
    destruct (map_tokens R b nt eclo nfas k (S t) nodes1) as [[zs2 nodes2]|] eqn:E2; [|discriminate]. cbn [bind] in E'. injection E' as <- <-.
    apply IH in E2; auto. destruct E2 as (L2 & F2 & D2 & (ex2 & X2 & M2) & T2 & N2).
    split; [cbn; lia|]. split; [exact F2|]. split; [exact D2|]. split; [|split].
    + exists (ex1 ++ ex2). split; [subst; apply app_assoc_reverse|]. apply Forall_app. auto.
    + intros [|i] I; cbn [nth].
      * rewrite Nat.add_0_r. rewrite X2, map_app. apply target_more. exact T1.
      * replace (t + S i) with (S t + i) by lia. apply T2. lia.
    + intros j J. destruct (Nat.lt_ge_cases j (length nodes1)) as [Q|Q].
      * exists 0. split; [lia|]. cbn. apply N1. lia.
      * destruct (N2 j) as (i & I & Y); [lia|]. exists (S i). split; [lia|exact Y].
Qed.
Definition map_ok (rows : list (list N)) (d : dfa_node) : Prop :=
  length (d_map d) = nt /\ if d_early d then d_map d = repeat (-1)%Z nt else forall t, t < nt -> target_ok rows (d_nfas d) t (nth t (d_map d) (-1)%Z).
Lemma map_set_nth (nodes : list dfa_node) i d m : nth_error nodes i = Some d -> map d_nfas (set_nth nodes i (set_map d m)) = map d_nfas nodes.
Proof. revert i. induction nodes as [|e nodes IH]; intros [|i] E; cbn in *; try discriminate; [injection E as ->; reflexivity|]. rewrite (IH i E). reflexivity. Qed.
Record built (ne next : nat) (nodes : list dfa_node) : Prop := {
  bu_nodes : Forall node_ok nodes;
  bu_nodup : NoDup (map d_nfas nodes);
  bu_done : forall i d, i < next -> nth_error nodes i = Some d -> map_ok (map d_nfas nodes) d;
  bu_new : forall i d, next <= i -> nth_error nodes i = Some d -> d_map d = repeat (-1)%Z nt;
  bu_from : forall i, i < length nodes -> i < ne \/ exists j d t, j < i /\ j < next /\ nth_error nodes j = Some d /\ t < nt /\ nth t (d_map d) (-1)%Z = Z.of_nat i }.
Lemma map_ok_more rows ex d : map_ok rows d -> map_ok (rows ++ ex) d.
Proof. intros [L H]. split; [exact L|]. destruct (d_early d); [exact H|]. intros t T. apply target_more, H, T. Qed.
Lemma nth_error_set {A} (l : list A) : forall i x j, i < length l -> nth_error (set_nth l i x) j = if i =? j then Some x else nth_error l j.
Proof. induction l as [|a l IH]; intros [|i] x [|j] L; cbn in *; try lia; auto. apply IH. lia. Qed.
Lemma build_loop_ok ne : forall fuel next nodes nodes', next <= length nodes -> built ne next nodes -> build_loop fuel R b nt eclo next nodes = Ok nodes' ->
  built ne (length nodes') nodes' /\ length nodes <= length nodes' /\ (forall i, i < length nodes -> nth_error (map d_nfas nodes') i = nth_error (map d_nfas nodes) i).
Proof.
  assert (Done : forall next nodes, next <= length nodes -> built ne next nodes -> nth_error nodes next = None -> built ne (length nodes) nodes).
  { intros next nodes L B E. apply nth_error_None in E. replace (length nodes) with next by lia. exact B. }
  induction fuel as [|f IH]; intros next nodes nodes' L B E; cbn [build_loop] in E; destruct (nth_error nodes next) as [d|] eqn:Ed.
  - discriminate.
  - injection E as <-. split; [eapply Done; eassumption|]. split; [lia|auto].
  - assert (Ln : next < length nodes) by (apply nth_error_Some; congruence). pose proof (bu_new _ _ _ B next d (le_n _) Ed) as Md. destruct (d_early d) eqn:Ee.
    + apply IH in E; [exact E|lia|]. destruct B as [B1 B2 B3 B4 B5]. constructor; auto.
      * intros i e I Ei. destruct (Nat.eq_dec i next) as [->|N]; [|apply (B3 i); [lia|exact Ei]]. rewrite Ed in Ei. injection Ei as <-. split; [rewrite Md; apply repeat_length|]. rewrite Ee. exact Md.
      * intros i e I Ei. apply (B4 i); [lia|exact Ei].
      * intros i I. destruct (B5 i I) as [X|(j & e & t & X1 & X2 & X3)]; [auto|]. right. exists j, e, t. repeat split; try tauto. lia.
    + destruct (map_tokens R b nt eclo (d_nfas d) nt 0 nodes) as [[m nodes1]|] eqn:E1; [|discriminate]. cbn [bind] in E. destruct B as [B1 B2 B3 B4 B5].
      apply map_tokens_ok in E1; auto. destruct E1 as (Lm & F1 & D1 & (ex & X1 & M1) & T1 & N1).
      assert (Ed1 : nth_error nodes1 next = Some d) by (subst; rewrite nth_error_app1; assumption).
      assert (L1 : next < length nodes1) by (apply nth_error_Some; congruence).
      pose proof (map_set_nth nodes1 next d m Ed1) as Ms.
      apply IH in E.
      * rewrite cc_set_len, Ms in E. destruct E as (A & Lb & C). split; [exact A|]. split; [subst nodes1; rewrite app_length in Lb; lia|].
        intros i I. rewrite C by (subst nodes1; rewrite app_length; lia). subst nodes1. rewrite map_app, nth_error_app1; [reflexivity|rewrite map_length; exact I].
      * rewrite cc_set_len. lia.
      * constructor.
        -- apply Forall_forall. intros e I. apply In_nth_error in I. destruct I as [i I]. rewrite nth_error_set in I by exact L1. rewrite Forall_forall in F1. destruct (next =? i).
           ++ injection I as <-. apply (F1 d). eapply nth_error_In. exact Ed1.
           ++ apply F1. eapply nth_error_In. exact I.
        -- rewrite Ms. exact D1.
        -- rewrite Ms. intros i e I Ei. rewrite nth_error_set in Ei by exact L1. destruct (Nat.eqb_spec next i) as [<-|N].
           ++ injection Ei as <-. split; [exact Lm|]. cbn [set_map d_early d_map d_nfas]. rewrite Ee. intros t T. apply (T1 t T).
           ++ subst nodes1. rewrite nth_error_app1 in Ei by lia. rewrite map_app. apply map_ok_more. apply (B3 i); [lia|exact Ei].
        -- intros i e I Ei. rewrite nth_error_set in Ei by exact L1. replace (next =? i) with false in Ei by lia. subst nodes1. destruct (Nat.lt_ge_cases i (length nodes)) as [Q|Q].
           ++ rewrite nth_error_app1 in Ei by exact Q. apply (B4 i); [lia|exact Ei].
           ++ rewrite nth_error_app2 in Ei by exact Q. rewrite Forall_forall in M1. apply M1. eapply nth_error_In. exact Ei.
        -- rewrite cc_set_len. intros i I. destruct (Nat.lt_ge_cases i (length nodes)) as [Q|Q].
           ++ destruct (B5 i Q) as [X|(j & e & t & X2 & X3 & X4 & X5)]; [auto|]. right. exists j, e, t. split; [exact X2|]. split; [lia|]. split; [|exact X5].
              rewrite nth_error_set by exact L1. replace (next =? j) with false by lia. subst nodes1. rewrite nth_error_app1; [exact X4|lia].
           ++ right. destruct (N1 i) as (t & T & Y); [lia|]. exists next, (set_map d m), t. split; [lia|]. split; [lia|]. split; [rewrite nth_error_set by exact L1; rewrite Nat.eqb_refl; reflexivity|]. split; [exact T|exact Y].
  - injection E as <-. split; [eapply Done; eassumption|]. split; [lia|auto].
Qed.
Lemma build_ok fuel entries is_ nodes : (forall e, In e entries -> e < n) -> build_dfa fuel R b nt eclo entries = Ok (is_, nodes) ->
  Forall2 (fun e i => exists row, nth_error (map d_nfas nodes) i = Some row /\ forall q, has row q = true <-> eps b e q) entries is_ /\
  exists ne, built ne (length nodes) nodes /\ forall i, i < ne -> In i is_.
Proof.
  intros Re E. unfold build_dfa in E. destruct (add_entries R b nt eclo entries []) as [[is1 nodes1]|] eqn:E1; [|discriminate]. cbn [bind] in E.
  destruct (build_loop fuel R b nt eclo 0 nodes1) as [nodes2|] eqn:E2; [|discriminate]. cbn [bind] in E. injection E as <- <-.
  apply entries_ok in E1; auto; [|constructor]. destruct E1 as (A & B & C & _ & D & F).
  assert (Bu : built (length nodes1) 0 nodes1).
  { constructor; auto; [intros; lia|]. intros i d _ I. rewrite Forall_forall in C. apply C. eapply nth_error_In. exact I. }
  apply build_loop_ok with (ne := length nodes1) in E2; auto; [|lia]. destruct E2 as (X & Y & Z). split.
  - clear - D Z. induction D as [|e i es is_ (row & H1 & H2) D IH]; constructor; auto. exists row. split; [|exact H2]. rewrite Z; [exact H1|]. rewrite <- (map_length d_nfas). apply nth_error_Some. congruence.
  - exists (length nodes1). split; [exact X|]. intros i I. apply F. cbn. lia.
Qed.
End Subset.
