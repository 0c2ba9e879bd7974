(* What stimuli and names of blocks stand for, by computation; scanners with one entry. *)
From Verif Require Import Base M_Charclass M_Dfasyn M_Compdfa M_Parse M_Blocks S_Dfasyn S_Blocks L_Dfasyn2.
From Verif Require L_Mbox L_Blocks2.

Scheme goes_mut := Minimality for goes Sort Prop with all_mut := Minimality for reads_all Sort Prop with reads_mut := Minimality for reads Sort Prop.

(* ---- stimuli ---- *)
Fixpoint positions (i : nat) (l : list bytes) (s : bytes) : list nat :=
  match l with [] => [] | x :: r => (if bytes_eqb x s then [i] else []) ++ positions (S i) r s end.
Lemma positions_ok s : forall l i t, In t (positions i l s) <-> i <= t /\ nth_error l (t - i) = Some s.
Proof.
  induction l as [|x r IH]; intros i t; cbn [positions].
  - split; [intros []|]. intros [_ H]. destruct (t - i); discriminate.
  - rewrite in_app_iff, IH. split.
    + intros [H|[L H]].
      * destruct (bytes_eqb x s) eqn:E; [|destruct H]. destruct H as [<-|[]]. apply L_Mbox.bytes_eqb_iff in E. subst x. rewrite Nat.sub_diag. auto.
      * split; [lia|]. replace (t - i) with (S (t - S i)) by lia. exact H.
    + intros [L H]. destruct (t - i) as [|k] eqn:K.
      * left. cbn in H. injection H as ->. rewrite (proj2 (L_Mbox.bytes_eqb_iff s s) eq_refl). left. lia.
      * right. split; [lia|]. cbn in H. replace (t - S i) with k by lia. exact H.
Qed.
Fixpoint expand (tks : list bytes) (rds : list decl) (x : stimulus) {struct rds} : list one :=
  match x with
  | X_empty => [O_nothing]
  | X_class k => [O_char k]
  | X_inline t i o => [O_block t i o]
  | X_name s =>
    match rds with
    | [] => map O_token (positions 0 tks s)
    | D_abbrev n alts :: r => if bytes_eqb n s then flat_map (expand (tokens_in (rev r)) r) alts else expand tks r (X_name s)
    | _ :: r => expand tks r (X_name s)
    end
  end.
Lemma expand_name : forall rds suf s a, (forall alts, ~ In (D_abbrev s alts) suf) ->
  (forall pre n alts r, rds = pre ++ D_abbrev n alts :: r -> forall x a, stands_for (rev r) x a <-> In a (expand (tokens_in (rev r)) r x)) ->
  (stands_for (rev rds ++ suf) (X_name s) a <-> In a (expand (tokens_in (rev rds ++ suf)) rds (X_name s))).
Proof.
  induction rds as [|d r IH]; intros suf s a N H.
  - cbn [rev app expand]. rewrite in_map_iff. split.
    + intros P. inversion P as [| | |? ? before alts x ? (after & E & _) I _ |? ? t _ K]; subst.
      * exfalso. apply (N alts). apply in_or_app. right. left. reflexivity.
      * exists t. split; [reflexivity|]. apply positions_ok. rewrite Nat.sub_0_r. split; [lia|exact K].
    + intros (t & <- & K). apply positions_ok in K as [_ K]. rewrite Nat.sub_0_r in K. apply sf_token; assumption.
  - cbn [rev]. rewrite <- app_assoc. cbn [app].
    assert (Hr : forall pre n alts r0, r = pre ++ D_abbrev n alts :: r0 -> forall x a, stands_for (rev r0) x a <-> In a (expand (tokens_in (rev r0)) r0 x)).
    { intros pre n alts r0 ->. apply (H (d :: pre) n alts r0). reflexivity. }
    assert (G : (forall alts, d <> D_abbrev s alts) -> stands_for (rev r ++ d :: suf) (X_name s) a <-> In a (expand (tokens_in (rev r ++ d :: suf)) r (X_name s))).
    { intros D. apply IH; [|exact Hr]. intros alts [X|X]; [now apply (D alts)|now apply (N alts)]. }
    destruct d as [b|l|n alts|at_|n at_|n e|n|sx v]; try (cbn [expand]; apply G; intros; discriminate).
    cbn [expand]. destruct (bytes_eqb n s) eqn:E.
    + apply L_Mbox.bytes_eqb_iff in E. subst n. rewrite in_flat_map. specialize (H [] s alts r eq_refl). split.
      * intros P. inversion P as [| | |? ? before alts' x ? (after & E & M) I Q |? ? t M K]; subst.
        -- assert (K : before = rev r /\ alts' = alts).
           { destruct (L_Blocks2.abbrev_unique (rev r ++ D_abbrev s alts :: suf) s before alts' (rev r) alts) as [A B]; [exists after; split; [exact E|exact M]|exists suf; split; [reflexivity|exact N]|]. auto. }
           destruct K as [-> ->]. exists x. split; [exact I|]. now apply H.
        -- exfalso. apply (M alts). apply in_or_app. right. left. reflexivity.
      * intros (x & I & Q). apply sf_abbrev with (before := rev r) (alts := alts) (x := x); [exists suf; split; [reflexivity|exact N]|exact I|]. now apply H.
    + apply G. intros alts' X. injection X as -> _. rewrite (proj2 (L_Mbox.bytes_eqb_iff s s) eq_refl) in E. discriminate E.
Qed.
Lemma expand_rev : forall k rds, length rds <= k -> forall x a, stands_for (rev rds) x a <-> In a (expand (tokens_in (rev rds)) rds x).
Proof.
  induction k as [|k IH]; intros rds L x a.
  - destruct rds; [|cbn in L; lia]. destruct x as [s| | |].
    + rewrite <- (app_nil_r (rev [])). apply expand_name; [intros ? []|]. intros pre n alts r E. destruct pre; discriminate.
    + cbn. split; [intros P; inversion P; subst; auto|intros [<-|[]]; constructor].
    + cbn. split; [intros P; inversion P; subst; auto|intros [<-|[]]; constructor].
    + cbn. split; [intros P; inversion P; subst; auto|intros [<-|[]]; constructor].
  - assert (Z : forall pre n alts r, rds = pre ++ D_abbrev n alts :: r -> forall x a, stands_for (rev r) x a <-> In a (expand (tokens_in (rev r)) r x)).
    { intros pre n alts r ->. apply IH. rewrite app_length in L. cbn in L. lia. }
    destruct x as [s| | |].
    + rewrite <- (app_nil_r (rev rds)). apply expand_name; [intros ? []|exact Z].
    + destruct rds; cbn [expand]; (split; [intros P; inversion P; subst; now left|intros [<-|[]]; constructor]).
    + destruct rds; cbn [expand]; (split; [intros P; inversion P; subst; now left|intros [<-|[]]; constructor]).
    + destruct rds; cbn [expand]; (split; [intros P; inversion P; subst; now left|intros [<-|[]]; constructor]).
Qed.
(* what a choice of stimuli stands for *)
Definition choices (ds : list decl) (alts : list stimulus) : list one := let tks := tokens_in ds in let rds := rev ds in flat_map (expand tks rds) alts.
Lemma choices_ok ds alts a : In a (choices ds alts) <-> exists x, In x alts /\ stands_for ds x a.
Proof.
  unfold choices. cbv zeta. rewrite in_flat_map. split; intros (x & I & H); exists x; (split; [exact I|]).
  - rewrite <- (rev_involutive ds). apply (expand_rev (length (rev ds)) (rev ds) (le_n _)). rewrite rev_involutive. exact H.
  - rewrite <- (rev_involutive ds) in H. apply (expand_rev (length (rev ds)) (rev ds) (le_n _)) in H. rewrite rev_involutive in H. exact H.
Qed.
Lemma all_cons ds alts l w : reads_all ds (alts :: l) w <-> exists a u v, w = u ++ v /\ In a (choices ds alts) /\ reads ds a u /\ reads_all ds l v.
Proof.
  split.
  - intros H. inversion H as [|? ? ? x a u v I Q R A]; subst. exists a, u, v. split; [reflexivity|]. split; [apply choices_ok; eauto|auto].
  - intros (a & u & v & -> & I & R & A). apply choices_ok in I as (x & I & Q). apply ra_cons with (x := x) (a := a); assumption.
Qed.
Lemma all_nil ds w : reads_all ds [] w <-> w = [].
Proof. split; [intros H; inversion H; reflexivity|intros ->; constructor]. Qed.

(* ---- blocks ---- *)
Lemma block_at_nth ds n t before b : block_at (firstn n ds) t before b <-> exists i, i < n /\ nth_error ds i = Some (D_block b) /\ before = firstn i ds /\ b_name b = t.
Proof.
  split.
  - intros (after & E & N). assert (L : length before < length (firstn n ds)) by (rewrite E, app_length; cbn; lia). rewrite firstn_length in L.
    exists (length before). split; [lia|].
    assert (K : ds = (before ++ D_block b :: after) ++ skipn n ds) by (rewrite <- E; symmetry; apply firstn_skipn).
    split.
    + rewrite K, <- app_assoc, nth_error_app2 by lia. rewrite Nat.sub_diag. reflexivity.
    + split; [|exact N]. rewrite K, <- app_assoc, firstn_app, Nat.sub_diag, firstn_all. cbn. now rewrite app_nil_r.
  - intros (i & L & I & -> & N). apply nth_error_split in I as (l1 & l2 & -> & <-). exists (firstn (n - S (length l1)) l2).
    split; [|exact N]. replace (firstn (length l1) _) with l1 by (rewrite firstn_app, Nat.sub_diag, firstn_all; cbn; now rewrite app_nil_r).
    rewrite firstn_app. rewrite firstn_all2 by lia. f_equal. replace (n - length l1) with (S (n - S (length l1))) by lia. reflexivity.
Qed.

(* ---- tags that are nowhere ---- *)
Definition no_marks (b : block_decl) : Prop := forall p l tags, has_line b p l -> l_target l <> Marked tags.
Lemma sees_nowhere ds b p w tag : sees ds b p w tag -> no_marks b -> (forall c, In (D_block c) ds -> no_marks c) -> False.
Proof.
  induction 1 as [ds b p u q l tags tag v _ HL T _ _|ds b p u q l pre alts post v x t i o before c y tag _ _ _ _ _ _ (after & E & _) _ IH]; intros Hb Hd.
  - exact (Hb _ _ _ HL T).
  - apply IH.
    + apply Hd. rewrite E. apply in_or_app. right. left. reflexivity.
    + intros c' I. apply Hd. rewrite E. apply in_or_app. left. exact I.
Qed.

(* ---- the first entry ---- *)
Lemma new_indices_keep leads eqc : forall k i next acc z, nth_error acc 0 = Some z -> nth_error (new_indices leads eqc k i next acc) 0 = Some z.
Proof.
  assert (A : forall (acc : list Z) x z, nth_error acc 0 = Some z -> nth_error (acc ++ [x]) 0 = Some z) by (intros [|y acc] x z H; [discriminate|exact H]).
  induction k as [|k IH]; intros i next acc z H; cbn [new_indices]; [exact H|].
  destruct (negb _); [apply IH, A, H|]. destruct (_ =? _); apply IH, A, H.
Qed.
Lemma new_indices_first leads eqc n : exists z, (z = 0 \/ z = -1)%Z /\ nth 0 (new_indices leads eqc n 0 0 []) (-1)%Z = z.
Proof.
  destruct n as [|n]; cbn [new_indices]; [exists (-1)%Z; auto|].
  assert (A : forall z a b, nth 0 (new_indices leads eqc n a b [z]) (-1)%Z = z) by (intros; apply nth_error_nth, new_indices_keep; reflexivity).
  destruct (negb _); [exists (-1)%Z; cbn [app]; rewrite A; auto|]. destruct (_ =? _); cbn [app]; rewrite A; [exists 0%Z; auto|].
  exists (-1)%Z. destruct (rep_of eqc 0); auto.
Qed.
Lemma build_first fuel R b nt eclo e is_ nodes : build_dfa fuel R b nt eclo [e] = Ok (is_, nodes) -> is_ = [0].
Proof.
  unfold build_dfa. cbn [add_entries]. unfold find_or_add. replace (find_dfa _ []) with (@None nat) by reflexivity. intros H.
  destruct (add_dfa _ _ _ _ _) as [ns|] in H; [|discriminate]. cbn [bind] in H. destruct (build_loop _ _ _ _ _ _ _) in H; [|discriminate]. cbn [bind] in H.
  injection H as <- _. reflexivity.
Qed.
Lemma entry_first fuel qsort ud F sc e : dfasyn fuel qsort ud F = Ok sc -> f_entries F = [e] -> exists z, sc_entries sc = [z] /\ (z = 0 \/ z = -1)%Z.
Proof.
  unfold dfasyn. intros H E. rewrite E in H. cbv zeta in H. destruct (existsb _ _) in H; [discriminate|]. destruct (negb _) in H; [discriminate|].
  destruct (split_charclasses _) as [[mapping ncc]|] in H; [|discriminate]. cbn [bind] in H.
  destruct (generate_epsilon_closure _) as [eclo|] in H; [|discriminate]. cbn [bind] in H.
  destruct (build_dfa _ _ _ _ _ _) as [[entries nodes]|] eqn:B in H; [|discriminate]. cbn [bind] in H.
  apply build_first in B. subst entries. destruct (existsb _ _) in H; [discriminate|]. destruct ud.
  - cbn [bind] in H. injection H as <-. cbn [sc_entries]. exists 0%Z. auto.
  - destruct (compress_dfa _ _ _ _) as [[es ns]|] eqn:C in H; [|discriminate]. cbn [bind] in H. injection H as <-. cbn [sc_entries].
    unfold compress_dfa in C. destruct nodes as [|d nodes]; [injection C as <- _; exists 0%Z; auto|].
    destruct (find_dead_states _ _) as [[leads nodes1]|] in C; [|discriminate]. cbn [bind] in C. destruct (assign_initial_classes _ _ _ _) as [sq [eqc last]].
    destruct (split_loop _ _ _ _ _ _) as [eqc'|] in C; [|discriminate]. cbn [bind] in C. injection C as <- _. cbn [map].
    destruct (new_indices_first leads eqc' (length nodes1)) as (z & Z & K). rewrite K. exists z. auto.
Qed.
