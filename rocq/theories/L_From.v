(* The automaton of fromcheck.nfa: sets of states and paths, paths and the languages of blocks. *)
From Verif Require Import Base M_From.
Local Open Scope N_scope.

Inductive path : nstate -> bytes -> nstate -> Prop :=
| path_nil s : path s [] s
| path_eps s s1 u s' : In s1 (epsilons s) -> path s1 u s' -> path s u s'
| path_chr s c s1 u s' : In s1 (moves c s) -> path s1 u s' -> path s (c :: u) s'.
Lemma path_trans s u s1 v s2 : path s u s1 -> path s1 v s2 -> path s (u ++ v) s2.
Proof. induction 1; intros P; cbn [app]; [exact P|eapply path_eps; eauto|eapply path_chr; eauto]. Qed.
Lemma path_last s u c s' : path s (u ++ [c]) s' <-> exists a b, path s u a /\ In b (moves c a) /\ path b [] s'.
Proof.
  split.
  - intros P. remember (u ++ [c]) as w eqn:E. revert u E. induction P as [s|s s1 w s' I P IH|s x s1 w s' I P IH]; intros u E.
    + destruct u; discriminate.
    + destruct (IH u E) as (a & b & A & B & C). exists a, b. split; [eapply path_eps; eauto|auto].
    + destruct u as [|y u]; injection E as -> E.
      * subst w. exists s, s1. split; [constructor|auto].
      * destruct (IH u E) as (a & b & A & B & C). exists a, b. split; [eapply path_chr; eauto|auto].
  - intros (a & b & A & B & C). eapply path_trans; [exact A|]. eapply path_chr; [exact B|exact C].
Qed.

(* ---- closures ---- *)
Fixpoint shallow (fuel : nat) (s : nstate) : bool := match fuel with O => false | S f => forallb (shallow f) (epsilons s) end.
Lemma close_sound f : forall s s', In s' (close f s) -> path s [] s'.
Proof.
  induction f as [|f IH]; intros s s' I; cbn [close] in I; [destruct I|]. destruct I as [<-|I]; [constructor|].
  apply in_concat in I as (l & L & I). apply in_map_iff in L as (x & <- & X). eapply path_eps; eauto.
Qed.
Lemma close_complete f : forall s s', shallow f s = true -> path s [] s' -> In s' (close f s).
Proof.
  induction f as [|f IH]; intros s s' H P; [discriminate|]. cbn [shallow] in H. rewrite forallb_forall in H. cbn [close].
  inversion P as [|a b u d I Q|]; subst; [now left|]. right. apply in_concat. exists (close f b). split; [apply in_map_iff; eauto|]. apply IH; auto.
Qed.
Lemma place_eqb_eq x y : place_eqb x y = true <-> x = y.
Proof.
  destruct x as [[b l] o], y as [[b' l'] o']. unfold place_eqb. rewrite !andb_true_iff, String.eqb_eq. split.
  - intros [[B L] O]. apply internal_block_dec_bl in B. subst. destruct o as [[t i]|], o' as [[t' i']|]; try discriminate; [|reflexivity].
    apply andb_true_iff in O as [T I]. apply Nat.eqb_eq in T, I. now subst.
  - intros E. injection E as -> -> ->. split; [split; [now apply internal_block_dec_lb|reflexivity]|]. destruct o' as [[t i]|]; [|reflexivity]. now rewrite !Nat.eqb_refl.
Qed.
Lemma nstate_eqb_eq x : forall y, nstate_eqb x y = true <-> x = y.
Proof.
  induction x as [|p x IH]; intros [|q y]; cbn [nstate_eqb]; try (split; discriminate); [tauto|]. rewrite andb_true_iff, place_eqb_eq, IH. split; [intros [-> ->]; reflexivity|intros E; injection E; auto].
Qed.
Lemma known s l : existsb (nstate_eqb s) l = true <-> In s l.
Proof. rewrite existsb_exists. split; [intros (x & I & E); apply nstate_eqb_eq in E; now subst|intros I; exists s; split; [exact I|now apply nstate_eqb_eq]]. Qed.
Lemma once_in s ss : forall done, In s (once ss done) <-> In s ss \/ In s done.
Proof.
  induction ss as [|x ss IH]; intros done; cbn [once In]; [tauto|]. rewrite IH. destruct (existsb _ done) eqn:K; [apply known in K|]; cbn [In]; [|tauto].
  split; [tauto|]. intros [[->|A]|A]; auto.
Qed.
Lemma closure_in s ss : In s (closure ss) <-> exists x, In x ss /\ In s (close 30 x).
Proof.
  unfold closure. rewrite once_in, in_concat. split.
  - intros [(l & L & I)|[]]. apply in_map_iff in L as (x & <- & X). eauto.
  - intros (x & X & I). left. exists (close 30 x). split; [apply in_map_iff; eauto|exact I].
Qed.

(* All states of the NFA that can be reached, whatever the characters are. *)
Definition anyway (s : nstate) : list nstate :=
  match s with
  | (b, l, Some (t, i)) :: r => match nth_error (fst (nth_trans b l t)) i with Some (Cl _) => [(b, l, Some (t, S i)) :: r] | _ => [] end
  | _ => []
  end.
Fixpoint explore (fuel : nat) (todo seen : list nstate) : list nstate :=
  match fuel with
  | O => seen
  | S f => match todo with
           | [] => seen
           | s :: todo' => if existsb (nstate_eqb s) seen then explore f todo' seen else explore f (epsilons s ++ anyway s ++ todo') (s :: seen)
           end
  end.
Definition start : nstate := [(main, "in"%string, None)].
Definition all_states : list nstate := explore 4000 [start] [].
Lemma all_ok : (existsb (nstate_eqb start) all_states &&
  forallb (fun s => shallow 30 s && forallb (fun x => existsb (nstate_eqb x) all_states) (epsilons s ++ anyway s)) all_states)%bool = true.
Proof. vm_compute. reflexivity. Qed.
Lemma start_in : In start all_states.
Proof. pose proof all_ok as H. apply andb_true_iff in H as [H _]. now apply known. Qed.
Lemma all_in s : In s all_states -> shallow 30 s = true /\ forall x, In x (epsilons s) \/ In x (anyway s) -> In x all_states.
Proof.
  intros I. pose proof all_ok as H. apply andb_true_iff in H as [_ H]. rewrite forallb_forall in H. specialize (H s I). cbv beta in H. apply andb_true_iff in H as [A B]. split; [exact A|].
  intros x X. rewrite forallb_forall in B. apply known, B. apply in_or_app. exact X.
Qed.
Global Opaque all_states.
Local Opaque close shallow.
Lemma moves_anyway c s x : In x (moves c s) -> In x (anyway s).
Proof.
  unfold moves, anyway. destruct s as [|[[b l] [[t i]|]] r]; cbn [In]; try tauto. destruct (nth_error _ i) as [[p|b']|]; try tauto. destruct (p c); cbn [In]; tauto.
Qed.
Lemma path_in s u s' : path s u s' -> In s all_states -> In s' all_states.
Proof. induction 1 as [|s s1 u s' I P IH|s c s1 u s' I P IH]; intros A; [exact A|apply IH; apply (proj2 (all_in s A)); now left|apply IH; apply (proj2 (all_in s A)); right; now apply moves_anyway with c]. Qed.

(* ---- sets of states are the ends of paths ---- *)
Definition after (u : bytes) (dd : list nstate) : Prop := forall s, In s dd <-> path start u s.
Lemma entry_after : after [] fromcheck_entry.
Proof.
  intros s. unfold fromcheck_entry. rewrite closure_in. split.
  - intros (x & [<-|[]] & I). now apply close_sound in I.
  - intros P. exists start. split; [now left|]. apply close_complete; [exact (proj1 (all_in _ start_in))|exact P].
Qed.
Lemma next_after u dd c : after u dd -> after (u ++ [c]) (fromcheck_next_state dd c).
Proof.
  intros A s. unfold fromcheck_next_state. rewrite closure_in, path_last. split.
  - intros (x & X & I). apply in_concat in X as (l & L & X). apply in_map_iff in L as (a & <- & D). exists a, x. split; [now apply A|]. split; [exact X|]. now apply close_sound in I.
  - intros (a & b & P & M & Q). exists b. split; [apply in_concat; exists (moves c a); split; [apply in_map_iff; exists a; split; [reflexivity|now apply A]|exact M]|].
    apply close_complete; [|exact Q]. refine (proj1 (all_in b _)). apply path_in in P; [|exact start_in]. refine (proj2 (all_in a P) _ _). right. now apply moves_anyway with c.
Qed.
Lemma loop_ok text : forall u dd, after u dd -> separator_loop dd text = true <-> exists x y s, text = x ++ y /\ x <> [] /\ path start (u ++ x) s /\ passes s = true.
Proof.
  induction text as [|c text IH]; intros u dd A; cbn [separator_loop].
  - split; [discriminate|]. intros ([|] & y & s & E & N & _); [congruence|discriminate].
  - pose proof (next_after u dd c A) as B. specialize (IH (u ++ [c]) _ B).
    assert (K : separator_loop dd (c :: text) = fromcheck_attr (fromcheck_next_state dd c) || separator_loop (fromcheck_next_state dd c) text).
    { cbn [separator_loop]. destruct (fromcheck_next_state dd c) as [|a l]; [|destruct (fromcheck_attr _); reflexivity].
      cbn. destruct text; reflexivity. }
    cbn [separator_loop] in K. rewrite K, orb_true_iff, IH. clear K IH. unfold fromcheck_attr. rewrite existsb_exists. split.
    + intros [(s & I & P)|(x & y & s & -> & N & P & Q)].
      * exists [c], text, s. split; [reflexivity|]. split; [discriminate|]. split; [now apply B|exact P].
      * exists (c :: x), y, s. split; [reflexivity|]. split; [discriminate|]. rewrite <- app_assoc in P. auto.
    + intros (x & y & s & E & N & P & Q). destruct x as [|c' x]; [congruence|]. injection E as <- E. destruct x as [|c' x].
      * left. exists s. split; [now apply B|exact Q].
      * right. exists (c' :: x), y, s. split; [exact E|]. split; [discriminate|]. rewrite <- app_assoc. auto.
Qed.

(* ---- the languages of blocks ---- *)
(* from state l of the block to state fin *)
Inductive rb : block -> string -> string -> bytes -> Prop :=
| rb_fin b fin : rb b fin fin []
| rb_go b fin l ss ts t u v : In (ss, ts) (trans_of b l) -> In t ts -> rs ss u -> rb b fin t v -> rb b fin l (u ++ v)
with rs : list stim -> bytes -> Prop :=
| rs_nil : rs [] []
| rs_cl p ss c u : p c = true -> rs ss u -> rs (Cl p :: ss) (c :: u)
| rs_inst b ss u v : rb b "out"%string "in"%string u -> rs ss v -> rs (Inst b :: ss) (u ++ v).
Scheme rb_mut := Minimality for rb Sort Prop with rs_mut := Minimality for rs Sort Prop.

Definition rp (fin : string) (p : place) (u : bytes) : Prop :=
  match p with
  | (b, l, None) => rb b fin l u
  | (b, l, Some (t, i)) => exists x y g, u = x ++ y /\ rs (skipn i (fst (nth_trans b l t))) x /\ In g (snd (nth_trans b l t)) /\ rb b fin g y
  end.
Fixpoint sl (s : nstate) (u : bytes) : Prop :=
  match s with
  | [] => False
  | [p] => rp "pass"%string p u
  | p :: r => exists x y, u = x ++ y /\ rp "out"%string p x /\ sl r y
  end.
Lemma sl_mono p q r u : (forall fin x, rp fin p x -> rp fin q x) -> sl (p :: r) u -> sl (q :: r) u.
Proof. intros M. destruct r; cbn [sl]; [apply M|]. intros (x & y & E & P & S). exists x, y. auto. Qed.
Lemma nth_skip {A} (l : list A) : forall i x, nth_error l i = Some x -> skipn i l = x :: skipn (S i) l.
Proof. induction l as [|a l IH]; intros [|i] x H; cbn in *; try discriminate; [injection H as ->; reflexivity|now apply IH]. Qed.
Lemma none_skip {A} (l : list A) : forall i, nth_error l i = None -> skipn i l = [].
Proof. intros i H. apply nth_error_None in H. now apply skipn_all2. Qed.
Lemma trans_nth b l t : (t < length (trans_of b l))%nat -> In (nth_trans b l t) (trans_of b l).
Proof. intros L. now apply nth_In. Qed.
Lemma sl_eps s s1 u : In s1 (epsilons s) -> sl s1 u -> sl s u.
Proof.
  intros I S. destruct s as [|[[b l] [[t i]|]] r]; cbn [epsilons] in I; [destruct I| |].
  - destruct (nth_trans b l t) as [ss ts] eqn:T. destruct (nth_error ss i) as [[p|b']|] eqn:E.
    + destruct I.
    + destruct I as [<-|[]]. cbn [sl] in S. destruct S as (x & y & -> & P & S).
      assert (K : forall fin z, rp fin (b, l, Some (t, Datatypes.S i)) z -> rp fin (b, l, Some (t, i)) (x ++ z)).
      { intros fin z (x' & y' & g & -> & R & G & B). exists (x ++ x'), y', g. rewrite app_assoc. split; [reflexivity|]. rewrite T in *. cbn [fst snd] in *. split; [|auto].
        rewrite (nth_skip _ _ _ E). now constructor. }
      cbn [sl] in S |- *. destruct r as [|q r].
      * apply K, S.
      * destruct S as (x' & y' & -> & Q & S). exists (x ++ x'), y'. rewrite app_assoc. auto.
    + apply in_map_iff in I as (g & <- & G). revert S. apply sl_mono. intros fin x R. cbn [rp] in R |- *. exists [], x, g. split; [reflexivity|]. rewrite T. cbn [fst snd].
      rewrite (none_skip _ _ E). split; [constructor|auto].
  - apply in_app_or in I as [I|I].
    + apply in_map_iff in I as (t & <- & L). apply in_seq in L. revert S. apply sl_mono. intros fin x (x' & y' & g & -> & R & G & B). cbn [rp]. cbn [skipn] in R.
      pose proof (trans_nth b l t ltac:(lia)) as T. destruct (nth_trans b l t) as [ss ts]. eapply rb_go; eauto.
    + destruct (String.eqb l "out") eqn:E; [|destruct I]. apply String.eqb_eq in E. subst l. destruct r as [|q r]; [destruct I|]. destruct I as [<-|[]].
      change (exists x y, u = x ++ y /\ rp "out" (b, "out"%string, None) x /\ sl (q :: r) y). exists [], u. split; [reflexivity|]. split; [constructor|exact S].
Qed.
Lemma sl_chr c s s1 u : In s1 (moves c s) -> sl s1 u -> sl s (c :: u).
Proof.
  intros I S. destruct s as [|[[b l] [[t i]|]] r]; cbn [moves] in I; [destruct I| |destruct I].
  destruct (nth_error _ i) as [[p|b']|] eqn:E; try destruct I. destruct (p c) eqn:P; [|destruct I]. destruct I as [<-|[]].
  assert (K : forall fin z, rp fin (b, l, Some (t, Datatypes.S i)) z -> rp fin (b, l, Some (t, i)) (c :: z)).
  { intros fin z (x' & y' & g & -> & R & G & B). exists (c :: x'), y', g. split; [reflexivity|]. split; [|auto]. rewrite (nth_skip _ _ _ E). now constructor. }
  cbn [sl] in S |- *. destruct r as [|q r].
  - apply K, S.
  - destruct S as (x' & y' & -> & Q & S). exists (c :: x'), y'. auto.
Qed.
Lemma path_sl s u s' : path s u s' -> passes s' = true -> sl s u.
Proof.
  induction 1 as [s|s s1 u s' I P IH|s c s1 u s' I P IH]; intros Q.
  - destruct s as [|[[[] l] [[t i]|]] [|]]; try discriminate Q. cbn [passes] in Q. apply String.eqb_eq in Q. subst l. constructor.
  - eapply sl_eps; eauto.
  - eapply sl_chr; eauto.
Qed.

Lemma rb_path : forall b fin l u, rb b fin l u -> forall r, path ((b, l, None) :: r) u ((b, fin, None) :: r).
Proof.
  apply (rb_mut (fun b fin l u => forall r, path ((b, l, None) :: r) u ((b, fin, None) :: r))
    (fun ss u => forall b l t i r, skipn i (fst (nth_trans b l t)) = ss -> path ((b, l, Some (t, i)) :: r) u ((b, l, Some (t, length (fst (nth_trans b l t)))) :: r) \/ (length (fst (nth_trans b l t)) < i)%nat)).
  - constructor.
  - intros b fin l ss ts t u v I T _ IHs _ IHb r. apply (In_nth _ _ ([], [])) in I as (k & L & E).
    assert (NT : nth_trans b l k = (ss, ts)) by exact E.
    eapply path_eps; [cbn [epsilons]; apply in_or_app; left; apply in_map_iff; exists k; split; [reflexivity|]; apply in_seq; split; [apply Nat.le_0_l|exact L]|].
    destruct (IHs b l k 0%nat r ltac:(rewrite NT; reflexivity)) as [P|P]; [|lia].
    eapply path_trans; [exact P|]. rewrite NT. cbn [fst]. eapply path_eps; [|apply IHb]. cbn [epsilons]. rewrite NT.
    assert (X : nth_error ss (length ss) = None) by (apply nth_error_None; lia). rewrite X. apply in_map_iff. eauto.
  - intros b l t i r E. destruct (Nat.le_gt_cases i (length (fst (nth_trans b l t)))) as [L|L]; [left|now right].
    assert (i = length (fst (nth_trans b l t))) as -> by (apply (f_equal (@length _)) in E; rewrite skipn_length in E; cbn in E; lia). constructor.
  - intros p ss c u P _ IH b l t i r E. left.
    assert (X : nth_error (fst (nth_trans b l t)) i = Some (Cl p)) by (rewrite <- (firstn_skipn i (fst (nth_trans b l t))), E; rewrite nth_error_app2 by apply firstn_le_length;
      rewrite firstn_length_le; [now rewrite Nat.sub_diag|]; apply (f_equal (@length _)) in E; rewrite skipn_length in E; cbn in E; lia).
    pose proof (nth_skip _ _ _ X) as Y. rewrite E in Y. injection Y as Y. destruct (IH b l t (Datatypes.S i) r (eq_sym Y)) as [Q|Q].
    + eapply path_chr; [|exact Q]. cbn [moves]. rewrite X, P. now left.
    + assert (i < length (fst (nth_trans b l t)))%nat by (apply nth_error_Some; congruence). lia.
  - intros b' ss u v _ IHb _ IH b l t i r E. left.
    assert (X : nth_error (fst (nth_trans b l t)) i = Some (Inst b')) by (rewrite <- (firstn_skipn i (fst (nth_trans b l t))), E; rewrite nth_error_app2 by apply firstn_le_length;
      rewrite firstn_length_le; [now rewrite Nat.sub_diag|]; apply (f_equal (@length _)) in E; rewrite skipn_length in E; cbn in E; lia).
    pose proof (nth_skip _ _ _ X) as Y. rewrite E in Y. injection Y as Y. destruct (IH b l t (Datatypes.S i) r (eq_sym Y)) as [Q|Q].
    + eapply path_eps; [cbn [epsilons]; destruct (nth_trans b l t) as [ss0 ts0] eqn:T; cbn [fst] in X; rewrite X; now left|].
      eapply path_trans; [apply IHb|]. eapply path_eps; [cbn [epsilons]; apply in_or_app; right; now left|exact Q].
    + assert (i < length (fst (nth_trans b l t)))%nat by (apply nth_error_Some; congruence). lia.
Qed.

Lemma looks_ok text : looks_like_from_separator text = true <-> exists x y, text = x ++ y /\ x <> [] /\ rb main "pass" "in" x.
Proof.
  unfold looks_like_from_separator. rewrite (loop_ok text [] _ entry_after). cbn [app]. split.
  - intros (x & y & s & E & N & P & Q). exists x, y. split; [exact E|]. split; [exact N|]. exact (path_sl _ _ _ P Q).
  - intros (x & y & E & N & R). exists x, y, [(main, "pass"%string, None)]. split; [exact E|]. split; [exact N|]. split; [exact (rb_path _ _ _ _ R [])|reflexivity].
Qed.
