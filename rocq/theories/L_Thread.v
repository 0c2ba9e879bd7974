(* Lemmas for threading. *)
From Coq Require Import Relations.
From Verif Require Import Base M_Encoding M_TokTable S_TokTable M_DbFile M_Thread S_Thread.
Local Open Scope nat_scope.

Lemma nth_set_same {A} (l : list A) i x : i < length l -> nth_error (set_nth l i x) i = Some x.
Proof. revert i. induction l as [|y l IH]; intros [|i] H; cbn in *; try lia; [reflexivity|]. apply IH. lia. Qed.
Lemma nth_set_other {A} (l : list A) i j x : i <> j -> nth_error (set_nth l i x) j = nth_error l j.
Proof. revert i j. induction l as [|y l IH]; intros [|i] [|j] H; cbn; try reflexivity; try lia. apply IH. lia. Qed.
Lemma length_set {A} (l : list A) i x : length (set_nth l i x) = length l.
Proof. revert i. induction l as [|y l IH]; intros [|i]; cbn; auto. Qed.

Definition down (ix : list nat) : Prop := forall i b, nth_error ix i = Some b -> b <= i.
Inductive root (ix : list nat) : nat -> nat -> Prop :=
| r_here i : nth_error ix i = Some i -> root ix i i
| r_up i b r : nth_error ix i = Some b -> b <> i -> root ix b r -> root ix i r.

Lemma root_fun ix i r : root ix i r -> forall r', root ix i r' -> r' = r.
Proof. induction 1 as [i E|i b r E N R IH]; intros r' H; inversion H; subst; try congruence. apply IH. assert (b0 = b) by congruence. now subst. Qed.
Lemma root_fix ix i r : root ix i r -> nth_error ix r = Some r.
Proof. induction 1; auto. Qed.
Lemma root_ex ix : down ix -> forall i, i < length ix -> exists r, root ix i r /\ r <= i.
Proof.
  intros HD. induction i as [i IH] using lt_wf_ind. intros HL. destruct (nth_error ix i) as [b|] eqn:E; [|apply nth_error_None in E; lia].
  pose proof (HD _ _ E). destruct (Nat.eq_dec b i) as [->|NE]; [exists i; split; [now constructor|lia]|].
  destruct (IH b) as (r & R & L); try lia. exists r. split; [now apply (r_up ix i b r)|lia].
Qed.
Lemma find_base_root ix : down ix -> forall i r, root ix i r -> find_base ix i = Ok r.
Proof.
  intros HD i r R. unfold find_base.
  assert (L : i < length ix) by (destruct R; apply nth_error_Some; congruence).
  assert (G : forall fuel, i < fuel -> find_base_from fuel ix i = Ok r); [|apply G; lia].
  clear L. induction R as [i E|i b r E N R IH]; intros fuel HF; destruct fuel; try lia; cbn [find_base_from]; rewrite E.
  - now rewrite Nat.eqb_refl.
  - apply Nat.eqb_neq in N as N'. rewrite N'. apply IH. pose proof (HD _ _ E). lia.
Qed.
Lemma root_merge ix x y : down ix -> y < x -> nth_error ix x = Some x -> nth_error ix y = Some y ->
  forall i r, root ix i r -> root (set_nth ix x y) i (if r =? x then y else r).
Proof.
  intros HD LT EX EY i r R.
  assert (LX : x < length ix) by (apply nth_error_Some; congruence).
  assert (Y : root (set_nth ix x y) y y) by (apply r_here; rewrite nth_set_other by lia; exact EY).
  induction R as [i E|i b r E N R IH].
  - destruct (Nat.eqb_spec i x) as [->|NE]; [apply (r_up _ x y y); [now apply nth_set_same|lia|exact Y]|].
    apply r_here. rewrite nth_set_other by lia. exact E.
  - apply (r_up _ i b); [|exact N|exact IH]. rewrite nth_set_other; [exact E|]. intros ->. congruence.
Qed.
Lemma down_merge ix x y : down ix -> y <= x -> down (set_nth ix x y).
Proof.
  intros HD LE i b E. destruct (Nat.eq_dec x i) as [->|NE]; [|rewrite nth_set_other in E by exact NE; now apply HD].
  assert (L : i < length ix) by (rewrite <- (length_set ix i y); apply nth_error_Some; congruence). rewrite nth_set_same in E by exact L. injection E as <-. exact LE.
Qed.
Definition same (ix : list nat) (i j : nat) : Prop := exists r, root ix i r /\ root ix j r.
Lemma same_trans ix i j k : same ix i j -> same ix j k -> same ix i k.
Proof. intros (r & A & B) (s & C & D). pose proof (root_fun _ _ _ B _ C). subst. now exists r. Qed.
Lemma same_sym ix i j : same ix i j -> same ix j i.
Proof. intros (r & A & B). now exists r. Qed.
Lemma merge_grows ix x y : down ix -> y < x -> nth_error ix x = Some x -> nth_error ix y = Some y ->
  forall i j, same ix i j -> same (set_nth ix x y) i j.
Proof. intros HD LT EX EY i j (r & A & B). eexists. split; eapply root_merge; eauto. Qed.

Definition equiv (Q : nat -> nat -> Prop) : Prop := (forall i j, Q i j -> Q j i) /\ (forall i j k, Q i j -> Q j k -> Q i k).
Lemma merge_sound ix x y Q : down ix -> y < x -> nth_error ix x = Some x -> nth_error ix y = Some y ->
  equiv Q -> (forall i j, same ix i j -> Q i j) -> Q x y -> forall i j, same (set_nth ix x y) i j -> Q i j.
Proof.
  intros HD LT EX EY [QS QT] HS HQ i j (r & A & B).
  assert (RX : root ix x x) by now constructor. assert (RY : root ix y y) by now constructor.
  assert (K : forall k, root (set_nth ix x y) k r -> Q k r).
  { intros k RK. assert (LK : k < length ix). { rewrite <- (length_set ix x y). destruct RK; apply nth_error_Some; congruence. }
    destruct (root_ex ix HD k LK) as (s & RS & _). pose proof (root_merge ix x y HD LT EX EY k s RS) as RM. pose proof (root_fun _ _ _ RM _ RK) as ->.
    assert (KS : Q k s) by (apply HS; exists s; split; [exact RS|constructor; now apply (root_fix ix k)]).
    destruct (Nat.eqb_spec s x) as [ES|]; [rewrite ES in KS; now apply (QT k x y)|exact KS]. }
  apply (QT i r j); [now apply K|apply QS; now apply K].
Qed.

Definition joined (n : nat) (Q : nat -> nat -> Prop) (ix ix' : list nat) : Prop :=
  down ix' /\ length ix' = n /\ (forall i j, same ix i j -> same ix' i j) /\ (forall i j, same ix' i j -> Q i j).
Lemma join_rest_ok n Q : equiv Q -> forall cs ix base, down ix -> length ix = n -> nth_error ix base = Some base ->
  (forall i j, same ix i j -> Q i j) -> (forall c, In c cs -> N.to_nat c < n /\ Q base (N.to_nat c)) ->
  exists ix', join_rest ix base cs = Ok ix' /\ joined n Q ix ix' /\ forall c, In c cs -> same ix' base (N.to_nat c).
Proof.
  intros HQ. pose proof HQ as [QS QT]. induction cs as [|c cs IH]; intros ix base HD HL HB HS HC; cbn [join_rest].
  { exists ix. split; [reflexivity|]. split; [now repeat split|intros c []]. }
  destruct (HC c (or_introl eq_refl)) as [LC QC]. rewrite <- HL in LC. destruct (root_ex ix HD _ LC) as (ob & RO & _).
  rewrite (find_base_root ix HD _ _ RO). cbn [bind]. pose proof (root_fix _ _ _ RO) as EO.
  assert (QO : Q base ob). { apply (QT base (N.to_nat c) ob); [exact QC|]. apply HS. exists ob. split; [exact RO|now constructor]. }
  assert (QO' : forall x, In x cs -> N.to_nat x < n /\ Q base (N.to_nat x)) by (intros x X; apply HC; now right).
  destruct (Nat.ltb_spec ob base).
  - destruct (IH (set_nth ix base ob) ob) as (ix' & E & (D' & L' & G' & S') & C').
    + now apply down_merge; [|lia].
    + now rewrite length_set.
    + rewrite nth_set_other by lia. exact EO.
    + apply merge_sound; auto.
    + intros x X. destruct (QO' x X) as [A B]. split; [exact A|]. apply (QT ob base); [now apply QS|exact B].
    + exists ix'. split; [exact E|]. pose proof (merge_grows ix base ob HD H HB EO) as MG.
      assert (BO : same ix' base ob).
      { apply G'. exists ob. split; [|apply r_here; rewrite nth_set_other by lia; exact EO].
        apply (r_up _ base ob); [apply nth_set_same; apply nth_error_Some; congruence|lia|apply r_here; rewrite nth_set_other by lia; exact EO]. }
      split; [repeat split; auto|]. intros x [<-|X]; [|apply (same_trans _ _ ob); [exact BO|now apply C']].
      apply (same_trans _ _ ob); [exact BO|]. apply G', MG, same_sym. exists ob. split; [exact RO|now constructor].
  - destruct (Nat.ltb_spec base ob).
    + destruct (IH (set_nth ix ob base) base) as (ix' & E & (D' & L' & G' & S') & C').
      * now apply down_merge; [|lia].
      * now rewrite length_set.
      * rewrite nth_set_other by lia. exact HB.
      * apply merge_sound; auto.
      * exact QO'.
      * exists ix'. split; [exact E|]. pose proof (merge_grows ix ob base HD H0 EO HB) as MG.
        assert (BO : same ix' base ob).
        { apply G'. exists base. split; [apply r_here; rewrite nth_set_other by lia; exact HB|].
          apply (r_up _ ob base); [apply nth_set_same; apply nth_error_Some; congruence|lia|apply r_here; rewrite nth_set_other by lia; exact HB]. }
        split; [repeat split; auto|]. intros x [<-|X]; [|now apply C'].
        apply (same_trans _ _ ob); [exact BO|]. apply G', MG, same_sym. exists ob. split; [exact RO|now constructor].
    + assert (ob = base) by lia. subst ob. destruct (IH ix base HD HL HB HS QO') as (ix' & E & (D' & L' & G' & S') & C').
      exists ix'. split; [exact E|]. split; [repeat split; auto|]. intros x [<-|X]; [|now apply C'].
      apply G', same_sym. exists base. split; [exact RO|now constructor].
Qed.
Lemma join_list_ok n Q cs ix : equiv Q -> down ix -> length ix = n ->
  (forall i j, same ix i j -> Q i j) -> (forall c, In c cs -> N.to_nat c < n) -> (forall c d, In c cs -> In d cs -> Q (N.to_nat c) (N.to_nat d)) ->
  exists ix', join_list ix cs = Ok ix' /\ joined n Q ix ix' /\ forall c d, In c cs -> In d cs -> same ix' (N.to_nat c) (N.to_nat d).
Proof.
  intros HQ HD HL HS HC HP. pose proof HQ as [QS QT]. destruct cs as [|c cs]; cbn [join_list].
  { exists ix. split; [reflexivity|]. split; [now repeat split|intros c d []]. }
  assert (LC := HC c (or_introl eq_refl)). rewrite <- HL in LC. destruct (root_ex ix HD _ LC) as (b & RB & _). rewrite (find_base_root ix HD _ _ RB). cbn [bind].
  pose proof (root_fix _ _ _ RB) as EB. assert (QB : Q b (N.to_nat c)) by (apply HS; exists b; split; [now constructor|exact RB]).
  destruct (join_rest_ok n Q HQ cs ix b HD HL EB HS) as (ix' & E & J & C').
  { intros x X. split; [apply HC; now right|]. apply (QT b (N.to_nat c)); [exact QB|apply HP; [now left|now right]]. }
  exists ix'. split; [exact E|]. split; [exact J|]. destruct J as (D' & L' & G' & S').
  assert (K : forall x, In x (c :: cs) -> same ix' b (N.to_nat x)).
  { intros x [<-|X]; [|now apply C']. apply G'. exists b. split; [now constructor|exact RB]. }
  intros x y X Y. apply (same_trans _ _ b); [apply same_sym; now apply K|now apply K].
Qed.
Lemma join_tokens_ok n Q ts : equiv Q -> forall ix, down ix -> length ix = n -> (forall i j, same ix i j -> Q i j) ->
  (forall k, In k ts -> exists xs, lists (fst (pay k)) xs /\ (forall c, In c xs -> N.to_nat c < n) /\ forall c d, In c xs -> In d xs -> Q (N.to_nat c) (N.to_nat d)) ->
  exists ix', join_tokens ix ts = Ok ix' /\ joined n Q ix ix' /\
    forall k xs c d, In k ts -> lists (fst (pay k)) xs -> In c xs -> In d xs -> same ix' (N.to_nat c) (N.to_nat d).
Proof.
  intros HQ. induction ts as [|k ts IH]; intros ix HD HL HS HT; cbn [join_tokens].
  { exists ix. split; [reflexivity|]. split; [now repeat split|intros k xs c d []]. }
  destruct (HT k (or_introl eq_refl)) as (xs & (q & ER) & HC & HP). rewrite ER.
  destruct (join_list_ok n Q xs ix HQ HD HL HS HC HP) as (ix1 & E1 & (D1 & L1 & G1 & S1) & C1). rewrite E1. cbn [bind].
  destruct (IH ix1 D1 L1 S1) as (ix' & E & (D' & L' & G' & S') & C'); [intros x X; apply HT; now right|].
  exists ix'. split; [exact E|]. split; [repeat split; auto|]. intros x ys c d [<-|X] (q' & EY) IC ID; [|eapply C'; eauto; now exists q'].
  assert (ys = xs) by congruence. subst. apply G'. now apply C1.
Qed.

(* the last two loops *)
Definition pointed (ix ix0 : list nat) (k : nat) : Prop :=
  length ix = length ix0 /\ (forall j r, j < k -> root ix0 j r -> nth_error ix j = Some r) /\ (forall j, k <= j -> nth_error ix j = nth_error ix0 j).
Lemma flatten_ok ix0 : down ix0 -> forall m k ix, k + m = length ix0 -> pointed ix ix0 k ->
  exists ix', flatten (seq k m) ix = Ok ix' /\ pointed ix' ix0 (length ix0).
Proof.
  intros HD. induction m as [|m IH]; intros k ix HK P; cbn [seq flatten].
  { exists ix. split; [reflexivity|]. replace (length ix0) with k by lia. exact P. }
  pose proof P as (PL & P1 & P2). assert (LK : k < length ix0) by lia. destruct (root_ex ix0 HD k LK) as (r & RK & RL).
  rewrite (P2 k (le_n k)). destruct (nth_error ix0 k) as [b|] eqn:EB; [|apply nth_error_None in EB; lia]. cbn [fetch bind].
  destruct (Nat.eqb_spec b k) as [->|NE].
  - apply IH; [lia|]. split; [exact PL|]. split.
    + intros j s LJ RJ. destruct (Nat.eq_dec j k) as [->|]; [|apply P1; [lia|exact RJ]]. rewrite (P2 k (le_n k)), EB. f_equal. symmetry. apply (root_fun ix0 k k); [now constructor|exact RJ].
    + intros j LJ. apply P2. lia.
  - assert (LB : b < k) by (pose proof (HD _ _ EB); lia). inversion RK; subst; [congruence|]. assert (b0 = b) by congruence. subst b0.
    rewrite (P1 b r LB) by assumption. cbn [fetch bind]. apply IH; [lia|]. split; [now rewrite length_set|]. split.
    + intros j s LJ RJ. destruct (Nat.eq_dec j k) as [->|NJ].
      * rewrite nth_set_same by lia. f_equal. symmetry. apply (root_fun ix0 k r); [exact RK|exact RJ].
      * rewrite nth_set_other by lia. apply P1; [lia|exact RJ].
    + intros j LJ. rewrite nth_set_other by lia. apply P2. lia.
Qed.
Record numbered (ix : list nat) (k : nat) (next : N) (tids : list N) : Prop := {
  nb_len : length tids = k;
  nb_root : forall j r, j < k -> nth_error ix j = Some r -> nth_error tids j = nth_error tids r;
  nb_lt : forall j t, nth_error tids j = Some t -> (t < next)%N;
  nb_inj : forall j l t, nth_error ix j = Some j -> nth_error ix l = Some l -> nth_error tids j = Some t -> nth_error tids l = Some t -> j = l;
  nb_all : forall t, (t < next)%N -> exists j, nth_error tids j = Some t;
  nb_le : (next <= N.of_nat k)%N }.
Lemma nth_app1 {A} (l : list A) x j : nth_error (l ++ [x]) j = if j =? length l then Some x else nth_error l j.
Proof.
  destruct (Nat.eqb_spec j (length l)) as [->|NE]; [rewrite nth_error_app2, Nat.sub_diag by lia; reflexivity|].
  destruct (Nat.lt_ge_cases j (length l)); [now rewrite nth_error_app1|]. rewrite nth_error_app2 by lia. rewrite (proj2 (nth_error_None l j)) by lia. destruct (j - length l) as [|[|z]] eqn:E; [lia| |]; reflexivity.
Qed.
Lemma number_ok ix : (forall i b, nth_error ix i = Some b -> b <= i /\ nth_error ix b = Some b) ->
  forall m k next tids, k + m = length ix -> numbered ix k next tids ->
  exists tids' next', number_threads (seq k m) ix next tids = Ok tids' /\ numbered ix (length ix) next' tids'.
Proof.
  intros HX. induction m as [|m IH]; intros k next tids HK NB; cbn [seq number_threads].
  { exists tids, next. split; [reflexivity|]. replace (length ix) with k by lia. exact NB. }
  destruct (nth_error ix k) as [b|] eqn:EB; [|apply nth_error_None in EB; lia]. cbn [fetch bind]. destruct (HX k b EB) as [LB FB]. destruct NB as [N1 N2 N3 N4 N5 N6].
  destruct (Nat.eqb_spec b k) as [->|NE].
  - apply IH; [lia|]. constructor.
    + rewrite app_length, N1. cbn. lia.
    + intros j r LJ EJ. rewrite !nth_app1, N1. destruct (HX j r EJ) as [LR _]. destruct (Nat.eqb_spec j k) as [->|NJ].
      * assert (r = k) as -> by congruence. now rewrite Nat.eqb_refl.
      * replace (r =? k) with false by (symmetry; apply Nat.eqb_neq; lia). apply N2; [lia|exact EJ].
    + intros j t. rewrite nth_app1, N1. destruct (j =? k); [intros [= <-]; lia|]. intros X. apply N3 in X. lia.
    + intros j l t EJ EL. rewrite !nth_app1, N1. destruct (Nat.eqb_spec j k), (Nat.eqb_spec l k); intros X Y; try lia.
      * injection X as <-. apply N3 in Y. lia.
      * injection Y as <-. apply N3 in X. lia.
      * now apply (N4 j l t).
    + intros t LT. destruct (N.eq_dec t next) as [->|NT]; [exists k; rewrite nth_app1, N1, Nat.eqb_refl; reflexivity|].
      destruct (N5 t) as (j & J); [lia|]. exists j. rewrite nth_app1, N1. replace (j =? k) with false; [exact J|]. symmetry. apply Nat.eqb_neq. intros ->. assert (k < length tids) by (apply nth_error_Some; congruence). lia.
    + lia.
  - destruct (nth_error tids b) as [t|] eqn:ET; [|apply nth_error_None in ET; lia]. cbn [fetch bind]. apply IH; [lia|]. constructor.
    + rewrite app_length, N1. cbn. lia.
    + intros j r LJ EJ. rewrite !nth_app1, N1. destruct (HX j r EJ) as [LR _]. destruct (Nat.eqb_spec j k) as [->|NJ].
      * assert (r = b) as -> by congruence. replace (b =? k) with false by (symmetry; now apply Nat.eqb_neq). congruence.
      * replace (r =? k) with false by (symmetry; apply Nat.eqb_neq; lia). apply N2; [lia|exact EJ].
    + intros j t'. rewrite nth_app1, N1. destruct (j =? k); [intros [= <-]; now apply (N3 b)|apply N3].
    + intros j l t' EJ EL. rewrite !nth_app1, N1. destruct (Nat.eqb_spec j k), (Nat.eqb_spec l k); intros X Y; subst; try congruence. now apply (N4 j l t').
    + intros t' LT. destruct (N5 t' LT) as (j & J). exists j. rewrite nth_app1, N1. replace (j =? k) with false; [exact J|]. symmetry. apply Nat.eqb_neq. intros ->. assert (k < length tids) by (apply nth_error_Some; congruence). lia.
    + lia.
Qed.
Lemma seq_nth n i b : nth_error (seq 0 n) i = Some b -> b = i.
Proof. intros H. assert (L : i < n) by (rewrite <- (seq_length n 0); apply nth_error_Some; congruence). rewrite (nth_error_nth' _ 0) in H by now rewrite seq_length. injection H as <-. rewrite seq_nth by lia. reflexivity. Qed.
Lemma seq_down n : down (seq 0 n).
Proof. intros i b H. apply seq_nth in H. lia. Qed.
Lemma seq_same n i j : same (seq 0 n) i j -> j = i.
Proof.
  intros (r & A & B). assert (K : forall k s, root (seq 0 n) k s -> s = k) by (intros k s H; destruct H as [|k b s E N _]; [reflexivity|apply seq_nth in E; congruence]).
  apply K in A. apply K in B. congruence.
Qed.

(* the whole *)
Definition rel (db : database) (i j : nat) : Prop := connected db (N.of_nat i) (N.of_nat j).
Lemma rel_equiv db : equiv (rel db).
Proof. split; [intros i j H; now apply rst_sym|intros i j k A B; now apply (rst_trans _ _ _ (N.of_nat j))]. Qed.
Definition ids_below (db : database) : Prop :=
  forall w m0 m1, In (w, (m0, m1)) (entries (d_ids db)) -> exists xs, lists m0 xs /\ Forall (fun x => (x < n_msgs db)%N) xs.
Lemma length_set_tids ms ts : length (set_tids ms ts) = length ms.
Proof. revert ts. induction ms as [|m ms IH]; intros [|t ts]; cbn; auto. Qed.
Lemma nth_set_tids ms : forall ts i m, length ts = length ms -> nth_error ms i = Some m -> exists t, nth_error ts i = Some t /\ nth_error (set_tids ms ts) i = Some (with_tid m t).
Proof. induction ms as [|x ms IH]; intros [|t ts] [|i] m L E; cbn in *; try discriminate; [injection E as <-; eauto|apply IH; [lia|exact E]]. Qed.
Lemma set_tids_rest ms : forall ts, Forall2 (fun a b => src b = src a /\ date b = date a /\ seen b = seen a /\ replied b = replied a /\ flagged b = flagged a) ms (set_tids ms ts).
Proof.
  induction ms as [|x ms IH]; intros [|t ts]; cbn [set_tids]; constructor; auto 10. clear. induction ms; constructor; auto 10.
Qed.
Lemma rel_bound db (HB : ids_below db) i j : connected db i j -> i = j \/ (i < n_msgs db /\ j < n_msgs db)%N.
Proof.
  induction 1 as [i j (w & m0 & m1 & xs & I & L & A & B)| |i j _ IH|i j k _ IH1 _ IH2]; [|now left|intuition|].
  - right. destruct (HB w m0 m1 I) as (ys & (q & L') & F). destruct L as (q' & L). assert (ys = xs) by congruence. subst. rewrite Forall_forall in F. auto.
  - destruct IH1 as [->|[]], IH2 as [->|[]]; auto.
Qed.
Lemma threading_ok db : ids_below db -> exists tids next,
  find_threading db = Ok (with_msgs db (set_tids (msgs db) tids)) /\ length tids = length (msgs db) /\ (next <= n_msgs db)%N /\
  (forall i t, nth_error tids i = Some t -> (t < next)%N) /\ (forall t, (t < next)%N -> exists i, nth_error tids i = Some t) /\
  forall i j t u, nth_error tids i = Some t -> nth_error tids j = Some u -> t = u <-> rel db i j.
Proof.
  intros HB. set (n := length (msgs db)).
  destruct (join_tokens_ok n (rel db) (toks (slots (d_ids db))) (rel_equiv db) (seq 0 n)) as (ix & E1 & (D & L & _ & S) & C).
  { apply seq_down. } { apply seq_length. } { intros i j H. apply seq_same in H. subst. apply rst_refl. }
  { intros k K. destruct (pay k) as [m0 m1] eqn:EP. assert (I : In (text k, (m0, m1)) (entries (d_ids db))) by (unfold entries; rewrite <- EP; apply (in_map (fun k => (text k, pay k))); exact K).
    destruct (HB _ _ _ I) as (xs & LX & F). exists xs. split; [exact LX|]. rewrite Forall_forall in F. split.
    - intros c Hc. specialize (F c Hc). unfold n_msgs in F. fold n in F. lia.
    - intros c d Hc Hd. apply rst_step. exists (text k), m0, m1, xs. rewrite !N2Nat.id. auto. }
  destruct (flatten_ok ix D n 0 ix) as (ix2 & E2 & (L2 & P2 & _)); [lia| |].
  { split; [reflexivity|]. split; [intros; lia|reflexivity]. }
  rewrite L in *.
  assert (P : forall i b, nth_error ix2 i = Some b -> root ix i b /\ b <= i).
  { intros i b Hi. assert (LI : i < n) by (rewrite <- L2; apply nth_error_Some; congruence). rewrite <- L in LI. destruct (root_ex ix D i LI) as (r & R & LR).
    rewrite (P2 i r) in Hi by (auto; lia). injection Hi as <-. auto. }
  destruct (number_ok ix2) with (m := n) (k := 0) (next := 0%N) (tids := @nil N) as (tids & next & E3 & NB).
  { intros i b Hi. destruct (P i b Hi) as [R LE]. split; [exact LE|]. apply P2; [assert (i < n) by (rewrite <- L2; apply nth_error_Some; congruence); lia|]. constructor. eapply root_fix; exact R. }
  { lia. }
  { constructor; try reflexivity; intros; try lia; destruct j; discriminate. }
  rewrite L2 in NB. destruct NB as [N1 N2 N3 N4 N5 N6].
  exists tids, next. split. { unfold find_threading. fold n. rewrite E1. cbn [bind]. rewrite E2. cbn [bind]. rewrite E3. reflexivity. }
  split; [exact N1|]. split; [unfold n_msgs; fold n; lia|]. split; [exact N3|]. split; [exact N5|].
  intros i j t u Hi Hj.
  assert (LI : i < n) by (rewrite <- N1; apply nth_error_Some; congruence). assert (LJ : j < n) by (rewrite <- N1; apply nth_error_Some; congruence).
  destruct (root_ex ix D i ltac:(lia)) as (r & R & LR). destruct (root_ex ix D j ltac:(lia)) as (s & R' & LR').
  pose proof (P2 i r LI R) as Xi. pose proof (P2 j s LJ R') as Xj. rewrite (N2 i r LI Xi) in Hi. rewrite (N2 j s LJ Xj) in Hj.
  assert (Xr : nth_error ix2 r = Some r) by (apply P2; [lia|constructor; eapply root_fix; exact R]). assert (Xs : nth_error ix2 s = Some s) by (apply P2; [lia|constructor; eapply root_fix; exact R']).
  split.
  - intros ->. assert (r = s) as -> by (now apply (N4 r s u)). apply S. exists s. auto.
  - intros H. enough (r = s) as -> by congruence.
    enough (G : forall a b, connected db a b -> (a < N.of_nat n)%N -> same ix (N.to_nat a) (N.to_nat b)).
    { specialize (G _ _ H ltac:(lia)). rewrite !Nat2N.id in G. destruct G as (q & A & B). rewrite (root_fun _ _ _ R _ A) in *. exact (root_fun _ _ _ R' _ B). }
    clear - C D L HB n. intros a b K. induction K as [a b (w & m0 & m1 & xs & I & LX & A & B)|a|a b K IH|a b c K1 IH1 K2 IH2]; intros LA.
    + unfold entries in I. apply in_map_iff in I as (k & [= <- EP] & K). apply (C k xs); auto. rewrite EP. exact LX.
    + destruct (root_ex ix D (N.to_nat a) ltac:(lia)) as (r & R & _). exists r. auto.
    + apply same_sym. apply IH. destruct (rel_bound db HB a b K) as [->|[]]; [exact LA|assumption].
    + apply (same_trans _ _ (N.to_nat b)); [now apply IH1|]. apply IH2. destruct (rel_bound db HB a b K1) as [->|[]]; [exact LA|assumption].
Qed.
