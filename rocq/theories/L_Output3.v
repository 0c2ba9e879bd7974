(* Preparing the match folder, and the loop over the results. *)
From Coq Require Import Permutation Sorted.
From Verif Require Import Base M_DbFile M_Search M_Paths M_Output S_Search S_Output L_TokTable L_Output L_Output2.
Local Open Scope N_scope.

Lemma bind_ok {A B} (x : res A) (f : A -> res B) b : bind x f = Ok b -> exists a, x = Ok a /\ f a = Ok b.
Proof. destruct x; cbn [bind]; [eauto|discriminate]. Qed.
Lemma Ok_inj {A} (a b : A) : Ok a = Ok b -> a = b.
Proof. congruence. Qed.
Lemma free_clear which d dir p : free_name d p -> free_name (clear_dir which d dir) p.
Proof.
  intros H. unfold clear_dir, free_name. destruct (stat_node d dir) as [[i|t|]|]; try exact H. cbn [name].
  destruct (name_in dir p) as [n|]; [|exact H]. destruct (which n); [|exact H]. destruct H as [-> | ->]; auto.
Qed.
Lemma mh_name_plain n : mh_name n -> n <> [] /\ ~ In 47 n.
Proof.
  intros (A & k & B & C). split; [exact A|]. intros X. assert (~ In 47 k) by (now apply digits_no_slash). destruct C as [->| ->]; [auto|].
  apply in_app_iff in X as [X|X]; [auto|]. cbn in X. intuition discriminate.
Qed.

Lemma app_neq (a x y : bytes) : x <> y -> a ++ x <> a ++ y.
Proof. intros H E. apply app_inv_head in E. auto. Qed.
Lemma app_self (a x : bytes) : x <> [] -> a <> a ++ x.
Proof. intros H E. apply (f_equal (@length N)) in E. rewrite app_length in E. destruct x; [congruence|cbn [length] in E; lia]. Qed.

Lemma ensure_other d p e q : ensure_dir d p = Ok e -> q <> p -> name e q = name d q.
Proof.
  intros H N. unfold ensure_dir in H.
  assert (G : forall n, name (set_name (unlink d p) p n) q = name d q).
  { intros n. rewrite name_set_other by assumption. unfold unlink. destruct (name d p) as [[i|t|]|]; try reflexivity; now apply name_set_other. }
  destruct (stat_node d p) as [[i|t|]|].
  - destruct (name (unlink d p) p); [discriminate|]. injection H as <-. apply G.
  - destruct (name (unlink d p) p); [discriminate|]. injection H as <-. apply G.
  - now injection H as <-.
  - destruct (name d p); [discriminate|]. injection H as <-. now apply name_set_other.
Qed.
Lemma ensure_real d p e : ensure_dir d p = Ok e -> (forall t, name d p <> Some (Link t)) -> name e p = Some Dir.
Proof.
  intros H N. unfold ensure_dir, stat_node in H. rewrite (resolve_plain _ _ _ N) in H.
  destruct (name d p) as [[i|t|]|] eqn:E.
  - destruct (name (unlink d p) p); [discriminate|]. injection H as <-. apply name_set_same.
  - destruct (name (unlink d p) p); [discriminate|]. injection H as <-. apply name_set_same.
  - now injection H as <-.
  - injection H as <-. apply name_set_same.
Qed.
Lemma stat_name_dir d p : name d p = Some Dir -> stat_node d p = Some Dir.
Proof. intros H. unfold stat_node. rewrite resolve_plain; [exact H|]. intros t. congruence. Qed.

Lemma prepare_maildir d dir e : prepare FT_maildir false d dir = Ok e -> disc_ok d -> folder_real FT_maildir d dir ->
  kept (in_match_folder FT_maildir dir) d e /\ disc_ok e /\ forall p, result_place FT_maildir dir p -> free_name e p.
Proof.
  unfold prepare, maybe_create_maildir. intros H OK R.
  apply bind_ok in H as (d4 & H & E). apply bind_ok in H as (d1 & H1 & H). apply bind_ok in H as (d2 & H2 & H). apply bind_ok in H as (d3 & H3 & H4).
  apply Ok_inj in E. subst e. cbn [folder_real] in R.
  destruct (ensure_dir_kept (in_match_folder FT_maildir dir) d dir d1 ltac:(cbn [in_match_folder]; auto) OK H1) as (K1 & O1).
  destruct (ensure_dir_kept (in_match_folder FT_maildir dir) d1 (dir ++ bs "/cur") d2 ltac:(cbn [in_match_folder]; auto) O1 H2) as (K2 & O2).
  destruct (ensure_dir_kept (in_match_folder FT_maildir dir) d2 (dir ++ bs "/new") d3 ltac:(cbn [in_match_folder]; auto) O2 H3) as (K3 & O3).
  destruct (ensure_dir_kept (in_match_folder FT_maildir dir) d3 (dir ++ bs "/tmp") d4 ltac:(cbn [in_match_folder]; auto) O3 H4) as (K4 & O4).
  assert (C2 : name d2 (dir ++ bs "/cur") = Some Dir).
  { eapply ensure_real; [exact H2|]. intros t. rewrite (ensure_other _ _ _ _ H1); [apply R|]. apply not_eq_sym, app_self. discriminate. }
  assert (C4 : name d4 (dir ++ bs "/cur") = Some Dir).
  { rewrite (ensure_other _ _ _ _ H4), (ensure_other _ _ _ _ H3); [exact C2|apply app_neq; discriminate|apply app_neq; discriminate]. }
  assert (N4 : stat_node d4 (dir ++ bs "/new") = Some Dir).
  { eapply ensure_dir_keeps; [exact H4|]. eapply ensure_dir_makes. exact H3. }
  unfold clear_maildir_subfolder. change (bs "/" ++ bs "new") with (bs "/new"). change (bs "/" ++ bs "cur") with (bs "/cur").
  set (d5 := clear_dir (fun _ => true) d4 (dir ++ bs "/new")).
  assert (C5 : name d5 (dir ++ bs "/cur") = Some Dir).
  { unfold d5. rewrite clear_name by exact N4. destruct (name_in _ _); rewrite C4; reflexivity. }
  split; [|split].
  - eapply kept_trans; [exact K1|]. eapply kept_trans; [exact K2|]. eapply kept_trans; [exact K3|]. eapply kept_trans; [exact K4|].
    apply kept_trans with d5; apply clear_kept; intros n A B _; cbn [in_match_folder]; do 4 right; [left|right]; exists n; auto.
  - apply disc_ok_clear. now apply disc_ok_clear.
  - intros p [(n & A & B & E)|(n & A & B & E)].
    + apply free_clear. unfold d5, free_name. rewrite clear_name by exact N4.
      rewrite (proj2 (name_in_ok _ p n)) by auto. destruct (name d4 p) as [[| |]|]; auto.
    + unfold free_name. rewrite clear_name by (apply stat_name_dir; exact C5).
      rewrite (proj2 (name_in_ok _ p n)) by auto. destruct (name d5 p) as [[| |]|]; auto.
Qed.
Lemma prepare_mh d dir e : prepare FT_mh false d dir = Ok e -> disc_ok d ->
  kept (in_match_folder FT_mh dir) d e /\ disc_ok e /\ forall p, result_place FT_mh dir p -> free_name e p.
Proof.
  unfold prepare, clear_mh_folder. intros H OK. apply bind_ok in H as (d1 & H1 & E). injection E as <-.
  destruct (ensure_dir_kept (in_match_folder FT_mh dir) d dir d1 ltac:(cbn [in_match_folder]; auto) OK H1) as (K1 & O1).
  split; [|split].
  - eapply kept_trans; [exact K1|]. apply clear_kept. intros n A B C. cbn [in_match_folder]. right. exists n. split; [|reflexivity]. now apply valid_mh_ok.
  - now apply disc_ok_clear.
  - intros p (n & A & E). destruct (mh_name_plain n A) as [B C]. unfold free_name. rewrite clear_name by (eapply ensure_dir_makes; exact H1).
    rewrite (proj2 (name_in_ok _ p n)) by auto. rewrite (proj2 (valid_mh_ok n) A). destruct (name d1 p) as [[| |]|]; auto.
Qed.

Section Loop.
Context (csum : bytes -> bytes) (expand : bytes -> bytes -> option bytes) (imap : bytes -> option bytes) (hard : bool).
Context (F : bytes) (r : read_db) (dir : bytes).
Local Notation kept1 d p r := (kept (only p) d (fst r) /\ disc_ok (fst r)).

Lemma try_copy_kept d i p x : free_name d p -> disc_ok d -> try_copy_to_path csum expand d F r i p = Ok x -> kept1 d p x.
Proof.
  intros FR OK H. unfold try_copy_to_path in H. apply bind_ok in H as (v & _ & H). destruct v; injection H as <-; cbn [fst].
  - split; [apply kept_refl|assumption].
  - split; [apply kept_refl|assumption].
  - now apply write_file_kept.
Qed.
Lemma fetch_to_kept d q p : free_name d p -> disc_ok d -> kept (only p) d (fetch_to imap d q p) /\ disc_ok (fetch_to imap d q p).
Proof. intros FR OK. unfold fetch_to. destruct (imap q); [now apply write_file_kept|]. split; [apply kept_refl|assumption]. Qed.
(* Where result i goes. *)
Definition at_maildir (i : N) (p : bytes) : Prop := exists nw s rp fl, p = (dir ++ sub_of nw) ++ bs "/" ++ maildir_base i s rp fl.
Lemma at_maildir_inj i j p : at_maildir i p -> at_maildir j p -> i = j.
Proof. intros (a & b & c & e & ->) (a' & b' & c' & e' & E). eapply maildir_inj. exact E. Qed.
Lemma at_maildir_place i p : at_maildir i p -> result_place FT_maildir dir p.
Proof. intros (nw & s & rp & fl & ->). pose proof (maildir_inside i dir nw s rp fl) as H. destruct nw; [now left|now right]. Qed.
Lemma to_maildir_kept d i x : (forall p, at_maildir i p -> free_name d p) -> disc_ok d -> to_maildir csum expand imap hard F r dir d i = Ok x ->
  kept (at_maildir i) d (fst x) /\ disc_ok (fst x).
Proof.
  intros FR OK H. unfold to_maildir in H. apply bind_ok in H as ([[s rp] fl] & _ & H). apply bind_ok in H as (ty & _ & H).
  assert (W : forall nw p, mk_maildir_path i dir nw s rp fl = Ok p -> at_maildir i p).
  { intros nw p Hp. exists nw, s, rp, fl. now apply maildir_path. }
  assert (K : forall p (y : disc * bool), at_maildir i p -> kept1 d p y -> kept (at_maildir i) d (fst y) /\ disc_ok (fst y)).
  { intros p y A [B C]. split; [|exact C]. eapply kept_weaken; [|exact B]. intros q ->. exact A. }
  destruct (ty =? 1).
  - apply bind_ok in H as (p & _ & H). apply bind_ok in H as (t & T & H). injection H as <-.
    apply (K t); [eapply W; exact T|]. now apply create_symlink_kept.
  - destruct (ty =? 3).
    + apply bind_ok in H as (t & T & H). apply bind_ok in H as (p & _ & H). injection H as <-.
      apply (K t); [eapply W; exact T|]. apply fetch_to_kept; [apply FR; eapply W; exact T|assumption].
    + destruct (ty =? 2).
      * apply bind_ok in H as (t & T & H). apply (K t); [eapply W; exact T|]. eapply try_copy_kept; [apply FR; eapply W; exact T|assumption|exact H].
      * injection H as <-. split; [apply kept_refl|assumption].
Qed.
Definition at_mh (ii : N) (p : bytes) : Prop := p = dir ++ bs "/" ++ show_int (ii + 1).
Lemma at_mh_inj i j p : at_mh i p -> at_mh j p -> i = j.
Proof. unfold at_mh. intros -> E. apply app_inv_head in E. apply app_inv_head in E. apply show_int_inj in E. lia. Qed.
Lemma at_mh_place i p : at_mh i p -> result_place FT_mh dir p.
Proof. intros ->. destruct (mh_inside (i + 1) dir) as (k & A & B). exists k. auto. Qed.
Lemma to_mh_kept d ii i x : (forall p, at_mh ii p -> free_name d p) -> disc_ok d -> to_mh csum expand imap hard F r dir d ii i = Ok x ->
  kept (at_mh ii) d (fst x) /\ disc_ok (fst x).
Proof.
  intros FR OK H. unfold to_mh in H. apply bind_ok in H as (ty & _ & H).
  assert (W : forall p, mk_mh_path ii dir = Ok p -> at_mh ii p) by (intros p Hp; now apply mh_path).
  assert (K : forall p (y : disc * bool), at_mh ii p -> kept1 d p y -> kept (at_mh ii) d (fst y) /\ disc_ok (fst y)).
  { intros p y A [B C]. split; [|exact C]. eapply kept_weaken; [|exact B]. intros q ->. exact A. }
  destruct (ty =? 1).
  - apply bind_ok in H as (t & T & H). apply bind_ok in H as (p & _ & H). injection H as <-.
    apply (K t); [apply W; exact T|]. now apply create_symlink_kept.
  - destruct (ty =? 3).
    + apply bind_ok in H as (t & T & H). apply bind_ok in H as (p & _ & H). injection H as <-.
      apply (K t); [apply W; exact T|]. apply fetch_to_kept; [apply FR; apply W; exact T|assumption].
    + destruct (ty =? 2).
      * apply bind_ok in H as (t & T & H). apply (K t); [apply W; exact T|]. eapply try_copy_kept; [apply FR; apply W; exact T|assumption|exact H].
      * injection H as <-. split; [apply kept_refl|assumption].
Qed.
End Loop.

(* The loop, for results whose places differ. *)
Section Each.
Context (f : disc -> N -> N -> res (disc * bool)) (place : N -> N -> bytes -> Prop).
Hypothesis step : forall d ii i x, (forall p, place ii i p -> free_name d p) -> disc_ok d -> f d ii i = Ok x ->
  kept (place ii i) d (fst x) /\ disc_ok (fst x).
Definition place_later (ii : N) (l : list N) (p : bytes) : Prop :=
  exists k i, nth_error l k = Some i /\ place (ii + N.of_nat k) i p.
Hypothesis apart_places : forall ii i jj j p, place ii i p -> place jj j p -> ii = jj \/ i = j.
Lemma each_kept : forall l d w ii e w', NoDup l -> (forall p, place_later ii l p -> free_name d p) -> disc_ok d ->
  each_result f d w ii l = Ok (e, w') -> kept (place_later ii l) d e /\ disc_ok e.
Proof.
  induction l as [|i l IH]; intros d w ii e w' ND FR OK H; cbn [each_result] in H.
  - injection H as <- _. split; [apply kept_refl|assumption].
  - apply bind_ok in H as ((d1 & w1) & H1 & H). inversion ND as [|? ? NI ND']; subst.
    assert (HERE : forall p, place ii i p -> place_later ii (i :: l) p).
    { intros p Hp. exists 0%nat, i. split; [reflexivity|]. now replace (ii + N.of_nat 0) with ii by lia. }
    assert (LATER : forall p, place_later (ii + 1) l p -> place_later ii (i :: l) p).
    { intros p (k & j & A & B). exists (S k), j. split; [exact A|]. now replace (ii + N.of_nat (S k)) with (ii + 1 + N.of_nat k) by lia. }
    destruct (step d ii i (d1, w1)) as [K1 O1]; [auto|assumption|exact H1|]. cbn [fst] in *.
    destruct (IH d1 (w || w1) (ii + 1) e w' ND') as [K2 O2]; [|assumption|exact H|].
    + intros p Hp. unfold free_name. rewrite (proj1 K1); [apply FR; auto|].
      intros X. destruct Hp as (k & j & A & B). destruct (apart_places _ _ _ _ _ X B) as [Y|Y]; [lia|].
      apply NI. subst j. eapply nth_error_In. exact A.
    + split; [|assumption]. eapply kept_trans; (eapply kept_weaken; [|eassumption]); auto.
Qed.
End Each.
