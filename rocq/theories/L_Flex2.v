(* The model of the scanner takes what flex takes: lemmas about the rules. *)
From Verif Require Import Base M_Scan S_Flex L_Mbox L_Flex.
Local Open Scope N_scope.

Ltac inv H := inversion H; subst; clear H.
Lemma tw_spec p s : forall w r, take_while p s = (w, r) -> s = w ++ r /\ forallb p w = true /\ match r with [] => True | d :: _ => p d = false end.
Proof.
  induction s as [|c s IH]; intros w r H; cbn [take_while] in H; [inv H; now repeat split|]. destruct (p c) eqn:C.
  - destruct (take_while p s) as (a, b). inv H. destruct (IH _ _ eq_refl) as (-> & F & R). cbn [app forallb]. rewrite C. now repeat split.
  - inv H. now repeat split.
Qed.
Lemma tw_exact p v d z : forallb p v = true -> p d = false -> take_while p (v ++ d :: z) = (v, d :: z).
Proof. intros F D. induction v as [|c v IH]; cbn [app take_while]; [now rewrite D|]. cbn [forallb] in F. apply andb_true_iff in F. destruct F as (C & F). now rewrite C, (IH F). Qed.
Lemma prefix_max p : forall w r y z : bytes, w ++ r = y ++ z -> match r with [] => True | d :: _ => p d = false end -> forallb p y = true -> (length y <= length w)%nat /\ (length y = length w -> y = w).
Proof.
  induction w as [|c w IH]; intros r y z E R F.
  - destruct y as [|d y]; [split; [lia|reflexivity]|]. cbn [app] in E. subst r. cbn [forallb] in F. rewrite R in F. discriminate.
  - destruct y as [|d y]; [split; [cbn [length]; lia|discriminate]|]. cbn [app] in E. inv E. cbn [forallb] in F. apply andb_true_iff in F. destruct F as (_ & F).
    destruct (IH _ _ _ H1 R F) as (L & Q). cbn [length]. split; [lia|]. intros X. f_equal. apply Q. lia.
Qed.
Lemma last_not p y : forallb p y = true -> p 10 = false -> y <> [] -> (last y 0 =? 10) = false.
Proof.
  intros F T Y. induction y as [|c y IH]; [congruence|]. cbn [forallb] in F. apply andb_true_iff in F. destruct F as (C & F). destruct y as [|d y].
  - cbn [last]. apply N.eqb_neq. intros ->. congruence.
  - change (last (c :: d :: y) 0) with (last (d :: y) 0). apply IH; [exact F|discriminate].
Qed.
Lemma last_snoc (y : bytes) c : last (y ++ [c]) 0 = c.
Proof. apply last_last. Qed.
Lemma word_name c : word_char c = name_char c.
Proof. unfold word_char, name_char, one_of. change (bs "_.") with [95; 46]. cbn [existsb]. rewrite orb_false_r, orb_assoc. reflexivity. Qed.
Lemma blank_space c : blank c = space c.
Proof. unfold blank, space, one_of. cbn [existsb]. now rewrite orb_false_r. Qed.
Lemma tw_ext p q s : (forall c, p c = q c) -> take_while p s = take_while q s.
Proof. intros H. induction s as [|c s IH]; cbn [take_while]; [reflexivity|]. now rewrite H, IH. Qed.

(* words *)
Lemma find_words w t rest ws : find (fun k : bytes * token => bytes_eqb (fst k) w) (map (fun x => (x, t)) ws ++ rest) = if existsb (fun x => bytes_eqb x w) ws then Some (w, t) else find (fun k => bytes_eqb (fst k) w) rest.
Proof.
  induction ws as [|x ws IH]; [reflexivity|]. cbn [map app find existsb fst]. destruct (bytes_eqb x w) eqn:E; [|exact IH]. apply bytes_eqb_iff in E. now subst.
Qed.
Lemma find_flat w l : find (fun k : bytes * token => bytes_eqb (fst k) w) (flat_map (fun k => map (fun x => (x, snd k)) (fst k)) l) =
  match find (fun k : list bytes * token => existsb (fun x => bytes_eqb x w) (fst k)) l with Some k => Some (w, snd k) | None => None end.
Proof.
  induction l as [|k l IH]; [reflexivity|]. cbn [flat_map find]. rewrite find_words, IH. now destruct (existsb (fun x => bytes_eqb x w) (fst k)).
Qed.
Lemma keywords_flat : keywords = flat_map (fun k => map (fun x => (x, snd k)) (fst k)) word_rules.
Proof. vm_compute. reflexivity. Qed.
Definition word_kind (w : bytes) := find (fun k : list bytes * token => existsb (fun x => bytes_eqb x w) (fst k)) word_rules.
Lemma word_token_kind w : word_token w = match word_kind w with Some k => snd k | None => STRING w end.
Proof. unfold word_token. rewrite keywords_flat, find_flat. unfold word_kind. now destruct (find _ word_rules). Qed.
Lemma find_nth {A : Type} (p : A -> bool) l x : find p l = Some x -> exists i, nth_error l i = Some x /\ p x = true /\ forall j y, nth_error l j = Some y -> p y = true -> (i <= j)%nat.
Proof.
  induction l as [|a l IH]; [discriminate|]. cbn [find]. destruct (p a) eqn:E; intros H.
  - inv H. exists 0%nat. repeat split; [exact E|]. intros. lia.
  - destruct (IH H) as (i & N & P & M). exists (S i). repeat split; [exact N|exact P|]. intros [|j] y Y PY; [inv Y; congruence|]. specialize (M _ _ Y PY). lia.
Qed.
Lemma word_nth j r : (j < 18)%nat -> nth_error rules j = Some r -> exists k, nth_error word_rules j = Some k /\ r = word_rule k.
Proof.
  intros J H. unfold rules in H. rewrite nth_error_app1 in H by (rewrite map_length; exact J). rewrite nth_error_map in H. destruct (nth_error word_rules j) as [k|]; [|discriminate]. inv H. eauto.
Qed.
Lemma words_names : forallb (fun k : list bytes * token => forallb (forallb name_char) (fst k)) word_rules = true.
Proof. vm_compute. reflexivity. Qed.
Lemma name_possible c : name_char c = true -> forallb (fun j => Nat.ltb j 18 || Nat.eqb j 18 || Nat.eqb j 43) (possible INITIAL c) = true.
Proof. apply (check_all (forallb (fun j => Nat.ltb j 18 || Nat.eqb j 18 || Nat.eqb j 43)) name_char); [intros d D; now rewrite name_char_big|vm_compute; reflexivity]. Qed.
Definition name_rule : rule := Rule INITIAL false (Then (One name_char) (Many name_char)) false (Do None (Some STRING)).
Definition dot_rule : rule := Rule INITIAL false (One dot) false Quit.
Lemma nth18 : nth_error rules 18 = Some name_rule. Proof. reflexivity. Qed.
Lemma nth43 : nth_error rules 43 = Some dot_rule. Proof. reflexivity. Qed.
Lemma matches_some p y : matches (Then (One p) (Many p)) y -> forallb p y = true.
Proof. intros (u & v & -> & (c & -> & C) & V). cbn [app forallb]. now rewrite C. Qed.
Lemma some_matches p y : forallb p y = true -> y <> [] -> matches (Then (One p) (Many p)) y.
Proof. destruct y as [|c y]; [congruence|]. cbn [forallb]. intros F _. apply andb_true_iff in F. exists [c], y. repeat split; [exists c; tauto|exact (proj2 F)]. Qed.
Lemma in_words (k : list bytes * token) y : In y (fst k) -> existsb (fun x => bytes_eqb x y) (fst k) = true.
Proof. intros H. apply existsb_exists. exists y. split; [exact H|]. now apply bytes_eqb_iff. Qed.
Lemma words_in (k : list bytes * token) y : existsb (fun x => bytes_eqb x y) (fst k) = true -> In y (fst k).
Proof. intros H. apply existsb_exists in H. destruct H as (x & X & E). apply bytes_eqb_iff in E. now subst. Qed.
Lemma word_chosen b c s w r : name_char c = true -> take_while name_char (c :: s) = (w, r) ->
  chosen INITIAL b (c :: s) (match word_kind w with Some k => word_rule k | None => name_rule end) w.
Proof.
  intros C T. destruct (tw_spec _ _ _ _ T) as (E & F & R).
  assert (Y : w <> []) by (intros ->; cbn [app] in E; subst r; congruence).
  (* what the possible rules can take *)
  assert (G : forall j r' c' y', In j (possible INITIAL c) -> nth_error rules j = Some r' -> applies INITIAL b (c :: s) r' (c' :: y') ->
    eol r' = false /\ (((j < 18)%nat /\ exists k, nth_error word_rules j = Some k /\ In (c' :: y') (fst k) /\ (length (c' :: y') <= length w)%nat /\ (length (c' :: y') = length w -> c' :: y' = w)) \/
    ((18 <= j)%nat /\ (length (c' :: y') <= length w)%nat))).
  { intros j r' c' y' J H (W & B & M & z & E' & _). pose proof (name_possible c C) as P. rewrite forallb_forall in P. specialize (P _ J). rewrite E in E'.
    destruct (Nat.ltb j 18) eqn:L1; [|destruct (Nat.eqb j 18) eqn:L2; [|destruct (Nat.eqb j 43) eqn:L3; [|discriminate]]].
    - apply Nat.ltb_lt in L1. destruct (word_nth j r' L1 H) as (k & K & ->). split; [reflexivity|]. left. split; [exact L1|]. exists k. cbn [word_rule pat matches] in M. repeat split; try assumption.
      all: apply (prefix_max name_char w r _ z E' R); pose proof words_names as WN; rewrite forallb_forall in WN; specialize (WN _ (nth_error_In _ _ K)); rewrite forallb_forall in WN; exact (WN _ M).
    - apply Nat.eqb_eq in L2. subst j. rewrite nth18 in H. inv H. split; [reflexivity|]. right. split; [lia|]. apply (prefix_max name_char w r _ z E' R). exact (matches_some _ _ M).
    - apply Nat.eqb_eq in L3. subst j. rewrite nth43 in H. inv H. split; [reflexivity|]. right. split; [lia|]. destruct M as (d & M & _). rewrite M. destruct w; [congruence|]. cbn [length]. lia. }
  destruct (word_kind w) as [k|] eqn:K.
  - destruct (find_nth _ _ _ K) as (i & NI & PI & MI). assert (I18 : (i < 18)%nat) by (apply (nth_error_Some word_rules); rewrite NI; discriminate).
    apply (choose_at INITIAL b c s i).
    + unfold rules. rewrite nth_error_app1 by (rewrite map_length; exact I18). now rewrite nth_error_map, NI.
    + split; [reflexivity|]. split; [discriminate|]. split; [exact (words_in _ _ PI)|]. exists r. split; [exact E|discriminate].
    + exact Y.
    + intros j r' c' y' J H A. destruct (G j r' c' y' J H A) as (EO & [(L & k' & NK & IN & LE & EQ)|(L & LE)]); unfold weight; rewrite EO; cbn [word_rule eol].
      * destruct (Nat.eq_dec (length (c' :: y')) (length w)) as [X|X]; [|left; lia]. right. split; [lia|]. apply (MI j k' NK). rewrite <- (EQ X). now apply in_words.
      * lia.
  - apply (choose_at INITIAL b c s 18); [exact nth18| |exact Y|].
    + split; [reflexivity|]. split; [discriminate|]. split; [now apply some_matches|]. exists r. split; [exact E|discriminate].
    + intros j r' c' y' J H A. destruct (G j r' c' y' J H A) as (EO & [(L & k' & NK & IN & LE & EQ)|(L & LE)]); unfold weight; rewrite EO; cbn [name_rule eol]; [|lia].
      left. destruct (Nat.eq_dec (length (c' :: y')) (length w)) as [X|X]; [|lia]. exfalso. pose proof (find_none _ _ K k' (nth_error_In _ _ NK)) as NN. cbv beta in NN. rewrite <- (EQ X), (in_words _ _ IN) in NN. discriminate.
Qed.
