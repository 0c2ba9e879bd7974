(* Decimal numbers and names of result files. *)
From Verif Require Import Base M_DbFile M_Search M_Tokens M_Paths M_Output S_Search S_Output L_TokTable.
Local Open Scope N_scope.

Definition digitp (c : N) : Prop := 48 <= c <= 57.
Lemma number_snoc a c : number (a ++ [c]) = 10 * number a + (c - 48).
Proof. unfold number. rewrite fold_left_app. reflexivity. Qed.
Lemma decimal_ok : forall k n, n < 10 ^ N.of_nat k -> (0 < k)%nat ->
  number (decimal k n) = n /\ decimal k n <> [] /\ Forall digitp (decimal k n).
Proof.
  induction k as [|k IH]; [lia|]. intros n H _. cbn [decimal]. destruct (n <? 10) eqn:E.
  - apply N.ltb_lt in E. split; [|split; [discriminate|]].
    + change (number [48 + n]) with (10 * 0 + (48 + n - 48)). lia.
    + constructor; [|constructor]. unfold digitp. lia.
  - apply N.ltb_ge in E. destruct k as [|k].
    + change (10 ^ N.of_nat 1) with 10 in H. lia.
    + destruct (IH (n / 10)) as (A & B & C); [|lia|].
      * replace (N.of_nat (S (S k))) with (N.succ (N.of_nat (S k))) in H by lia. rewrite N.pow_succ_r' in H.
        apply N.div_lt_upper_bound; lia.
      * split; [|split].
        -- rewrite number_snoc, A. pose proof (N.div_mod n 10). lia.
        -- intros X. apply app_eq_nil in X as [_ X]. discriminate.
        -- apply Forall_app. split; [exact C|]. constructor; [|constructor]. unfold digitp. pose proof (N.mod_lt n 10). lia.
Qed.
Lemma decimal_short : forall k n j, n < 10 ^ N.of_nat j -> (0 < j)%nat -> (length (decimal k n) <= j)%nat.
Proof.
  induction k as [|k IH]; intros n j H Hj; cbn [decimal]; [cbn [length]; lia|].
  destruct (n <? 10) eqn:E; [cbn [length]; lia|]. apply N.ltb_ge in E.
  rewrite app_length. cbn [length]. destruct j as [|[|j]]; [lia| |].
  - change (10 ^ N.of_nat 1) with 10 in H. lia.
  - specialize (IH (n / 10) (S j)). replace (N.of_nat (S (S j))) with (N.succ (N.of_nat (S j))) in H by lia. rewrite N.pow_succ_r' in H.
    assert (n / 10 < 10 ^ N.of_nat (S j)) by (apply N.div_lt_upper_bound; lia). specialize (IH H0 ltac:(lia)). lia.
Qed.
Lemma size_bound n : n < 10 ^ N.of_nat (S (N.to_nat (N.size n))).
Proof.
  eapply N.lt_le_trans; [apply N.size_gt|]. rewrite Nat2N.inj_succ, N2Nat.id.
  apply N.le_trans with (10 ^ N.size n); [apply N.pow_le_mono_l; lia|apply N.pow_le_mono_r; lia].
Qed.
Lemma show_int_ok n : number (show_int n) = n /\ show_int n <> [] /\ Forall digitp (show_int n).
Proof. apply decimal_ok; [apply size_bound|lia]. Qed.
Lemma decimal_head : forall k n, n < 10 ^ N.of_nat k -> (0 < k)%nat -> match decimal k n with [] => False | [_] => True | c :: _ => c <> 48 end.
Proof.
  induction k as [|k IH]; intros n H Hk; [lia|]. cbn [decimal]. destruct (n <? 10) eqn:E; [exact Logic.I|]. apply N.ltb_ge in E.
  destruct k as [|k]; [change (10 ^ N.of_nat 1) with 10 in H; lia|].
  assert (D : n / 10 < 10 ^ N.of_nat (S k)).
  { rewrite Nat2N.inj_succ, N.pow_succ_r' in H. apply N.div_lt_upper_bound; lia. }
  specialize (IH (n / 10) D ltac:(lia)). destruct (decimal (S k) (n / 10)) as [|c [|c2 l]] eqn:EL; [destruct IH| |exact IH].
  cbn [app]. assert (N1 : number (decimal (S k) (n / 10)) = n / 10) by (apply decimal_ok; [exact D|lia]).
  rewrite EL in N1. change (number [c]) with (10 * 0 + (c - 48)) in N1. assert (1 <= n / 10) by (apply N.div_le_lower_bound; lia). lia.
Qed.
Lemma show_int_written n : written n (show_int n).
Proof.
  destruct (show_int_ok n) as (A & B & C). split; [exact C|]. split; [exact A|]. apply decimal_head; [apply size_bound|lia].
Qed.
Lemma matched_says l : says_matched (N.of_nat (length l)) (matched l).
Proof. exists (show_int (N.of_nat (length l))). split; [apply show_int_written|reflexivity]. Qed.
Lemma last_slash_ok : forall p, match last_slash p with
  | None => ~ In 47 p
  | Some k => exists a n, p = a ++ 47 :: n /\ ~ In 47 n /\ length a = k
  end.
Proof.
  induction p as [|c p IH]; cbn [last_slash]; [intros []|]. destruct (last_slash p) as [k|].
  - destruct IH as (a & n & -> & A & B). exists (c :: a), n. cbn [length]. auto.
  - destruct (c =? 47) eqn:E.
    + apply N.eqb_eq in E. subst c. exists [], p. auto.
    + apply N.eqb_neq in E. intros [X|X]; [congruence|auto].
Qed.
Lemma last_slash_at a n : ~ In 47 n -> last_slash (a ++ 47 :: n) = Some (length a).
Proof.
  intros H. induction a as [|c a IH].
  - cbn [app last_slash]. pose proof (last_slash_ok n) as X. destruct (last_slash n); [|reflexivity].
    destruct X as (a & m & -> & _). exfalso. apply H, in_app_iff. right. now left.
  - cbn [app last_slash length]. now rewrite IH.
Qed.
Lemma firstn_len {A} (a b : list A) : firstn (length a) (a ++ b) = a.
Proof. rewrite firstn_app, Nat.sub_diag, firstn_all. cbn [firstn]. apply app_nil_r. Qed.
Lemma looks_new_ok q : looks_like_maildir_new_p q = true <-> exists a n, a <> [] /\ ~ In 47 n /\ q = a ++ bs "/new/" ++ n.
Proof.
  split.
  - unfold looks_like_maildir_new_p. pose proof (last_slash_ok q) as X. destruct (last_slash q) as [[|k2]|]; try discriminate.
    destruct X as (b & n & -> & NN & LB). rewrite <- LB, firstn_len. pose proof (last_slash_ok b) as Y.
    destruct (last_slash b) as [[|k1]|]; try discriminate. destruct Y as (a & m & -> & NM & LA).
    rewrite <- app_assoc. cbn [app]. rewrite <- LA, skipn_app, Nat.sub_diag, skipn_all. cbn [app skipn]. intros E. apply bytes_eqb_eq in E.
    exists a, n. split; [intros ->; discriminate|]. split; [exact NN|]. f_equal.
    destruct m as [|m1 [|m2 [|m3 [|m4 m]]]]; cbn in E; try discriminate; injection E; intros; subst; try discriminate; [reflexivity|].
    exfalso. apply NM. cbn. auto 6.
  - intros (a & n & NA & NN & ->). unfold looks_like_maildir_new_p.
    change (bs "/new/" ++ n) with ((47 :: bs "new") ++ 47 :: n). rewrite app_assoc, last_slash_at by exact NN.
    destruct (length (a ++ 47 :: bs "new")) eqn:L1; [rewrite app_length in L1; cbn [length bs] in L1; lia|]. rewrite <- L1, firstn_len, last_slash_at.
    + destruct (length a) eqn:L2; [destruct a; [congruence|discriminate]|]. rewrite <- L2, <- app_assoc, skipn_app, Nat.sub_diag, skipn_all. reflexivity.
    + cbn. intuition discriminate.
Qed.
Lemma show_int_inj a b : show_int a = show_int b -> a = b.
Proof. intros H. rewrite <- (proj1 (show_int_ok a)), <- (proj1 (show_int_ok b)). now rewrite H. Qed.
Lemma show_int_short n : n < 2 ^ 31 -> (length (show_int n) <= 10)%nat.
Proof. intros H. apply decimal_short; [|lia]. eapply N.lt_trans; [exact H|]. now vm_compute. Qed.

Lemma fits_ok n s : blen s < n -> fits n s = Ok s.
Proof. intros H. unfold fits. apply N.ltb_lt in H. now rewrite H. Qed.
Lemma fits_inv n s x : fits n s = Ok x -> x = s.
Proof. unfold fits. destruct (blen s <? n); congruence. Qed.

Definition flag_tail (seen replied flagged : bool) : bytes :=
  (if seen || replied || flagged then bs ":2," else []) ++
  (if flagged then bs "F" else []) ++ (if replied then bs "R" else []) ++ (if seen then bs "S" else []).
Definition sub_of (in_new : bool) : bytes := if in_new then bs "/new" else bs "/cur".
Definition maildir_base (i : N) (s r f : bool) : bytes := bs "123456789." ++ show_int i ++ bs ".mairix" ++ flag_tail s r f.
Lemma maildir_path i dir nw s r f p : mk_maildir_path i dir nw s r f = Ok p ->
  p = (dir ++ sub_of nw) ++ bs "/" ++ maildir_base i s r f.
Proof.
  unfold mk_maildir_path. destruct (fits 48 _) as [u|] eqn:E; [|discriminate]. apply fits_inv in E. subst u. cbn [bind].
  intros H. apply fits_inv in H. subst p. unfold maildir_base, flag_tail, sub_of. rewrite <- !app_assoc. destruct nw; reflexivity.
Qed.
Lemma maildir_path_ok i dir nw s r f : i < 2 ^ 31 ->
  mk_maildir_path i dir nw s r f = Ok ((dir ++ sub_of nw) ++ bs "/" ++ maildir_base i s r f).
Proof.
  intros H. pose proof (show_int_short i H) as L. unfold mk_maildir_path.
  rewrite fits_ok; [|unfold blen; rewrite !app_length; cbn [length bs]; lia]. cbn [bind].
  rewrite fits_ok.
  - f_equal. unfold maildir_base, flag_tail, sub_of. rewrite <- !app_assoc. destruct nw; reflexivity.
  - unfold blen. rewrite !app_length. destruct nw, s, r, f; cbn [length bs orb]; lia.
Qed.
Lemma mh_path_ok ii dir : ii + 1 < 2 ^ 31 -> mk_mh_path ii dir = Ok (dir ++ bs "/" ++ show_int (ii + 1)).
Proof.
  intros H. pose proof (show_int_short _ H) as L. unfold mk_mh_path. rewrite fits_ok by (unfold blen; lia). cbn [bind].
  rewrite fits_ok; [reflexivity|]. unfold blen. rewrite !app_length. cbn [length bs]. lia.
Qed.
Lemma mh_path ii dir p : mk_mh_path ii dir = Ok p -> p = dir ++ bs "/" ++ show_int (ii + 1).
Proof.
  unfold mk_mh_path. destruct (fits 11 _) as [u|] eqn:E; [|discriminate]. apply fits_inv in E. subst u. cbn [bind].
  intros H. now apply fits_inv in H.
Qed.

(* Digits end where something else begins. *)
Lemma digits_split : forall a b x y c, Forall digitp a -> Forall digitp b -> ~ digitp c -> a ++ c :: x = b ++ c :: y -> a = b.
Proof.
  induction a as [|u a IH]; intros [|v b] x y c HA HB HC E.
  - reflexivity.
  - injection E as <- _. inversion HB. contradiction.
  - injection E as -> _. inversion HA. contradiction.
  - injection E as -> E. inversion HA. inversion HB. f_equal. eapply IH; eauto.
Qed.
Lemma maildir_inj i j dir n1 s1 r1 f1 n2 s2 r2 f2 :
  (dir ++ sub_of n1) ++ bs "/" ++ maildir_base i s1 r1 f1 = (dir ++ sub_of n2) ++ bs "/" ++ maildir_base j s2 r2 f2 -> i = j.
Proof.
  rewrite <- !app_assoc. intros E. apply app_inv_head in E.
  assert (E2 : maildir_base i s1 r1 f1 = maildir_base j s2 r2 f2).
  { apply (f_equal (skipn 5)) in E. destruct n1, n2; exact E. }
  unfold maildir_base in E2. apply app_inv_head in E2. apply show_int_inj.
  change (bs ".mairix") with (46 :: bs "mairix") in E2. cbn [app] in E2.
  eapply digits_split; [apply show_int_ok|apply show_int_ok| |exact E2]. unfold digitp. lia.
Qed.
Lemma digits_no_slash l : Forall digitp l -> ~ In 47 l.
Proof. intros H X. rewrite Forall_forall in H. apply H in X. unfold digitp in X. lia. Qed.
Lemma maildir_base_plain i s r f : maildir_base i s r f <> [] /\ ~ In 47 (maildir_base i s r f).
Proof.
  split; [discriminate|]. unfold maildir_base. rewrite !in_app_iff. intros [H|[H|[H|H]]].
  - cbn in H. intuition discriminate.
  - revert H. apply digits_no_slash. apply show_int_ok.
  - cbn in H. intuition discriminate.
  - destruct s, r, f; cbn in H; intuition discriminate.
Qed.
Lemma maildir_inside i dir nw s r f : inside (dir ++ sub_of nw) ((dir ++ sub_of nw) ++ bs "/" ++ maildir_base i s r f).
Proof. exists (maildir_base i s r f). destruct (maildir_base_plain i s r f). auto. Qed.
Lemma mh_inside n dir : exists k, mh_name k /\ dir ++ bs "/" ++ show_int n = dir ++ bs "/" ++ k.
Proof. exists (show_int n). split; [|reflexivity]. destruct (show_int_ok n) as (_ & A & B). split; [exact A|]. exists (show_int n). auto. Qed.

(* Which names count as MH messages. *)
Lemma isdigit_ok c : isdigit c = true <-> 48 <= c <= 57.
Proof. unfold isdigit. rewrite andb_true_iff, !N.leb_le. reflexivity. Qed.
Lemma mh_digits_ok : forall s, mh_digits s = true <-> exists k, Forall digitp k /\ (s = k \/ s = k ++ bs ".").
Proof.
  induction s as [|c s IH]; cbn [mh_digits].
  - split; [intros _; exists []; auto|reflexivity].
  - destruct (isdigit c) eqn:E.
    + apply isdigit_ok in E. rewrite IH. split.
      * intros (k & A & B). exists (c :: k). split; [now constructor|]. destruct B as [->| ->]; auto.
      * intros (k & A & B). destruct k as [|c' k].
        -- destruct B as [B|B]; [discriminate|]. injection B as -> _. lia.
        -- exists k. inversion A; subst. split; [assumption|]. destruct B as [B|B]; injection B as _ ->; auto.
    + rewrite andb_true_iff, N.eqb_eq. split.
      * intros [-> H]. destruct s; [|discriminate]. exists []. auto.
      * intros (k & A & B). destruct k as [|c' k].
        -- destruct B as [B|B]; [discriminate|]. injection B as -> ->. auto.
        -- inversion A; subst. apply isdigit_ok in H1. destruct B as [B|B]; injection B as -> _; congruence.
Qed.
Lemma valid_mh_ok n : valid_mh_filename_p n = true <-> mh_name n.
Proof.
  unfold valid_mh_filename_p, mh_name. destruct n as [|c n]; [split; [discriminate|intros [A _]; congruence]|].
  rewrite mh_digits_ok. split; [intros H; split; [discriminate|exact H]|intros [_ H]; exact H].
Qed.
Lemma base_no_colon i : ~ In (ch ":") (bs "123456789." ++ show_int i ++ bs ".mairix").
Proof.
  rewrite !in_app_iff. intros [H|[H|H]].
  - revert H. cbn. intuition discriminate.
  - destruct (show_int_ok i) as (_ & _ & D). rewrite Forall_forall in D. apply D in H. unfold digitp in H. change (ch ":") with 58 in H. lia.
  - revert H. cbn. intuition discriminate.
Qed.
Lemma forall2_impl {A B} (R Q : A -> B -> Prop) : (forall a b, R a b -> Q a b) -> forall l l', Forall2 R l l' -> Forall2 Q l l'.
Proof. intros H l l' F. induction F; constructor; auto. Qed.
