(* Encoded words: what the specification says a value reads as is what the code leaves there. *)
From Verif Require Import Base M_Decode S_Decode L_Decode M_Words S_Words L_Words L_Words2.
Local Open Scope N_scope.

Lemma unq_ok : forall m text, q_of m text -> unq text = m.
Proof.
  induction 1 as [|c s t N1 N2 Q IH|s t Q IH|x y a b s t HX HY Q IH]; [reflexivity| | |]; cbn [unq].
  - destruct (N.eqb_spec c 95); [contradiction|]. destruct (N.eqb_spec c 61); [contradiction|]. now rewrite IH.
  - change (95 =? 95) with true. cbv iota. now rewrite IH.
  - change (61 =? 95) with false. change (61 =? 61) with true. cbv iota. destruct (hex_val _ _ HX) as [-> LA]. destruct (hex_val _ _ HY) as [-> LB].
    rewrite IH, N.mod_small by lia. f_equal. lia.
Qed.
Lemma no_end : forall text, ~ In 63 text -> ~ occurs 63 61 (text ++ [63]).
Proof.
  intros text I (x & y & E). assert (C : exists y', 63 :: 61 :: y = y' ++ [63]) by (destruct (@exists_last _ (61 :: y) ltac:(discriminate)) as (z & w & EW); exists (63 :: z); rewrite EW, app_comm_cons, app_assoc in E; apply app_inj_tail in E; destruct E as [_ <-]; cbn [app]; now rewrite EW).
  destruct C as ([|u y'] & EY); [discriminate EY|]. injection EY as <- EY. apply I. rewrite EY in E. change (63 :: y' ++ [63]) with ((63 :: y') ++ [63]) in E. rewrite app_assoc in E. apply app_inj_tail in E. destruct E as [-> _].
  apply in_app_iff. right. now left.
Qed.
Lemma word_split : forall pre cs enc text post, pre ++ word cs enc text ++ post = pre ++ 61 :: 63 :: cs ++ 63 :: enc ++ 63 :: text ++ 63 :: 61 :: post.
Proof. intros. unfold word. cbn [bs]. nrm. reflexivity. Qed.
Lemma shown_word : forall f pre cs enc text post, ~ occurs 61 63 (pre ++ [61]) -> ~ In 63 cs -> ~ In 63 enc -> ~ occurs 63 61 (text ++ [63]) ->
  shown (S f) (pre ++ word cs enc text ++ post) = pre ++ w_value cs enc text ++ shown f post.
Proof.
  intros f pre cs enc text post N1 N2 N3 N4. rewrite word_split. cbn [shown]. now rewrite (cut2_ok _ _ _ _ N1), (cut1_ok _ _ _ N2), (cut1_ok _ _ _ N3), (cut2_ok _ _ _ _ N4).
Qed.
Lemma shown_reads : forall t r, reads t r -> forall fuel, (length t < fuel)%nat -> shown fuel t = r.
Proof.
  induction 1 as [t NW|pre cs enc text m post r N1 N2 N3 M R IH|pre cs enc text post r N1 N2 N3 K N4 R IH]; intros [|f] F; try lia.
  - cbn [shown]. destruct (cut2 61 63 t) as [[pre r]|] eqn:C; [|reflexivity]. apply cut2_inv in C. destruct (cut1 63 r) as [[cs r1]|] eqn:C1; [|reflexivity]. apply cut1_inv in C1.
    destruct (cut1 63 r1) as [[enc r2]|] eqn:C2; [|reflexivity]. apply cut1_inv in C2. destruct (cut2 63 61 r2) as [[text post]|] eqn:C3; [|reflexivity]. apply cut2_inv in C3.
    exfalso. apply (NW pre cs enc text post). rewrite word_split. destruct C1 as [-> _], C2 as [-> _]. now subst.
  - assert (W : ~ In 63 enc /\ w_value cs enc text = m).
    { destruct M as [[E Q]|[E [O S]]]; (destruct E as [-> | ->]; (split; [intros [X|[]]; discriminate X|])); cbn [bs w_value N.eqb Pos.eqb orb].
      1, 2: now apply unq_ok. 1, 2: now apply unb_decodes. }
    destruct W as [NE W]. rewrite shown_word by (auto using no_end). rewrite W, IH; [reflexivity|]. rewrite word_split, app_length in F. cbn [length] in F. rewrite app_length in F. cbn [length] in F. rewrite app_length in F. cbn [length] in F. rewrite app_length in F. cbn [length] in F. lia.
  - rewrite shown_word by auto. rewrite IH.
    + f_equal. f_equal. unfold w_value. destruct enc as [|k [|? ?]]; [reflexivity| |reflexivity]. unfold known in K. cbn [bs] in K.
      destruct (N.eqb_spec k 113) as [->|]; [exfalso; apply K; now left|]. destruct (N.eqb_spec k 81) as [->|]; [exfalso; apply K; right; now left|].
      destruct (N.eqb_spec k 98) as [->|]; [exfalso; apply K; right; right; now left|]. destruct (N.eqb_spec k 66) as [->|]; [exfalso; apply K; now right; right; right|]. reflexivity.
    + rewrite word_split, app_length in F. cbn [length] in F. rewrite app_length in F. cbn [length] in F. rewrite app_length in F. cbn [length] in F. rewrite app_length in F. cbn [length] in F. lia.
Qed.


Lemma safe_main : forall T after, c_string T -> exists r junk, decode_header_value (T ++ 0 :: after) = Ok (r ++ 0 :: junk ++ after) /\ (length r + length junk = length T)%nat.
Proof.
  intros T after C. destruct (decode_ok T after) as (junk & E & L).
  - intro I. unfold c_string in C. rewrite Forall_forall in C. apply C in I. unfold c_char in I. lia.
  - unfold c_string in C. eapply Forall_impl; [|exact C]. unfold c_char. intros; cbn beta in *; lia.
  - eauto.
Qed.
Lemma reads_main : forall T r after, c_string T -> reads T r -> exists junk, decode_header_value (T ++ 0 :: after) = Ok (r ++ 0 :: junk ++ after) /\ (length r + length junk = length T)%nat.
Proof.
  intros T r after C R. destruct (decode_ok T after) as (junk & E & L).
  - intro I. unfold c_string in C. rewrite Forall_forall in C. apply C in I. unfold c_char in I. lia.
  - unfold c_string in C. eapply Forall_impl; [|exact C]. unfold c_char. intros; cbn beta in *; lia.
  - rewrite (shown_reads _ _ R) in E, L by (rewrite app_length; lia). eauto.
Qed.
Lemma unchanged_main : forall T after, c_string T -> (forall pre cs enc text post, T <> pre ++ word cs enc text ++ post) -> decode_header_value (T ++ 0 :: after) = Ok (T ++ 0 :: after).
Proof.
  intros T after C NW. destruct (reads_main T T after C (reads_plain _ NW)) as (junk & E & L). destruct junk; [exact E|cbn [length] in L; lia].
Qed.

(* examples *)
Definition ex_value : bytes := bs " a =?utf-8?q?caf=C3=A9_au?= lait =?x?z?kept?= =?iso-8859-1?B?SGVs" ++ bs "bG8=?= =?broken".
Definition ex_value_read : bytes := bs " a caf" ++ [195; 169] ++ bs " au lait =?x?z?kept?= Hello =?broken".
Lemma no_word : forall t, (count_occ N.eq_dec t 63%N < 4)%nat -> forall pre cs enc text post, t <> pre ++ word cs enc text ++ post.
Proof.
  intros t H pre cs enc text post ->. rewrite word_split in H. rewrite !count_occ_app in H.
  repeat (rewrite ?count_occ_app in H; rewrite ?(count_occ_cons_eq N.eq_dec _ (eq_refl 63)) in H; rewrite ?(count_occ_cons_neq N.eq_dec _ (ltac:(discriminate) : 61 <> 63)) in H). lia.
Qed.
Lemma not_in_dec : forall (c : N) s, existsb (N.eqb c) s = false -> ~ In c s.
Proof. intros c s H I. assert (X : existsb (N.eqb c) s = true) by (apply existsb_exists; exists c; split; [exact I|apply N.eqb_refl]). congruence. Qed.
Lemma ex_value_reads : reads ex_value ex_value_read.
Proof.
  change (reads (bs " a " ++ word (bs "utf-8") (bs "q") (bs "caf=C3=A9_au") ++ bs " lait " ++ word (bs "x") (bs "z") (bs "kept") ++ bs " " ++ word (bs "iso-8859-1") (bs "B") (bs "SGVsbG8=") ++ bs " =?broken")
    (bs " a " ++ (bs "caf" ++ [16 * 12 + 3; 16 * 10 + 9] ++ bs " au") ++ bs " lait " ++ word (bs "x") (bs "z") (bs "kept") ++ bs " " ++ bs "Hello" ++ bs " =?broken")).
  apply reads_word; [now apply cut2_none|now apply not_in_dec|now apply not_in_dec| |].
  { left. split; [now left|]. cbn [bs app]. repeat (apply q_char; [discriminate|discriminate|]). apply q_hex; [vm_compute; tauto|vm_compute; tauto|]. apply q_hex; [vm_compute; tauto|vm_compute; tauto|]. apply q_space. repeat (apply q_char; [discriminate|discriminate|]). apply q_nil. }
  apply reads_other; [now apply cut2_none|now apply not_in_dec|now apply not_in_dec| |now apply cut2_none|].
  { intros [X|[X|[X|X]]]; discriminate X. }
  apply reads_word; [now apply cut2_none|now apply not_in_dec|now apply not_in_dec| |].
  { right. split; [now right|]. split; [repeat constructor|]. vm_compute. repeat apply spread_keep. apply spread_nil. }
  apply reads_plain. apply no_word. vm_compute. lia.
Qed.
Lemma ex_value_ok : c_string ex_value.
Proof. repeat constructor. Qed.
Lemma ex_adjacent : means (bs "Q") (bs "=41b") (bs "Ab") /\ means (bs "Q") (bs "cd") (bs "cd") /\
  exists junk, decode_header_value (word (bs "us-ascii") (bs "Q") (bs "=41b") ++ bs " " ++ word (bs "us-ascii") (bs "Q") (bs "cd") ++ [0]) = Ok (bs "Ab cd" ++ 0 :: junk).
Proof.
  split; [|split].
  - left. split; [now right|]. change (q_of (16 * 4 + 1 :: bs "b") (bs "=41b")). apply q_hex; [left; reflexivity|left; reflexivity|]. repeat (apply q_char; [discriminate|discriminate|]). apply q_nil.
  - left. split; [now right|]. repeat (apply q_char; [discriminate|discriminate|]). apply q_nil.
  - eexists. vm_compute. reflexivity.
Qed.
Lemma adjacent_main : exists cs a m b n r junk, means (bs "Q") a m /\ means (bs "Q") b n /\
  decode_header_value (word cs (bs "Q") a ++ bs " " ++ word cs (bs "Q") b ++ [0]) = Ok (r ++ 0 :: junk) /\ ~ In 0 r /\ r <> m ++ n.
Proof.
  destruct ex_adjacent as (M & N & junk & E). exists (bs "us-ascii"), (bs "=41b"), (bs "Ab"), (bs "cd"), (bs "cd"), (bs "Ab cd"), junk.
  split; [exact M|]. split; [exact N|]. split; [exact E|]. split; [now apply not_in_dec|discriminate].
Qed.
