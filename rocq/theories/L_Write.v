From Verif Require Import Base M_Imap S_Imap S_Server M_Write S_Write L_Imap L_Imap2 L_Imap3 L_Output L_Login2.
Local Open Scope N_scope.
Local Opaque bs.

Lemma sends_more n p x s : sends (skipn n p) (x, s) -> sends p (x, firstn n p ++ s).
Proof. destruct x; cbn [sends]; [intros ->; apply firstn_skipn|]. intros (r & NE & E). exists r. split; [exact NE|]. rewrite <- app_assoc, <- E. symmetry. apply firstn_skipn. Qed.
Lemma sends_none p : p <> [] -> sends p (false, []).
Proof. intros H. exists p. auto. Qed.
Lemma plain_sound : forall rounds p x, write_plain rounds p = Ok x -> sends p x.
Proof.
  induction rounds as [|r rs IH]; intros p x E; (destruct p as [|c p']; [injection E as <-; reflexivity|]); [discriminate|].
  assert (NE : c :: p' <> []) by discriminate. remember (c :: p') as p eqn:EP. destruct r as [[| | |] [[|n]| | |]]; rewrite EP in E; cbn [write_plain] in E; rewrite <- ?EP in E;
    try (injection E as <-; now apply sends_none); try (apply IH; assumption).
  destruct (write_plain rs (skipn (Datatypes.S n) p)) as [[ok s]|] eqn:EW; cbn [bind] in E; [|discriminate]. injection E as <-. apply (sends_more (Datatypes.S n) p). now apply IH.
Qed.
Lemma tls_sound : forall rounds p x, write_tls rounds p = Ok x -> sends p x.
Proof.
  induction rounds as [|r rs IH]; intros p x E; (destruct p as [|c p']; [injection E as <-; reflexivity|]); [discriminate|].
  assert (NE : c :: p' <> []) by discriminate. remember (c :: p') as p eqn:EP. destruct r as [[|n]|[| | |]|]; rewrite EP in E; cbn [write_tls] in E; rewrite <- ?EP in E;
    try (injection E as <-; now apply sends_none); try (apply IH; assumption).
  destruct (write_tls rs (skipn (Datatypes.S n) p)) as [[ok s]|] eqn:EW; cbn [bind] in E; [|discriminate]. injection E as <-. apply (sends_more (Datatypes.S n) p). now apply IH.
Qed.
Lemma plain_done : forall rounds p, Forall fine rounds -> (length p <= length (filter takes rounds))%nat -> write_plain rounds p = Ok (true, p).
Proof.
  induction rounds as [|r rs IH]; intros p F L; (destruct p as [|c p']; [reflexivity|]); [cbn in L; lia|]. inversion F as [|? ? F1 F2]; subst.
  remember (c :: p') as p eqn:EP. destruct r as [[| | |] [[|n]| | |]]; try (exfalso; exact F1); try (exfalso; exact (F1 eq_refl)); rewrite EP; cbn [write_plain]; rewrite <- ?EP; cbn [filter takes length] in L; try (apply IH; assumption).
  rewrite (IH (skipn (Datatypes.S n) p) F2); [|rewrite skipn_length; lia]. cbn [bind]. now rewrite firstn_skipn.
Qed.
Lemma tls_done : forall rounds p, Forall fine_tls rounds -> (length p <= length (filter takes_tls rounds))%nat -> write_tls rounds p = Ok (true, p).
Proof.
  induction rounds as [|r rs IH]; intros p F L; (destruct p as [|c p']; [reflexivity|]); [cbn in L; lia|]. inversion F as [|? ? F1 F2]; subst.
  remember (c :: p') as p eqn:EP. destruct r as [[|n]|[| | |]|]; try (exfalso; exact F1); try (exfalso; exact (F1 eq_refl)); rewrite EP; cbn [write_tls]; rewrite <- ?EP; cbn [filter takes_tls length] in L; try (apply IH; assumption).
  rewrite (IH (skipn (Datatypes.S n) p) F2); [|rewrite skipn_length; lia]. cbn [bind]. now rewrite firstn_skipn.
Qed.
Lemma write_main : forall text, (forall rounds x, write_plain rounds text = Ok x -> sends text x) /\ (forall rounds x, write_tls rounds text = Ok x -> sends text x) /\
  (forall rounds, Forall fine rounds -> (length text <= length (filter takes rounds))%nat -> write_plain rounds text = Ok (true, text)) /\
  (forall rounds, Forall fine_tls rounds -> (length text <= length (filter takes_tls rounds))%nat -> write_tls rounds text = Ok (true, text)).
Proof. intros text. split; [intros; now apply (plain_sound rounds)|]. split; [intros; now apply (tls_sound rounds)|]. split; intros; [now apply plain_done|now apply tls_done]. Qed.
Lemma logout_main : forall (S : Type) (serve : S -> bytes -> S * option (list bytes)) k, (-1 <= k_tag k)%Z -> (k_tag k + 1 < 2147483648)%Z ->
  (forall text out, snd (serve (k_srv k) text) = Some out -> no_huge (k_buf k ++ concat (k_net k) ++ concat out)) ->
  exists text k', logout S serve k = Ok k' /\ received text = Some (Z.to_N (k_tag k + 1), [Atom (bs "LOGOUT")]) /\ (length text < 25)%nat /\ k_srv k' = fst (serve (k_srv k) text).
Proof.
  intros S serve k T0 T H. destruct (word_sendable (bs "LOGOUT") ltac:(discriminate) ltac:(now vm_compute)) as [W1 W2].
  set (tag := Z.to_N (k_tag k + 1)). assert (TG : (k_tag k + 1)%Z = Z.of_N tag) by (unfold tag; lia). assert (LT : tag < 2 ^ 31) by (change (2 ^ 31) with 2147483648; lia).
  pose proof (sent_main tag [Atom (bs "LOGOUT")] LT ltac:(discriminate) (Forall_cons _ W1 (Forall_nil _)) (Forall_cons _ W2 (Forall_nil _))) as RC.
  assert (TX : format_cmd (Z.of_N tag) (a_cmd (map tok_of [Atom (bs "LOGOUT")])) ++ [13; 10] = logout_text (Z.of_N tag)).
  { unfold logout_text. cbn [map tok_of a_cmd format_cmd]. rewrite !app_nil_r. change (bs " LOGOUT") with ([32] ++ bs "LOGOUT"). rewrite <- !app_assoc. reflexivity. }
  rewrite TX in RC. assert (LG : (length (logout_text (Z.of_N tag)) < 25)%nat).
  { unfold logout_text. rewrite !app_length, show_z_nat. pose proof (show_int_short tag LT). change (length (bs "t")) with 1%nat. change (length (bs " LOGOUT")) with 7%nat. cbn [length]. lia. }
  exists (logout_text (Z.of_N tag)). unfold logout. replace (k_tag k + 1 <? 2147483648)%Z with true by lia. rewrite TG. replace (_ <? 25)%nat with true by (symmetry; apply Nat.ltb_lt; exact LG).
  specialize (H (logout_text (Z.of_N tag))). destruct (serve (k_srv k) (logout_text (Z.of_N tag))) as [s' [out|]]; [|eexists; split; [reflexivity|auto]].
  specialize (H out eq_refl). assert (H' : no_huge (k_buf k ++ concat (k_net k ++ out))) by (rewrite concat_app; exact H).
  destruct (collect_safe (Z.of_N tag) (1 + length (k_buf k) + length (concat (k_net k ++ out))) (k_buf k) (k_net k ++ out) [] H') as (l & b & n & E & _ & _); [rewrite app_length; lia|].
  rewrite E. cbn [bind]. eexists. split; [reflexivity|auto].
Qed.
Lemma write_example : write_plain [(P_ready, W_bytes 3); (P_signal, W_again); (P_ready, W_again); (P_ready, W_bytes 20)] (bs "t0 CAPABILITY") = Ok (true, bs "t0 CAPABILITY") /\
  write_plain [(P_ready, W_bytes 3); (P_timeout, W_again)] (bs "t0 CAPABILITY") = Ok (false, bs "t0 ").
Proof. split; vm_compute; reflexivity. Qed.
Lemma logout_example : exists k', logout nat (fun n _ => (S n, Some [bs "* BYE" ++ [13; 10]; bs "t8 OK" ++ [13; 10]])) {| k_tag := 7; k_buf := []; k_net := []; k_sel := None; k_srv := O |} = Ok k' /\ k_tag k' = 8%Z /\ k_net k' = [].
Proof. eexists. split; [vm_compute; reflexivity|]. split; reflexivity. Qed.
