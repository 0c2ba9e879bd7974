(* Whatever the data, a parsed message consists of C strings: header values and parameters. *)
From Verif Require Import Base M_Tokens M_Decode M_Header M_Words M_Nvp M_Rfc822 S_Decode S_Header S_Words S_Nvp S_Rfc822 S_Multipart S_Mime
  L_Decode L_Header L_TokTable L_Words3 L_Nvp4 L_Multipart L_Multipart2 L_Output3 L_Rfc822 L_Rfc822b L_Rfc822c L_Rfc822d L_Mime L_Mime2 L_Mime3 L_Mime4.
Local Open Scope N_scope.

(* memory stays memory *)
Lemma set_small : forall s i c, small s -> c < 256 -> small (set_nth s i c).
Proof.
  intros s i c S C. revert i. induction S as [|x s X S IH]; intros [|i]; cbn [set_nth]; try constructor; auto. apply IH.
Qed.
Lemma write_small : forall mem i c mem', small mem -> c < 256 -> write mem i c = Ok mem' -> small mem'.
Proof. intros mem i c mem' S C H. unfold write in H. destruct (_ <? _)%nat; [|discriminate]. apply Ok_inj in H. subst mem'. apply set_small; assumption. Qed.
Lemma read_small : forall mem i c, small mem -> read mem i = Ok c -> c < 256.
Proof. intros mem i c S H. unfold read in H. destruct (nth_error mem i) eqn:E; [|discriminate]. apply Ok_inj in H. subst c. apply nth_error_In in E. unfold small in S. rewrite Forall_forall in S. auto. Qed.
Ltac step H := match type of H with bind ?r _ = Ok _ => let E := fresh "E" in destruct r eqn:E; cbn [bind] in H; [|discriminate H] end.
Ltac step1 H o := match type of H with bind ?r _ = Ok _ => let E := fresh "E" in destruct r as [o|] eqn:E; cbn [bind] in H; [|discriminate H] end.
Ltac step2 H m p := match type of H with bind ?r _ = Ok _ => let E := fresh "E" in destruct r as [[m p]|] eqn:E; cbn [bind] in H; [|discriminate H] end.
Ltac step3 H m p q := match type of H with bind ?r _ = Ok _ => let E := fresh "E" in destruct r as [[[m p] q]|] eqn:E; cbn [bind] in H; [|discriminate H] end.
Lemma copy_small : forall n mem p q mem' p' q', small mem -> copy n mem p q = Ok (mem', p', q') -> small mem'.
Proof.
  induction n as [|n IH]; intros mem p q mem' p' q' S H; cbn [copy] in H; [apply Ok_inj in H; congruence|].
  step H. step H. eapply IH; [|exact H]. eapply write_small; eauto using read_small.
Qed.
Lemma q_small : forall f mem p q e mem' p', small mem -> q_text f mem p q e = Ok (mem', p') -> small mem'.
Proof.
  induction f as [|f IH]; intros mem p q e mem' p' S H; cbn [q_text] in H; [discriminate|]. destruct (q <? e)%nat; [|apply Ok_inj in H; congruence].
  step H. destruct (_ =? 95); [step H; eapply IH; [|exact H]; eapply write_small; eauto; reflexivity|]. destruct (_ =? 61).
  - step H. step H. step H. eapply IH; [|exact H]. eapply write_small; [exact S| |eassumption]. apply nmod_small.
  - step H. eapply IH; [|exact H]. eapply write_small; eauto using read_small.
Qed.
Lemma put_small : forall (b : bool) mem p z mem' p', small mem -> (if b then let! mem := write mem p (Z.to_N (z mod 256)) in Ok (mem, S p) else Ok (mem, p)) = Ok (mem', p') -> small mem'.
Proof.
  intros b mem p z mem' p' S H. destruct b; [|apply Ok_inj in H; congruence]. step H. apply Ok_inj in H. injection H as <- _. eapply write_small; [exact S| |eassumption]. apply zmod_small.
Qed.
Lemma b_small : forall f mem p q e reg nc eq mem' p', small mem -> b_text f mem p q e reg nc eq = Ok (mem', p') -> small mem'.
Proof.
  induction f as [|f IH]; intros mem p q e reg nc eq mem' p' S H; cbn [b_text] in H; [discriminate|]. destruct (q <? e)%nat; [|apply Ok_inj in H; congruence].
  step H. destruct (nth_error base64_table _); [|discriminate]. destruct (nth_error equal_table _); [|discriminate]. cbv zeta in H.
  destruct (0 <=? _)%Z; [|eapply IH; eassumption]. destruct (_ =? 4)%nat; [|eapply IH; eassumption].
  step2 H m1 p1. apply (put_small true) in E0; [|exact S].
  step2 H m2 p2. apply put_small in E1; [|exact E0].
  step2 H m3 p3. apply put_small in E2; [|exact E1].
  destruct (_ =? 0)%Z; [eapply IH; eassumption|]. apply Ok_inj in H. congruence.
Qed.
Lemma words_small : forall f mem p q s mem' p' q', small mem -> words_loop f mem p q s = Ok (mem', p', q') -> small mem'.
Proof.
  induction f as [|f IH]; intros mem p q s mem' p' q' S H; cbn [words_loop] in H; [discriminate|]. cbv zeta in H.
  step1 H o. destruct o as [k|]; [|apply Ok_inj in H; congruence]. step3 H m1 p1 q1.
  assert (S1 : small m1). { destruct (_ =? _)%nat; [apply Ok_inj in E0; congruence|]. destruct (_ <=? _)%nat; [|discriminate]. eapply copy_small; eassumption. }
  step1 H o. destruct o as [k1|]; [|apply Ok_inj in H; congruence]. step1 H o. destruct o as [k2|]; [|apply Ok_inj in H; congruence]. step1 H o. destruct o as [k3|]; [|apply Ok_inj in H; congruence].
  destruct (negb _); [eapply IH; eassumption|]. step H. destruct (_ || _).
  - step2 H m2 p2. eapply IH; [|exact H]. eapply q_small; eassumption.
  - destruct (_ || _); [|eapply IH; eassumption]. step2 H m2 p2. eapply IH; [|exact H]. eapply b_small; eassumption.
Qed.
Lemma rest_small : forall f mem p q mem', small mem -> copy_rest f mem p q = Ok mem' -> small mem'.
Proof.
  induction f as [|f IH]; intros mem p q mem' S H; cbn [copy_rest] in H; [discriminate|]. step H. destruct (_ =? 0).
  - eapply write_small; [exact S| |exact H]. reflexivity.
  - step H. eapply IH; [|exact H]. eapply write_small; eauto using read_small.
Qed.
Lemma decode_small : forall mem mem', small mem -> decode_header_value mem = Ok mem' -> small mem'.
Proof.
  intros mem mem' S H. unfold decode_header_value in H. step3 H m p q. apply words_small in E; [|exact S]. destruct (_ =? _)%nat; [apply Ok_inj in H; congruence|]. eapply rest_small; eassumption.
Qed.
Lemma cstr_c : forall s, small s -> c_string (cstr s).
Proof.
  intros s S. induction S as [|c s C S IH]; cbn [cstr]; [constructor|]. destruct (N.eqb_spec c 0); [constructor|]. constructor; [unfold c_char; lia|exact IH].
Qed.
Lemma c_small : forall s, c_string s -> small s.
Proof. intros s S. eapply Forall_impl; [|exact S]. unfold c_char. intros c. lia. Qed.
Definition c_opt (o : option bytes) : Prop := forall s, o = Some s -> c_string s.
Lemma c_none : c_opt None.
Proof. intros s H. discriminate. Qed.
Lemma c_some : forall s, c_string s -> c_opt (Some s).
Proof. intros s C s' H. congruence. Qed.
Lemma after_c : forall s v, c_string s -> after_colon s = Some v -> c_string v.
Proof.
  intros s v C. induction C as [|c s H C IH]; cbn [after_colon]; [discriminate|]. destruct (c =? 58); [intros E; injection E as <-; exact C|exact IH].
Qed.
Lemma copy_c : forall x o, c_string x -> copy_header_value x = Ok o -> c_opt o.
Proof.
  intros x o C H. unfold copy_header_value in H. destruct (after_colon x) as [v|] eqn:E; [|apply Ok_inj in H; subst o; apply c_none].
  step H. apply Ok_inj in H. subst o. apply c_some, cstr_c. eapply decode_small; [|exact E0]. apply Forall_app. split; [apply c_small; eapply after_c; eassumption|]. constructor; [reflexivity|constructor].
Qed.
Lemma concat_c : forall o x o', c_opt o -> c_string x -> copy_or_concat_header_value o x = Ok o' -> c_opt o'.
Proof.
  intros o x o' O X H. unfold copy_or_concat_header_value in H. step1 H o0. apply copy_c in E; [|exact X]. destruct o as [a|].
  - destruct o0 as [b|]; [|discriminate]. apply Ok_inj in H. subst o'. apply c_some. apply Forall_app. split; [exact (O _ eq_refl)|]. change (Forall c_char (bs ", " ++ b)). apply Forall_app. split; [|exact (E _ eq_refl)]. repeat constructor; unfold c_char; cbn; lia.
  - apply Ok_inj in H. subst o'. exact E.
Qed.

(* parameters *)
Definition c_entry (e : nvp_entry) : Prop := c_string (e_lhs e) /\ c_string (e_rhs e).
Definition c_vars (x : nvp_vars) : Prop := c_opt (x_name x) /\ c_opt (x_minor x) /\ c_opt (x_value x) /\ Forall c_entry (x_result x).
Lemma c_rev : forall s, c_string s -> c_string (rev s).
Proof. intros s. apply Forall_rev. Qed.
Lemma trim_c : forall isspc s r, c_string s -> trim isspc s = Ok r -> c_string r.
Proof.
  intros isspc s r C. induction C as [|c s H C IH]; cbn [trim]; [discriminate|]. destruct (isspc c); [exact IH|]. intros E. apply Ok_inj in E. subst r. apply (c_rev (c :: s)). constructor; assumption.
Qed.
Lemma hex_small : forall x y, Z.to_N (nvp_hex x * 16 + nvp_hex y) < 256.
Proof.
  assert (B : forall c, (nvp_hex c <= 15)%Z).
  { intros c. unfold nvp_hex, isdigit, between. destruct (_ && _) eqn:E1; [lia|]. destruct (_ && _) eqn:E2 in |- *; [lia|]. destruct (_ && _) eqn:E3 in |- *; lia. }
  intros x y. pose proof (B x). pose proof (B y). lia.
Qed.
Lemma percent_small : forall s r, small s -> percent s = Some r -> small r.
Proof.
  assert (G : forall n s r, (length s <= n)%nat -> small s -> percent s = Some r -> small r).
  { induction n as [|n IH]; intros s r L S H.
    - destruct s; [|cbn in L; lia]. cbn in H. injection H as <-. constructor.
    - destruct s as [|c s]; [cbn in H; injection H as <-; constructor|]. cbn [percent] in H. inversion S; subst. cbn [length] in L. destruct (c =? 37).
      + destruct s as [|x [|y s]]; try discriminate. destruct (_ || _); [discriminate|]. destruct (percent s) eqn:E; [|discriminate]. cbn in H. injection H as <-.
        inversion H3; subst. inversion H4; subst. constructor; [apply hex_small|]. eapply IH; [|eassumption|exact E]. cbn [length] in L. lia.
      + destruct (percent s) eqn:E; [|discriminate]. cbn in H. injection H as <-. constructor; [assumption|]. eapply IH; [|eassumption|exact E]. lia. }
  intros s r. apply (G (length s)). lia.
Qed.
Lemma combine_c : forall es n v es', Forall c_entry es -> c_string v -> combine_into es n v = Some es' -> Forall c_entry es'.
Proof.
  intros es n v es' F V. revert es'. induction F as [|e es [E1 E2] F IH]; intros es' H; cbn [combine_into] in H; [discriminate|].
  assert (K : option_map (cons e) (combine_into es n v) = Some es' -> Forall c_entry es').
  { intros G. destruct (combine_into es n v); [|discriminate]. cbn in G. injection G as <-. constructor; [split; assumption|]. apply IH. reflexivity. }
  destruct (e_type e); auto. destruct (bytes_eqb _ _); [|auto]. injection H as <-. constructor; [|exact F]. split; [exact E1|]. apply Forall_app. split; assumption.
Qed.
Lemma or_empty_c : forall o, c_opt o -> c_string (or_empty o).
Proof. intros [s|] O; [apply O; reflexivity|constructor]. Qed.
Lemma terminator_c : forall isspc last x x', c_vars x -> terminator isspc last x = Ok (Some x') -> c_vars x'.
Proof.
  intros isspc last [nm mi va rs] x' (N1 & M1 & V1 & R1) H. cbn [x_name x_minor x_value x_result] in *.
  assert (AP : forall e, c_entry e -> Forall c_entry (rs ++ [e])) by (intros e E; apply Forall_app; split; [exact R1|constructor; [exact E|constructor]]).
  assert (CO : forall v, c_string v -> forall x', match nm with
    | None => Err E_oob
    | Some n => match combine_into rs n v with
      | Some es => Ok (Some {| x_name := nm; x_minor := mi; x_value := Some v; x_result := es |})
      | None => Ok (Some {| x_name := None; x_minor := mi; x_value := None; x_result := rs ++ [Entry NVP_NAMEVALUE n v] |})
      end end = Ok (Some x') -> c_vars x').
  { intros v V y G. destruct nm as [n|]; [|discriminate]. destruct (combine_into rs n v) as [es|] eqn:E; apply Ok_inj in G; injection G as <-; unfold c_vars; cbn [x_name x_minor x_value x_result].
    - repeat split; auto; [apply c_some; exact V|]. eapply combine_c; eassumption.
    - repeat split; auto using c_none. apply AP. split; [apply N1; reflexivity|exact V]. }
  unfold terminator in H. cbv zeta in H. cbn [x_name x_minor x_value x_result] in H. destruct last.
  all: try (apply Ok_inj in H; injection H as <-; unfold c_vars; cbn [x_name x_minor x_value x_result]; repeat split; auto using c_none; try (apply AP; split; cbn [e_lhs e_rhs]; auto using or_empty_c; constructor); fail).
  - destruct va as [v|]; [|discriminate]. exact (CO v (V1 _ eq_refl) _ H).
  - destruct va as [v|]; [|discriminate]. destruct (percent v) as [w|] eqn:E; [|discriminate]. refine (CO _ _ _ H). apply cstr_c. eapply percent_small; [|exact E]. apply c_small. auto.
  - destruct va as [v|]; [|discriminate]. destruct (percent v) as [w|] eqn:E; [|discriminate]. refine (CO _ _ _ H). apply cstr_c. eapply percent_small; [|exact E]. apply c_small. auto.
  - destruct nm as [n|]; [|discriminate]. step H. apply Ok_inj in H. injection H as <-. unfold c_vars. cbn [x_name x_minor x_value x_result]. repeat split; auto using c_none.
    apply AP. split; [|constructor]. eapply trim_c; [|exact E]. apply c_rev. auto.
Qed.
Lemma flush_c : forall k text x, c_string text -> c_vars x -> c_vars (flush k text x).
Proof. intros k text x T (N1 & M1 & V1 & R1). destruct k; unfold c_vars; cbn; repeat split; auto using c_some. Qed.
Lemma loop_c : forall isspc s d last k text x es, c_string s -> c_string text -> c_vars x -> nvp_loop isspc s d last k text x = Ok (Some es) -> Forall c_entry es.
Proof.
  intros isspc s d last k text x es S. revert d last k text x. induction S as [|c s C S IH]; intros d last k text x T X H; cbn [nvp_loop] in H; cbv zeta in H.
  - destruct (nvp_next_state d None) as [|d0 ds] eqn:ED; [discriminate|]. rewrite <- ED in H. remember (nvp_next_state d None) as d1. clear ED Heqd1 d0 ds.
    assert (X1 : c_vars (if copier_beq (nvp_copier d1) k then x else flush k (rev text) x)) by (destruct (copier_beq _ k); [exact X|apply flush_c; [apply c_rev; exact T|exact X]]).
    assert (T1 : c_string (if copier_beq (nvp_copier d1) k then text else [])) by (destruct (copier_beq _ k); [exact T|constructor]).
    step2 H o l. cbn [fst snd] in H. destruct o as [x2|]; [|discriminate]. assert (Y : c_vars x2).
    { destruct (nvp_action d1); try (apply Ok_inj in E; injection E as <- _; exact X1). match type of E with bind ?r _ = _ => destruct r as [o|] eqn:E2; cbn [bind] in E; [|discriminate] end.
      apply Ok_inj in E. injection E as -> _. eapply terminator_c; [exact X1|exact E2]. }
    apply Ok_inj in H. injection H as <-. apply Y.
  - destruct (nvp_next_state d (Some c)) as [|d0 ds] eqn:ED; [discriminate|]. rewrite <- ED in H. remember (nvp_next_state d (Some c)) as d1. clear ED Heqd1 d0 ds.
    assert (X1 : c_vars (if copier_beq (nvp_copier d1) k then x else flush k (rev text) x)) by (destruct (copier_beq _ k); [exact X|apply flush_c; [apply c_rev; exact T|exact X]]).
    assert (T1 : c_string (if copier_beq (nvp_copier d1) k then text else [])) by (destruct (copier_beq _ k); [exact T|constructor]).
    step2 H o l. cbn [fst snd] in H. destruct o as [x2|]; [|discriminate]. assert (Y : c_vars x2).
    { destruct (nvp_action d1); try (apply Ok_inj in E; injection E as <- _; exact X1). match type of E with bind ?r _ = _ => destruct r as [o|] eqn:E2; cbn [bind] in E; [|discriminate] end.
      apply Ok_inj in E. injection E as -> _. eapply terminator_c; [exact X1|exact E2]. }
    refine (IH _ _ _ _ _ _ Y H). constructor; assumption.
Qed.
Lemma c_skip : forall n s, c_string s -> c_string (skipn n s).
Proof. intros n s F. unfold c_string in *. rewrite <- (firstn_skipn n s) in F. apply Forall_app in F. tauto. Qed.
Definition c_hdr (h : hdr) : Prop := forall es, h = Some es -> Forall c_entry es.
Lemma nvp_c : forall isspc x pfx h, c_string x -> make_nvp isspc x pfx = Ok h -> c_hdr h.
Proof.
  intros isspc x pfx h C H es ->. unfold make_nvp in H. destruct (match_string pfx x); [|discriminate]. eapply loop_c; [| | |exact H].
  - apply c_skip. exact C.
  - constructor.
  - unfold c_vars. cbn. repeat split; auto using c_none.
Qed.
Lemma find_c : forall es p, Forall c_entry es -> c_opt (option_map e_rhs (find p es)).
Proof.
  intros es p F s H. destruct (find p es) as [e|] eqn:E; [|discriminate]. cbn in H. injection H as <-. apply find_some in E. rewrite Forall_forall in F. exact (proj2 (F _ (proj1 E))).
Qed.
Lemma file_c : forall ct cd, Forall c_entry ct -> c_hdr cd -> c_opt (file_name ct cd).
Proof.
  intros ct cd CT CD. unfold file_name. destruct cd as [es|]; [|apply c_none]. destruct (is _ _); [|apply c_none].
  specialize (CD es eq_refl). pose proof (find_c es (fun e => match e_type e with NVP_NAMEVALUE => case_eqb (e_lhs e) (bs "filename") | _ => false end) CD) as F. fold (nvp_lookupcase es (bs "filename")) in F.
  destruct (nvp_lookupcase es (bs "filename")); [exact F|]. apply find_c. exact CT.
Qed.
