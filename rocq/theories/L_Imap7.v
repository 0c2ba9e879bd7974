(* Examples for the IMAP properties. *)
From Verif Require Import Base M_Output M_Search M_Tokens M_Rfc822 M_Imap S_Imap S_Server L_TokTable L_Imap L_Imap2 L_Imap3 L_Imap4 L_Imap5 L_Imap6.
Local Open Scope N_scope.

Definition crlf : bytes := [13; 10].
Definition mail1 : bytes := bs "Subject: one" ++ crlf ++ crlf ++ bs "He said ""yes"" \o/" ++ crlf.
Definition mail2 : bytes := bs "Subject: two" ++ crlf ++ crlf.
Definition ex_post : post :=
  {| p_boxes := [{| b_name := bs "INBOX"; b_validity := bs "77"; b_letters := [{| l_uid := bs "5"; l_flags := [bs "\Seen"]; l_text := mail1 |}; {| l_uid := bs "6"; l_flags := [bs "\Seen"; bs "\Deleted"]; l_text := [] |}; {| l_uid := bs "19"; l_flags := []; l_text := mail2 |}] |};
                 {| b_name := bs "old ""stuff"""; b_validity := bs "3"; b_letters := [{| l_uid := bs "1"; l_flags := []; l_text := mail2 |}] |};
                 {| b_name := bs "found"; b_validity := bs "8"; b_letters := [{| l_uid := bs "4"; l_flags := []; l_text := mail2 |}] |};
                 {| b_name := bs "empty"; b_validity := bs "9"; b_letters := [] |}];
     p_open := None |}.
Definition ex_conn : conn post := {| k_tag := 2; k_buf := []; k_net := []; k_sel := None; k_srv := ex_post |}.
Lemma name_b f : forallb (fun c => (c <? 256) && negb (c =? 92)) f && (N.of_nat (length f) <? 2147483648) = true -> name_ok f.
Proof.
  intros H. apply andb_prop in H. destruct H as [A L]. rewrite forallb_forall in A. split; [split|].
  - intros c I. apply A in I. lia.
  - change (2 ^ 31) with 2147483648. lia.
  - intros I. apply A in I. discriminate I.
Qed.
Definition digits_b (u : bytes) : bool := forallb (fun c => (48 <=? c) && (c <=? 57)) u && negb (bytes_eqb u []).
Lemma number_b u : digits_b u = true -> number_ok u.
Proof.
  intros H. apply andb_prop in H. destruct H as [A B]. split; [intros ->; discriminate|]. apply Forall_forall. intros c I. rewrite forallb_forall in A. apply A in I. unfold digit. lia.
Qed.
Definition letter_b (l : letter) : bool := digits_b (l_uid l) && forallb (fun f => plain_b f && negb (bytes_eqb f [])) (l_flags l) && (N.of_nat (length (l_text l)) <? 2147483648).
Lemma plain_ok : forall s, plain_b s = true -> Forall (atom_char In_paren) s.
Proof.
  induction s as [|c s IH]; intros H; [constructor|]. cbn [plain_b] in H. apply andb_prop in H. destruct H as [A B]. constructor; [|apply IH; exact B]. apply Bool.negb_true_iff in A. cbn [existsb] in A. split; [intros I; cbn [In] in I; intuition lia|lia].
Qed.
Lemma letter_bok l : letter_b l = true -> letter_ok l.
Proof.
  intros H. apply andb_prop in H. destruct H as [H C]. apply andb_prop in H. destruct H as [A B]. split; [apply number_b; exact A|]. split; [|change (2 ^ 31) with 2147483648; lia]. intros f I. rewrite forallb_forall in B. apply B in I. apply andb_prop in I. destruct I as [P NE]. split; [intros ->; discriminate|]. apply plain_ok. exact P.
Qed.
Fixpoint nodup_b (l : list bytes) : bool := match l with [] => true | x :: l' => negb (existsb (bytes_eqb x) l') && nodup_b l' end.
Lemma nodup_ok : forall l, nodup_b l = true -> NoDup l.
Proof.
  induction l as [|x l IH]; intros H; [constructor|]. cbn [nodup_b] in H. apply andb_prop in H. destruct H as [A B]. constructor; [|apply IH; exact B]. intros I. apply Bool.negb_true_iff in A. assert (X : existsb (bytes_eqb x) l = true) by (apply existsb_exists; exists x; split; [exact I|apply bytes_eqb_refl]). congruence.
Qed.
Lemma order_b v : (forall b, In b (p_boxes v) -> name_ok (b_name b) /\ digits_b (b_validity b) && nodup_b (map l_uid (b_letters b)) && forallb letter_b (b_letters b) = true) -> in_order v.
Proof.
  intros H f b B. pose proof (box_name _ _ _ B) as E. apply find_some in B. destruct B as [I _]. destruct (H b I) as [N C]. rewrite E in N. apply andb_prop in C. destruct C as [C L]. apply andb_prop in C. destruct C as [V D].
  split; [exact N|]. split; [apply number_b; exact V|]. split; [apply nodup_ok; exact D|]. apply Forall_forall. intros l IL. rewrite forallb_forall in L. apply letter_bok. apply L. exact IL.
Qed.
Lemma ex_order : in_order ex_post.
Proof. apply order_b. intros b [<-|[<-|[<-|[<-|[]]]]]; (split; [apply name_b; vm_compute; reflexivity|vm_compute; reflexivity]). Qed.
Lemma ex_fresh : fresh ex_conn.
Proof. repeat split; discriminate. Qed.
Definition ex_folders : list bytes := [bs "INBOX"; bs "old ""stuff"""; bs "INBOX"; bs "empty"].
Lemma ex_exist : forall f, In f ex_folders -> box_named ex_post f <> None.
Proof. intros f [<-|[<-|[<-|[<-|[]]]]]; vm_compute; discriminate. Qed.
Definition ex_paths : list bytes := [bs "77:19:INBOX"; bs "3:1:old ""stuff"""; bs "77:5:INBOX"].
Lemma ex_stand : Forall2 (stands_for ex_post) ex_paths [mail2; mail2; mail1].
Proof.
  repeat constructor; unfold stands_for.
  - exists (bs "INBOX"). eexists _, _. split; [reflexivity|]. split; [right; right; left; reflexivity|]. split; reflexivity.
  - exists (bs "old ""stuff"""). eexists _, _. split; [reflexivity|]. split; [left; reflexivity|]. split; reflexivity.
  - exists (bs "INBOX"). eexists _, _. split; [reflexivity|]. split; [left; reflexivity|]. split; reflexivity.
Qed.
Definition ex_acts : list act := [A_list ex_folders; A_clear; A_copy (bs "77:5:INBOX"); A_fetch (bs "77:19:INBOX"); A_copy (bs "3:1:old ""stuff"""); A_append mail1 true false true].
Lemma path_digits u n f : digits_b u = true -> digits_b n = true -> name_ok f -> path_ok (u ++ [58] ++ n ++ [58] ++ f).
Proof. intros A B C. exists u, n, f. split; [reflexivity|]. split; [apply number_b; exact A|]. split; [apply number_b; exact B|exact C]. Qed.
Lemma ex_acts_ok : forall a, In a ex_acts -> act_ok a.
Proof.
  intros a [<-|[<-|[<-|[<-|[<-|[<-|[]]]]]]]; cbn [act_ok].
  - intros f [<-|[<-|[<-|[<-|[]]]]]; apply name_b; reflexivity.
  - exact I.
  - apply (path_digits (bs "77") (bs "5") (bs "INBOX")); [reflexivity|reflexivity|apply name_b; reflexivity].
  - apply (path_digits (bs "77") (bs "19") (bs "INBOX")); [reflexivity|reflexivity|apply name_b; reflexivity].
  - apply (path_digits (bs "3") (bs "1") (bs "old ""stuff""")); [reflexivity|reflexivity|apply name_b; reflexivity].
  - split; [split; [|vm_compute; reflexivity]|].
    + intros c I. assert (X : forallb (fun c => c <? 256) mail1 = true) by reflexivity. rewrite forallb_forall in X. apply X in I. lia.
    + intros _. exists 34. split; [vm_compute; tauto|right; left; reflexivity].
Qed.
(* a line as it may come *)
Definition ex_items : list item := [Atom (bs "5"); Atom (bs "FETCH"); Paren [Atom (bs "BODY[]"); Str mail1; Atom (bs "FLAGS"); Paren []]].
Lemma ex_spelt tag : line_spelt tag (Says ex_items) (line_text tag (Says ex_items)).
Proof.
  apply line_says. cbn [ex_items legible_from next_place]. split; [apply digit_atom; apply number_b; reflexivity|]. split; [word|]. split; [|exact I]. apply leg_paren.
  repeat (apply Forall_cons; [first [word | reflexivity | exact I]|]). apply Forall_nil.
Qed.
Lemma number_bound : forall ds, Forall digit ds -> number ds < 10 ^ N.of_nat (length ds).
Proof.
  intros ds. induction ds as [|c ds IH] using rev_ind; intros F; [cbn; lia|]. apply Forall_app in F. destruct F as [F G]. inversion G as [|? ? D _]; subst. unfold digit in D. unfold number. rewrite fold_left_app. cbn [fold_left]. fold (number ds). specialize (IH F).
  rewrite app_length. cbn [length]. replace (N.of_nat (length ds + 1)) with (N.succ (N.of_nat (length ds))) by lia. rewrite N.pow_succ_r by lia. lia.
Qed.
Lemma few_digits t : (length (filter is_digit t) <= 9)%nat -> no_huge t.
Proof.
  intros H a ds b c -> _ F. pose proof (number_bound ds F) as B. assert (L : (length ds <= 9)%nat).
  { rewrite filter_app in H. cbn [filter] in H. assert (X : filter is_digit ds = ds). { clear -F. induction F as [|d ds D F IH]; [reflexivity|]. cbn [filter]. unfold digit in D. replace (is_digit d) with true by (unfold is_digit; lia). now rewrite IH. }
    destruct (is_digit c); cbn [length app] in H; rewrite filter_app, X, !app_length in H; cbn [length] in H; rewrite ?app_length in H; lia. }
  eapply N.lt_le_trans; [exact B|]. transitivity (10 ^ 9); [apply N.pow_le_mono_r; lia|vm_compute; discriminate].
Qed.
Definition rude : bytes := bs "* ((a ]) ""x" ++ [0; 255; 13] ++ bs "y {3}" ++ crlf ++ bs "* z" ++ crlf ++ bs "+ {" ++ crlf ++ bs "t1 ) ] OK" ++ crlf.
Definition rude_serve (s : unit) (t : bytes) : unit * option (list bytes) := (tt, Some [firstn 11 rude; []; skipn 11 rude]).
Lemma rude_mild (s : unit) t out : snd (rude_serve s t) = Some out -> no_huge ([] ++ concat [] ++ concat out).
Proof. intros E. injection E as <-. apply few_digits. vm_compute. lia. Qed.
(* a server with one line of one word *)
Definition short_serve (s : N) (t : bytes) : N * option (list bytes) :=
  (s + 1, Some [match s with 0 => bs "* OK [UIDVALIDITY 1] ok" ++ crlf ++ bs "* 1 EXISTS" ++ crlf ++ bs "t1 OK" ++ crlf | _ => bs "* SEARCH" ++ crlf ++ bs "t2 OK" ++ crlf end]).
Lemma pieces_main : forall tag buf net buf' net', buf ++ concat net = buf' ++ concat net' ->
  match waitline tag reader0 buf net with Ok (l, b, n) => Ok (l, b ++ concat n) | Err e => Err e end =
  match waitline tag reader0 buf' net' with Ok (l, b, n) => Ok (l, b ++ concat n) | Err e => Err e end.
Proof. intros. rewrite !wait_all. congruence. Qed.
Lemma escape_refuted : exists t s rest, in_quotes t = Some (s, rest) /\
  eat 1 reader0 (bs "* X " ++ [34] ++ t) <> Ok (inr (Some (tok_of_line (Says [Atom (bs "X"); Str s])), [])).
Proof. exists (bs "a\""b""" ++ crlf), (bs "a""b"), crlf. split; [reflexivity|vm_compute; discriminate]. Qed.
Lemma text_refuted : exists text l, ~ In 10 text /\ ~ In 13 text /\
  eat 1 reader0 (bs "* OK " ++ text ++ crlf ++ bs "* 1 EXISTS" ++ crlf ++ bs "t1 OK done" ++ crlf) = Ok (inr (l, bs "t1 OK done" ++ crlf)).
Proof. exists (bs "under quota {9}!"). eexists. split; [vm_compute; intuition discriminate|]. split; [vm_compute; intuition discriminate|]. vm_compute. reflexivity. Qed.
Lemma line_safe : forall tag buf net, no_huge (buf ++ concat net) -> exists r, waitline tag reader0 buf net = Ok r.
Proof. intros tag buf net H. destruct (wait_safe tag buf net H) as (l & b & n & E & _). exists (l, b, n). exact E. Qed.
Lemma any_command_safe : forall (S : Type) (serve : S -> bytes -> S * option (list bytes)) k cmd, (k_tag k + 1 < 2147483648)%Z ->
  (forall s t out, snd (serve s t) = Some out -> no_huge (k_buf k ++ concat (k_net k) ++ concat out)) ->
  exists r, command S serve k cmd = Ok r.
Proof. intros S serve k cmd T H. destruct (command_safe S serve k cmd T (fun out E => H _ _ out E)) as (r & k' & E & _). exists (r, k'). exact E. Qed.
Lemma rude_example : let k := {| k_tag := 0; k_buf := []; k_net := []; k_sel := None; k_srv := tt |} in
  (k_tag k + 1 < 2147483648)%Z /\ (forall s t out, snd (rude_serve s t) = Some out -> no_huge (k_buf k ++ concat (k_net k) ++ concat out)) /\
  exists l, command unit rude_serve k (a_cmd [a_atom (bs "NOOP")]) = Ok (l, {| k_tag := 1; k_buf := []; k_net := []; k_sel := None; k_srv := tt |}).
Proof. cbn zeta. split; [vm_compute; reflexivity|]. split; [exact rude_mild|]. eexists. vm_compute. reflexivity. Qed.
Lemma number_refuted : exists t, waitline 1 reader0 [] [t] = Err E_ub.
Proof. exists (bs "* OK {4294967295}" ++ crlf). vm_compute. reflexivity. Qed.
Lemma short_refuted : exists k f, scan_folder N short_serve k f = Err E_ub.
Proof. exists {| k_tag := 0; k_buf := []; k_net := []; k_sel := None; k_srv := 0 |}, (bs "INBOX"). vm_compute. reflexivity. Qed.
Lemma sent_example : Forall sendable (asks (R_append (bs "old ""stuff""") [bs "\Seen"] mail1)) /\ Forall no_backslash (asks (R_append (bs "old ""stuff""") [bs "\Seen"] mail1)) /\
  format_cmd 12 (a_cmd (map tok_of (asks (R_append (bs "old ""stuff""") [bs "\Seen"] mail1)))) = bs "t12 APPEND {11+}" ++ crlf ++ bs "old ""stuff"" (\Seen) {35+}" ++ crlf ++ mail1.
Proof.
  destruct (ex_acts_ok (A_append mail1 true false true) ltac:(cbn; tauto)) as [A B]. destruct (name_b (bs "old ""stuff""") eq_refl) as [C D]. split; [|split].
  - cbn [asks]. repeat (apply Forall_cons; [first [assumption | apply send_ok; reflexivity | idtac]|]); [|apply Forall_nil]. apply send_paren. repeat constructor; discriminate.
  - cbn [asks]. repeat (apply Forall_cons; [first [assumption | exact I | idtac]|]); [|apply Forall_nil]. apply back_paren. repeat constructor.
  - vm_compute. reflexivity.
Qed.
Lemma backslash_refuted : exists f s, Forall sendable (asks (R_open f false)) /\
  received (format_cmd 1 (a_cmd (map tok_of (asks (R_open f false)))) ++ [13; 10]) = Some (1, [Atom (bs "EXAMINE"); Str s]) /\ s <> f.
Proof.
  exists (bs "a\\b"), (bs "a\b"). split; [|split; [vm_compute; reflexivity|discriminate]]. cbn [asks]. apply Forall_cons; [apply send_ok; reflexivity|]. apply Forall_cons; [|apply Forall_nil]. split; [|vm_compute; reflexivity].
  intros c I. assert (X : forallb (fun c => c <? 256) (bs "a\\b") = true) by reflexivity. rewrite forallb_forall in X. apply X in I. lia.
Qed.
Lemma missing_refuted : exists fs k', build_imap_message_list post model_serve ex_conn fs = Ok ([bs "77:5:INBOX"; bs "77:19:INBOX"], k') /\
  flat_map (listed ex_post) fs = [bs "77:5:INBOX"; bs "77:19:INBOX"; bs "77:5:INBOX"; bs "77:19:INBOX"].
Proof. exists [bs "INBOX"; bs "lost"; bs "INBOX"]. eexists. split; [vm_compute; reflexivity|reflexivity]. Qed.
Lemma gone_refuted : exists p, path_ok p /\ forall isspc mktime, make_rfc822_from_imap post model_serve isspc mktime ex_conn p = Err E_ub.
Proof.
  exists (bs "77:18:INBOX"). split; [apply (path_digits (bs "77") (bs "18") (bs "INBOX")); [reflexivity|reflexivity|apply name_b; reflexivity]|]. intros isspc mktime. unfold make_rfc822_from_imap.
  assert (E : exists k', imap_fetch_message_raw post model_serve ex_conn (bs "77:18:INBOX") = Ok (None, k')) by (eexists; vm_compute; reflexivity). destruct E as [k' E]. rewrite E. reflexivity.
Qed.
Lemma acts_spared : forall (S : Type) (serve : S -> bytes -> S * option (list bytes)) (view : S -> post) (mf : bytes), obeys view serve -> name_ok mf ->
  forall l k k', (0 <= k_tag k)%Z -> p_open (view (k_srv k)) = None -> (forall a, In a l -> act_ok a) -> do_acts serve mf k l = Ok k' ->
  forall g, g <> mf -> box_named (view (k_srv k')) g = box_named (view (k_srv k)) g.
Proof.
  intros S serve view mf OB MF l k k' T O A E. destruct (acts_held S serve view mf OB MF l k k') as [_ X]; [split; [exact T|intros g H; congruence]|exact A|exact E|exact X].
Qed.
Lemma acts_example : obeys (fun v => v) model_serve /\ name_ok (bs "found") /\ p_open (k_srv ex_conn) = None /\ (forall a, In a ex_acts -> act_ok a) /\
  exists k', do_acts model_serve (bs "found") ex_conn ex_acts = Ok k' /\
    option_map (fun b => map l_text (b_letters b)) (box_named (k_srv k') (bs "found")) = Some [mail1; mail2; mail1].
Proof. split; [exact model_obeys|]. split; [apply name_b; reflexivity|]. split; [reflexivity|]. split; [exact ex_acts_ok|]. eexists. split; vm_compute; reflexivity. Qed.
