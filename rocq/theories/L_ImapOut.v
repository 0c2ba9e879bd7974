(* Results of a search brought into a folder on a server, by way of do_acts. *)
From Verif Require Import Base M_DbFile S_DbFile M_Search S_Search M_Output S_Output L_Output4 L_Output6 L_Output7 M_Imap S_Imap S_Server S_Deliver L_Deliver M_ImapOut S_ImapOut.
Local Open Scope N_scope.

Section Out.
Context (csum : bytes -> bytes) (expand : bytes -> bytes -> option bytes).
Context (S : Type) (serve : S -> bytes -> S * option (list bytes)) (view : S -> post) (mf : bytes).
Context (d : disc) (db : database) (F : bytes) (r : read_db).
Context (VIEW : forall i x, message db i = Some x -> out_facts F r db i x) (SMALL : places_small db) (MAPS : maps_small expand d).
Local Notation to := (to_imap csum expand S serve F r mf d).

Lemma msg_at i x : message db i = Some x -> In x (msgs db).
Proof. unfold message. apply nth_error_In. Qed.
Lemma len_ok i x w st ln ck o : out_facts F r db i x -> indexed_at db x w st ln ck -> st < 2 ^ 31 -> ln < 2 ^ 31 -> map_file expand d w = Ok o ->
  exists len, msg_len expand d F r i = Ok len /\ (o = None -> len = 0) /\
    (forall b, o = Some b -> firstn (N.to_nat ln) (skipn (N.to_nat st) b) <> [] -> len <> 0).
Proof.
  intros [_ _ OB] IX HS HL EM. destruct (OB _ _ _ _ IX) as (fi & mi & off & po & co & ES & E1 & E2 & E3 & E4 & E5 & E6 & E7 & E8).
  unfold msg_len. rewrite E1. cbn [bind]. rewrite E2. cbn [bind]. rewrite E3. cbn [bind]. rewrite E4. cbn [bind]. rewrite EM. cbn [bind].
  destruct o as [b|]; [|exists 0; split; [reflexivity|]; split; [reflexivity|discriminate]]. rewrite E5. cbn [bind]. rewrite E6. cbn [bind].
  eexists. split; [reflexivity|]. split; [discriminate|]. intros b' Hb NE Z. injection Hb as <-.
  pose proof (clip_ok csum expand b st ln (map_file_bound expand _ _ _ EM) HS HL) as CL. cbv zeta in CL. rewrite Z in CL. change (0 =? 0) with true in CL. cbv iota in CL. apply NE. congruence.
Qed.
Lemma one_wanted v i x l : message db i = Some x -> wanted csum expand d db v mf x l ->
  exists a, brings v mf a l /\ (from_server x -> copies a) /\ forall k, to k i = do_act serve mf k a.
Proof.
  intros HM W. destruct (type_of db F r VIEW i x HM) as [T1 T2]. pose proof (VIEW i x HM) as OF. pose proof OF as [_ PV _].
  unfold wanted in W. destruct (src x) as [|q mt sz|q|fi mi] eqn:ES; [contradiction|..].
  - destruct W as (t & EM & (C1 & C2) & L1 & L2). exists (A_append t (seen x) (replied x) (flagged x)). split; [cbn [brings]; auto|].
    split; [intros (p & X); congruence|]. intros k. unfold to_imap. rewrite T2. cbn [bind]. rewrite T1. cbn [bind type_code]. change (1 =? 1) with true. cbv iota.
    rewrite (PV q) by eauto. cbn [bind]. rewrite EM. reflexivity.
  - exists (A_copy q). split; [exact W|]. split; [intros _; exact Logic.I|]. intros k. unfold to_imap. rewrite T2. cbn [bind]. rewrite T1. cbn [bind type_code].
    change (3 =? 1) with false. change (3 =? 3) with true. cbv iota. rewrite (PV q) by eauto. reflexivity.
  - destruct W as (w & t & U & (C1 & C2) & L1 & L2). exists (A_append t (seen x) (replied x) (flagged x)). split; [cbn [brings]; auto|].
    split; [intros (p & X); congruence|]. intros k. unfold to_imap. rewrite T2. cbn [bind]. rewrite T1. cbn [bind type_code].
    change (2 =? 1) with false. change (2 =? 3) with false. change (2 =? 2) with true. cbv iota.
    destruct (SMALL x fi mi (msg_at i x HM) ES) as (w0 & st & ln & ck & IX & HS & HL). destruct (MAPS w0) as [o Ho].
    destruct (validated_spec csum expand F r db d i x OF) as (v0 & EV & V1 & _ & _); [exists w0, st, ln, ck; eauto 6|].
    apply V1 in U. subst v0. rewrite EV. cbn [bind]. destruct (len_ok i x w0 st ln ck o OF IX HS HL Ho) as (len & EL & _). rewrite EL. reflexivity.
Qed.
Lemma all_wanted v : forall l xs ls, Forall2 (fun i x => message db i = Some x) l xs -> Forall2 (wanted csum expand d db v mf) xs ls ->
  exists acts, length acts = length l /\ Forall2 (brings v mf) acts ls /\ (Forall from_server xs -> Forall copies acts) /\
    forall k, to_imap_each csum expand S serve F r mf d k l = do_acts serve mf k acts.
Proof.
  induction l as [|i l IH]; intros xs ls H W; inversion H; subst; inversion W; subst.
  - exists []. split; [reflexivity|]. split; [constructor|]. split; [constructor|reflexivity].
  - destruct (IH _ _ H4 H6) as (acts & L & B & C & E). destruct (one_wanted v i y y0 H2 H3) as (a & B1 & C1 & E1).
    exists (a :: acts). split; [cbn; congruence|]. split; [constructor; assumption|]. split; [intros X; inversion X; subst; constructor; auto|].
    intros k. cbn [to_imap_each do_acts]. rewrite E1. destruct (do_act serve mf k a); [cbn [bind]; apply E|reflexivity].
Qed.

Hypothesis SV : serves view serve.
Hypothesis CO : carries_out view serve.
Hypothesis NM : name_ok mf.
Lemma out_filled k l xs ls : S_Server.fresh k -> (k_tag k + 3 + 4 * Z.of_nat (length l) < 2147483648)%Z -> in_order (view (k_srv k)) ->
  Forall2 (fun i x => message db i = Some x) l xs -> Forall2 (wanted csum expand d db (view (k_srv k)) mf) xs ls ->
  box_named (view (k_srv k)) mf <> None \/ Forall from_server xs ->
  exists k', output_imap csum expand S serve F r true mf d k l = Ok k' /\ Forall2 same_letter (letters_in (view (k_srv k')) mf) ls /\
    (forall g, g <> mf -> box_named (view (k_srv k')) g = box_named (view (k_srv k)) g).
Proof.
  intros FR TG IO HM W BX. destruct (all_wanted _ _ _ _ HM W) as (acts & L & B & C & E). rewrite <- L in TG.
  destruct (filled_main S serve view mf SV CO NM k acts ls FR TG IO B ltac:(tauto)) as (k' & R & X). exists k'. split; [|exact X].
  unfold output_imap. cbn [do_acts do_act] in R. destruct (imap_clear_folder S serve k mf); [cbn [bind] in *; now rewrite E|discriminate].
Qed.
Lemma out_added k l xs ls : S_Server.fresh k -> (k_tag k + 4 * Z.of_nat (length l) < 2147483648)%Z -> in_order (view (k_srv k)) ->
  Forall2 (fun i x => message db i = Some x) l xs -> Forall2 (wanted csum expand d db (view (k_srv k)) mf) xs ls ->
  box_named (view (k_srv k)) mf <> None \/ Forall from_server xs ->
  exists k' ys, output_imap csum expand S serve F r false mf d k l = Ok k' /\ Forall2 same_letter ys ls /\
    letters_in (view (k_srv k')) mf = letters_in (view (k_srv k)) mf ++ ys /\
    (forall g, g <> mf -> box_named (view (k_srv k')) g = box_named (view (k_srv k)) g).
Proof.
  intros FR TG IO HM W BX. destruct (all_wanted _ _ _ _ HM W) as (acts & L & B & C & E). rewrite <- L in TG.
  destruct (added_main S serve view mf SV CO NM k acts ls FR TG IO B ltac:(tauto)) as (k' & ys & R & X). exists k', ys. split; [|exact X].
  unfold output_imap. cbn [bind]. now rewrite E.
Qed.
(* A changed message of a mailbox: the copying from NULL. *)
Lemma out_changed k i x w t b : S_Server.fresh k -> (k_tag k + 1 < 2147483648)%Z -> in_order (view (k_srv k)) -> box_named (view (k_srv k)) mf = Some b ->
  message db i = Some x -> text_now expand d db x w t -> t <> [] -> ~ unchanged csum expand d db x w t ->
  output_imap csum expand S serve F r false mf d k [i] = Err E_ub.
Proof.
  intros FR TG IO BX HM TN NE NU. destruct (type_of db F r VIEW i x HM) as [T1 T2]. pose proof (VIEW i x HM) as OF.
  pose proof TN as (st & ln & ck & c & IX & EM & ET).
  assert (ES : exists fi mi, src x = S_mbox fi mi) by (destruct IX as (fi & mi & mb & X & _); eauto). destruct ES as (fi & mi & ES).
  destruct (SMALL x fi mi (msg_at i x HM) ES) as (w0 & st0 & ln0 & ck0 & IX0 & HS & HL).
  destruct (indexed_fun _ _ _ _ _ _ _ _ _ _ IX IX0) as (<- & <- & <- & <-).
  destruct (validated_spec csum expand F r db d i x OF) as (v0 & EV & _ & V2 & _); [exists w, st, ln, ck; split; [exact IX|]; split; [exact HS|]; split; [exact HL|exists (Some c); exact EM]|].
  assert (v0 = V_bad) as -> by (apply V2; exists w, t; auto).
  destruct (len_ok i x w st ln ck (Some c) OF IX HS HL EM) as (len & EL & _ & LN). specialize (LN c eq_refl). rewrite <- ET in LN. specialize (LN NE).
  destruct (select_mine S serve view mf SV NM k b) as (k' & y & E & _); [|exact TG|exact IO|exact BX|].
  - destruct FR as (F1 & F2 & F3 & F4). assert (Q : L_Imap5.quiet S k) by (split; [rewrite F1, F2; reflexivity|exact F4]). split; [exact Q|]. left. split; [exact Q|]. rewrite F3. exact Logic.I.
  - unfold output_imap. cbn [bind to_imap_each]. unfold to_imap. rewrite T2. cbn [bind]. rewrite T1, ES. cbn [bind type_code].
    change (2 =? 1) with false. change (2 =? 3) with false. change (2 =? 2) with true. cbv iota. rewrite EV. cbn [bind]. rewrite EL. cbn [bind].
    unfold append_from. destruct (len =? 0) eqn:Z; [apply N.eqb_eq in Z; contradiction|]. rewrite E. reflexivity.
Qed.
(* A mailbox that is gone: an empty letter. *)
Lemma out_gone k i x : S_Server.fresh k -> (k_tag k + 4 < 2147483648)%Z -> in_order (view (k_srv k)) -> box_named (view (k_srv k)) mf <> None ->
  message db i = Some x -> box_gone expand d db x ->
  exists k' y, output_imap csum expand S serve F r false mf d k [i] = Ok k' /\ l_text y = [] /\
    letters_in (view (k_srv k')) mf = letters_in (view (k_srv k)) mf ++ [y].
Proof.
  intros FR TG IO BX HM (w & st & ln & ck & IX & EM). destruct (type_of db F r VIEW i x HM) as [T1 T2]. pose proof (VIEW i x HM) as OF.
  assert (ES : exists fi mi, src x = S_mbox fi mi) by (destruct IX as (fi & mi & mb & X & _); eauto). destruct ES as (fi & mi & ES).
  destruct (SMALL x fi mi (msg_at i x HM) ES) as (w0 & st0 & ln0 & ck0 & IX0 & HS & HL).
  destruct (indexed_fun _ _ _ _ _ _ _ _ _ _ IX IX0) as (<- & <- & <- & <-).
  pose proof (validated_ok csum expand F r db d i x w st ln ck OF IX HS HL None EM) as EV.
  destruct (len_ok i x w st ln ck None OF IX HS HL EM) as (len & EL & LN & _). specialize (LN eq_refl). subst len.
  pose (y := {| l_uid := []; l_flags := (if seen x then [bs "\Seen"] else []) ++ (if replied x then [bs "\Answered"] else []) ++ (if flagged x then [bs "\Flagged"] else []); l_text := [] |}).
  destruct (added_main S serve view mf SV CO NM k [A_append [] (seen x) (replied x) (flagged x)] [y] FR ltac:(cbn [length]; lia) IO) as (k' & ys & R & SL & X & _); [|left; exact BX|].
  - constructor; [|constructor]. cbn [brings]. split; [split; [intros c []|reflexivity]|]. split; [intros []|]. split; reflexivity.
  - inversion SL as [|a1 a2 a3 a4 S1 S2]; subst. inversion S2; subst. exists k', a1. split; [|split; [apply S1|exact X]].
    unfold output_imap. cbn [bind to_imap_each]. unfold to_imap. rewrite T2. cbn [bind]. rewrite T1, ES. cbn [bind type_code].
    change (2 =? 1) with false. change (2 =? 3) with false. change (2 =? 2) with true. cbv iota. rewrite EV. cbn [bind]. rewrite EL. cbn [bind].
    unfold append_from. change (0 =? 0) with true. cbv iota. exact R.
Qed.
End Out.
