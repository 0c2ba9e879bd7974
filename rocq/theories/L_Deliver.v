From Verif Require Import Base M_Imap S_Imap S_Server S_Deliver L_Mbox L_Imap L_Imap2 L_Imap3 L_Imap4 L_Imap5.
Local Open Scope N_scope.

Lemma flag_words x : In x [bs "\Seen"; bs "\Answered"; bs "\Flagged"] -> x <> [] /\ Forall (atom_char In_paren) x.
Proof. intros [<-|[<-|[<-|[]]]]; (split; [discriminate|]; repeat constructor; cbn; try (intuition discriminate); lia). Qed.
Local Opaque bs.

Ltac one := first [exact Logic.I | apply send_ok; reflexivity | assumption | (split; assumption)].
Ltac req := split; [discriminate|]; cbn [asks]; split; repeat (apply Forall_cons; [try one|]); try apply Forall_nil.
Section Deliver.
Context (S : Type) (serve : S -> bytes -> S * option (list bytes)) (view : S -> post) (mf : bytes).
Hypothesis SV : serves view serve.
Hypothesis CO : carries_out view serve.
Hypothesis NM : name_ok mf.

Lemma command_does k q : quiet S k -> (k_tag k + 1 < 2147483648)%Z -> good_request q -> sensible (view (k_srv k)) q -> in_order (view (k_srv k)) ->
  exists lines ends k', command S serve k (a_cmd (map tok_of (asks q))) = Ok (Some (map (fun is => tok_of_line (Says is)) lines ++ [tok_of_line (Ends ends)]), k') /\
    does (view (k_srv k)) q ends (view (k_srv k')) /\ in_order (view (k_srv k')) /\ quiet S k' /\ (k_tag k' = k_tag k + 1)%Z /\ k_sel k' = k_sel k.
Proof.
  intros [Q T] L (NE & SE & NB) RD IO. set (tag := Z.to_N (k_tag k + 1)). assert (TZ : Z.of_N tag = (k_tag k + 1)%Z) by (unfold tag; lia). assert (TL : tag < 2 ^ 31) by (change (2 ^ 31) with 2147483648; lia).
  pose proof (sent_main tag (asks q) TL NE SE NB) as R. destruct (CO (k_srv k) _ tag q R RD IO) as (s' & out & lines & ends & ts & te & ES & TE & IO' & F & E & C).
  unfold command. replace (k_tag k + 1 <? 2147483648)%Z with true by lia. rewrite TZ in ES. rewrite ES. cbn [bind].
  assert (EQ : k_buf k ++ concat (k_net k ++ out) = concat ts ++ te) by (rewrite concat_app, app_assoc, Q; exact C).
  destruct (collect_reads tag TL lines ts _ te F E (1 + length (k_buf k) + length (concat (k_net k ++ out))) (k_buf k) (k_net k ++ out) [] EQ) as (b & n & CL & RE).
  { assert (X : length (k_buf k ++ concat (k_net k ++ out)) = length (concat ts ++ te)) by now rewrite EQ. rewrite !app_length in X. pose proof (lines_long _ _ _ F). lia. }
  rewrite TZ in CL. rewrite CL. cbn [bind app]. exists lines, ends. eexists. split; [reflexivity|]. cbn [k_srv k_tag k_sel]. split; [exact TE|]. split; [exact IO'|]. split; [split; [exact RE|cbn [k_tag]; lia]|]. split; reflexivity.
Qed.
(* in step, or the folder that is to be filled is open *)
Definition ready (k : conn S) : Prop := quiet S k /\ (in_step S view k \/ exists s, k_sel k = Some s /\ s_folder s = mf).
Definition unselected (k : conn S) : conn S := {| k_tag := k_tag k; k_buf := k_buf k; k_net := k_net k; k_sel := None; k_srv := k_srv k |}.
Lemma command_unsel k c : command S serve (unselected k) c = match command S serve k c with Ok (r, k') => Ok (r, unselected k') | Err e => Err e end.
Proof.
  unfold command, unselected. cbn [k_tag k_buf k_net k_srv k_sel]. destruct (_ <? _)%Z; [|reflexivity]. destruct (serve (k_srv k) _) as [srv [out|]]; [|reflexivity].
  destruct (collect _ _ _ _ _) as [[[r b] n]|]; reflexivity.
Qed.
Lemma select_other k f s x k' : k_sel k = Some s -> s_folder s <> f -> imap_select S serve (unselected k) f false = Ok (Some x, k') -> imap_select S serve k f false = Ok (Some x, k').
Proof.
  intros KS NE E. unfold imap_select in *. rewrite KS. destruct (bytes_eqb (s_folder s) f) eqn:EF; [apply bytes_eqb_iff in EF; congruence|]. cbn [andb]. cbn [unselected k_sel] in E. fold (unselected k) in E. rewrite command_unsel in E.
  destruct (command S serve k _) as [[r k1]|]; cbn [bind] in *; [|discriminate]. destruct r as [ls|]; [|discriminate]. destruct (status (Some ls)) as [st|]; cbn [bind] in *; [|discriminate]. destruct (negb _); [discriminate|].
  destruct (fold_left _ _ _) as [[u|] ex]; [|discriminate]. exact E.
Qed.
Lemma select_ready k f b : in_order (view (k_srv k)) -> ready k -> (k_tag k + 1 < 2147483648)%Z -> f <> mf -> box_named (view (k_srv k)) f = Some b ->
  exists k' x, imap_select S serve k f false = Ok (Some (b_validity b, x), k') /\ in_step S view k' /\ p_boxes (view (k_srv k')) = p_boxes (view (k_srv k)) /\
    (exists w, p_open (view (k_srv k')) = Some (f, w)) /\ (k_tag k <= k_tag k' <= k_tag k + 1)%Z.
Proof.
  intros IO [Q R] TG NE BX. destruct (IO f b BX) as (NF & _). destruct R as [R|(s & KS & SF)].
  - destruct (select_reads S serve view SV k f b IO R TG NF BX) as (k' & E & X). exists k', (Z.min (Z.of_N (N.of_nat (length (b_letters b)))) (2 ^ 63 - 1)). split; [exact E|exact X].
  - assert (IS : in_step S view (unselected k)) by (split; [exact Q|exact Logic.I]).
    destruct (select_reads S serve view SV (unselected k) f b IO IS TG NF BX) as (k' & E & X). exists k', (Z.min (Z.of_N (N.of_nat (length (b_letters b)))) (2 ^ 63 - 1)). split; [|exact X].
    eapply select_other; [exact KS|congruence|exact E].
Qed.
(* the folder that is open is not the one that is filled: still in step *)
Lemma step_other k k' : in_step S view k -> quiet S k' -> k_sel k' = k_sel k -> p_open (view (k_srv k')) = p_open (view (k_srv k)) -> (forall g, g <> mf -> box_named (view (k_srv k')) g = box_named (view (k_srv k)) g) ->
  (forall s, k_sel k = Some s -> s_folder s <> mf) -> in_step S view k'.
Proof.
  intros [_ A] Q E O G H. split; [exact Q|]. rewrite E. destruct (k_sel k) as [s|]; [|exact Logic.I]. destruct A as (b & w & A1 & A2). exists b, w. rewrite (G _ (H s eq_refl)), O. auto.
Qed.
Lemma uid_one v f b l l' : in_order v -> box_named v f = Some b -> In l (b_letters b) -> In l' (b_letters b) -> l_uid l' = l_uid l -> l' = l.
Proof.
  intros IO BX IL IL' E. destruct (IO f b BX) as (_ & _ & ND & _). pose proof (filter_uid (l_uid l) _ _ ND IL eq_refl) as F1. pose proof (filter_uid (l_uid l) _ _ ND IL' E) as F2. rewrite F1 in F2. now injection F2.
Qed.
Lemma good_copy u : sendable (Atom u) -> good_request (R_copy u mf).
Proof. intros H. destruct NM as [N1 N2]. split; [discriminate|]. cbn [asks]. split; repeat (apply Forall_cons; [first [exact Logic.I | apply send_ok; reflexivity | exact H | exact N1 | exact N2]|]); apply Forall_nil. Qed.
Lemma good_create : good_request (R_create mf).
Proof. destruct NM as [N1 N2]. split; [discriminate|]. cbn [asks]. split; repeat (apply Forall_cons; [first [exact Logic.I | apply send_ok; reflexivity | exact N1 | exact N2]|]); apply Forall_nil. Qed.
Lemma status_of (A : list tok) w more : ~ In 0 w -> status (Some (A ++ [tok_of_line (Ends (Atom w :: more))])) = Ok w.
Proof. intros NW. unfold status. rewrite rev_app_distr. cbn [rev app tok_of_line t_kids map tok_of]. change (is_atom (Tok T_atom (Some w) [])) with true. cbn [t_leaf]. now rewrite c_str_same. Qed.
Lemma ok_word : ~ In 0 (bs "OK") /\ ~ In 0 (bs "NO").
Proof. split; vm_compute; intuition discriminate. Qed.
Lemma fine_answer A more : is_trycreate (Some (A ++ [tok_of_line (Ends (Atom (bs "OK") :: more))])) = Ok false.
Proof. unfold is_trycreate. rewrite status_of by apply ok_word. cbn [bind]. reflexivity. Qed.
Lemma try_answer A more : is_trycreate (Some (A ++ [tok_of_line (Ends (Atom (bs "NO") :: Square [Atom (bs "TRYCREATE")] :: more))])) = Ok true.
Proof. unfold is_trycreate. rewrite status_of by apply ok_word. cbn [bind]. rewrite rev_app_distr. reflexivity. Qed.

(* a copy into a folder that is there *)
Lemma copy_there k g w b l b' : quiet S k -> (k_tag k + 1 < 2147483648)%Z -> in_order (view (k_srv k)) -> g <> mf -> p_open (view (k_srv k)) = Some (g, w) -> box_named (view (k_srv k)) g = Some b -> In l (b_letters b) ->
  box_named (view (k_srv k)) mf = Some b' ->
  exists ls more k' x, command S serve k (a_cmd (map tok_of (asks (R_copy (l_uid l) mf)))) = Ok (Some (ls ++ [tok_of_line (Ends (Atom (bs "OK") :: more))]), k') /\ same_letter x l /\
    becomes (view (k_srv k)) (view (k_srv k')) mf (b_validity b') (b_letters b' ++ [x]) /\ in_order (view (k_srv k')) /\ quiet S k' /\ k_tag k' = (k_tag k + 1)%Z /\ k_sel k' = k_sel k.
Proof.
  intros Q TG IO NE O BX IL MX. destruct (IO g b BX) as (_ & _ & _ & AL). rewrite Forall_forall in AL. destruct (AL l IL) as (NU & _ & _). apply number_plain in NU as [_ SU].
  destruct (command_does k (R_copy (l_uid l) mf) Q TG (good_copy _ SU)) as (lines & ends & k' & E & D & IO' & Q' & T' & S'); [split; [exact NM|exists g, w, b, l; auto]|exact IO|].
  inversion D as [u f g' w' b0 l' b1 x more v' P1 P2 P3 P4 P5 P6 P7|u f more P1| | | | | |]; subst; [|congruence].
  rewrite O in P1. injection P1 as <- <-. rewrite BX in P2. injection P2 as <-. rewrite MX in P5. injection P5 as <-. rewrite (uid_one _ _ _ l l' IO BX IL P3 P4) in P6.
  exists (map (fun is => tok_of_line (Says is)) lines), more, k', x. split; [exact E|]. auto 10.
Qed.
Lemma copy_one k p l : ready k -> (k_tag k + 4 < 2147483648)%Z -> in_order (view (k_srv k)) -> letter_at (view (k_srv k)) mf p l ->
  exists k' x, imap_copy_message S serve k p mf = Ok k' /\ ready k' /\ in_order (view (k_srv k')) /\ (k_tag k' <= k_tag k + 4)%Z /\ same_letter x l /\
    letters_in (view (k_srv k')) mf = letters_in (view (k_srv k)) mf ++ [x] /\ (forall g, g <> mf -> box_named (view (k_srv k')) g = box_named (view (k_srv k)) g).
Proof.
  intros RD TG IO (f & b & NE & BX & IL & ->). destruct (IO f b BX) as (NF & NV & _ & AL). rewrite Forall_forall in AL. destruct (AL l IL) as (NU & _ & _). apply number_plain in NV as [NV _]. pose proof NU as NU'. apply number_plain in NU as [NU SU].
  unfold imap_copy_message, path_of. rewrite (box_name _ _ _ BX). cbn [app]. rewrite (at_colon_ok _ _ NV), (at_colon_ok _ _ NU).
  destruct (select_ready k f b IO RD ltac:(lia) NE BX) as (k1 & xx & E1 & ST1 & P1 & (w & O1) & T1). rewrite E1. cbn [bind]. rewrite (proj2 (bytes_eqb_iff _ _) eq_refl). cbn [negb].
  assert (G1 : forall g, box_named (view (k_srv k1)) g = box_named (view (k_srv k)) g) by (intros g; now apply same_boxes). pose proof (order_same _ _ P1 IO) as IO1. assert (BX1 : box_named (view (k_srv k1)) f = Some b) by (rewrite G1; exact BX).
  assert (SEL : forall s, k_sel k1 = Some s -> s_folder s <> mf). { intros s KS. destruct ST1 as [_ A]. rewrite KS in A. destruct A as (b0 & w0 & _ & A & _). rewrite O1 in A. injection A as <- _. exact NE. }
  change (a_cmd [a_atom (bs "UID"); a_atom (bs "COPY"); a_atom (l_uid l); a_string mf]) with (a_cmd (map tok_of (asks (R_copy (l_uid l) mf)))). unfold try_twice.
  destruct (box_named (view (k_srv k1)) mf) as [b'|] eqn:MX.
  - destruct (copy_there k1 f w b l b' (proj1 ST1) ltac:(lia) IO1 NE O1 BX1 IL MX) as (ls & more & k2 & x & E2 & SL & (B1 & B2 & B3) & IO2 & Q2 & T2 & S2). rewrite E2. cbn [bind]. rewrite fine_answer. cbn [bind]. rewrite status_of by apply ok_word. cbn [bind].
    exists k2, x. split; [reflexivity|]. split; [split; [exact Q2|left; exact (step_other k1 k2 ST1 Q2 S2 B3 B2 SEL)]|]. split; [exact IO2|]. split; [lia|]. split; [exact SL|]. split; [|intros g NG; rewrite (B2 g NG); apply G1].
    unfold letters_in. rewrite B1, <- G1, MX. reflexivity.
  - destruct (command_does k1 (R_copy (l_uid l) mf) (proj1 ST1) ltac:(lia) (good_copy _ SU)) as (lines & ends & k2 & E2 & D & IO2 & Q2 & T2 & S2); [split; [exact NM|exists f, w, b, l; auto]|exact IO1|].
    inversion D as [u f0 g' w' b0 l' b1 x more v' P1' P2 P3 P4 P5 P6 P7|u f0 more P1' Z1 Z2 V2| | | | | |]; subst; [congruence|]. rewrite E2. cbn [bind]. rewrite try_answer. cbn [bind]. unfold create_folder.
    change (a_cmd [a_atom (bs "CREATE"); a_string mf]) with (a_cmd (map tok_of (asks (R_create mf)))).
    destruct (command_does k2 (R_create mf) Q2 ltac:(lia) good_create) as (lines3 & ends3 & k3 & E3 & D3 & IO3 & Q3 & T3 & S3); [split; [exact NM|rewrite <- V2; exact MX]|rewrite <- V2; exact IO1|]. rewrite E3. cbn [bind].
    inversion D3 as [| |f0 validity more3 v' Y1 (B1 & B2 & B3)| | | | |]; subst. rewrite <- V2 in B2, B3.
    destruct (copy_there k3 f w b l _ Q3 ltac:(lia) IO3 NE ltac:(rewrite B3; exact O1) ltac:(rewrite (B2 f NE); exact BX1) IL B1) as (ls & more4 & k4 & x & E4 & SL & (C1 & C2 & C3) & IO4 & Q4 & T4 & S4). rewrite E4. cbn [bind]. rewrite status_of by apply ok_word. cbn [bind].
    exists k4, x. split; [reflexivity|]. assert (GG : forall g, g <> mf -> box_named (view (k_srv k4)) g = box_named (view (k_srv k1)) g) by (intros g NG; rewrite (C2 g NG); apply (B2 g NG)).
    split; [split; [exact Q4|left; apply (step_other k1 k4 ST1 Q4); [congruence|congruence|exact GG|exact SEL]]|]. split; [exact IO4|]. split; [lia|]. split; [exact SL|]. split; [|intros g NG; rewrite (GG g NG); apply G1].
    unfold letters_in. rewrite C1, <- G1, MX. reflexivity.
Qed.

(* ---- clearing ---- *)
Lemma good_del : good_request R_delete.
Proof. split; [discriminate|]. cbn [asks]. split; repeat (apply Forall_cons; [first [exact Logic.I | apply send_ok; reflexivity]|]); apply Forall_nil. Qed.
Lemma good_exp : good_request R_expunge.
Proof. split; [discriminate|]. cbn [asks]. split; repeat (apply Forall_cons; [first [exact Logic.I | apply send_ok; reflexivity]|]); apply Forall_nil. Qed.
Lemma no_left ls : Forall (fun l => deleted l = true) ls -> filter (fun l => negb (deleted l)) ls = [].
Proof. induction 1 as [|l ls D _ IH]; [reflexivity|]. cbn [filter]. rewrite D. cbn [negb]. exact IH. Qed.
Lemma clear_main k : fresh k -> (k_tag k + 3 < 2147483648)%Z -> in_order (view (k_srv k)) ->
  exists k', imap_clear_folder S serve k mf = Ok k' /\ ready k' /\ in_order (view (k_srv k')) /\ (k_tag k' <= k_tag k + 3)%Z /\ letters_in (view (k_srv k')) mf = [] /\ (box_named (view (k_srv k)) mf <> None -> box_named (view (k_srv k')) mf <> None) /\
    (forall g, g <> mf -> box_named (view (k_srv k')) g = box_named (view (k_srv k)) g).
Proof.
  intros (F1 & F2 & F3 & F4) TG IO. assert (Q : quiet S k) by (split; [rewrite F1, F2; reflexivity|exact F4]). unfold imap_clear_folder, imap_select. rewrite F3. change (a_cmd [a_atom (bs "SELECT"); a_string mf]) with (a_cmd (map tok_of (asks (R_open mf true)))).
  destruct (box_named (view (k_srv k)) mf) as [b|] eqn:MX.
  - destruct (command_answer S serve view SV k (R_open mf true) Q ltac:(lia) (good_open mf true NM)) as (lines & more & k1 & E & TE & NN & Q1 & T1 & S1); [cbn [readable]; congruence|exact IO|].
    rewrite E. cbn [bind]. rewrite status_ok. cbn [bind]. change (negb (bytes_eqb (bs "OK") (bs "OK"))) with false. cbn iota. rewrite removelast_last.
    inversion TE as [f' w' b' ls BX' V1 V2 C1 C2 EQ1 EQ2 EQ3| |]; subst. rewrite MX in BX'. injection BX' as <-.
    pose proof (fold_select (b_validity b) (N.of_nat (length (b_letters b))) lines (None, 0%Z) NN V2 C2) as FS. cbn zeta in FS. destruct FS as [G1 G2]. specialize (G1 (or_introl V1)).
    destruct (fold_left select_line _ _) as [o x]. cbn [fst snd] in G1, G2. subst o. cbn [bind].
    set (k1' := {| k_tag := k_tag k1; k_buf := _; k_net := _; k_sel := _; k_srv := _ |}).
    assert (Q1' : quiet S k1') by exact Q1. assert (V0 : p_boxes (view (k_srv k1')) = p_boxes (view (k_srv k))) by (unfold k1'; cbn [k_srv]; rewrite <- EQ3; reflexivity). assert (O1 : p_open (view (k_srv k1')) = Some (mf, true)) by (unfold k1'; cbn [k_srv]; rewrite <- EQ3; reflexivity).
    assert (GB : forall g, box_named (view (k_srv k1')) g = box_named (view (k_srv k)) g) by (intros g; now apply same_boxes). pose proof (order_same _ _ V0 IO) as IO1.
    assert (T1' : k_tag k1' = (k_tag k + 1)%Z) by exact T1. assert (S1' : k_sel k1' = Some {| s_folder := mf; s_uidvalidity := b_validity b; s_writable := true; s_exists := x |}) by reflexivity. clearbody k1'.
    change (a_cmd [a_atom (bs "STORE"); a_atom (bs "1:*"); a_atom (bs "+FLAGS"); a_atom (bs "\Deleted")]) with (a_cmd (map tok_of (asks R_delete))). change (a_cmd [a_atom (bs "EXPUNGE")]) with (a_cmd (map tok_of (asks R_expunge))).
    assert (MX1 : box_named (view (k_srv k1')) mf = Some b) by (rewrite GB; exact MX).
    destruct (command_does k1' R_delete Q1' ltac:(lia) good_del) as (ln2 & e2 & k2 & E2 & D2 & IO2 & Q2 & T2 & S2); [exists mf, b; auto|exact IO1|]. rewrite E2. cbn [bind].
    assert (X : p_open (view (k_srv k2)) = Some (mf, true) /\ (forall g, g <> mf -> box_named (view (k_srv k2)) g = box_named (view (k_srv k1')) g) /\ exists b2, box_named (view (k_srv k2)) mf = Some b2 /\ Forall (fun l => deleted l = true) (b_letters b2)).
    { inversion D2 as [| | |f b0 ls0 mo v' A1 A2 A3 (B1 & B2 & B3)|f b0 mo A1 A2 A3 Z1 Z2 Z3| | |]; subst; rewrite O1 in A1; injection A1 as <-.
      - split; [congruence|]. split; [exact B2|]. eexists. split; [exact B1|exact A3].
      - split; [exact O1|]. split; [reflexivity|]. exists b0. rewrite A3. auto. }
    destruct X as (O2 & G2' & b2 & MX2 & AD).
    destruct (command_does k2 R_expunge Q2 ltac:(lia) good_exp) as (ln3 & e3 & k3 & E3 & D3 & IO3 & Q3 & T3 & S3); [exists mf, b2; auto|exact IO2|]. rewrite E3. cbn [bind].
    inversion D3 as [| | | | |f b0 mo v' A1 A2 (B1 & B2 & B3)| |]; subst. rewrite O2 in A1. injection A1 as <-. rewrite MX2 in A2. injection A2 as <-.
    exists k3. split; [reflexivity|]. split; [split; [exact Q3|right; rewrite S3, S2, S1'; eexists; split; reflexivity]|]. split; [exact IO3|]. split; [lia|]. split; [unfold letters_in; rewrite B1; cbn [b_letters]; apply no_left, AD|]. split; [congruence|].
    intros g NG. rewrite (B2 g NG), (G2' g NG). apply GB.
  - destruct (command_does k (R_open mf true) Q ltac:(lia) (good_open mf true NM)) as (lines & ends & k1 & E & D & IO1 & Q1 & T1 & S1); [exact MX|exact IO|]. rewrite E. cbn [bind].
    inversion D as [| | | | | | |f w more A1 A2 A3 A4]; subst. rewrite status_of by apply ok_word. cbn [bind]. change (negb (bytes_eqb (bs "NO") (bs "OK"))) with true. cbn iota. cbn [bind].
    exists k1. assert (GB : forall g, box_named (view (k_srv k1)) g = box_named (view (k_srv k)) g) by (intros g; apply same_boxes; rewrite <- A4; reflexivity).
    split; [reflexivity|]. split; [split; [exact Q1|left; split; [exact Q1|rewrite S1, F3; exact Logic.I]]|]. split; [exact IO1|]. split; [lia|]. split; [unfold letters_in; rewrite GB, MX; reflexivity|]. split; [rewrite GB; congruence|]. intros g _. apply GB.
Qed.

(* ---- appending ---- *)
Lemma select_mine k b : ready k -> (k_tag k + 1 < 2147483648)%Z -> in_order (view (k_srv k)) -> box_named (view (k_srv k)) mf = Some b ->
  exists k' x, imap_select S serve k mf true = Ok (Some x, k') /\ quiet S k' /\ (exists s, k_sel k' = Some s /\ s_folder s = mf) /\ p_boxes (view (k_srv k')) = p_boxes (view (k_srv k)) /\ (k_tag k' <= k_tag k + 1)%Z.
Proof.
  intros [Q _] TG IO MX. unfold imap_select.
  assert (X : k_sel k = None \/ exists s, k_sel k = Some s) by (destruct (k_sel k); eauto).
  destruct (match k_sel k with Some s => if bytes_eqb (s_folder s) mf && (negb true || s_writable s) then Some (s_uidvalidity s, s_exists s) else None | None => None end) as [y|] eqn:M.
  - destruct (k_sel k) as [s|] eqn:KS; [|discriminate]. destruct (bytes_eqb (s_folder s) mf) eqn:EF; cbn [andb] in M; [|discriminate]. apply bytes_eqb_iff in EF. exists k, y. split; [reflexivity|]. split; [exact Q|]. split; [exists s; auto|]. split; [reflexivity|lia].
  - clear M X. change (a_cmd [a_atom (bs "SELECT"); a_string mf]) with (a_cmd (map tok_of (asks (R_open mf true)))).
    destruct (command_answer S serve view SV k (R_open mf true) Q ltac:(lia) (good_open mf true NM)) as (lines & more & k1 & E & TE & NN & Q1 & T1 & S1); [cbn [readable]; congruence|exact IO|].
    rewrite E. cbn [bind]. rewrite status_ok. cbn [bind]. change (negb (bytes_eqb (bs "OK") (bs "OK"))) with false. cbn iota. rewrite removelast_last.
    inversion TE as [f' w' b' ls BX' V1 V2 C1 C2 EQ1 EQ2 EQ3| |]; subst. rewrite MX in BX'. injection BX' as <-.
    pose proof (fold_select (b_validity b) (N.of_nat (length (b_letters b))) lines (None, 0%Z) NN V2 C2) as FS. cbn zeta in FS. destruct FS as [G1 G2]. specialize (G1 (or_introl V1)).
    destruct (fold_left select_line _ _) as [o x]. cbn [fst snd] in G1, G2. subst o. eexists _, _. split; [reflexivity|]. cbn [k_srv k_tag k_sel]. split; [exact Q1|]. split; [eexists; split; reflexivity|]. rewrite <- EQ3. split; [reflexivity|lia].
Qed.
Lemma append_one k t a b c l : ready k -> (k_tag k + 4 < 2147483648)%Z -> in_order (view (k_srv k)) -> box_named (view (k_srv k)) mf <> None -> brings (view (k_srv k)) mf (A_append t a b c) l ->
  exists k' x, imap_append_new_message S serve k mf t a b c = Ok k' /\ ready k' /\ in_order (view (k_srv k')) /\ (k_tag k' <= k_tag k + 4)%Z /\ same_letter x l /\
    letters_in (view (k_srv k')) mf = letters_in (view (k_srv k)) mf ++ [x] /\ (forall g, g <> mf -> box_named (view (k_srv k')) g = box_named (view (k_srv k)) g).
Proof.
  intros RD TG IO MX (TA & TB & LT & LF). destruct (box_named (view (k_srv k)) mf) as [bx|] eqn:MB; [|contradiction]. clear MX.
  destruct (select_mine k bx RD ltac:(lia) IO MB) as (k1 & y & E1 & Q1 & (s & KS & SF) & P1 & T1). unfold imap_append_new_message. rewrite E1. cbn [bind].
  assert (G1 : forall g, box_named (view (k_srv k1)) g = box_named (view (k_srv k)) g) by (intros g; now apply same_boxes). pose proof (order_same _ _ P1 IO) as IO1.
  set (fl := (if a then [bs "\Seen"] else []) ++ (if b then [bs "\Answered"] else []) ++ (if c then [bs "\Flagged"] else [])) in *.
  assert (EQ : a_cmd (map tok_of (asks (R_append mf fl t))) = a_cmd [a_atom (bs "APPEND"); a_string mf; Tok T_list None ((if a then [a_atom (bs "\Seen")] else []) ++ (if b then [a_atom (bs "\Answered")] else []) ++ (if c then [a_atom (bs "\Flagged")] else [])); a_string t]) by (destruct a, b, c; reflexivity).
  rewrite <- EQ. clear EQ. pose proof NM as [MA MB']. assert (G : good_request (R_append mf fl t)) by (destruct a, b, c; unfold fl; cbn [app]; req; cbn [map]; first [apply send_paren | apply back_paren]; repeat (apply Forall_cons; [one|]); apply Forall_nil).
  destruct (command_does k1 (R_append mf fl t) Q1 ltac:(lia) G) as (lines & ends & k2 & E2 & D & IO2 & Q2 & T2 & S2).
  { split; [exact NM|]. split; [rewrite G1; congruence|]. split; [|exact (proj2 TA)]. intros x IX. apply flag_words. unfold fl in IX. clear -IX. destruct a, b, c; cbn [app In] in IX |- *; intuition. }
  { exact IO1. }
  unfold try_twice. rewrite E2. cbn [bind]. inversion D as [| | | | | |f fl0 t0 b0 u more v' A1 (B1 & B2 & B3)|]; subst. rewrite fine_answer. cbn [bind]. rewrite status_of by apply ok_word. cbn [bind].
  rewrite G1, MB in A1. injection A1 as <-. exists k2. eexists. split; [reflexivity|]. split; [split; [exact Q2|right; exists s; split; [congruence|exact SF]]|]. split; [exact IO2|]. split; [lia|]. split; [|split; [unfold letters_in; rewrite B1, MB; reflexivity|]].
  - split; cbn [l_flags l_text]; congruence.
  - intros g NG. rewrite (B2 g NG). apply G1.
Qed.
Lemma there_after k k' x : letters_in (view (k_srv k')) mf = letters_in (view (k_srv k)) mf ++ [x] -> box_named (view (k_srv k')) mf <> None.
Proof. unfold letters_in at 1. destruct (box_named (view (k_srv k')) mf); [congruence|]. intros H. symmetry in H. now apply app_eq_nil in H as [_ ?]. Qed.
Lemma brings_same v v' a l : (forall g, g <> mf -> box_named v' g = box_named v g) -> brings v mf a l -> brings v' mf a l.
Proof. intros G. destruct a; cbn [brings]; auto. intros (f & b & NE & B & R). exists f, b. rewrite (G f NE). auto. Qed.
Lemma many : forall acts ls k, ready k -> (k_tag k + 4 * Z.of_nat (length acts) < 2147483648)%Z -> in_order (view (k_srv k)) -> Forall2 (brings (view (k_srv k)) mf) acts ls ->
  box_named (view (k_srv k)) mf <> None \/ Forall copies acts ->
  exists k' xs, do_acts serve mf k acts = Ok k' /\ Forall2 same_letter xs ls /\ letters_in (view (k_srv k')) mf = letters_in (view (k_srv k)) mf ++ xs /\ (forall g, g <> mf -> box_named (view (k_srv k')) g = box_named (view (k_srv k)) g).
Proof.
  induction acts as [|a acts IH]; intros ls k RD TG IO F TH; inversion F as [|? l ? ls' L F']; subst; [exists k, []; rewrite app_nil_r; repeat split; auto|]. cbn [length] in TG.
  assert (ONE : exists k1 x, do_act serve mf k a = Ok k1 /\ ready k1 /\ in_order (view (k_srv k1)) /\ (k_tag k1 <= k_tag k + 4)%Z /\ same_letter x l /\
    letters_in (view (k_srv k1)) mf = letters_in (view (k_srv k)) mf ++ [x] /\ (forall g, g <> mf -> box_named (view (k_srv k1)) g = box_named (view (k_srv k)) g)).
  { destruct a as [fs|p|p| |t s an fl]; try contradiction; cbn [do_act].
    - apply copy_one; auto. lia.
    - apply append_one; auto; [lia|]. destruct TH as [TH|TH]; [exact TH|]. inversion TH as [|? ? C _]; contradiction. }
  destruct ONE as (k1 & x & E1 & RD1 & IO1 & T1 & SL & LI & G1). cbn [do_acts]. rewrite E1. cbn [bind].
  destruct (IH ls' k1 RD1 ltac:(lia) IO1) as (k2 & xs & E2 & SLs & LI2 & G2).
  - eapply Forall2_weak; [|exact F']. intros q u. apply brings_same, G1.
  - left. eapply there_after, LI.
  - exists k2, (x :: xs). split; [exact E2|]. split; [apply Forall2_cons; assumption|]. split; [rewrite LI2, LI, <- app_assoc; reflexivity|]. intros g NG. rewrite (G2 g NG). apply (G1 g NG).
Qed.
Lemma filled_main k acts ls : fresh k -> (k_tag k + 3 + 4 * Z.of_nat (length acts) < 2147483648)%Z -> in_order (view (k_srv k)) -> Forall2 (brings (view (k_srv k)) mf) acts ls ->
  box_named (view (k_srv k)) mf <> None \/ Forall copies acts ->
  exists k', do_acts serve mf k (A_clear :: acts) = Ok k' /\ Forall2 same_letter (letters_in (view (k_srv k')) mf) ls /\ (forall g, g <> mf -> box_named (view (k_srv k')) g = box_named (view (k_srv k)) g).
Proof.
  intros F TG IO L TH. destruct (clear_main k F ltac:(lia) IO) as (k1 & E1 & RD & IO1 & T1 & LI & TH1 & G1). destruct (many acts ls k1 RD ltac:(lia) IO1) as (k2 & xs & E2 & SL & LI2 & G2).
  - eapply Forall2_weak; [|exact L]. intros q u. apply brings_same, G1.
  - destruct TH; auto.
  - exists k2. cbn [do_acts do_act]. rewrite E1. cbn [bind]. split; [exact E2|]. split; [rewrite LI2, LI; exact SL|]. intros g NG. rewrite (G2 g NG). apply (G1 g NG).
Qed.
Lemma added_main k acts ls : fresh k -> (k_tag k + 4 * Z.of_nat (length acts) < 2147483648)%Z -> in_order (view (k_srv k)) -> Forall2 (brings (view (k_srv k)) mf) acts ls ->
  box_named (view (k_srv k)) mf <> None \/ Forall copies acts ->
  exists k' xs, do_acts serve mf k acts = Ok k' /\ Forall2 same_letter xs ls /\ letters_in (view (k_srv k')) mf = letters_in (view (k_srv k)) mf ++ xs /\ (forall g, g <> mf -> box_named (view (k_srv k')) g = box_named (view (k_srv k)) g).
Proof.
  intros (F1 & F2 & F3 & F4) TG IO L TH. assert (Q : quiet S k) by (split; [rewrite F1, F2; reflexivity|exact F4]). apply many; auto. split; [exact Q|]. left. split; [exact Q|]. rewrite F3. exact Logic.I.
Qed.

(* ---- a folder that is not there is not made for letters from files ---- *)
Lemma lost_main : forall acts k, quiet S k -> k_sel k = None -> (k_tag k + Z.of_nat (length acts) < 2147483648)%Z -> in_order (view (k_srv k)) -> box_named (view (k_srv k)) mf = None -> Forall appends acts ->
  exists k', do_acts serve mf k acts = Ok k' /\ p_boxes (view (k_srv k')) = p_boxes (view (k_srv k)).
Proof.
  induction acts as [|a acts IH]; intros k Q KS TG IO MX F; [exists k; split; reflexivity|]. inversion F as [|? ? A F']; subst. destruct a as [fs|p|p| |t s an fl]; try contradiction. cbn [length] in TG. cbn [do_acts do_act].
  unfold imap_append_new_message, imap_select. rewrite KS. change (a_cmd [a_atom (bs "SELECT"); a_string mf]) with (a_cmd (map tok_of (asks (R_open mf true)))).
  destruct (command_does k (R_open mf true) Q ltac:(lia) (good_open mf true NM)) as (lines & ends & k1 & E & D & IO1 & Q1 & T1 & S1); [exact MX|exact IO|]. rewrite E. cbn [bind].
  inversion D as [| | | | | | |f w more A1 A2 A3 A4]; subst. rewrite status_of by apply ok_word. cbn [bind]. change (negb (bytes_eqb (bs "NO") (bs "OK"))) with true. cbn iota. cbn [bind].
  assert (PB : p_boxes (view (k_srv k1)) = p_boxes (view (k_srv k))) by (rewrite <- A4; reflexivity).
  destruct (IH k1 Q1 ltac:(congruence) ltac:(lia) IO1) as (k2 & E2 & P2); [rewrite <- MX; now apply same_boxes|exact F'|]. exists k2. split; [exact E2|congruence].
Qed.
Lemma lost_fresh k acts : fresh k -> (k_tag k + Z.of_nat (length acts) < 2147483648)%Z -> in_order (view (k_srv k)) -> box_named (view (k_srv k)) mf = None -> Forall appends acts ->
  exists k', do_acts serve mf k acts = Ok k' /\ p_boxes (view (k_srv k')) = p_boxes (view (k_srv k)).
Proof. intros (F1 & F2 & F3 & F4) TG IO MX F. apply lost_main; auto. split; [rewrite F1, F2; reflexivity|exact F4]. Qed.
End Deliver.
