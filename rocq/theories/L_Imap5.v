(* What is listed and fetched from a server that answers. *)
From Verif Require Import Base M_Output M_Search M_Tokens M_Rfc822 M_Imap S_Imap S_Server L_TokTable L_Imap L_Imap3 L_Imap4.
Local Open Scope N_scope.

(* ---- atoms from a line have no NUL ---- *)
Fixpoint no_nul (i : item) : Prop :=
  match i with
  | Atom s => ~ In 0 s
  | Str s => True
  | Paren l | Square l => (fix all (l : list item) : Prop := match l with [] => True | i :: l' => no_nul i /\ all l' end) l
  end.
Lemma spelt_no_nul : (forall p i t, spelt p i t -> no_nul i) /\ (forall p is t, spelt_all p is t -> Forall no_nul is).
Proof.
  apply spelt_both; intros; cbn [no_nul]; try exact I; try (apply (proj2 (all_in no_nul l)); assumption); try constructor; try assumption; try constructor.
  intros H1. rewrite Forall_forall in H0. destruct (H0 0 H1) as [A _]. apply A. left. reflexivity.
Qed.
Lemma c_str_same : forall s, ~ In 0 s -> c_str s = s.
Proof. induction s as [|c s IH]; intros H; [reflexivity|]. cbn [c_str]. replace (c =? 0) with false by (symmetry; apply N.eqb_neq; intros ->; apply H; left; reflexivity). rewrite IH; [reflexivity|]. intros X. apply H. right. exact X. Qed.
Lemma leaf_atom s text : ~ In 0 s -> leaf_is (Tok T_atom (Some s) []) text = bytes_eqb s (bs text).
Proof. intros H. unfold leaf_is. cbn [t_leaf]. now rewrite c_str_same. Qed.

(* ---- a whole answer ---- *)
Lemma collect_reads tag : tag < 2 ^ 31 -> forall lines ts ends te, Forall2 (fun is x => line_spelt tag (Says is) x) lines ts -> line_spelt tag (Ends ends) te ->
  forall fuel buf net sofar, buf ++ concat net = concat ts ++ te -> (length lines < fuel)%nat ->
  exists b n, collect fuel (Z.of_N tag) buf net sofar = Ok (Some (sofar ++ map (fun is => tok_of_line (Says is)) lines ++ [tok_of_line (Ends ends)]), b, n) /\ b ++ concat n = [].
Proof.
  intros LT. induction lines as [|is lines IH]; intros ts ends te F E fuel buf net sofar EQ L; (destruct fuel as [|fuel]; [lia|]); inversion F as [|? x ? ts' SP F']; subst; cbn [concat app] in EQ; cbn [collect].
  - destruct (wait_reads tag (Ends ends) te [] buf net E LT) as (b & n & W & R); [rewrite app_nil_r; exact EQ|]. rewrite W. cbn [bind tok_of_line t_type same_type]. exists b, n. split; [reflexivity|exact R].
  - rewrite <- app_assoc in EQ. destruct (wait_reads tag (Says is) x (concat ts' ++ te) buf net SP LT EQ) as (b & n & W & R). rewrite W. cbn [bind tok_of_line t_type same_type].
    destruct (IH ts' ends te F' E fuel b n (sofar ++ [Tok T_untagged None (map tok_of is)]) R ltac:(cbn [length] in L; lia)) as (b' & n' & C & R'). exists b', n'. split; [|exact R']. rewrite C, <- app_assoc. reflexivity.
Qed.
Lemma spelt_long tag l t : line_spelt tag l t -> (1 <= length t)%nat.
Proof. intros [is x H|is x ds H _ _ _]; rewrite !app_length; cbn [length]; lia. Qed.
Lemma lines_long tag : forall lines ts, Forall2 (fun is x => line_spelt tag (Says is) x) lines ts -> (length lines <= length (concat ts))%nat.
Proof. intros lines ts F. induction F as [|is x lines ts SP F IH]; [cbn; lia|]. cbn [concat length]. rewrite app_length. pose proof (spelt_long _ _ _ SP). lia. Qed.
Lemma line_no_nul tag is t : line_spelt tag (Says is) t -> Forall no_nul is.
Proof. intros H. inversion H; subst. eapply spelt_no_nul. eassumption. Qed.

Section Run.
Variable S : Type.
Variable serve : S -> bytes -> S * option (list bytes).
Variable view : S -> post.
Hypothesis SV : serves view serve.

Definition quiet (k : conn S) : Prop := k_buf k ++ concat (k_net k) = [] /\ (0 <= k_tag k)%Z.
Lemma command_answer k q : quiet k -> (k_tag k + 1 < 2147483648)%Z -> good_request q -> readable (view (k_srv k)) q -> in_order (view (k_srv k)) ->
  exists lines more k', command S serve k (a_cmd (map tok_of (asks q))) = Ok (Some (map (fun is => tok_of_line (Says is)) lines ++ [tok_of_line (Ends (Atom (bs "OK") :: more))]), k') /\
    tells (view (k_srv k)) q lines (view (k_srv k')) /\ Forall (Forall no_nul) lines /\ quiet k' /\ (k_tag k' = k_tag k + 1)%Z /\ k_sel k' = k_sel k.
Proof.
  intros [Q T] L (NE & SE & NB) RD IO. set (tag := Z.to_N (k_tag k + 1)). assert (TZ : Z.of_N tag = (k_tag k + 1)%Z) by (unfold tag; lia). assert (TL : tag < 2 ^ 31) by (change (2 ^ 31) with 2147483648; lia).
  pose proof (sent_main tag (asks q) TL NE SE NB) as R. destruct (SV (k_srv k) _ tag q R RD IO) as (s' & out & lines & more & ts & te & ES & TE & F & E & C).
  unfold command. replace (k_tag k + 1 <? 2147483648)%Z with true by lia. rewrite TZ in ES. rewrite ES. cbn [bind].
  assert (EQ : k_buf k ++ concat (k_net k ++ out) = concat ts ++ te) by (rewrite concat_app, app_assoc, Q; exact C).
  destruct (collect_reads tag TL lines ts _ te F E (1 + length (k_buf k) + length (concat (k_net k ++ out))) (k_buf k) (k_net k ++ out) [] EQ) as (b & n & CO & RE).
  { assert (X : length (k_buf k ++ concat (k_net k ++ out)) = length (concat ts ++ te)) by now rewrite EQ. rewrite !app_length in X. pose proof (lines_long _ _ _ F). lia. }
  rewrite TZ in CO. rewrite CO. cbn [bind app]. exists lines, more. eexists. split; [reflexivity|]. cbn [k_srv k_tag k_sel]. repeat split; [exact TE| |exact RE|cbn [k_tag]; lia].
  clear -F. induction F as [|is x lines ts SP F IH]; constructor; [eapply line_no_nul; exact SP|exact IH].
Qed.
Lemma status_ok (A : list tok) more : status (Some (A ++ [tok_of_line (Ends (Atom (bs "OK") :: more))])) = Ok (bs "OK").
Proof. unfold status. rewrite rev_app_distr. reflexivity. Qed.

(* ---- opening a folder ---- *)
Definition line_validity (is : list item) : option bytes :=
  match is with Atom a :: Square (Atom c :: Atom d :: _) :: _ => if bytes_eqb a (bs "OK") && bytes_eqb c (bs "UIDVALIDITY") then Some d else None | _ => None end.
Definition line_count (is : list item) : option bytes :=
  match is with Atom a :: Atom b :: _ => if negb (bytes_eqb a (bs "OK")) && bytes_eqb b (bs "EXISTS") then Some a else None | _ => None end.
Definition pick {A : Type} (o : option A) (d : A) : A := match o with Some x => x | None => d end.
Lemma select_line_reads is acc : Forall no_nul is -> select_line acc (tok_of_line (Says is)) = (match line_validity is with Some v => Some v | None => fst acc end, match line_count is with Some d => atol d | None => snd acc end).
Proof.
  intros F. unfold select_line. cbn [tok_of_line t_kids]. destruct acc as [av ac]. cbn [fst snd]. destruct is as [|a is]; [reflexivity|]. cbn [map]. inversion F as [|? ? NA F1]; subst. destruct a as [a|a|a|a]; try reflexivity. cbn [tok_of].
  change (is_atom (Tok T_atom (Some a) [])) with true. cbn iota. cbn [no_nul] in NA. rewrite leaf_atom by exact NA. cbn [t_leaf]. rewrite (c_str_same a NA).
  destruct is as [|b is]; [cbn [map line_validity line_count]; destruct (bytes_eqb a (bs "OK")); reflexivity|]. cbn [map]. inversion F1 as [|? ? N2 F2]; subst.
  destruct (bytes_eqb a (bs "OK")) eqn:EA; cbn [negb andb].
  - destruct b as [b|b|b|b]; cbn [tok_of t_type same_type]; try (cbn [line_validity line_count]; rewrite ?EA; reflexivity).
    cbn [t_kids]. destruct b as [|c b]; [reflexivity|]. destruct b as [|d b]; [destruct c; reflexivity|]. cbn [map no_nul] in *. destruct N2 as [NC [ND _]].
    destruct c as [c|c|c|c]; cbn [tok_of is_atom t_type same_type andb]; try reflexivity. cbn [no_nul] in NC. change (is_atom (Tok T_atom (Some c) [])) with true. cbn [andb]. rewrite leaf_atom by exact NC. destruct d as [d|d|d|d]; cbn [tok_of]; try (rewrite andb_false_r; reflexivity).
    change (is_atom (Tok T_atom (Some d) [])) with true. rewrite andb_true_r. cbn [line_validity line_count]. rewrite EA. cbn [andb]. destruct (bytes_eqb c (bs "UIDVALIDITY")); [|reflexivity]. cbn [t_leaf no_nul] in *. rewrite (c_str_same d ND). reflexivity.
  - assert (LV : line_validity (Atom a :: b :: is) = None) by (cbn [line_validity]; destruct b as [| | |[|[] [|[] ?]]]; try reflexivity; rewrite EA; reflexivity). rewrite LV.
    destruct b as [b|b|b|b]; cbn [tok_of]; try reflexivity. change (is_atom (Tok T_atom (Some b) [])) with true. cbn [andb no_nul] in *. rewrite leaf_atom by exact N2. cbn [line_count]. rewrite EA. cbn [negb andb]. destruct (bytes_eqb b (bs "EXISTS")); reflexivity.
Qed.
Lemma digits_value_num : forall ds a, Forall digit ds -> digits_value ds a = num a ds.
Proof.
  induction ds as [|c ds IH]; intros a F; [reflexivity|]. inversion F as [|? ? D F']; subst. unfold digit in D. cbn [digits_value]. replace (isdigit c) with true by (unfold isdigit; lia). rewrite IH by exact F'. cbn [num fold_left]. fold (num (a * 10 + Z.of_N (c - 48)) ds). f_equal. lia.
Qed.
Lemma atol_digits ds : Forall digit ds -> atol ds = Z.min (Z.of_N (number ds)) (2 ^ 63 - 1).
Proof.
  intros F. unfold atol. assert (SK : skip_space ds = ds). { destruct ds as [|c ds]; [reflexivity|]. inversion F as [|? ? D _]; subst. unfold digit in D. cbn [skip_space]. replace (isspace c) with false by (unfold isspace; lia). reflexivity. }
  rewrite SK. clear SK. destruct ds as [|c ds]; [reflexivity|]. assert (D : digit c) by (inversion F; assumption). unfold digit in D. replace (c =? 45) with false by lia. replace (c =? 43) with false by lia. cbv beta iota zeta.
  rewrite (digits_value_num (c :: ds) 0 F). pose proof (num_number (c :: ds) 0) as NN. cbn [Z.of_N] in NN. rewrite NN. reflexivity.
Qed.
Lemma eqb_true a b : bytes_eqb a b = true -> a = b.
Proof. apply bytes_eqb_eq. Qed.
Lemma fold_select v n : forall lines acc, Forall (Forall no_nul) lines ->
  (forall is u, In is lines -> says_validity is u -> u = v) ->
  (forall is x rest, In is lines -> is = Atom x :: Atom (bs "EXISTS") :: rest -> says_count is n) ->
  let r := fold_left select_line (map (fun is => tok_of_line (Says is)) lines) acc in
  ((exists is, In is lines /\ says_validity is v) \/ fst acc = Some v -> fst r = Some v) /\
  ((exists is, In is lines /\ says_count is n) \/ snd acc = Z.min (Z.of_N n) (2 ^ 63 - 1) -> snd r = Z.min (Z.of_N n) (2 ^ 63 - 1)).
Proof.
  induction lines as [|is lines IH]; intros acc F V C; [cbn; split; (intros [(is & [] & _)|H]; exact H)|]. inversion F as [|? ? N F']; subst. cbn [map fold_left]. rewrite (select_line_reads is acc N).
  specialize (IH (match line_validity is with Some v => Some v | None => fst acc end, match line_count is with Some d => atol d | None => snd acc end) F' (fun i u I => V i u (or_intror I)) (fun i x r I => C i x r (or_intror I))). cbn zeta in IH |- *. cbn [fst snd] in IH. destruct IH as [I1 I2].
  assert (LV : forall u, line_validity is = Some u -> u = v).
  { intros u E. apply (V is u (or_introl eq_refl)). unfold line_validity in E. destruct is as [|[a| | |] [|[| | |[|[c| | |] [|[d| | |] m]]] r]]; try discriminate E. destruct (bytes_eqb a (bs "OK") && bytes_eqb c (bs "UIDVALIDITY")) eqn:Q; [|discriminate]. injection E as ->. apply andb_prop in Q. destruct Q as [Q1 Q2]. apply eqb_true in Q1. apply eqb_true in Q2. subst. exists m, r. reflexivity. }
  assert (LC : forall d, line_count is = Some d -> atol d = Z.min (Z.of_N n) (2 ^ 63 - 1)).
  { intros d E. unfold line_count in E. destruct is as [|[a| | |] [|[b| | |] r]]; try discriminate E. destruct (negb (bytes_eqb a (bs "OK")) && bytes_eqb b (bs "EXISTS")) eqn:Q; [|discriminate]. injection E as ->. apply andb_prop in Q. destruct Q as [_ Q]. apply eqb_true in Q. subst.
    destruct (C _ d r (or_introl eq_refl) eq_refl) as (ds & rest & E & D & NM). injection E as -> _. rewrite (atol_digits ds D), NM. reflexivity. }
  split.
  - intros H. apply I1. destruct (line_validity is) as [u|] eqn:E; [right; f_equal; apply LV; reflexivity|]. destruct H as [(i & [->|I] & SY)|H]; [|left; exists i; split; assumption|right; exact H].
    destruct SY as (m & r & ->). cbn in E. discriminate E.
  - intros H. apply I2. destruct (line_count is) as [u|] eqn:E; [right; apply LC; reflexivity|]. destruct H as [(i & [->|I] & SY)|H]; [|left; exists i; split; assumption|right; exact H].
    destruct SY as (ds & r & -> & D & NM). unfold line_count in E. change (bytes_eqb (bs "EXISTS") (bs "EXISTS")) with true in E. rewrite andb_true_r in E. destruct (bytes_eqb ds (bs "OK")) eqn:Q; [|discriminate E]. apply eqb_true in Q. subst ds. inversion D as [|? ? X _]; subst. unfold digit in X. lia.
Qed.
Definition in_step (k : conn S) : Prop :=
  quiet k /\
  match k_sel k with
  | None => True
  | Some s => exists b w, box_named (view (k_srv k)) (s_folder s) = Some b /\ p_open (view (k_srv k)) = Some (s_folder s, w) /\ s_uidvalidity s = b_validity b /\ s_exists s = Z.min (Z.of_N (N.of_nat (length (b_letters b)))) (2 ^ 63 - 1)
  end.
Lemma same_boxes v v' f : p_boxes v' = p_boxes v -> box_named v' f = box_named v f.
Proof. intros E. unfold box_named. now rewrite E. Qed.
Lemma order_same v v' : p_boxes v' = p_boxes v -> in_order v -> in_order v'.
Proof. intros E H f b B. rewrite (same_boxes _ _ f E) in B. apply (H f b B). Qed.
Lemma select_reads k f b : in_order (view (k_srv k)) -> in_step k -> (k_tag k + 1 < 2147483648)%Z -> name_ok f -> box_named (view (k_srv k)) f = Some b ->
  exists k', imap_select S serve k f false = Ok (Some (b_validity b, Z.min (Z.of_N (N.of_nat (length (b_letters b)))) (2 ^ 63 - 1)), k') /\ in_step k' /\ p_boxes (view (k_srv k')) = p_boxes (view (k_srv k)) /\
    (exists w, p_open (view (k_srv k')) = Some (f, w)) /\ (k_tag k <= k_tag k' <= k_tag k + 1)%Z.
Proof.
  intros IO [Q SE] TG NM BX. unfold imap_select. destruct (k_sel k) as [s|] eqn:KS; cbn [negb orb].
  - rewrite andb_true_r. destruct (bytes_eqb (s_folder s) f) eqn:EF.
    + apply eqb_true in EF. destruct SE as (b' & w & B & O & V & X). rewrite EF, BX in B. injection B as <-. exists k. rewrite V, X. split; [reflexivity|]. split; [split; [exact Q|]; rewrite KS; exists b, w; rewrite EF; rewrite EF in O; auto|]. split; [reflexivity|]. split; [exists w; rewrite EF in O; exact O|lia].
    + destruct (command_answer k (R_open f false) Q TG (good_open f false NM)) as (lines & more & k' & E & TE & NN & Q' & T' & S'); [cbn [readable]; congruence|exact IO|].
      change (a_cmd [a_atom (bs "EXAMINE"); a_string f]) with (a_cmd (map tok_of (asks (R_open f false)))). rewrite E. cbn [bind]. rewrite status_ok. cbn [bind]. change (negb (bytes_eqb (bs "OK") (bs "OK"))) with false. cbn iota. rewrite removelast_last.
      inversion TE as [f' w' b' ls BX' V1 V2 C1 C2 EQ1 EQ2 EQ3| |]; subst. rewrite BX in BX'. injection BX' as <-.
      pose proof (fold_select (b_validity b) (N.of_nat (length (b_letters b))) lines (None, 0%Z) NN V2 C2) as FS. cbn zeta in FS. destruct FS as [F1 F2]. specialize (F1 (or_introl V1)). specialize (F2 (or_introl C1)).
      destruct (fold_left select_line _ _) as [o x]. cbn [fst snd] in F1, F2. subst. eexists. split; [reflexivity|]. cbn [k_srv k_tag]. rewrite <- EQ3. cbn [p_boxes p_open]. split; [|split; [reflexivity|split; [exists false; reflexivity|lia]]].
      split; [exact Q'|]. cbn [k_sel s_folder s_uidvalidity s_exists k_srv]. exists b, false. rewrite <- EQ3. cbn [p_open]. split; [rewrite <- BX; apply same_boxes; reflexivity|]. auto.
  - destruct (command_answer k (R_open f false) Q TG (good_open f false NM)) as (lines & more & k' & E & TE & NN & Q' & T' & S'); [cbn [readable]; congruence|exact IO|].
      change (a_cmd [a_atom (bs "EXAMINE"); a_string f]) with (a_cmd (map tok_of (asks (R_open f false)))). rewrite E. cbn [bind]. rewrite status_ok. cbn [bind]. change (negb (bytes_eqb (bs "OK") (bs "OK"))) with false. cbn iota. rewrite removelast_last.
      inversion TE as [f' w' b' ls BX' V1 V2 C1 C2 EQ1 EQ2 EQ3| |]; subst. rewrite BX in BX'. injection BX' as <-.
      pose proof (fold_select (b_validity b) (N.of_nat (length (b_letters b))) lines (None, 0%Z) NN V2 C2) as FS. cbn zeta in FS. destruct FS as [F1 F2]. specialize (F1 (or_introl V1)). specialize (F2 (or_introl C1)).
      destruct (fold_left select_line _ _) as [o x]. cbn [fst snd] in F1, F2. subst. eexists. split; [reflexivity|]. cbn [k_srv k_tag]. rewrite <- EQ3. cbn [p_boxes p_open]. split; [|split; [reflexivity|split; [exists false; reflexivity|lia]]].
      split; [exact Q'|]. cbn [k_sel s_folder s_uidvalidity s_exists k_srv]. exists b, false. rewrite <- EQ3. cbn [p_open]. split; [rewrite <- BX; apply same_boxes; reflexivity|]. auto.
Qed.

(* ---- the letters ---- *)
Lemma eqb_sym a b : bytes_eqb a b = bytes_eqb b a.
Proof. destruct (bytes_eqb a b) eqn:E; symmetry; [apply bytes_eqb_eq; symmetry; apply eqb_true; exact E|]. apply bytes_eqb_neq. apply bytes_eqb_neq in E. congruence. Qed.
Lemma other_none is : other is -> Forall no_nul is -> fetch_list (tok_of_line (Says is)) = Ok None.
Proof.
  intros O F. unfold fetch_list. cbn [tok_of_line t_kids]. destruct is as [|a [|b is]]; try contradiction. cbn [other map] in *. inversion F as [|? ? NA F1]; subst. inversion F1 as [|? ? NB F2]; subst.
  destruct a as [a|a|a|a]; try reflexivity. cbn [tok_of]. change (negb (is_atom (Tok T_atom (Some a) []))) with false. cbn iota. destruct b as [b|b|b|b]; try reflexivity. cbn [tok_of]. change (is_atom (Tok T_atom (Some b) [])) with true. cbn [andb no_nul] in *. rewrite leaf_atom by exact NB.
  replace (bytes_eqb b (bs "FETCH")) with false; [reflexivity|]. symmetry. apply bytes_eqb_neq. intros ->. apply O. reflexivity.
Qed.
Lemma fetch_some n l : fetch_list (tok_of_line (Says [Atom n; Atom (bs "FETCH"); Paren l])) = Ok (Some (map tok_of l)).
Proof. reflexivity. Qed.
Lemma flags_deleted fl : Forall no_nul (map Atom fl) -> existsb (fun f => is_atom f && leaf_is f "\Deleted") (map tok_of (map Atom fl)) = existsb (bytes_eqb (bs "\Deleted")) fl.
Proof.
  induction fl as [|f fl IH]; intros F; [reflexivity|]. cbn [map] in F. inversion F as [|? ? NF F']; subst. cbn [map existsb tok_of]. change (is_atom (Tok T_atom (Some f) [])) with true. cbn [andb no_nul] in *. rewrite leaf_atom by exact NF. rewrite IH by exact F'. rewrite (eqb_sym f). reflexivity.
Qed.
Lemma scan_reads folder uv : forall ls lines, among about_flags ls lines -> Forall (Forall no_nul) lines ->
  scan_lines folder uv (map (fun is => tok_of_line (Says is)) lines) = Ok (map (fun l => pseudopath folder uv (l_uid l)) (filter (fun l => negb (deleted l)) ls)).
Proof.
  intros ls lines A. induction A as [|l is ls lines P A IH|is ls lines O A IH]; intros F.
  - reflexivity.
  - inversion F as [|? ? NN F']; subst. cbn [map scan_lines]. destruct P as (n & rest & -> & P). rewrite fetch_some. cbn [bind]. rewrite IH by exact F'. cbn [bind]. f_equal.
    inversion NN as [|? ? _ N1]; subst. inversion N1 as [|? ? _ N2]; subst. inversion N2 as [|? ? N3 _]; subst. cbn [no_nul] in N3. apply all_in in N3. cbn zeta in P.
    assert (NU : ~ In 0 (l_uid l) /\ Forall no_nul (map Atom (l_flags l))).
    { destruct P as [-> | ->]; cbn [app] in N3.
      - inversion N3 as [|? ? _ M1]; subst. inversion M1 as [|? ? NU M2]; subst. inversion M2 as [|? ? _ M3]; subst. inversion M3 as [|? ? NF _]; subst. split; [exact NU|]. apply all_in. exact NF.
      - inversion N3 as [|? ? _ M1]; subst. inversion M1 as [|? ? NF M2]; subst. inversion M2 as [|? ? _ M3]; subst. inversion M3 as [|? ? NU _]; subst. split; [exact NU|]. apply all_in. exact NF. }
    destruct NU as [NU NF]. assert (SC : scan_items (map tok_of rest) None false = (Some (l_uid l), deleted l)).
    { destruct P as [-> | ->]; cbn [app map tok_of scan_items]; cbn -[existsb map c_str]; rewrite (flags_deleted _ NF), (c_str_same _ NU); reflexivity. }
    rewrite SC. cbn [filter]. destruct (deleted l); reflexivity.
  - inversion F as [|? ? NN F']; subst. cbn [map scan_lines]. rewrite (other_none is O NN). cbn [bind]. rewrite IH by exact F'. reflexivity.
Qed.
Lemma about_text_inv l is : about_text l is -> exists n rest, is = [Atom n; Atom (bs "FETCH"); Paren rest] /\ fetch_items (map tok_of rest) None None = (Some (l_uid l), Some (l_text l)).
Proof. intros (n & rest & -> & P). exists n, rest. split; [reflexivity|]. cbn zeta in P. destruct P as [-> | ->]; reflexivity. Qed.
Lemma fetch_reads uid : forall ls lines, among about_text ls lines -> Forall (Forall no_nul) lines -> (forall l, In l ls -> l_uid l = uid) ->
  fetch_lines uid (map (fun is => tok_of_line (Says is)) lines) = Ok (match ls with l :: _ => Some (l_text l) | [] => None end).
Proof.
  intros ls lines A. induction A as [|l is ls lines P A IH|is ls lines O A IH]; intros F U.
  - reflexivity.
  - cbn [map fetch_lines]. destruct (about_text_inv _ _ P) as (n & rest & -> & FI). rewrite fetch_some. cbn [bind]. rewrite FI, (U l (or_introl eq_refl)), bytes_eqb_refl. reflexivity.
  - inversion F as [|? ? NN F']; subst. cbn [map fetch_lines]. rewrite (other_none is O NN). cbn [bind]. apply IH; assumption.
Qed.
Lemma box_name v f b : box_named v f = Some b -> b_name b = f.
Proof. intros H. apply find_some in H. destruct H as [_ H]. apply eqb_true. exact H. Qed.
Lemma good_flags : good_request R_flags.
Proof. split; [discriminate|]. cbn [asks]. split; repeat (apply Forall_cons; [first [exact I | apply send_ok; reflexivity]|]); apply Forall_nil. Qed.
Lemma good_text u : sendable (Atom u) -> good_request (R_text u).
Proof. intros H. split; [discriminate|]. cbn [asks]. split; repeat (apply Forall_cons; [first [exact I | apply send_ok; reflexivity | exact H]|]); apply Forall_nil. Qed.
Lemma step_keep k k' : in_step k -> quiet k' -> k_sel k' = k_sel k -> view (k_srv k') = view (k_srv k) -> in_step k'.
Proof. intros [_ A] Q E V. split; [exact Q|]. rewrite E, V. exact A. Qed.
Lemma folder_reads k f b : in_order (view (k_srv k)) -> in_step k -> (k_tag k + 2 < 2147483648)%Z -> name_ok f -> box_named (view (k_srv k)) f = Some b ->
  exists k', scan_folder S serve k f = Ok (listed (view (k_srv k)) f, k') /\ in_step k' /\ p_boxes (view (k_srv k')) = p_boxes (view (k_srv k)) /\ (k_tag k <= k_tag k' <= k_tag k + 2)%Z.
Proof.
  intros IO ST TG NM BX. unfold scan_folder, listed. rewrite BX. destruct (select_reads k f b IO ST ltac:(lia) NM BX) as (k1 & E1 & ST1 & P1 & (w & O1) & T1). rewrite E1. cbn [bind].
  destruct (b_letters b) as [|l0 ls0] eqn:EL.
  - cbn [length N.of_nat Z.of_N]. change (Z.min 0 (2 ^ 63 - 1) <? 1)%Z with true. cbn iota. exists k1. split; [reflexivity|]. repeat split; try apply ST1; try exact P1; lia.
  - rewrite <- EL. replace (Z.min (Z.of_N (N.of_nat (length (b_letters b)))) (2 ^ 63 - 1) <? 1)%Z with false by (rewrite EL; cbn [length]; lia).
    pose proof (same_boxes _ _ f P1) as BX1. rewrite BX in BX1.
    destruct (command_answer k1 R_flags (proj1 ST1) ltac:(lia) good_flags) as (lines & more & k2 & E & TE & NN & Q' & T' & S'); [exists f, w; split; [exact O1|congruence]|exact (order_same _ _ P1 IO)|].
    change (a_cmd [a_atom (bs "UID"); a_atom (bs "FETCH"); a_atom (bs "1:*"); a_atom (bs "FLAGS")]) with (a_cmd (map tok_of (asks R_flags))). rewrite E. cbn [bind]. rewrite status_ok. cbn [bind]. change (negb (bytes_eqb (bs "OK") (bs "OK"))) with false. cbn iota. rewrite removelast_last.
    inversion TE as [|f' w' b' ls O' B' AM EQ1 EQ2 EQ3|]; subst. rewrite O1 in O'. injection O' as <- <-. rewrite BX1 in B'. injection B' as <-.
    rewrite (scan_reads f (b_validity b) _ _ AM NN). cbn [bind]. exists k2. split; [f_equal; f_equal; apply map_ext; intros l; unfold pseudopath, path_of; rewrite (box_name _ _ _ BX); reflexivity|].
    split; [apply (step_keep k1 k2 ST1 Q' S'); congruence|]. split; [congruence|lia].
Qed.
Lemma list_reads : forall fs k, in_order (view (k_srv k)) -> in_step k -> (k_tag k + 2 * Z.of_nat (length fs) < 2147483648)%Z -> (forall f, In f fs -> name_ok f /\ box_named (view (k_srv k)) f <> None) ->
  exists k', build_imap_message_list S serve k fs = Ok (flat_map (listed (view (k_srv k))) fs, k') /\ in_step k' /\ p_boxes (view (k_srv k')) = p_boxes (view (k_srv k)) /\ (k_tag k <= k_tag k' <= k_tag k + 2 * Z.of_nat (length fs))%Z.
Proof.
  induction fs as [|f fs IH]; intros k IO ST TG A; [exists k; split; [reflexivity|]; repeat split; try apply ST; cbn; lia|]. cbn [length] in TG. destruct (A f (or_introl eq_refl)) as [NM BX]. destruct (box_named (view (k_srv k)) f) as [b|] eqn:B; [|contradiction].
  destruct (folder_reads k f b IO ST ltac:(lia) NM B) as (k1 & E1 & ST1 & P1 & T1). cbn [build_imap_message_list]. rewrite E1. cbn [bind].
  destruct (IH k1 (order_same _ _ P1 IO) ST1 ltac:(lia)) as (k2 & E2 & ST2 & P2 & T2); [intros g I; rewrite (same_boxes _ _ g P1); apply A; right; exact I|]. rewrite E2. cbn [bind]. exists k2. split; [|split; [exact ST2|split; [congruence|cbn [length]; lia]]].
  cbn [flat_map]. f_equal. f_equal. f_equal. apply flat_map_ext. intros g. unfold listed. rewrite (same_boxes _ _ g P1). reflexivity.
Qed.
Lemma filter_uid u : forall ls l, NoDup (map l_uid ls) -> In l ls -> l_uid l = u -> filter (fun l => bytes_eqb (l_uid l) u) ls = [l].
Proof.
  induction ls as [|x ls IH]; intros l ND I U; [contradiction|]. cbn [map] in ND. inversion ND as [|? ? NI ND']; subst. cbn [filter]. destruct I as [->|I].
  - rewrite bytes_eqb_refl. f_equal. clear -NI. induction ls as [|y ls IH]; [reflexivity|]. cbn [filter]. cbn [map] in NI. replace (bytes_eqb (l_uid y) (l_uid l)) with false; [apply IH; intros I; apply NI; right; exact I|]. symmetry. apply bytes_eqb_neq. intros E. apply NI. left. exact E.
  - replace (bytes_eqb (l_uid x) (l_uid l)) with false; [apply IH; auto|]. symmetry. apply bytes_eqb_neq. intros E. apply NI. rewrite E. apply in_map. exact I.
Qed.
Lemma text_reads k p t : in_step k -> (k_tag k + 2 < 2147483648)%Z -> in_order (view (k_srv k)) -> stands_for (view (k_srv k)) p t ->
  exists k', imap_fetch_message_raw S serve k p = Ok (Some t, k') /\ in_step k' /\ p_boxes (view (k_srv k')) = p_boxes (view (k_srv k)) /\ (k_tag k <= k_tag k' <= k_tag k + 2)%Z.
Proof.
  intros ST TG IO (f & b & l & BX & IL & -> & ->). destruct (IO f b BX) as (NM & NV & ND & AL). rewrite Forall_forall in AL. destruct (AL l IL) as (NU & _ & _). apply number_plain in NV, NU. destruct NV as [NV _], NU as [NU SU]. unfold imap_fetch_message_raw, path_of. rewrite (box_name _ _ _ BX). cbn [app]. rewrite (at_colon_ok _ _ NV), (at_colon_ok _ _ NU).
  destruct (select_reads k f b IO ST ltac:(lia) NM BX) as (k1 & E1 & ST1 & P1 & (w & O1) & T1). rewrite E1. cbn [bind]. rewrite bytes_eqb_refl. cbn [negb].
  pose proof (same_boxes _ _ f P1) as BX1. rewrite BX in BX1.
  destruct (command_answer k1 (R_text (l_uid l)) (proj1 ST1) ltac:(lia) (good_text _ SU)) as (lines & more & k2 & E & TE & NN & Q' & T' & S'); [exists f, w; split; [exact O1|congruence]|exact (order_same _ _ P1 IO)|].
  change (a_cmd [a_atom (bs "UID"); a_atom (bs "FETCH"); a_atom (l_uid l); a_atom (bs "BODY.PEEK[]")]) with (a_cmd (map tok_of (asks (R_text (l_uid l))))). rewrite E. cbn [bind]. rewrite status_ok. cbn [bind]. change (negb (bytes_eqb (bs "OK") (bs "OK"))) with false. cbn iota. rewrite removelast_last.
  inversion TE as [| |u f' w' b' ls O' B' AM EQ1 EQ2 EQ3]; subst. rewrite O1 in O'. injection O' as <- <-. rewrite BX1 in B'. injection B' as <-.
  rewrite (filter_uid _ _ _ ND IL eq_refl) in AM. rewrite (fetch_reads (l_uid l) _ _ AM NN); [|intros x [->|[]]; reflexivity]. cbn [bind]. exists k2. split; [reflexivity|]. split; [apply (step_keep k1 k2 ST1 Q' S'); congruence|]. split; [congruence|lia].
Qed.
Lemma Forall2_weak {A B : Type} (P Q : A -> B -> Prop) : (forall a b, P a b -> Q a b) -> forall l m, Forall2 P l m -> Forall2 Q l m.
Proof. intros H l m F. induction F; constructor; auto. Qed.
Lemma texts_read : forall ps ts k, in_step k -> (k_tag k + 2 * Z.of_nat (length ps) < 2147483648)%Z -> in_order (view (k_srv k)) -> Forall2 (stands_for (view (k_srv k))) ps ts ->
  exists k', fetch_all serve k ps = Ok (map Some ts, k') /\ in_step k' /\ p_boxes (view (k_srv k')) = p_boxes (view (k_srv k)).
Proof.
  induction ps as [|p ps IH]; intros ts k ST TG IO F; inversion F as [|? t ? ts' P F']; subst; [exists k; split; [reflexivity|]; split; [exact ST|reflexivity]|]. cbn [length] in TG.
  destruct (text_reads k p t ST ltac:(lia) IO P) as (k1 & E1 & ST1 & P1 & T1). cbn [fetch_all]. rewrite E1. cbn [bind].
  destruct (IH ts' k1 ST1 ltac:(lia)) as (k2 & E2 & ST2 & P2).
  - intros f b B. rewrite (same_boxes _ _ f P1) in B. apply (IO f b B).
  - eapply Forall2_weak; [|exact F']. intros q u (f & b & l & B & R). exists f, b, l. rewrite (same_boxes _ _ f P1). auto.
  - rewrite E2. cbn [bind map]. exists k2. split; [reflexivity|]. split; [exact ST2|congruence].
Qed.
Lemma server_run k fs ps ts : fresh k -> (k_tag k + 2 * Z.of_nat (length fs) + 2 * Z.of_nat (length ps) < 2147483648)%Z -> in_order (view (k_srv k)) -> (forall f, In f fs -> box_named (view (k_srv k)) f <> None) -> Forall2 (stands_for (view (k_srv k))) ps ts ->
  exists k1 k2, build_imap_message_list S serve k fs = Ok (flat_map (listed (view (k_srv k))) fs, k1) /\ fetch_all serve k1 ps = Ok (map Some ts, k2) /\ p_boxes (view (k_srv k2)) = p_boxes (view (k_srv k)).
Proof.
  intros (B & N & SE & T) TG IO A F. assert (ST : in_step k) by (split; [split; [rewrite B, N; reflexivity|exact T]|rewrite SE; exact I]).
  destruct (list_reads fs k IO ST ltac:(lia)) as (k1 & E1 & ST1 & P1 & T1).
  - intros f I. split; [|apply A; exact I]. specialize (A f I). destruct (box_named (view (k_srv k)) f) as [b|] eqn:Q; [|contradiction]. apply (IO f b Q).
  - destruct (texts_read ps ts k1 ST1 ltac:(lia)) as (k2 & E2 & _ & P2).
    + intros f b Q. rewrite (same_boxes _ _ f P1) in Q. apply (IO f b Q).
    + eapply Forall2_weak; [|exact F]. intros q u (f & b & l & Q & R). exists f, b, l. rewrite (same_boxes _ _ f P1). auto.
    + exists k1, k2. split; [exact E1|]. split; [exact E2|congruence].
Qed.
End Run.
