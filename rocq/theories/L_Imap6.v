(* A server that does all of this, for the examples. *)
From Verif Require Import Base M_Output M_Search M_Tokens M_Rfc822 M_Imap S_Imap S_Server L_TokTable L_Imap L_Imap3 L_Imap4 L_Imap5.
From Verif Require L_Output.
Local Open Scope N_scope.

Fixpoint write (i : item) : bytes :=
  let all := fix all (l : list item) : bytes := match l with [] => [] | i :: l' => match l' with [] => write i | _ => write i ++ [32] ++ all l' end end in
  match i with
  | Atom s => s
  | Str s => 123 :: show_int (N.of_nat (length s)) ++ [125] ++ [13] ++ [10] ++ s
  | Paren l => 40 :: all l ++ [41]
  | Square l => 91 :: all l ++ [93]
  end.
Fixpoint write_all (l : list item) : bytes := match l with [] => [] | i :: l' => match l' with [] => write i | _ => write i ++ [32] ++ write_all l' end end.
Fixpoint legible (p : place) (i : item) : Prop :=
  match i with
  | Atom s => s <> [] /\ Forall (atom_char p) s
  | Str s => N.of_nat (length s) < 2 ^ 31
  | Paren l => (fix all (l : list item) : Prop := match l with [] => True | i :: l' => legible In_paren i /\ all l' end) l
  | Square l => p = On_line 1 /\ (fix all (l : list item) : Prop := match l with [] => True | i :: l' => legible In_square i /\ all l' end) l
  end.
Fixpoint legible_from (p : place) (l : list item) : Prop := match l with [] => True | i :: l' => legible p i /\ legible_from (next_place p) l' end.
Lemma write_from : forall l p, (forall q i, In i l -> legible q i -> spelt q i (write i)) -> legible_from p l -> spelt_all p l (write_all l).
Proof.
  induction l as [|i l IH]; intros p H L; [constructor|]. destruct L as [LI L]. cbn [write_all]. destruct l as [|j l].
  - apply sa_one. apply H; [left; reflexivity|exact LI].
  - apply (sa_more p i (write i) [32] (j :: l) (write_all (j :: l))); [apply H; [left; reflexivity|exact LI]|discriminate|repeat constructor|discriminate|]. apply (IH (next_place p)); [intros q k I; apply H; right; exact I|exact L].
Qed.
Lemma legible_same p l : next_place p = p -> Forall (legible p) l -> legible_from p l.
Proof. intros E F. induction F as [|i l A F IH]; [exact I|]. split; [exact A|]. rewrite E. exact IH. Qed.
Lemma write_ok : forall i p, legible p i -> spelt p i (write i).
Proof.
  apply (item_all (fun i => forall p, legible p i -> spelt p i (write i))).
  - intros s p [A B]. constructor; assumption.
  - intros s p L. cbn [legible write] in *. destruct (L_Output.show_int_ok (N.of_nat (length s))) as (A & B & C). apply sp_literal; [exact B| | |change (number (show_int (N.of_nat (length s))) < 2 ^ 31); replace (number (show_int (N.of_nat (length s)))) with (N.of_nat (length s)) by (rewrite <- A at 1; reflexivity); exact L|right; reflexivity].
    + eapply Forall_impl; [|exact C]. intros c D. exact D.
    + exact A.
  - intros l F p L. cbn [legible] in L. apply all_in in L. apply sp_paren. apply (write_from l In_paren); [|apply legible_same; [reflexivity|exact L]]. intros q i I. rewrite Forall_forall in F. apply F. exact I.
  - intros l F p [-> L]. apply all_in in L. apply sp_square. apply (write_from l In_square); [|apply legible_same; [reflexivity|exact L]]. intros q i I. rewrite Forall_forall in F. apply F. exact I.
Qed.
Definition line_text (tag : N) (l : line) : bytes :=
  match l with Says is => bs "* " ++ write_all is ++ [13; 10] | Ends is => bs "t" ++ show_int tag ++ [32] ++ write_all is ++ [13; 10] end.
Lemma line_says tag is : legible_from (On_line 0) is -> line_spelt tag (Says is) (line_text tag (Says is)).
Proof. intros L. apply ls_says. apply write_from; [intros; apply write_ok; assumption|exact L]. Qed.
Lemma line_ends tag is : legible_from (On_line 0) is -> line_spelt tag (Ends is) (line_text tag (Ends is)).
Proof.
  intros L. destruct (L_Output.show_int_ok tag) as (A & B & C). apply ls_ends; [apply write_from; [intros; apply write_ok; assumption|exact L]|exact B|exact C|exact A].
Qed.

(* the requests *)
Definition atoms (l : list item) : list bytes := map (fun i => match i with Atom s => s | _ => [] end) l.
Definition is (a : bytes) (s : string) : bool := bytes_eqb a (bs s).
Definition request_of (l : list item) : option request :=
  match l with
  | [Atom a; Str f] => if is a "SELECT" then Some (R_open f true) else if is a "EXAMINE" then Some (R_open f false) else if is a "CREATE" then Some (R_create f) else None
  | [Atom a; Atom b; Atom c; Atom d] =>
      if is a "UID" then if is d "FLAGS" then Some R_flags else if is d "BODY.PEEK[]" then Some (R_text c) else None
      else if is a "STORE" then Some R_delete else None
  | [Atom a] => if is a "EXPUNGE" then Some R_expunge else None
  | [Atom a; Atom b; Atom c; Str f] => if is b "COPY" then Some (R_copy c f) else None
  | [Atom a; Str f; Paren fl; Str t] => if is a "APPEND" then Some (R_append f (atoms fl) t) else None
  | _ => None
  end.
Lemma atoms_back fl : atoms (map Atom fl) = fl.
Proof. unfold atoms. rewrite map_map. apply map_id. Qed.
Lemma request_back q : request_of (asks q) = Some q.
Proof. destruct q as [f w| |u| | |u f|f|f fl t]; try destruct w; try reflexivity. cbn [asks request_of]. rewrite atoms_back. reflexivity. Qed.

Definition with_letters (b : box) (ls : list letter) : box := {| b_name := b_name b; b_validity := b_validity b; b_letters := ls |}.
Definition upd (f : bytes) (g : list letter -> list letter) (v : post) : post :=
  {| p_boxes := map (fun b => if bytes_eqb (b_name b) f then with_letters b (g (b_letters b)) else b) (p_boxes v); p_open := p_open v |}.
Definition next_uid (ls : list letter) : bytes := show_int (1 + fold_left (fun m l => N.max m (number (l_uid l))) ls 0).
Definition add_letter (fl : list bytes) (t : bytes) (ls : list letter) : list letter := ls ++ [{| l_uid := next_uid ls; l_flags := fl; l_text := t |}].
Definition effect (v : post) (q : request) : post :=
  match q with
  | R_open f w => {| p_boxes := p_boxes v; p_open := match box_named v f with Some _ => Some (f, w) | None => None end |}
  | R_flags | R_text _ => v
  | R_delete => match p_open v with Some (f, true) => upd f (map (fun l => {| l_uid := l_uid l; l_flags := bs "\Deleted" :: l_flags l; l_text := l_text l |})) v | _ => v end
  | R_expunge => match p_open v with Some (f, true) => upd f (filter (fun l => negb (deleted l))) v | _ => v end
  | R_copy u f =>
      match p_open v with
      | Some (g, _) => match box_named v g with
                       | Some b => match find (fun l => bytes_eqb (l_uid l) u) (b_letters b) with Some l => upd f (add_letter (l_flags l) (l_text l)) v | None => v end
                       | None => v
                       end
      | None => v
      end
  | R_create f => match box_named v f with Some _ => v | None => {| p_boxes := p_boxes v ++ [{| b_name := f; b_validity := bs "1"; b_letters := [] |}]; p_open := p_open v |} end
  | R_append f fl t => upd f (add_letter fl t) v
  end.
Definition fine : list item := [Atom (bs "OK"); Atom (bs "done")].
Definition refused : list item := [Atom (bs "NO"); Atom (bs "impossible")].
Definition answer (v : post) (q : request) : list (list item) * list item :=
  let open := match p_open v with Some (f, _) => box_named v f | None => None end in
  match q with
  | R_open f w =>
      match box_named v f with
      | Some b => ([[Atom (show_int (N.of_nat (length (b_letters b)))); Atom (bs "EXISTS")]; [Atom (bs "OK"); Square [Atom (bs "UIDVALIDITY"); Atom (b_validity b)]; Atom (bs "numbers"); Atom (bs "stay")]], fine)
      | None => ([], refused)
      end
  | R_flags => match open with Some b => (map (fun l => [Atom (l_uid l); Atom (bs "FETCH"); Paren [Atom (bs "UID"); Atom (l_uid l); Atom (bs "FLAGS"); Paren (map Atom (l_flags l))]]) (b_letters b), fine) | None => ([], refused) end
  | R_text u => match open with Some b => ([Atom (bs "OK"); Atom (bs "Here:")] :: map (fun l => [Atom (l_uid l); Atom (bs "FETCH"); Paren [Atom (bs "BODY[]"); Str (l_text l); Atom (bs "UID"); Atom (l_uid l)]]) (filter (fun l => bytes_eqb (l_uid l) u) (b_letters b)), fine) | None => ([], refused) end
  | R_copy u f | R_append f u _ => match box_named v f with Some _ => ([], fine) | None => ([], [Atom (bs "NO"); Square [Atom (bs "TRYCREATE")]; Atom (bs "missing")]) end
  | _ => ([], fine)
  end.
Definition model_serve (v : post) (t : bytes) : post * option (list bytes) :=
  match received t with
  | Some (tag, is) => match request_of is with
                      | Some q => let (says, ends) := answer v q in let text := concat (map (fun l => line_text tag (Says l)) says) ++ line_text tag (Ends ends) in (effect v q, Some [firstn 7 text; skipn 7 text])
                      | None => (v, Some [line_text tag (Ends refused)])
                      end
  | None => (v, None)
  end.

Lemma named_upd f g v h : h <> f -> box_named (upd f g v) h = box_named v h.
Proof.
  intros NE. unfold box_named, upd. cbn [p_boxes]. induction (p_boxes v) as [|b bs IH]; [reflexivity|]. cbn [map find]. destruct (bytes_eqb (b_name b) f) eqn:E.
  - cbn [with_letters b_name]. apply bytes_eqb_eq in E. replace (bytes_eqb (b_name b) h) with false by (symmetry; apply bytes_eqb_neq; congruence). exact IH.
  - destruct (bytes_eqb (b_name b) h); [reflexivity|exact IH].
Qed.
Lemma model_obeys : obeys (fun v : post => v) model_serve.
Proof.
  intros v t tag q R. unfold model_serve. rewrite R, request_back. destruct (answer v q) as [says ends]. cbn [fst]. split.
  - intros g H. destruct q as [f w| |u| | |u f|f|f fl tx]; cbn [effect may_change] in *; try reflexivity.
    + destruct (p_open v) as [[f [|]]|]; try reflexivity. apply named_upd. congruence.
    + destruct (p_open v) as [[f [|]]|]; try reflexivity. apply named_upd. congruence.
    + destruct (p_open v) as [[g' w]|]; [|reflexivity]. destruct (box_named v g') as [b|]; [|reflexivity]. destruct (find _ (b_letters b)); [|reflexivity]. apply named_upd. congruence.
    + destruct (box_named v f) eqn:E; [reflexivity|]. unfold box_named. cbn [p_boxes]. assert (NE : g <> f) by congruence. clear -NE. induction (p_boxes v) as [|b bs IH]; [|cbn [app find]; destruct (bytes_eqb (b_name b) g); [reflexivity|exact IH]].
      cbn [app find b_name]. replace (bytes_eqb f g) with false; [reflexivity|]. symmetry. apply bytes_eqb_neq. congruence.
    + apply named_upd. congruence.
  - destruct q as [f w| |u| | |u f|f|f fl tx]; cbn [effect]; try (right; left; reflexivity).
    + cbn [p_open]. destruct (box_named v f); [right; right; exists f, w; split; reflexivity|left; reflexivity].
    + right. left. destruct (p_open v) as [[f [|]]|] eqn:E; cbn [upd p_open]; congruence.
    + right. left. destruct (p_open v) as [[f [|]]|] eqn:E; cbn [upd p_open]; congruence.
    + right. left. destruct (p_open v) as [[g' w]|] eqn:E; [|exact E]. destruct (box_named v g') as [b|]; [|exact E]. destruct (find _ (b_letters b)); cbn [upd p_open]; exact E.
    + right. left. destruct (box_named v f); reflexivity.
Qed.
Lemma digit_atom p s : number_ok s -> legible p (Atom s).
Proof.
  intros [NE F]. split; [exact NE|]. eapply Forall_impl; [|exact F]. intros c D. unfold digit in D. split; [intros I; cbn [In] in I; intuition lia|]. destruct p; [intros _|..]; lia.
Qed.
Fixpoint plain_b (s : bytes) : bool := match s with [] => true | c :: s' => negb (existsb (N.eqb c) [0; 9; 10; 13; 32; 34; 40; 123; 41]) && plain_b s' end.
Lemma word_atom p s : p <> In_square -> (forall n, p = On_line n -> n = 1%nat -> ~ In 91 (bs s)) -> plain_b (bs s) = true -> bs s <> [] -> legible p (Atom (bs s)).
Proof.
  intros NP NB PL NE. split; [exact NE|]. apply Forall_forall. intros c I. assert (X : existsb (N.eqb c) [0; 9; 10; 13; 32; 34; 40; 123; 41] = false).
  { clear NB NE. induction (bs s) as [|d l IH]; [contradiction|]. cbn [plain_b] in PL. apply andb_prop in PL. destruct PL as [A B]. destruct I as [->|I]; [|apply IH; assumption]. apply Bool.negb_true_iff. exact A. }
  cbn [existsb] in X. split; [intros I2; cbn [In] in I2; intuition lia|]. destruct p as [n| |]; [|lia|contradiction]. intros E C. subst. apply (NB 1%nat); auto.
Qed.
Ltac word := apply word_atom; [discriminate|first [discriminate | intros n E1 E2; cbn; intuition discriminate]|reflexivity|discriminate].
Lemma shown_ok n : number_ok (show_int n).
Proof. destruct (L_Output.show_int_ok n) as (A & B & C). split; [exact B|exact C]. Qed.
Lemma fine_ok : legible_from (On_line 0) fine.
Proof. cbn [legible_from fine next_place]. repeat split; try discriminate; repeat constructor; cbn; try (intuition discriminate); try lia. Qed.
Lemma leg_paren p l : Forall (legible In_paren) l -> legible p (Paren l).
Proof. intros H. apply (proj2 (all_in (legible In_paren) l)). exact H. Qed.
Lemma model_serves : serves (fun v : post => v) model_serve.
Proof.
  intros v t tag q R RD IO. unfold model_serve. rewrite R, request_back. destruct (answer v q) as [says ends] eqn:AN.
  assert (PC : forall x : bytes, concat [firstn 7 x; skipn 7 x] = x) by (intros x; cbn [concat]; rewrite app_nil_r; apply firstn_skipn).
  assert (G : ends = fine -> tells v q says (effect v q) -> Forall (legible_from (On_line 0)) says ->
    exists s' pieces lines more ts te, (effect v q, Some [firstn 7 (concat (map (fun l => line_text tag (Says l)) says) ++ line_text tag (Ends ends)); skipn 7 (concat (map (fun l => line_text tag (Says l)) says) ++ line_text tag (Ends ends))]) = (s', Some pieces) /\ tells v q lines s' /\
      Forall2 (fun is0 x => line_spelt tag (Says is0) x) lines ts /\ line_spelt tag (Ends (Atom (bs "OK") :: more)) te /\ concat pieces = concat ts ++ te).
  { intros -> TE L. eexists _, _, says, [Atom (bs "done")], _, _. split; [reflexivity|]. split; [exact TE|]. split; [|split; [apply (line_ends tag fine fine_ok)|apply PC]].
    clear -L. induction L as [|x says A L IH]; [constructor|]. cbn [map]. constructor; [apply line_says; exact A|exact IH]. }
  apply G; clear G PC.
  - destruct q; cbn [readable answer] in *; try contradiction.
    + destruct (box_named v f); [injection AN as _ <-; reflexivity|contradiction].
    + destruct RD as (f & w & O & B). rewrite O in AN. destruct (box_named v f); [injection AN as _ <-; reflexivity|contradiction].
    + destruct RD as (f & w & O & B). rewrite O in AN. destruct (box_named v f); [injection AN as _ <-; reflexivity|contradiction].
  - destruct q; cbn [readable answer effect] in *; try contradiction.
    + destruct (box_named v f) as [b|] eqn:B; [pose proof (f_equal fst AN) as AX; cbn [fst] in AX; subst says|contradiction]. destruct (shown_ok (N.of_nat (length (b_letters b)))) as [SN SD]. pose proof (proj1 (L_Output.show_int_ok (N.of_nat (length (b_letters b))))) as SV.
      assert (CT : says_count [Atom (show_int (N.of_nat (length (b_letters b)))); Atom (bs "EXISTS")] (N.of_nat (length (b_letters b)))) by (eexists _, []; split; [reflexivity|]; split; [exact SD|exact SV]).
      apply (te_open v f writable b); [exact B|eexists; split; [right; left; reflexivity|]; eexists _, _; reflexivity| |eexists; split; [left; reflexivity|exact CT]|].
      * intros i u [<-|[<-|[]]] (m & r & E); [discriminate E|]. injection E as <- _ _. reflexivity.
      * intros i x r [<-|[<-|[]]] E; [exact CT|discriminate E].
    + destruct RD as (f & w & O & B). rewrite O in AN. destruct (box_named v f) as [b|] eqn:E; [pose proof (f_equal fst AN) as AX; cbn [fst] in AX; subst says|contradiction]. apply (te_flags v f w b); [exact O|exact E|]. clear. induction (b_letters b) as [|l ls IH]; [constructor|]. cbn [map]. apply am_line; [|exact IH]. eexists _, _. split; [reflexivity|]. left. reflexivity.
    + destruct RD as (f & w & O & B). rewrite O in AN. destruct (box_named v f) as [b|] eqn:E; [pose proof (f_equal fst AN) as AX; cbn [fst] in AX; subst says|contradiction]. apply (te_text v uid f w b); [exact O|exact E|]. clear. apply am_other; [discriminate|]. induction (filter _ (b_letters b)) as [|l ls IH]; [constructor|]. cbn [map]. apply am_line; [|exact IH]. eexists _, _. split; [reflexivity|]. right. reflexivity.
  - destruct q; cbn [readable answer effect] in *; try contradiction.
    + destruct (box_named v f) as [b|] eqn:B; [pose proof (f_equal fst AN) as AX; cbn [fst] in AX; subst says|contradiction]. destruct (IO f b B) as (_ & NV & _ & _). pose proof (shown_ok (N.of_nat (length (b_letters b)))) as SN. constructor; [|constructor; [|constructor]].
      * cbn [legible_from next_place]. split; [apply digit_atom; exact SN|]. split; [word|exact I].
      * cbn [legible_from next_place]. split; [word|]. split; [split; [reflexivity|]; cbv beta iota; split; [|split; [|exact I]]|].
        -- split; [discriminate|]. repeat constructor; cbn; try (intuition discriminate); lia.
        -- apply digit_atom. exact NV.
        -- split; [word|]. split; [word|exact I].
    + destruct RD as (f & w & O & B). rewrite O in AN. destruct (box_named v f) as [b|] eqn:E; [pose proof (f_equal fst AN) as AX; cbn [fst] in AX; subst says|contradiction]. destruct (IO f b E) as (_ & _ & _ & LO). clear -LO. induction LO as [|l ls A LO IH]; [constructor|]. cbn [map]. constructor; [|exact IH]. destruct A as (NU & FL & _).
      cbn [legible_from next_place]. split; [apply digit_atom; exact NU|]. split; [word|]. split; [|exact I]. apply leg_paren. repeat (apply Forall_cons; [first [apply digit_atom; exact NU | word | idtac]|]); try apply Forall_nil.
      apply leg_paren. apply Forall_forall. intros i IN. apply in_map_iff in IN. destruct IN as (fl & <- & IN). apply FL. exact IN.
    + destruct RD as (f & w & O & B). rewrite O in AN. destruct (box_named v f) as [b|] eqn:E; [pose proof (f_equal fst AN) as AX; cbn [fst] in AX; subst says|contradiction]. destruct (IO f b E) as (_ & _ & _ & LO). constructor; [cbn [legible_from next_place]; split; [word|]; split; [word|exact I]|].
      assert (LF : Forall letter_ok (filter (fun l => bytes_eqb (l_uid l) uid) (b_letters b))) by (apply Forall_forall; intros l IN; apply filter_In in IN; rewrite Forall_forall in LO; apply LO; apply IN).
      clear -LF. induction LF as [|l ls A LF IH]; [constructor|]. cbn [map]. constructor; [|exact IH]. destruct A as (NU & _ & LE).
      cbn [legible_from next_place]. split; [apply digit_atom; exact NU|]. split; [word|]. split; [|exact I]. apply leg_paren. repeat (apply Forall_cons; [first [exact LE | apply digit_atom; exact NU | word]|]). apply Forall_nil.
Qed.
