(* Lemmas about stimuli: what they stand for, and what is made of them *)
From Verif Require Import Base M_Charclass M_Dfasyn M_Compdfa M_Parse M_Blocks S_Dfasyn S_Blocks L_Blocks.
From Verif Require L_Mbox.

Inductive atom := At (t : trans_type) | Ab (T i o : bytes).
Definition add_atom (E : env) (cur : nat) (dest : bytes) (b : cblock) (a : atom) : res cblock :=
  match a with At t => Ok (change_state b cur (push_trans t dest)) | Ab T i o => add_inline_block_transition E b cur T i o dest end.
Definition add_atoms (E : env) (cur : nat) (dest : bytes) (l : list atom) (b : cblock) : res cblock :=
  fold_left (fun r a => let! b := r in add_atom E cur dest b a) l (Ok b).
Fixpoint atoms (fuel : nat) (E : env) (s : stim) : res (list atom) :=
  match s with
  | S_EPSILON => Ok [At TT_EPSILON]
  | S_TOKEN t => Ok [At (TT_TOKEN t)]
  | S_CLASS k => Ok [At (TT_CHARCLASS k)]
  | S_INLINE t i o => Ok [Ab t i o]
  | S_ABBREV size i =>
    match fuel with
    | O => Err E_fuel
    | S f =>
      if negb (size =? table_size (length (n_abbrevs E))) then Err E_ub else
      match nth_error (n_abbrevs E) i with
      | None => Err E_oob
      | Some (_, l) => fold_left (fun r s => let! x := r in let! y := atoms f E s in Ok (x ++ y)) l (Ok [])
      end
    end
  end.
Lemma fold_err : forall (A B : Type) (g : A -> B -> res A) l e, fold_left (fun r s => let! b := r in g b s) l (Err e) = Err e.
Proof. intros A B g. induction l as [|x l IH]; intros e; cbn [fold_left bind]; [reflexivity|apply IH]. Qed.
Lemma fold_cons : forall (A B : Type) (g : A -> B -> res A) x l b b', fold_left (fun r s => let! b := r in g b s) (x :: l) (Ok b) = Ok b' ->
  exists b1, g b x = Ok b1 /\ fold_left (fun r s => let! b := r in g b s) l (Ok b1) = Ok b'.
Proof. intros A B g x l b b' H. cbn [fold_left bind] in H. destruct (g b x) as [b1|e] eqn:E; [eauto|]. rewrite fold_err in H. discriminate. Qed.
Lemma add_atoms_app : forall E cur dest l1 l2 b b1 b2, add_atoms E cur dest l1 b = Ok b1 -> add_atoms E cur dest l2 b1 = Ok b2 -> add_atoms E cur dest (l1 ++ l2) b = Ok b2.
Proof. unfold add_atoms. intros E cur dest l1 l2 b b1 b2 H1 H2. rewrite fold_left_app, H1. exact H2. Qed.
Lemma add_transition_atoms : forall f E cur dest s b b', add_transition f E cur dest b s = Ok b' -> exists l, atoms f E s = Ok l /\ add_atoms E cur dest l b = Ok b'.
Proof.
  induction f as [|f IH]; intros E cur dest s b b' H; destruct s; cbn [add_transition] in H; try discriminate;
    try (eexists; split; [reflexivity|]; unfold add_atoms; cbn [fold_left bind add_atom]; exact H).
  cbn [atoms]. destruct (negb _); [discriminate|]. destruct (nth_error (n_abbrevs E) i) as [[n l]|]; [|discriminate].
  enough (G : forall l b b' acc, fold_left (fun r s => let! b := r in add_transition f E cur dest b s) l (Ok b) = Ok b' ->
    exists l', fold_left (fun r s => let! x := r in let! y := atoms f E s in Ok (x ++ y)) l (Ok acc) = Ok (acc ++ l') /\ add_atoms E cur dest l' b = Ok b').
  { destruct (G l b b' [] H) as (l' & A & B). exists l'. auto. }
  clear l b b' H. induction l as [|x l IHl]; intros b b' acc H.
  - injection H as <-. exists []. rewrite app_nil_r. split; reflexivity.
  - apply fold_cons in H as (b1 & H1 & H2). apply IH in H1 as (l1 & A1 & B1). destruct (IHl _ _ (acc ++ l1) H2) as (l2 & A2 & B2).
    exists (l1 ++ l2). cbn [fold_left bind]. rewrite A1. cbn [bind]. rewrite A2, app_assoc. split; [reflexivity|]. now apply add_atoms_app with b1.
Qed.
Lemma fold_atoms : forall f E l acc r, fold_left (fun r s => let! x := r in let! y := atoms f E s in Ok (x ++ y)) l (Ok acc) = Ok r ->
  (forall s, In s l -> exists l', atoms f E s = Ok l' /\ incl l' r) /\ (forall a, In a r -> In a acc \/ exists s l', In s l /\ atoms f E s = Ok l' /\ In a l') /\ incl acc r.
Proof.
  intros f E. induction l as [|x l IH]; intros acc r H.
  - injection H as <-. split; [intros s []|]. split; [intros a J; now left|apply incl_refl].
  - apply (fold_cons _ _ (fun x s => let! y := atoms f E s in Ok (x ++ y))) in H as (r1 & H1 & H2).
    destruct (atoms f E x) as [l1|] eqn:A; cbn [bind] in H1; [|discriminate]. injection H1 as <-. apply IH in H2 as (P & Q & R).
    split; [|split].
    + intros s [<-|J]; [|now apply P]. exists l1. split; [exact A|]. intros a Ja. apply R. apply in_or_app. now right.
    + intros a J. destruct (Q a J) as [K|(s & l' & K1 & K2)]; [|right; exists s, l'; split; [now right|exact K2]].
      apply in_app_or in K as [K|K]; [now left|]. right. exists x, l1. split; [now left|auto].
    + intros a J. apply R. apply in_or_app. now left.
Qed.
(* All of the alternatives. *)
Definition all_atoms (f : nat) (E : env) (l : list stim) (r : list atom) : Prop :=
  (forall s, In s l -> exists l', atoms f E s = Ok l' /\ incl l' r) /\ (forall a, In a r -> exists s l', In s l /\ atoms f E s = Ok l' /\ In a l').
Lemma add_transitions_atoms : forall E b cur l dest b', add_transitions E b cur l dest = Ok b' -> exists r, all_atoms (S (length (n_abbrevs E))) E l r /\ add_atoms E cur dest r b = Ok b'.
Proof.
  unfold add_transitions. intros E b cur l dest b'. set (f := S (length (n_abbrevs E))). revert b b'. induction l as [|x l IH]; intros b b' H.
  - injection H as <-. exists []. split; [|reflexivity]. split; [intros s []|intros a []].
  - apply fold_cons in H as (b1 & H1 & H2). apply add_transition_atoms in H1 as (l1 & A1 & B1). apply IH in H2 as (l2 & [P Q] & B2).
    exists (l1 ++ l2). split; [|now apply add_atoms_app with b1]. split.
    + intros s [<-|J]; [exists l1; split; [exact A1|apply incl_appl, incl_refl]|]. destruct (P s J) as (l' & A & I). exists l'. split; [exact A|now apply incl_appr].
    + intros a J. apply in_app_or in J as [J|J]; [exists x, l1; split; [now left|auto]|]. destruct (Q a J) as (s & l' & K & L). exists s, l'. split; [now right|exact L].
Qed.

(* what stimuli stand for; C are all classes of the description *)
Definition ext (E E' : env) : Prop := prefix_of (n_abbrevs E) (n_abbrevs E') /\ prefix_of (n_classes E) (n_classes E').
Lemma ext_refl : forall E, ext E E. Proof. intros E. split; apply prefix_refl. Qed.
Lemma ext_trans : forall E F G, ext E F -> ext F G -> ext E G.
Proof. intros E F G [A B] [C D]. split; eapply prefix_trans; eassumption. Qed.
Section Classes.
Context (C : list char_class).
Definition repr (a : one) (x : atom) : Prop :=
  match a, x with
  | O_nothing, At TT_EPSILON => True
  | O_token t, At (TT_TOKEN u) => t = u
  | O_char k, At (TT_CHARCLASS i) => nth_error C i = Some k
  | O_block T i o, Ab T' i' o' => T = T' /\ i = i' /\ o = o'
  | _, _ => False
  end.
Definition good (E : env) (ds : list decl) (x : stimulus) (s : stim) : Prop :=
  forall E' f l, ext E E' -> prefix_of (n_classes E') C -> atoms f E' s = Ok l ->
    (forall a', In a' l -> exists a, stands_for ds x a /\ repr a a') /\ (forall a, stands_for ds x a -> exists a', In a' l /\ repr a a').
Definition good_alts (E : env) (ds : list decl) (alts : list stimulus) (l : list stim) : Prop :=
  (forall s, In s l -> exists x, In x alts /\ good E ds x s) /\ (forall x, In x alts -> exists s, In s l /\ good E ds x s).
Lemma good_mono : forall E E' ds x s, ext E E' -> good E ds x s -> good E' ds x s.
Proof. intros E E' ds x s X G E1 f l X1. apply G. now apply ext_trans with E'. Qed.
Lemma good_alts_mono : forall E E' ds alts l, ext E E' -> good_alts E ds alts l -> good_alts E' ds alts l.
Proof.
  intros E E' ds alts l X [A B]. split; [intros s J; destruct (A s J) as (x & K & G)|intros x J; destruct (B x J) as (s & K & G)];
    [exists x|exists s]; (split; [exact K|]); now apply good_mono with E.
Qed.
Definition names_ok (E : env) (ds : list decl) : Prop :=
  n_tokens E = tokens_in ds /\ NoDup (n_tokens E) /\
  forall s, match lookup_abbrev E s with
    | Some i => exists before alts l, abbrev_at ds s before alts /\ nth_error (n_abbrevs E) i = Some (s, l) /\ good_alts E before alts l
    | None => forall alts, ~ In (D_abbrev s alts) ds
    end.
(* More classes were read. *)
Definition grown (E E' : env) : Prop := n_blocks E' = n_blocks E /\ n_tokens E' = n_tokens E /\ n_abbrevs E' = n_abbrevs E /\ prefix_of (n_classes E) (n_classes E').
Lemma grown_refl : forall E, grown E E. Proof. intros E. repeat split. apply prefix_refl. Qed.
Lemma grown_trans : forall E F G, grown E F -> grown F G -> grown E G.
Proof. intros E F G (A & B & D & H) (A' & B' & D' & H'). repeat split; try congruence. eapply prefix_trans; eassumption. Qed.
Lemma grown_ext : forall E F, grown E F -> ext E F.
Proof. intros E F (_ & _ & D & H). split; [rewrite D; apply prefix_refl|exact H]. Qed.
Lemma names_ok_mono : forall E E' ds, grown E E' -> names_ok E ds -> names_ok E' ds.
Proof.
  intros E E' ds X (A & B & H). pose proof (grown_ext _ _ X) as Y. destruct X as (_ & X1 & X2 & _). split; [congruence|]. split; [congruence|].
  intros s. specialize (H s). unfold lookup_abbrev in *. rewrite X2. destruct (option_map _ _) as [i|]; [|exact H].
  destruct H as (before & alts & l & H1 & H2 & H3). exists before, alts, l. split; [exact H1|]. split; [exact H2|]. now apply good_alts_mono with E.
Qed.
Lemma last_unique : forall (A : Type) (P : A -> Prop) b1 b2 r1 r2 x y, P x -> P y -> (forall z, In z r1 -> ~ P z) -> (forall z, In z r2 -> ~ P z) ->
  b1 ++ x :: r1 = b2 ++ y :: r2 -> b1 = b2 /\ x = y /\ r1 = r2.
Proof.
  intros A P. induction b1 as [|z b1 IH]; intros [|w b2] r1 r2 x y Px Py R1 R2 E; cbn [app] in E; injection E as E1 E2.
  - auto.
  - destruct (R1 y); [|exact Py]. rewrite E2. apply in_or_app. right. now left.
  - destruct (R2 x); [|exact Px]. rewrite <- E2. apply in_or_app. right. now left.
  - subst w. destruct (IH b2 r1 r2 x y) as (-> & -> & ->); auto.
Qed.
Lemma abbrev_unique : forall ds s b1 a1 b2 a2, abbrev_at ds s b1 a1 -> abbrev_at ds s b2 a2 -> b1 = b2 /\ a1 = a2.
Proof.
  intros ds s b1 a1 b2 a2 (r1 & E1 & N1) (r2 & E2 & N2). rewrite E1 in E2.
  destruct (last_unique decl (fun d => exists alts, d = D_abbrev s alts) b1 b2 r1 r2 _ _ (ex_intro _ a1 eq_refl) (ex_intro _ a2 eq_refl)) as (-> & E & _); auto.
  - intros z J (alts & ->). exact (N1 _ J).
  - intros z J (alts & ->). exact (N2 _ J).
  - now injection E as ->.
Qed.
Lemma abbrev_in : forall ds s b a, abbrev_at ds s b a -> In (D_abbrev s a) ds.
Proof. intros ds s b a (r & -> & _). apply in_or_app. right. now left. Qed.
Lemma stimulus_grown : forall E x s E1, stimulus_of E x = Ok (s, E1) -> grown E E1.
Proof.
  intros E x s E1 H. destruct x as [n|T i o|k|]; cbn [stimulus_of] in H.
  - destruct (lookup_abbrev E n); [injection H as <- <-; apply grown_refl|]. destruct (lookup_token E n); [injection H as <- <-; apply grown_refl|discriminate].
  - injection H as <- <-. apply grown_refl.
  - injection H as <- <-. repeat split. now exists [k].
  - injection H as <- <-. apply grown_refl.
Qed.
Lemma good_one : forall E ds x s a' a0, (forall f E', ext E E' -> atoms f E' s = Ok [a']) -> (forall a, stands_for ds x a <-> a = a0) -> (forall E', ext E E' -> prefix_of (n_classes E') C -> repr a0 a') -> good E ds x s.
Proof.
  intros E ds x s a' a0 H S R E' f l X P A. rewrite (H f E' X) in A. injection A as <-. split.
  - intros a [<-|[]]. exists a0. split; [now apply S|now apply R with E'].
  - intros a J. apply S in J as ->. exists a'. split; [now left|now apply R with E'].
Qed.
Lemma stimulus_good : forall E ds x s E1, names_ok E ds -> stimulus_of E x = Ok (s, E1) -> good E1 ds x s.
Proof.
  intros E ds x s E1 (NT & ND & NA) H. destruct x as [n|T i o|k|]; cbn [stimulus_of] in H.
  - pose proof (NA n) as X. destruct (lookup_abbrev E n) as [i|] eqn:L.
    + injection H as <- <-. destruct X as (before & alts & l & AT & NE & GA). intros E' f r X P A.
      destruct f as [|f]; cbn [atoms] in A; [discriminate|]. destruct (negb _); [discriminate|].
      destruct X as [XA XC]. rewrite (prefix_nth _ _ _ _ _ XA NE) in A. apply fold_atoms in A as (F1 & F2 & _).
      assert (X' : ext E E') by now split. destruct GA as [G1 G2]. split.
      * intros a J. destruct (F2 a J) as [[]|(st & l' & K1 & K2 & K3)]. destruct (G1 st K1) as (x & Jx & Gx).
        destruct (Gx E' f l' X' P K2) as [Q _]. destruct (Q a K3) as (a0 & S0 & R0). exists a0. split; [|exact R0]. now apply sf_abbrev with before alts x.
      * intros a S0. inversion S0 as [ | | |? ? b2 alts2 x2 ? AT2 I2 S2|? ? ? NA2 _]; subst; [|destruct (NA2 _ (abbrev_in _ _ _ _ AT))].
        destruct (abbrev_unique _ _ _ _ _ _ AT AT2) as [-> ->]. destruct (G2 x2 I2) as (st & Js & Gs).
        destruct (F1 st Js) as (l' & K2 & K3). destruct (Gs E' f l' X' P K2) as [_ Q]. destruct (Q a S2) as (a' & J & R). exists a'. auto.
    + destruct (lookup_token E n) as [t|] eqn:LT; [|discriminate]. injection H as <- <-.
      unfold lookup_token in LT. apply find_name_some in LT as (_ & y & ET & ->). rewrite Nat.sub_0_r in ET.
      apply (good_one E ds _ _ (At (TT_TOKEN t)) (O_token t)).
      * intros f E' _. now destruct f.
      * intros a. split.
        -- intros S0. inversion S0 as [ | | |? ? b2 alts2 x2 ? AT2 I2 S2|? ? ? NA2 E2]; subst; [destruct (X _ (abbrev_in _ _ _ _ AT2))|].
           f_equal. rewrite <- NT in E2. apply (proj1 (NoDup_nth_error _) ND); [apply nth_error_Some; congruence|congruence].
        -- intros ->. apply sf_token; [exact X|]. now rewrite <- NT.
      * intros E' _ _. reflexivity.
  - injection H as <- <-. apply (good_one E ds _ _ (Ab T i o) (O_block T i o)); [intros f E' _; now destruct f| |intros E' _ _; cbn; auto].
    intros a. split; [intros S0; now inversion S0|intros ->; constructor].
  - injection H as <- <-. apply (good_one _ ds _ _ (At (TT_CHARCLASS (length (n_classes E)))) (O_char k)); [intros f E' _; now destruct f| |].
    + intros a. split; [intros S0; now inversion S0|intros ->; constructor].
    + intros E' [_ X] P. cbn [repr n_classes] in *. apply (prefix_nth _ _ _ _ _ P). apply (prefix_nth _ _ _ _ _ X).
      rewrite nth_error_app2 by lia. now rewrite Nat.sub_diag.
  - injection H as <- <-. apply (good_one E ds _ _ (At TT_EPSILON) O_nothing); [intros f E' _; now destruct f| |intros E' _ _; exact Logic.I].
    intros a. split; [intros S0; now inversion S0|intros ->; constructor].
Qed.
Lemma stimuli_grown : forall l E acc r E1, stimuli_of E l acc = Ok (r, E1) -> grown E E1.
Proof.
  induction l as [|x l IH]; intros E acc r E1 H; cbn [stimuli_of] in H; [injection H as <- <-; apply grown_refl|].
  destruct (stimulus_of E x) as [[s E0]|] eqn:S0; cbn [bind] in H; [|discriminate]. apply grown_trans with E0; [now apply stimulus_grown in S0|now apply IH in H].
Qed.
Lemma stimuli_good : forall l E ds acc pre r E1, names_ok E ds -> good_alts E ds pre acc -> stimuli_of E l acc = Ok (r, E1) -> good_alts E1 ds (pre ++ l) r.
Proof.
  induction l as [|x l IH]; intros E ds acc pre r E1 N G H; cbn [stimuli_of] in H; [injection H as <- <-; now rewrite app_nil_r|].
  destruct (stimulus_of E x) as [[s E0]|] eqn:S0; cbn [bind] in H; [|discriminate]. pose proof (stimulus_grown _ _ _ _ S0) as Gr.
  replace (pre ++ x :: l) with ((pre ++ [x]) ++ l) by (now rewrite <- app_assoc). apply (IH E0 ds (s :: acc) (pre ++ [x]) r E1); [now apply names_ok_mono with E| |exact H].
  pose proof (stimulus_good _ _ _ _ _ N S0) as Gs. destruct (good_alts_mono _ _ _ _ _ (grown_ext _ _ Gr) G) as [G1 G2]. split.
  - intros s' [<-|J]; [exists x; split; [apply in_or_app; right; now left|exact Gs]|]. destruct (G1 s' J) as (y & Jy & Gy). exists y. split; [apply in_or_app; now left|exact Gy].
  - intros y J. apply in_app_or in J as [J|[<-|[]]]; [|exists s; split; [now left|exact Gs]]. destruct (G2 y J) as (s' & Js & Gs'). exists s'. split; [now right|exact Gs'].
Qed.
Lemma all_grown : forall l E r E1, all_stimuli_of E l = Ok (r, E1) -> grown E E1.
Proof.
  induction l as [|x l IH]; intros E r E1 H; cbn [all_stimuli_of] in H; [injection H as <- <-; apply grown_refl|].
  destruct (stimuli_of E x []) as [[s E0]|] eqn:S0; cbn [bind] in H; [|discriminate]. destruct (all_stimuli_of E0 l) as [[ss E2]|] eqn:A; cbn [bind] in H; [|discriminate].
  injection H as <- <-. apply grown_trans with E0; [now apply stimuli_grown in S0|now apply IH in A].
Qed.
Lemma all_good : forall l E ds r E1, names_ok E ds -> all_stimuli_of E l = Ok (r, E1) -> Forall2 (good_alts E1 ds) l r.
Proof.
  induction l as [|x l IH]; intros E ds r E1 N H; cbn [all_stimuli_of] in H; [injection H as <- <-; constructor|].
  destruct (stimuli_of E x []) as [[s E0]|] eqn:S0; cbn [bind] in H; [|discriminate]. destruct (all_stimuli_of E0 l) as [[ss E2]|] eqn:A; cbn [bind] in H; [|discriminate].
  injection H as <- <-. pose proof (stimuli_grown _ _ _ _ _ S0) as G0. constructor.
  - apply good_alts_mono with E0; [apply grown_ext; now apply all_grown in A|]. apply (stimuli_good x E ds [] [] s E0 N); [|exact S0]. split; intros ? [].
  - apply IH with E0; [now apply names_ok_mono with E|exact A].
Qed.

(* declarations *)
Lemma find_shift : forall (A : Type) (f : A -> bytes) n l i, find_name f (S i) l n = option_map S (find_name f i l n).
Proof. intros A f n. induction l as [|x l IH]; intros i; cbn [find_name]; [reflexivity|]. destruct (bytes_eqb _ _); [reflexivity|apply IH]. Qed.
Definition no_name (d : decl) : Prop := match d with D_tokens _ | D_abbrev _ _ => False | _ => True end.
Lemma tokens_app : forall a b, tokens_in (a ++ b) = tokens_in a ++ tokens_in b.
Proof. intros a b. unfold tokens_in. apply flat_map_app. Qed.
Lemma names_ok_other : forall E ds d, no_name d -> names_ok E ds -> names_ok E (ds ++ [d]).
Proof.
  intros E ds d Nd (A & B & H). split; [|split; [exact B|]].
  - rewrite tokens_app, A. destruct d; cbn [tokens_in flat_map app]; try (now rewrite app_nil_r); destruct Nd.
  - intros s. specialize (H s). destruct (lookup_abbrev E s) as [i|].
    + destruct H as (before & alts & l & (after & -> & N) & H2 & H3). exists before, alts, l. split; [|auto]. exists (after ++ [d]). split; [now rewrite <- app_assoc|].
      intros alts' J. apply in_app_or in J as [J|[->|[]]]; [exact (N _ J)|destruct Nd].
    + intros alts J. apply in_app_or in J as [J|[->|[]]]; [exact (H _ J)|destruct Nd].
Qed.
Lemma names_ok_abbrev : forall E ds n alts l E1, names_ok E ds -> stimuli_of E alts [] = Ok (l, E1) ->
  names_ok (Env (n_blocks E1) (n_tokens E1) (n_abbrevs E1 ++ [(n, l)]) (n_classes E1) (n_entries E1) (n_cur E1) (n_evs E1) (n_defs E1)) (ds ++ [D_abbrev n alts]).
Proof.
  intros E ds n alts l E1 N S0. set (E2 := Env _ _ _ _ _ _ _ _). pose proof (stimuli_grown _ _ _ _ _ S0) as Gr.
  assert (GA : good_alts E1 ds alts l). { apply (stimuli_good alts E ds [] [] l E1 N); [|exact S0]. split; intros ? []. }
  pose proof (names_ok_mono _ _ _ Gr N) as (A & B & H).
  assert (X : ext E1 E2). { split; cbn [E2 n_abbrevs n_classes]; [now exists [(n, l)]|apply prefix_refl]. }
  split; [cbn [E2 n_tokens]; now rewrite tokens_app, A, app_nil_r|]. split; [exact B|]. intros s. specialize (H s).
  unfold lookup_abbrev in *. cbn [E2 n_abbrevs]. rewrite rev_app_distr. cbn [rev app find_name fst]. rewrite app_length. cbn [length].
  destruct (bytes_eqb n s) eqn:Es.
  - apply L_Mbox.bytes_eqb_iff in Es as ->. cbn [option_map]. exists ds, alts, l. split; [exists []; split; [reflexivity|intros alts' []]|].
    split; [rewrite nth_error_app2 by lia; now replace (_ - _ - _ - _) with 0 by lia|]. now apply good_alts_mono with E1.
  - assert (Ne : n <> s) by (intros ->; rewrite (proj2 (L_Mbox.bytes_eqb_iff s s) eq_refl) in Es; discriminate).
    rewrite find_shift. destruct (find_name fst 0 (rev (n_abbrevs E1)) s) as [i|]; cbn [option_map] in *.
    + destruct H as (before & alts0 & l0 & (after & -> & Na) & H2 & H3). exists before, alts0, l0. split; [|split].
      * exists (after ++ [D_abbrev n alts]). split; [now rewrite <- app_assoc|]. intros alts' J. apply in_app_or in J as [J|[J|[]]]; [exact (Na _ J)|]. injection J as <- _. now destruct Ne.
      * replace (length (n_abbrevs E1) + 1 - 1 - S i) with (length (n_abbrevs E1) - 1 - i) by lia. apply prefix_nth with (n_abbrevs E1); [now exists [(n, l)]|exact H2].
      * now apply good_alts_mono with E1.
    + intros alts' J. apply in_app_or in J as [J|[J|[]]]; [exact (H _ J)|]. injection J as <- _. now destruct Ne.
Qed.
Lemma add_tokens_ok : forall l E E1, add_tokens E l = Ok E1 -> NoDup (n_tokens E) ->
  NoDup (n_tokens E1) /\ E1 = Env (n_blocks E) (n_tokens E ++ l) (n_abbrevs E) (n_classes E) (n_entries E) (n_cur E) (n_evs E) (n_defs E).
Proof.
  induction l as [|s l IH]; intros E E1 H D; cbn [add_tokens] in H.
  - injection H as <-. split; [exact D|]. rewrite app_nil_r. now destruct E.
  - destruct (lookup_token E s) eqn:L; [discriminate|]. apply IH in H as [H1 ->].
    + split; [exact H1|]. cbn [n_blocks n_tokens n_abbrevs n_classes n_entries n_cur n_evs n_defs]. now rewrite <- app_assoc.
    + cbn [n_tokens]. unfold lookup_token in L. rewrite find_name_none in L. apply (NoDup_Add (a := s) (l := n_tokens E)).
      * rewrite <- (app_nil_r (n_tokens E)) at 1. apply Add_app.
      * split; [exact D|]. intros J. exact (L s J eq_refl).
Qed.
Lemma names_ok_tokens : forall E ds l E1, names_ok E ds -> add_tokens E l = Ok E1 -> names_ok E1 (ds ++ [D_tokens l]).
Proof.
  intros E ds l E1 (A & B & H) T. apply add_tokens_ok in T as [D1 ->]; [|exact B]. split; [|split; [exact D1|]].
  - cbn [n_tokens]. rewrite tokens_app, A. cbn [tokens_in flat_map]. now rewrite app_nil_r.
  - intros s. specialize (H s). unfold lookup_abbrev in *. cbn [n_abbrevs]. destruct (option_map _ _) as [i|].
    + destruct H as (before & alts & r & (after & -> & N) & H2 & H3). exists before, alts, r. split; [|split; [exact H2|]].
      * exists (after ++ [D_tokens l]). split; [now rewrite <- app_assoc|]. intros alts' J. apply in_app_or in J as [J|[J|[]]]; [exact (N _ J)|discriminate].
      * apply good_alts_mono with E; [|exact H3]. split; apply prefix_refl.
    + intros alts J. apply in_app_or in J as [J|[J|[]]]; [exact (H _ J)|discriminate].
Qed.
End Classes.
