(* Lemmas about how a block is made from its lines *)
From Verif Require Import Base M_Charclass M_Dfasyn M_Compdfa M_Parse M_Blocks S_Dfasyn S_Blocks L_Blocks L_Blocks2.
From Verif Require L_Mbox.

Lemma nth_snoc : forall (A : Type) (l : list A) e k x, nth_error (l ++ [e]) k = Some x <-> nth_error l k = Some x \/ (k = length l /\ x = e).
Proof.
  intros A l e k x. destruct (lt_eq_lt_dec k (length l)) as [[L|E]|L].
  - rewrite nth_error_app1 by exact L. split; [now left|]. intros [H|[H _]]; [exact H|lia].
  - subst k. rewrite nth_error_app2, Nat.sub_diag by lia. cbn [nth_error]. split; [intros H; injection H as <-; now right|].
    intros [H|[_ ->]]; [|reflexivity]. assert (length l < length l) by (apply nth_error_Some; congruence). lia.
  - assert (X : nth_error (l ++ [e]) k = None) by (apply nth_error_None; rewrite app_length; cbn [length]; lia). rewrite X.
    split; [discriminate|]. intros [H|[H _]]; [|lia]. assert (k < length l) by (apply nth_error_Some; congruence). lia.
Qed.
(* What was put in: places of internal states (state, line, how many stimuli of the line come before), transitions,
   copies of blocks, tags. *)
Record ghost := Ghost { g_own : list (bytes * line * nat); g_dir : list (bytes * trans_type * bytes); g_inl : list (bytes * (bytes * bytes * bytes) * bytes); g_mk : list (bytes * bytes) }.
Definition gle (G G' : ghost) : Prop := prefix_of (g_own G) (g_own G') /\ incl (g_dir G) (g_dir G') /\ prefix_of (g_inl G) (g_inl G') /\ incl (g_mk G) (g_mk G').
Lemma gle_refl : forall G, gle G G. Proof. intros G. repeat split; try apply prefix_refl; apply incl_refl. Qed.
Lemma gle_trans : forall G H I, gle G H -> gle H I -> gle G I.
Proof. intros G H I (A & B & C & D) (A' & B' & C' & D'). repeat split; try (eapply prefix_trans; eassumption); eapply incl_tran; eassumption. Qed.
Definition present (G : ghost) (p : bytes) (a : atom) (q : bytes) : Prop :=
  match a with At t => In (p, t, q) (g_dir G) | Ab T i o => exists k, nth_error (g_inl G) k = Some (p, (T, i, o), q) end.
Lemma present_mono : forall G G' p a q, gle G G' -> present G p a q -> present G' p a q.
Proof. intros G G' p [t|T i o] q (_ & B & C & _); cbn [present]; [apply B|]. intros [k H]. exists k. now apply prefix_nth with (g_inl G). Qed.

Section Block.
Context (C : list char_class) (ds : list decl) (D : block_decl) (B : list cblock).
Hypothesis (HB : forall m, In m B -> NoDup (names (k_states m))) (Hp : plain ds) (HD : plain_decl (D_block D)).
Definition master (T : bytes) (m : cblock) : Prop := find (fun m => bytes_eqb (k_name m) T) B = Some m.

Lemma stands_plain : forall ds x a, stands_for ds x a -> plain ds -> plain_stimulus x -> match a with O_block T i o => no_hash T /\ no_hash i /\ no_hash o | _ => True end.
Proof.
  clear. intros ds x a H. induction H as [ds|ds k|ds t i o|ds s before alts x a AT I S IH|ds s t N E]; intros P X; try exact Logic.I; [exact X|].
  destruct AT as (after & -> & _). unfold plain in P. rewrite Forall_app, Forall_cons_iff in P. destruct P as (P1 & P2 & _). apply IH; [exact P1|].
  cbn [plain_decl] in P2. rewrite Forall_forall in P2. now apply P2.
Qed.
Lemma line_plain : forall s l, has_line D s l -> no_hash s /\ plain_line l.
Proof. intros s l (sd & J & <- & K). destruct HD as [_ P]. rewrite Forall_forall in P. destruct (P sd J) as [P1 P2]. rewrite Forall_forall in P2. auto. Qed.

Definition inl_edge (inl : list (bytes * (bytes * bytes * bytes) * bytes)) (p : bytes) (t : trans_type) (q : bytes) : Prop :=
  exists k src T i o d, nth_error inl k = Some (src, (T, i, o), d) /\
    ((t = TT_EPSILON /\ p = src /\ q = sub T k i) \/ (t = TT_EPSILON /\ p = sub T k o /\ q = d) \/
     exists m x y, master T m /\ p = sub T k x /\ q = sub T k y /\ has (k_states m) x t y).
Definition inl_tag (inl : list (bytes * (bytes * bytes * bytes) * bytes)) (p g : bytes) : Prop :=
  exists k src T i o d m x, nth_error inl k = Some (src, (T, i, o), d) /\ master T m /\ p = sub T k x /\ tagn (k_states m) x g.
Record shape (b : cblock) (G : ghost) : Prop := {
  sh_nodup : NoDup (names (k_states b));
  sh_count : k_subcount b = S (length (g_own G));
  sh_blocks : k_subblocks b = S (length (g_inl G));
  sh_edges : forall p t q, has (k_states b) p t q <-> In (p, t, q) (g_dir G) \/ inl_edge (g_inl G) p t q;
  sh_tags : forall p g, tagn (k_states b) p g <-> In (p, g) (g_mk G) \/ inl_tag (g_inl G) p g }.
Definition node (own : list (bytes * line * nat)) (n s : bytes) (l : line) (j : nat) : Prop := (j = 0 /\ n = s) \/ exists m, n = internal m /\ nth_error own m = Some (s, l, j).
Definition lands (own : list (bytes * line * nat)) (s : bytes) (l : line) (j : nat) (d : bytes) : Prop :=
  (exists m, d = internal m /\ nth_error own m = Some (s, l, S j)) \/ (S j = length (l_stims l) /\ exists dests, l_target l = To dests /\ In d dests).
Definition vstep (own : list (bytes * line * nat)) (p : bytes) (x : stimulus) (q : bytes) : Prop :=
  exists s l j alts, node own p s l j /\ has_line D s l /\ nth_error (l_stims l) j = Some alts /\ In x alts /\ lands own s l j q.
Record sound (G : ghost) : Prop := {
  so_own : forall m s l j, nth_error (g_own G) m = Some (s, l, j) -> 1 <= j /\ has_line D s l;
  so_dir : forall p t q, In (p, t, q) (g_dir G) -> exists x a, vstep (g_own G) p x q /\ stands_for ds x a /\ repr C a (At t);
  so_inl : forall k p T i o q, nth_error (g_inl G) k = Some (p, (T, i, o), q) -> (exists m, master T m) /\ exists x, vstep (g_own G) p x q /\ stands_for ds x (O_block T i o);
  so_mk : forall p g, In (p, g) (g_mk G) -> exists m s l tags, p = internal m /\ nth_error (g_own G) m = Some (s, l, length (l_stims l)) /\ has_line D s l /\ l_target l = Marked tags /\ In g tags }.
Lemma vstep_mono : forall own own' p x q, prefix_of own own' -> vstep own p x q -> vstep own' p x q.
Proof.
  intros own own' p x q P (s & l & j & alts & A & H1 & H2 & H3 & L). exists s, l, j, alts.
  assert (Mo : forall n j, (exists m, n = internal m /\ nth_error own m = Some (s, l, j)) -> exists m, n = internal m /\ nth_error own' m = Some (s, l, j)).
  { intros n j0 (m & -> & E). exists m. split; [reflexivity|]. now apply prefix_nth with own. }
  split; [destruct A as [A|A]; [now left|right; auto]|]. repeat (split; [assumption|]). destruct L as [L|L]; [left; auto|now right].
Qed.
Lemma vstep_plain : forall own p x q, vstep own p x q -> plain_stimulus x.
Proof.
  intros own p x q (s & l & j & alts & _ & H & E & I & _). apply line_plain in H as [_ [H _]]. rewrite Forall_forall in H.
  specialize (H _ (nth_error_In _ _ E)). rewrite Forall_forall in H. now apply H.
Qed.
Lemma so_hash : forall G k p T i o q, sound G -> nth_error (g_inl G) k = Some (p, (T, i, o), q) -> no_hash T /\ no_hash i /\ no_hash o.
Proof. intros G k p T i o q S E. destruct (so_inl _ S _ _ _ _ _ _ E) as (_ & x & V & F). apply (stands_plain _ _ _ F Hp). now apply vstep_plain in V. Qed.

Lemma inl_edge_snoc : forall inl src T i o d p t q, inl_edge (inl ++ [(src, (T, i, o), d)]) p t q <-> inl_edge inl p t q \/
  (t = TT_EPSILON /\ p = src /\ q = sub T (length inl) i) \/ (t = TT_EPSILON /\ p = sub T (length inl) o /\ q = d) \/
  exists m x y, master T m /\ p = sub T (length inl) x /\ q = sub T (length inl) y /\ has (k_states m) x t y.
Proof.
  intros inl src T i o d p t q. split.
  - intros (k & src' & T' & i' & o' & d' & E & H). apply nth_snoc in E as [E|[-> E]].
    + left. now exists k, src', T', i', o', d'.
    + injection E as -> -> -> -> ->. now right.
  - intros [(k & src' & T' & i' & o' & d' & E & H)|H].
    + exists k, src', T', i', o', d'. split; [apply nth_snoc; now left|exact H].
    + exists (length inl), src, T, i, o, d. split; [apply nth_snoc; now right|exact H].
Qed.
Lemma inl_tag_snoc : forall inl src T i o d p g, inl_tag (inl ++ [(src, (T, i, o), d)]) p g <-> inl_tag inl p g \/
  exists m x, master T m /\ p = sub T (length inl) x /\ tagn (k_states m) x g.
Proof.
  intros inl src T i o d p g. split.
  - intros (k & src' & T' & i' & o' & d' & m & x & E & H). apply nth_snoc in E as [E|[-> E]].
    + left. now exists k, src', T', i', o', d', m, x.
    + injection E as -> -> -> -> ->. right. now exists m, x.
  - intros [(k & src' & T' & i' & o' & d' & m & x & E & H)|(m & x & H)].
    + exists k, src', T', i', o', d', m, x. split; [apply nth_snoc; now left|exact H].
    + exists (length inl), src, T, i, o, d, m, x. split; [apply nth_snoc; now right|exact H].
Qed.

(* What one step of making a block does. *)
Definition step (b b' : cblock) (G G' : ghost) : Prop := gle G G' /\ shape b' G' /\ sound G' /\ prefix_of (names (k_states b)) (names (k_states b')) /\ k_name b' = k_name b.
Lemma step_refl : forall b G, shape b G -> sound G -> step b b G G.
Proof. intros b G H S. split; [apply gle_refl|]. split; [exact H|]. split; [exact S|]. split; [apply prefix_refl|reflexivity]. Qed.
Lemma step_trans : forall b1 b2 b3 G1 G2 G3, step b1 b2 G1 G2 -> step b2 b3 G2 G3 -> step b1 b3 G1 G3.
Proof. intros b1 b2 b3 G1 G2 G3 (A & _ & _ & P & K) (A' & H & S & P' & K'). split; [now apply gle_trans with G2|]. split; [exact H|]. split; [exact S|]. split; [now apply prefix_trans with (names (k_states b2))|congruence]. Qed.

Lemma add_atom_ok : forall E cur dest b a b' G src x a0, n_blocks E = B -> shape b G -> sound G -> name_at b cur src ->
  vstep (g_own G) src x dest -> stands_for ds x a0 -> repr C a0 a -> add_atom E cur dest b a = Ok b' ->
  exists G', step b b' G G' /\ g_own G' = g_own G /\ present G' src a dest.
Proof.
  intros E cur dest b a b' G src x a0 EB Sh So A V F R H. destruct a as [t|T i o]; cbn [add_atom] in H.
  - injection H as <-. destruct (push_spec b cur src t dest _ (sh_nodup _ _ Sh) A eq_refl) as (N & H1 & T1 & K1 & K2 & K3).
    exists (Ghost (g_own G) (g_dir G ++ [(src, t, dest)]) (g_inl G) (g_mk G)). split; [|split; [reflexivity|cbn [present g_dir]; apply in_or_app; right; now left]].
    split; [|split; [|split]].
    + repeat split; cbn [g_own g_dir g_inl g_mk]; try apply prefix_refl; try apply incl_refl. apply incl_appl, incl_refl.
    + constructor; cbn [g_own g_dir g_inl g_mk].
      * rewrite N. apply Sh.
      * rewrite K2. apply Sh.
      * rewrite K3. apply Sh.
      * intros p t' q. rewrite H1, (sh_edges _ _ Sh), in_app_iff. cbn [In]. intuition congruence.
      * intros p g. rewrite T1. apply Sh.
    + destruct So as [S1 S2 S3 S4]. constructor; cbn [g_own g_dir g_inl g_mk]; auto.
      intros p t' q J. apply in_app_or in J as [J|[J|[]]]; [now apply S2|]. injection J as <- <- <-. eauto.
    + rewrite N. split; [apply prefix_refl|exact K1].
  - unfold add_inline_block_transition in H. rewrite (sh_blocks _ _ Sh) in H. set (k := length (g_inl G)) in *.
    change (T ++ HASH :: decimal (S k)) with (instname T k) in H. set (b0 := Cblock _ _ _ _) in H.
    destruct (instantiate_block E b0 T (instname T k)) as [b1|] eqn:I; cbn [bind] in H; [|discriminate].
    destruct (in_instance (instname T k) i) as [ni|] eqn:Ni; cbn [bind] in H; [|discriminate]. apply in_instance_ok in Ni as ->.
    destruct (in_instance (instname T k) o) as [no|] eqn:No; cbn [bind] in H; [|discriminate]. apply in_instance_ok in No as ->.
    change (within (instname T k) i) with (sub T k i) in H. change (within (instname T k) o) with (sub T k o) in H.
    destruct (lookup_state b1 (sub T k o)) as [b2 oi] eqn:L. injection H as <-.
    destruct a0 as [ | | |T' i' o']; cbn [repr] in R; try (destruct R; fail). destruct R as (-> & -> & ->).
    pose proof (stands_plain _ _ _ F Hp (vstep_plain _ _ _ _ V)) as (HT & Hi & Ho).
    assert (exists m, master T m /\ copy_states (length (k_states m)) (Some (k_states m)) (instname T k) 0 b0 = Ok b1) as (m & Hm & Cp).
    { unfold instantiate_block in I. rewrite EB in I. unfold master. destruct (find _ B) as [m|]; [eauto|].
      destruct (bytes_eqb (k_name b0) T); [|discriminate]. exfalso. apply copy_self in I; [exact I|apply Sh|intros; lia|].
      intros X. apply name_at_state in A as (s & A & _). cbn [b0 k_states] in X. rewrite X in A. destruct cur; discriminate. }
    assert (Dm : NoDup (names (k_states m))) by (apply HB; now apply find_some in Hm).
    destruct (copy_states_spec (length (k_states m)) (k_states m) (instname T k) 0 b0 b1 (sh_nodup _ _ Sh) Dm) as (D1 & P1 & H1 & T1 & K1 & K2 & K3); [|exact Cp|].
    { intros y g j s _ _ -> J. change (tagn (k_states b) (sub T k (c_name s)) g) in J. apply (sh_tags _ _ Sh) in J as [J|J].
      - apply (so_mk _ So) in J as (m' & _ & _ & _ & X & _). now apply (internal_sub m' T k (c_name s) HT).
      - destruct J as (k' & src' & T' & i' & o' & d' & m' & x' & E' & _ & X & _). pose proof (so_hash _ _ _ _ _ _ _ So E') as (HT' & _).
        apply sub_inj in X as (_ & <- & _); auto. assert (k < length (g_inl G)) by (apply nth_error_Some; congruence). unfold k in *. lia. }
    cbn [skipn] in H1, T1. change (k_states b0) with (k_states b) in *.
    destruct (lookup_spec _ _ _ _ D1 L) as (D2 & A2 & P2 & I2 & H2 & T2 & K4 & K5 & K6).
    assert (A' : name_at b2 cur src). { apply name_at_mono with b1; [exact P2|]. apply name_at_mono with b; [exact P1|exact A]. }
    destruct (push_spec b2 cur src TT_EPSILON (sub T k i) _ D2 A' eq_refl) as (N3 & H3 & T3 & K7 & K8 & K9).
    set (b3 := change_state b2 cur _) in *.
    assert (A3 : name_at b3 oi (sub T k o)) by (unfold name_at; rewrite N3; exact A2).
    assert (D3 : NoDup (names (k_states b3))) by (rewrite N3; exact D2).
    destruct (push_spec b3 oi (sub T k o) TT_EPSILON dest _ D3 A3 eq_refl) as (N4 & H4 & T4 & K10 & K11 & K12).
    exists (Ghost (g_own G) (g_dir G) (g_inl G ++ [(src, (T, i, o), dest)]) (g_mk G)). split; [|split; [reflexivity|]].
    2:{ cbn [present g_inl]. exists k. apply nth_snoc. now right. }
    split; [|split; [|split]].
    + repeat split; cbn [g_own g_dir g_inl g_mk]; try apply prefix_refl; try apply incl_refl. now exists [(src, (T, i, o), dest)].
    + constructor; cbn [g_own g_dir g_inl g_mk].
      * rewrite N4, N3. exact D2.
      * rewrite K11, K8, K5, K2. apply Sh.
      * rewrite K12, K9, K6, K3, app_length. cbn [b0 k_subblocks length]. rewrite Nat.add_1_r. apply f_equal. reflexivity || apply Sh.
      * intros p t q. rewrite H4, H3, H2, H1, (sh_edges _ _ Sh), inl_edge_snoc. fold k. split.
        -- intros [[[[J|J]|(x' & y & -> & -> & J)]|J]|J]; [now left|right; now left|right; right; right; right; exists m, x', y; auto| |].
           ++ injection J as -> -> ->. right. right. left. auto.
           ++ injection J as -> -> ->. right. right. right. left. auto.
        -- intros [J|[J|[(-> & -> & ->)|[(-> & -> & ->)|(m' & x' & y & Hm' & -> & -> & J)]]]]; [left; left; left; now left|left; left; left; now right|left; right; reflexivity|right; reflexivity|].
           unfold master in *. rewrite Hm in Hm'. injection Hm' as <-. left. left. right. exists x', y. auto.
      * intros p g. rewrite T4, T3, T2, T1, (sh_tags _ _ Sh), inl_tag_snoc. fold k. split.
        -- intros [[J|J]|(x' & -> & J)]; [now left|right; now left|right; right; exists m, x'; auto].
        -- intros [J|[J|(m' & x' & Hm' & -> & J)]]; [left; now left|left; now right|]. unfold master in *. rewrite Hm in Hm'. injection Hm' as <-. right. exists x'. auto.
    + destruct So as [S1 S2 S3 S4]. constructor; cbn [g_own g_dir g_inl g_mk]; auto.
      intros k' p T' i' o' q J. apply nth_snoc in J as [J|[-> J]]; [now apply S3 in J|]. injection J as -> -> -> -> ->. split; [eauto|]. exists x. auto.
    + rewrite N4, N3. split; [now apply prefix_trans with (names (k_states b1))|]. rewrite K10, K7, K4, K1. reflexivity.
Qed.
Lemma add_atoms_ok : forall E cur dest src l b b' G, n_blocks E = B -> shape b G -> sound G -> name_at b cur src ->
  (forall a, In a l -> exists x a0, vstep (g_own G) src x dest /\ stands_for ds x a0 /\ repr C a0 a) -> add_atoms E cur dest l b = Ok b' ->
  exists G', step b b' G G' /\ g_own G' = g_own G /\ forall a, In a l -> present G' src a dest.
Proof.
  intros E cur dest src. induction l as [|a l IH]; intros b b' G EB Sh So A V H.
  - injection H as <-. exists G. split; [now apply step_refl|]. split; [reflexivity|intros a []].
  - unfold add_atoms in H. apply fold_cons in H as (b1 & H1 & H2). destruct (V a (or_introl eq_refl)) as (x & a0 & V1 & V2 & V3).
    destruct (add_atom_ok _ _ _ _ _ _ _ _ _ _ EB Sh So A V1 V2 V3 H1) as (G1 & St1 & O1 & P1). pose proof St1 as (L1 & Sh1 & So1 & N1 & KN1).
    destruct (IH b1 b' G1 EB Sh1 So1) as (G2 & St2 & O2 & P2); [now apply name_at_mono with b|intros a' J; rewrite O1; apply V; now right|exact H2|].
    exists G2. split; [now apply step_trans with b1 G1|]. split; [congruence|]. intros a' [<-|J]; [|now apply P2].
    destruct St2 as (L2 & _). now apply present_mono with G1.
Qed.
Lemma add_transitions_ok : forall E cur dest src alts st b b' G, n_blocks E = B -> prefix_of (n_classes E) C -> good_alts C E ds alts st -> shape b G -> sound G -> name_at b cur src ->
  (forall x, In x alts -> vstep (g_own G) src x dest) -> add_transitions E b cur st dest = Ok b' ->
  exists G', step b b' G G' /\ g_own G' = g_own G /\ forall x a, In x alts -> stands_for ds x a -> exists a', repr C a a' /\ present G' src a' dest.
Proof.
  intros E cur dest src alts st b b' G EB PC [G1 G2] Sh So A V H. apply add_transitions_atoms in H as (r & [R1 R2] & H).
  destruct (add_atoms_ok E cur dest src r b b' G EB Sh So A) as (G' & St & O & P); [|exact H|].
  - intros a J. destruct (R2 a J) as (s & l' & Js & As & Ja). destruct (G1 s Js) as (x & Jx & Gx).
    destruct (Gx E _ l' (ext_refl _) PC As) as [Q _]. destruct (Q a Ja) as (a0 & F & R). exists x, a0. auto.
  - exists G'. split; [exact St|]. split; [exact O|]. intros x a Jx F. destruct (G2 x Jx) as (s & Js & Gs). destruct (R1 s Js) as (l' & As & Ia).
    destruct (Gs E _ l' (ext_refl _) PC As) as [_ Q]. destruct (Q a F) as (a' & Ja & R). exists a'. split; [exact R|]. apply P. now apply Ia.
Qed.

(* A line is there, from some place on. *)
Definition leads (G : ghost) (p : bytes) (alts : list stimulus) (q : bytes) : Prop :=
  forall x a, In x alts -> stands_for ds x a -> exists a', repr C a a' /\ present G p a' q.
Inductive chain (G : ghost) : bytes -> list (list stimulus) -> target -> Prop :=
| ch_to p alts dests : (forall d, In d dests -> leads G p alts d) -> chain G p [alts] (To dests)
| ch_mark p alts tags q : leads G p alts q -> (forall g, In g tags -> In (q, g) (g_mk G)) -> chain G p [alts] (Marked tags)
| ch_more p alts q rest t : leads G p alts q -> rest <> [] -> chain G q rest t -> chain G p (alts :: rest) t.
Lemma leads_mono : forall G G' p alts q, gle G G' -> leads G p alts q -> leads G' p alts q.
Proof. intros G G' p alts q L H x a J F. destruct (H x a J F) as (a' & R & P). exists a'. split; [exact R|now apply present_mono with G]. Qed.
Lemma chain_mono : forall G G' p l t, gle G G' -> chain G p l t -> chain G' p l t.
Proof.
  intros G G' p l t L H. induction H as [p alts dests H|p alts tags q H M|p alts q rest t H Ne _ IH].
  - constructor. intros d J. now apply leads_mono with G; [|apply H].
  - apply ch_mark with q; [now apply leads_mono with G|]. intros g J. apply L. now apply M.
  - apply ch_more with q; [now apply leads_mono with G|exact Ne|exact IH].
Qed.
Lemma internal_ok : forall E b cur src s l j alts st b' i G, n_blocks E = B -> prefix_of (n_classes E) C -> good_alts C E ds alts st -> shape b G -> sound G -> name_at b cur src ->
  has_line D s l -> node (g_own G) src s l j -> nth_error (l_stims l) j = Some alts -> add_transitions_to_internal E b cur st = Ok (b', i) ->
  exists G', step b b' G G' /\ nth_error (g_own G') (length (g_own G)) = Some (s, l, S j) /\ name_at b' i (internal (length (g_own G))) /\ leads G' src alts (internal (length (g_own G))).
Proof.
  intros E b cur src s l j alts st b' i G EB PC GA Sh So A HL Nd Ej H. unfold add_transitions_to_internal in H. rewrite (sh_count _ _ Sh) in H.
  set (m := length (g_own G)) in *. change (HASH :: decimal (S m)) with (internal m) in H. set (b0 := Cblock _ _ _ _) in H.
  destruct (lookup_state b0 (internal m)) as [b1 i1] eqn:L. destruct (add_transitions E b1 cur st (internal m)) as [b2|] eqn:T; cbn [bind] in H; [|discriminate]. injection H as <- <-.
  destruct (lookup_spec _ _ _ _ (sh_nodup _ _ Sh : NoDup (names (k_states b0))) L) as (D1 & A1 & P1 & _ & H1 & T1 & K1 & K2 & K3).
  set (G1 := Ghost (g_own G ++ [(s, l, S j)]) (g_dir G) (g_inl G) (g_mk G)).
  assert (PO : prefix_of (g_own G) (g_own G1)) by (cbn [G1 g_own]; now exists [(s, l, S j)]).
  assert (Sh1 : shape b1 G1).
  { constructor; cbn [G1 g_own g_dir g_inl g_mk]; auto.
    - rewrite K2, app_length. cbn [b0 k_subcount length]. unfold m. lia.
    - rewrite K3. apply Sh.
    - intros p t q. rewrite H1. apply Sh.
    - intros p g. rewrite T1. apply Sh. }
  assert (So1 : sound G1).
  { destruct So as [S1 S2 S3 S4]. constructor; cbn [G1 g_dir g_inl g_mk].
    - intros m' s' l' j' E'. cbn [G1 g_own] in E'. apply nth_snoc in E' as [E'|[_ E']]; [now apply S1 in E'|]. injection E' as -> -> ->. split; [lia|exact HL].
    - intros p t q J. destruct (S2 _ _ _ J) as (x & a & V & X). exists x, a. split; [now apply vstep_mono with (g_own G)|exact X].
    - intros k p T' i' o' q J. destruct (S3 _ _ _ _ _ _ J) as (Q & x & V & X). split; [exact Q|]. exists x. split; [now apply vstep_mono with (g_own G)|exact X].
    - intros p g J. destruct (S4 _ _ J) as (m' & s' & l' & tags & X1 & X2 & X3). exists m', s', l', tags. split; [exact X1|]. split; [now apply prefix_nth with (g_own G)|exact X3]. }
  assert (Em : nth_error (g_own G1) m = Some (s, l, S j)) by (cbn [G1 g_own]; apply nth_snoc; now right).
  destruct (add_transitions_ok E cur (internal m) src alts st b1 b2 G1 EB PC GA Sh1 So1) as (G2 & St & O & P); [now apply name_at_mono with b| |exact T|].
  - intros x J. exists s, l, j, alts. split; [|repeat split; auto; left; exists m; auto]. destruct Nd as [Nd|(m' & -> & E')]; [now left|right]. exists m'. split; [reflexivity|]. now apply prefix_nth with (g_own G).
  - exists G2. destruct St as (L2 & Sh2 & So2 & P2 & KN2). split; [|split; [rewrite O; exact Em|split]].
    + split; [|split; [exact Sh2|split; [exact So2|split; [now apply prefix_trans with (names (k_states b1))|rewrite KN2, K1; reflexivity]]]]. apply gle_trans with G1; [|exact L2].
      repeat split; cbn [G1 g_dir g_inl g_mk]; try apply prefix_refl; try apply incl_refl. exact PO.
    + now apply name_at_mono with b1.
    + intros x a J F. exact (P x a J F).
Qed.
Lemma add_line_ok : forall E s l, n_blocks E = B -> prefix_of (n_classes E) C -> has_line D s l -> forall rest ss, Forall2 (good_alts C E ds) rest ss ->
  forall pre b b' G cur src, l_stims l = pre ++ rest -> shape b G -> sound G -> name_at b cur src -> node (g_own G) src s l (length pre) ->
  add_line E b cur ss (l_target l) = Ok b' -> exists G', step b b' G G' /\ chain G' src rest (l_target l).
Proof.
  intros E s l EB PC HL rest ss GA. induction GA as [|alts st rest ss Ga GA IH]; intros pre b b' G cur src El Sh So A Nd H; [discriminate|].
  assert (Ej : nth_error (l_stims l) (length pre) = Some alts) by (rewrite El, nth_error_app2, Nat.sub_diag by lia; reflexivity).
  destruct ss as [|st2 ss2].
  - inversion GA. subst rest. cbn [add_line] in H. assert (Ln : S (length pre) = length (l_stims l)) by (rewrite El, app_length; cbn [length]; lia).
    destruct (l_target l) as [dests|tags] eqn:Et.
    + enough (X : forall ds' b G, incl ds' dests -> shape b G -> sound G -> name_at b cur src -> node (g_own G) src s l (length pre) ->
        fold_left (fun r d => let! b := r in add_transitions E b cur st d) ds' (Ok b) = Ok b' -> exists G', step b b' G G' /\ forall d, In d ds' -> leads G' src alts d).
      { destruct (X dests b G (incl_refl _) Sh So A Nd H) as (G' & St & L). exists G'. split; [exact St|]. now constructor. }
      clear b G Sh So A Nd H. induction ds' as [|d ds' IHd]; intros b G I Sh So A Nd H.
      * injection H as <-. exists G. split; [now apply step_refl|intros d []].
      * apply fold_cons in H as (b1 & H1 & H2).
        destruct (add_transitions_ok E cur d src alts st b b1 G EB PC Ga Sh So A) as (G1 & St1 & O1 & P1); [|exact H1|].
        { intros x J. exists s, l, (length pre), alts. repeat split; auto. right. split; [exact Ln|]. exists dests. split; [exact Et|]. apply I. now left. }
        pose proof St1 as (L1 & Sh1 & So1 & N1 & KN1). destruct (IHd b1 G1) as (G2 & St2 & P2); auto.
        { intros z J. apply I. now right. } { now apply name_at_mono with b. } { now rewrite O1. }
        exists G2. split; [now apply step_trans with b1 G1|]. intros d' [<-|J]; [|now apply P2]. apply leads_mono with G1; [apply St2|exact P1].
    + destruct (add_transitions_to_internal E b cur st) as [[b1 i]|] eqn:T; cbn [bind] in H; [|discriminate]. injection H as <-.
      destruct (internal_ok E b cur src s l (length pre) alts st b1 i G EB PC Ga Sh So A HL Nd Ej T) as (G1 & St1 & Em & A1 & L1).
      pose proof St1 as (Le1 & Sh1 & So1 & N1 & KN1). set (m := length (g_own G)) in *.
      destruct (pushtags_spec b1 i (internal m) (rev tags) _ (sh_nodup _ _ Sh1) A1 eq_refl) as (N2 & H2 & T2 & K1 & K2 & K3).
      set (b2 := change_state b1 i _) in *. set (G2 := Ghost (g_own G1) (g_dir G1) (g_inl G1) (g_mk G1 ++ map (fun g => (internal m, g)) tags)).
      assert (Le2 : gle G1 G2) by (repeat split; cbn [G2 g_own g_dir g_inl g_mk]; try apply prefix_refl; try apply incl_refl; apply incl_appl, incl_refl).
      exists G2. split; [apply step_trans with b1 G1; [exact St1|]; split; [exact Le2|split; [|split]]|].
      * constructor; cbn [G2 g_own g_dir g_inl g_mk].
        -- rewrite N2. apply Sh1.
        -- rewrite K2. apply Sh1.
        -- rewrite K3. apply Sh1.
        -- intros p t q. rewrite H2. apply Sh1.
        -- intros p g. rewrite T2, (sh_tags _ _ Sh1), in_app_iff, in_map_iff, <- in_rev. split.
           ++ intros [[J|J]|[-> J]]; [left; now left|now right|left; right; exists g; auto].
           ++ intros [[J|(g' & X & J)]|J]; [left; now left|injection X as <- <-; right; auto|left; now right].
      * destruct So1 as [S1 S2 S3 S4]. constructor; cbn [G2 g_own g_dir g_inl g_mk]; auto.
        intros p g J. apply in_app_or in J as [J|J]; [now apply S4 in J|]. apply in_map_iff in J as (g' & X & J). injection X as <- <-.
        exists m, s, l, tags. rewrite <- Ln. auto.
      * rewrite N2. split; [apply prefix_refl|exact K1].
      * apply ch_mark with (internal m); [now apply leads_mono with G1|]. intros g J. cbn [G2 g_mk]. apply in_or_app. right. now apply in_map with (f := fun g => (internal m, g)).
  - change (add_line E b cur (st :: st2 :: ss2) (l_target l)) with (let! (b1, i) := add_transitions_to_internal E b cur st in add_line E b1 i (st2 :: ss2) (l_target l)) in H.
    destruct (add_transitions_to_internal E b cur st) as [[b1 i]|] eqn:T; cbn [bind] in H; [|discriminate].
    destruct (internal_ok E b cur src s l (length pre) alts st b1 i G EB PC Ga Sh So A HL Nd Ej T) as (G1 & St1 & Em & A1 & L1).
    pose proof St1 as (Le1 & Sh1 & So1 & N1 & KN1). set (m := length (g_own G)) in *.
    destruct (IH (pre ++ [alts]) b1 b' G1 i (internal m)) as (G2 & St2 & Ch2); auto.
    + rewrite <- app_assoc. exact El.
    + right. exists m. split; [reflexivity|]. rewrite app_length. cbn [length]. rewrite Nat.add_1_r. exact Em.
    + exists G2. split; [now apply step_trans with b1 G1|]. apply ch_more with (internal m); [apply leads_mono with G1; [apply St2|exact L1]| |exact Ch2].
      inversion GA; subst; discriminate.
Qed.
Definition done (G : ghost) (s : bytes) (l : line) : Prop := chain G s (l_stims l) (l_target l).
Lemma done_mono : forall G G' s l, gle G G' -> done G s l -> done G' s l. Proof. intros G G' s l L. now apply chain_mono. Qed.
Lemma add_lines_grown : forall ls E b cur b' E', add_lines E b cur ls = Ok (b', E') -> grown E E'.
Proof.
  induction ls as [|l ls IH]; intros E b cur b' E' H; cbn [add_lines] in H; [injection H as <- <-; apply grown_refl|].
  destruct (all_stimuli_of E (l_stims l)) as [[ss E1]|] eqn:A; cbn [bind] in H; [|discriminate]. destruct (add_line _ _ _ _ _) as [b1|]; cbn [bind] in H; [|discriminate].
  apply grown_trans with E1; [now apply all_grown in A|now apply IH in H].
Qed.
Lemma add_lines_ok : forall ls s E b cur b' E' G, (forall l, In l ls -> has_line D s l) -> n_blocks E = B -> names_ok C E ds -> prefix_of (n_classes E') C ->
  shape b G -> sound G -> name_at b cur s -> add_lines E b cur ls = Ok (b', E') -> exists G', step b b' G G' /\ forall l, In l ls -> done G' s l.
Proof.
  induction ls as [|l ls IH]; intros s E b cur b' E' G HL EB N PC Sh So A H; cbn [add_lines] in H.
  - injection H as <- <-. exists G. split; [now apply step_refl|intros l []].
  - destruct (all_stimuli_of E (l_stims l)) as [[ss E1]|] eqn:As; cbn [bind] in H; [|discriminate].
    destruct (add_line E1 b cur ss (l_target l)) as [b1|] eqn:Al; cbn [bind] in H; [|discriminate].
    pose proof (all_grown _ _ _ _ As) as Gr. pose proof (add_lines_grown _ _ _ _ _ _ H) as Gr2.
    assert (PC1 : prefix_of (n_classes E1) C) by (apply prefix_trans with (n_classes E'); [apply Gr2|exact PC]).
    assert (EB1 : n_blocks E1 = B) by (destruct Gr; congruence).
    destruct (add_line_ok E1 s l EB1 PC1 (HL l (or_introl eq_refl)) (l_stims l) ss (all_good _ _ _ _ _ _ N As) [] b b1 G cur s eq_refl Sh So A (or_introl (conj eq_refl eq_refl)) Al) as (G1 & St1 & Ch).
    pose proof St1 as (Le1 & Sh1 & So1 & N1 & KN1).
    destruct (IH s E1 b1 cur b' E' G1) as (G2 & St2 & Dn); auto.
    + intros l' J. apply HL. now right.
    + now apply names_ok_mono with E.
    + now apply name_at_mono with b.
    + exists G2. split; [now apply step_trans with b1 G1|]. intros l' [<-|J]; [|now apply Dn]. apply done_mono with G1; [apply St2|exact Ch].
Qed.
Lemma add_states_grown : forall ss E b b' E', add_states E b ss = Ok (b', E') -> grown E E'.
Proof.
  induction ss as [|s ss IH]; intros E b b' E' H; cbn [add_states] in H; [injection H as <- <-; apply grown_refl|].
  destruct (lookup_state b (s_name s)) as [b1 i]. destruct (add_lines _ _ _ _) as [[b2 E2]|] eqn:A; cbn [bind] in H; [|discriminate].
  apply grown_trans with (set_cur E i (s_entry s)); [repeat split; apply prefix_refl|]. apply grown_trans with E2; [now apply add_lines_grown in A|now apply IH in H].
Qed.
Lemma add_states_ok : forall ss E b b' E' G, incl ss (b_states D) -> n_blocks E = B -> names_ok C E ds -> prefix_of (n_classes E') C ->
  shape b G -> sound G -> add_states E b ss = Ok (b', E') -> exists G', step b b' G G' /\ forall s l, In s ss -> In l (s_lines s) -> done G' (s_name s) l.
Proof.
  induction ss as [|s ss IH]; intros E b b' E' G I EB N PC Sh So H; cbn [add_states] in H.
  - injection H as <- <-. exists G. split; [now apply step_refl|intros s l []].
  - destruct (lookup_state b (s_name s)) as [b1 i] eqn:L. set (E1 := set_cur E i (s_entry s)) in *.
    destruct (add_lines E1 b1 i (s_lines s)) as [[b2 E2]|] eqn:Al; cbn [bind] in H; [|discriminate].
    assert (Gr1 : grown E E1) by (repeat split; apply prefix_refl).
    destruct (lookup_spec _ _ _ _ (sh_nodup _ _ Sh) L) as (D1 & A1 & P1 & _ & H1 & T1 & K1 & K2 & K3).
    assert (Sh1 : shape b1 G).
    { constructor; [exact D1|rewrite K2; apply Sh|rewrite K3; apply Sh|intros p t q; rewrite H1; apply Sh|intros p g; rewrite T1; apply Sh]. }
    pose proof (add_lines_grown _ _ _ _ _ _ Al) as Gr2. pose proof (add_states_grown _ _ _ _ _ H) as Gr3.
    destruct (add_lines_ok (s_lines s) (s_name s) E1 b1 i b2 E2 G) as (G2 & St2 & Dn); auto.
    { intros l J. exists s. split; [apply I; now left|auto]. } { apply prefix_trans with (n_classes E'); [apply Gr3|exact PC]. }
    pose proof St2 as (Le2 & Sh2 & So2 & N2 & KN2).
    destruct (IH E2 b2 b' E' G2) as (G3 & St3 & Dn3); auto.
    { intros z J. apply I. now right. } { destruct Gr2 as [X _]. rewrite X. exact EB. } { apply names_ok_mono with E; [now apply grown_trans with E1|exact N]. }
    exists G3. split.
    + apply step_trans with b1 G; [|now apply step_trans with b2 G2]. split; [apply gle_refl|]. split; [exact Sh1|]. split; [exact So|]. split; [exact P1|exact K1].
    + intros s' l [<-|J] K; [|now apply Dn3]. apply done_mono with G2; [apply St3|now apply Dn].
Qed.
(* states that are only mentioned *)
Lemma fixup_ok : forall b G, shape b G -> shape (fixup_state_refs b) G /\ prefix_of (names (k_states b)) (names (k_states (fixup_state_refs b))) /\
  k_name (fixup_state_refs b) = k_name b /\ forall p t q, has (k_states (fixup_state_refs b)) p t q -> In q (names (k_states (fixup_state_refs b))).
Proof.
  intros b G Sh. unfold fixup_state_refs.
  assert (F1 : forall ts b, shape b G -> let b' := fold_left (fun b (t : trans_type * bytes) => fst (lookup_state b (snd t))) ts b in
    shape b' G /\ prefix_of (names (k_states b)) (names (k_states b')) /\ k_name b' = k_name b /\ forall t q, In (t, q) ts -> In q (names (k_states b'))).
  { induction ts as [|[t q] ts IH]; intros b0 Sh0; cbn [fold_left]; cbv zeta; [split; [exact Sh0|]; split; [apply prefix_refl|]; split; [reflexivity|intros t q []]|].
    destruct (lookup_state b0 q) as [b1 i] eqn:L. destruct (lookup_spec _ _ _ _ (sh_nodup _ _ Sh0) L) as (D1 & A1 & P1 & I1 & H1 & T1 & K1 & K2 & K3).
    assert (Sh1 : shape b1 G).
    { constructor; [exact D1|rewrite K2; apply Sh0|rewrite K3; apply Sh0|intros p t' q'; rewrite H1; apply Sh0|intros p g; rewrite T1; apply Sh0]. }
    destruct (IH b1 Sh1) as (A & P & N & Q). cbn [snd]. rewrite L. cbn [fst]. split; [exact A|]. split; [now apply prefix_trans with (names (k_states b1))|]. split; [congruence|].
    intros t' q' [X|J]; [|now apply Q in J]. injection X as <- <-. apply (prefix_in _ _ _ _ P). apply I1. now right. }
  enough (F2 : forall ss b, shape b G -> let b' := fold_left (fun b s => fold_left (fun b (t : trans_type * bytes) => fst (lookup_state b (snd t))) (c_trans s) b) ss b in
    shape b' G /\ prefix_of (names (k_states b)) (names (k_states b')) /\ k_name b' = k_name b /\ forall p t q, has ss p t q -> In q (names (k_states b'))).
  { destruct (F2 (k_states b) b Sh) as (A & P & N & Q). split; [exact A|]. split; [exact P|]. split; [exact N|]. intros p t q J. apply (Q p t q).
    apply (sh_edges _ _ A) in J. now apply (sh_edges _ _ Sh). }
  induction ss as [|s ss IH]; intros b0 Sh0; cbn [fold_left]; cbv zeta; [split; [exact Sh0|]; split; [apply prefix_refl|]; split; [reflexivity|intros p t q (s & [] & _)]|].
  destruct (F1 (c_trans s) b0 Sh0) as (A & P & N & Q). cbv zeta in *. set (b1 := fold_left _ (c_trans s) b0) in *.
  destruct (IH b1 A) as (A' & P' & N' & Q'). split; [exact A'|]. split; [now apply prefix_trans with (names (k_states b1))|]. split; [congruence|].
  intros p t q (s' & [<-|J] & X & Y); [apply (prefix_in _ _ _ _ P'); now apply Q in Y|]. apply (Q' p t q). exists s'. auto.
Qed.
End Block.
