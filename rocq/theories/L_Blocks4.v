(* Lemmas about the paths through a block and what its lines say *)
From Verif Require Import Base M_Charclass M_Dfasyn M_Compdfa M_Parse M_Blocks S_Dfasyn S_Blocks L_Blocks L_Blocks2 L_Blocks3.

Inductive npath (C : list char_class) (l : list cstate) : bytes -> list symbol -> bytes -> Prop :=
| np_end p : npath C l p [] p
| np_eps p q w r : has l p TT_EPSILON q -> npath C l q w r -> npath C l p w r
| np_read p y s q w r : has l p y q -> fits C y s -> npath C l q w r -> npath C l p (s :: w) r.
Lemma npath_trans : forall C l p u q v r, npath C l p u q -> npath C l q v r -> npath C l p (u ++ v) r.
Proof. intros C l p u q v r H K. induction H as [p|p q w r' E _ IH|p y s q w r' E F _ IH]; [exact K|apply np_eps with q; auto|cbn [app]; apply np_read with y q; auto]. Qed.
Definition does (C : list char_class) (t : trans_type) (y : list symbol) : Prop := (t = TT_EPSILON /\ y = []) \/ exists s, y = [s] /\ fits C t s.
Lemma npath_snoc : forall C l p u q t y r, npath C l p u q -> has l q t r -> does C t y -> npath C l p (u ++ y) r.
Proof.
  intros C l p u q t y r H E D. apply npath_trans with q; [exact H|].
  destruct D as [[-> ->]|(s & -> & F)]; [apply np_eps with r|apply np_read with t r]; auto; constructor.
Qed.
Lemma goes_trans : forall ds b p u q v r, goes ds b p u q -> goes ds b q v r -> goes ds b p (u ++ v) r.
Proof.
  intros ds b p u q v r H K. induction H as [ds b p|ds b p l dests d u u' q HL T I R _ IH]; [exact K|].
  rewrite <- app_assoc. apply goes_on with l dests d; auto.
Qed.
Lemma reads_all_snoc : forall ds l u alts x a y, reads_all ds l u -> In x alts -> stands_for ds x a -> reads ds a y -> reads_all ds (l ++ [alts]) (u ++ y).
Proof.
  intros ds l u alts x a y H I S R. induction H as [ds|ds alts' l x' a' u v I' S' R' _ IH]; cbn [app].
  - rewrite <- (app_nil_r y). apply ra_cons with x a; auto. constructor.
  - rewrite <- app_assoc. apply ra_cons with x' a'; auto.
Qed.
Lemma firstn_S_nth : forall (A : Type) (l : list A) j x, nth_error l j = Some x -> firstn (S j) l = firstn j l ++ [x].
Proof. intros A. induction l as [|y l IH]; intros [|j] x H; cbn [nth_error] in H; try discriminate; [now injection H as ->|]. cbn [firstn app]. f_equal. now apply IH. Qed.

(* The states made of block D, declared after ds, are as the description says. *)
Record meaning (C : list char_class) (ds : list decl) (D : block_decl) (l : list cstate) : Prop := {
  me_goes : forall p w q, no_hash p -> no_hash q -> npath C l p w q -> goes ds D p w q;
  me_sees : forall p w q g, no_hash p -> npath C l p w q -> tagn l q g -> sees ds D p w g;
  me_path : forall p w q, goes ds D p w q -> npath C l p w q;
  me_tag : forall p w g, sees ds D p w g -> exists q, npath C l p w q /\ tagn l q g }.

Section Meaning.
Context (C : list char_class) (ds : list decl) (D : block_decl) (B : list cblock) (b : cblock) (G : ghost).
Hypothesis (Hp : plain ds) (HD : plain_decl (D_block D)) (Sh : shape B b G) (So : sound C ds D B G).
Hypothesis (HM1 : forall T m, master B T m -> exists before D', block_at ds T before D' /\ meaning C before D' (k_states m)).
Hypothesis (HM2 : forall T before D', block_at ds T before D' -> exists m, master B T m /\ meaning C before D' (k_states m)).
Hypothesis (HL : forall s l, has_line D s l -> done C ds G s l).

Lemma repr_reads : forall a t y, repr C a (At t) -> does C t y -> reads ds a y.
Proof.
  intros a t y R [[-> ->]|(s & -> & F)].
  - destruct a; cbn [repr] in R; destruct R. constructor.
  - destruct a as [ |u|k| ], t as [ |u'|k'], s as [x|x]; cbn [repr fits] in *; try (destruct R; fail); try (destruct F; fail).
    + subst. constructor.
    + destruct F as (cc & E & I). rewrite R in E. injection E as <-. now constructor.
Qed.
Definition sem0 (p0 : bytes) (w : list symbol) (q : bytes) : Prop :=
  (no_hash q /\ goes ds D p0 w q) \/
  exists m s l j u v, q = internal m /\ nth_error (g_own G) m = Some (s, l, j) /\ w = u ++ v /\ goes ds D p0 u s /\ reads_all ds (firstn j (l_stims l)) v.
Definition sem (p0 : bytes) (w : list symbol) (q : bytes) : Prop :=
  sem0 p0 w q \/
  exists k src T i o d m x u v, nth_error (g_inl G) k = Some (src, (T, i, o), d) /\ master B T m /\ q = sub T k x /\ w = u ++ v /\ sem0 p0 u src /\ npath C (k_states m) i v x.
Lemma hash_of : forall k p T i o q, nth_error (g_inl G) k = Some (p, (T, i, o), q) -> no_hash T /\ no_hash i /\ no_hash o.
Proof. intros k p T i o q. exact (so_hash C ds D B Hp HD G k p T i o q So). Qed.
Lemma sem0_not_sub : forall p0 w T k x, no_hash T -> ~ sem0 p0 w (sub T k x).
Proof.
  intros p0 w T k x HT [[H _]|(m & s & l & j & u & v & E & _)]; [now apply sub_hash in H|]. symmetry in E. now apply internal_sub in E.
Qed.
Lemma node_not_sub : forall s l j T k x, no_hash T -> has_line D s l -> ~ node (g_own G) (sub T k x) s l j.
Proof.
  intros s l j T k x HT H [[_ E]|(m & E & _)]; [|symmetry in E; now apply internal_sub in E].
  apply (line_plain D HD) in H as [H _]. rewrite <- E in H. now apply sub_hash in H.
Qed.
Lemma sem0_node : forall p0 w q s l j, sem0 p0 w q -> node (g_own G) q s l j -> has_line D s l ->
  exists u v, w = u ++ v /\ goes ds D p0 u s /\ reads_all ds (firstn j (l_stims l)) v.
Proof.
  intros p0 w q s l j S N HLs. destruct S as [[H K]|(m & s' & l' & j' & u & v & Eq & E & -> & K & R)], N as [[Ej Es]|(m' & E1 & E2)].
  - subst q j. exists w, []. rewrite app_nil_r. split; [reflexivity|]. split; [exact K|constructor].
  - subst q. now apply internal_hash in H.
  - apply (line_plain D HD) in HLs as [HLs _]. rewrite <- Es, Eq in HLs. now apply internal_hash in HLs.
  - rewrite Eq in E1. apply internal_inj in E1. subst m'. rewrite E in E2. injection E2 as -> -> ->. exists u, v. auto.
Qed.
Lemma sem0_vstep : forall p0 w p x q a y, sem0 p0 w p -> vstep D (g_own G) p x q -> stands_for ds x a -> reads ds a y -> sem0 p0 (w ++ y) q.
Proof.
  intros p0 w p x q a y H (s & l & j & alts & N & HLs & E & I & L) F R. destruct (sem0_node _ _ _ _ _ _ H N HLs) as (u & v & -> & K & RA).
  pose proof (reads_all_snoc _ _ _ _ _ _ _ RA I F R) as RA'. rewrite <- firstn_S_nth in RA' by exact E.
  destruct L as [(m & -> & Em)|(Ln & dests & T & J)].
  - right. exists m, s, l, (S j), u, (v ++ y). rewrite app_assoc. auto.
  - left. split.
    + apply (line_plain D HD) in HLs as [_ [_ P]]. rewrite T in P. destruct P as [_ P]. rewrite Forall_forall in P. now apply P.
    + rewrite Ln, firstn_all in RA'. rewrite <- app_assoc. apply goes_trans with s; [exact K|].
      rewrite <- (app_nil_r (v ++ y)). apply goes_on with l dests q; auto. constructor.
Qed.
Lemma sem_step : forall p0 w p t y q, sem p0 w p -> has (k_states b) p t q -> does C t y -> sem p0 (w ++ y) q.
Proof.
  intros p0 w p t y q S H Y. apply (sh_edges _ _ _ Sh) in H as [H|H].
  - apply (so_dir _ _ _ _ _ So) in H as (x & a & V & F & R). left. apply sem0_vstep with p x a; auto; [|now apply repr_reads with t].
    destruct S as [S|(k & src & T & i & o & d & m & x' & u & v & E & M & -> & _)]; [exact S|]. exfalso.
    destruct V as (s & l & j & alts & N & HLs & _). apply (node_not_sub s l j T k x') in N; auto. now apply hash_of in E.
  - destruct H as (k & src & T & i & o & d & E & H). pose proof (hash_of _ _ _ _ _ _ E) as (HT & Hi & Ho). destruct H as [(-> & -> & ->)|[(-> & -> & ->)|(m & x & y' & M & -> & -> & H)]].
    + destruct Y as [[_ ->]|(s & _ & F)]; [|destruct F]. rewrite app_nil_r. destruct (so_inl _ _ _ _ _ So _ _ _ _ _ _ E) as ((m & M) & x & V & F).
      right. exists k, src, T, i, o, d, m, i, w, []. rewrite app_nil_r. repeat (split; [auto; fail|]). split; [|constructor].
      destruct S as [S|(k' & src' & T' & i' & o' & d' & m' & x' & u & v & E' & M' & -> & _)]; [exact S|]. exfalso.
      destruct V as (s & l & j & alts & N & HLs & _). apply (node_not_sub s l j T' k' x') in N; auto. now apply hash_of in E'.
    + destruct Y as [[_ ->]|(s & _ & F)]; [|destruct F]. rewrite app_nil_r. destruct (so_inl _ _ _ _ _ So _ _ _ _ _ _ E) as (_ & x & V & F).
      destruct S as [S|(k' & src' & T' & i' & o' & d' & m' & x' & u & v & E' & M' & X & -> & S & P)]; [now apply sem0_not_sub in S|].
      pose proof (hash_of _ _ _ _ _ _ E') as (HT' & _). apply sub_inj in X as (<- & <- & <-); auto. rewrite E in E'. injection E' as <- <- <- <-.
      left. apply sem0_vstep with src x (O_block T i o); auto. destruct (HM1 T m' M') as (before & D' & BA & Me). apply r_block with before D'; [exact BA|]. now apply (me_goes _ _ _ _ Me).
    + destruct S as [S|(k' & src' & T' & i' & o' & d' & m' & x' & u & v & E' & M' & X & -> & S & P)]; [now apply sem0_not_sub in S|].
      pose proof (hash_of _ _ _ _ _ _ E') as (HT' & _). apply sub_inj in X as (<- & <- & <-); auto.
      unfold master in *. rewrite M in M'. injection M' as <-. right. exists k, src', T, i', o', d', m, y', u, (v ++ y). rewrite app_assoc.
      repeat (split; [auto; fail|]). now apply npath_snoc with x t.
Qed.
Lemma sem_path : forall p w q, npath C (k_states b) p w q -> forall p0 w0, sem p0 w0 p -> sem p0 (w0 ++ w) q.
Proof.
  intros p w q H. induction H as [p|p q w r E _ IH|p y s q w r E F _ IH]; intros p0 w0 S.
  - now rewrite app_nil_r.
  - apply IH. rewrite <- (app_nil_r w0). apply sem_step with p TT_EPSILON; [exact S|exact E|now left].
  - replace (w0 ++ s :: w) with ((w0 ++ [s]) ++ w) by (now rewrite <- app_assoc). apply IH. apply sem_step with p y; [exact S|exact E|]. right. eauto.
Qed.
Lemma sem_start : forall p w q, no_hash p -> npath C (k_states b) p w q -> sem p w q.
Proof. intros p w q N H. apply (sem_path _ _ _ H p []). left. left. split; [exact N|constructor]. Qed.

(* and the other way *)
Lemma reads_npath : forall a a' p q w, repr C a a' -> present G p a' q -> reads ds a w -> npath C (k_states b) p w q.
Proof.
  intros a a' p q w R P H. destruct a' as [t|T i o].
  - cbn [present] in P. assert (E : has (k_states b) p t q) by (apply (sh_edges _ _ _ Sh); now left).
    apply (npath_snoc C (k_states b) p [] p t w q); [constructor|exact E|].
    inversion H; subst; cbn [repr] in R; destruct t; try (destruct R; fail).
    + now left.
    + right. eexists. split; [reflexivity|]. now symmetry.
    + right. eexists. split; [reflexivity|]. cbn [fits]. eauto.
  - destruct P as [k E]. destruct a as [ | | |T' i' o']; cbn [repr] in R; try (destruct R; fail). destruct R as (-> & -> & ->).
    inversion H as [ | | |? ? ? ? before D' ? BA Go]; subst. destruct (HM2 _ _ _ BA) as (m & M & Me). apply (me_path _ _ _ _ Me) in Go.
    assert (Cp : forall x v y, npath C (k_states m) x v y -> npath C (k_states b) (sub T k x) v (sub T k y)).
    { intros x v y Hx. assert (Ce : forall x t y, has (k_states m) x t y -> has (k_states b) (sub T k x) t (sub T k y)).
      { intros x0 t y0 J. apply (sh_edges _ _ _ Sh). right. exists k, p, T, i, o, q. split; [exact E|]. right. right. exists m, x0, y0. auto. }
      induction Hx as [x|x y0 v r J _ IH|x t s y0 v r J F _ IH]; [constructor|apply np_eps with (sub T k y0); auto|apply np_read with t (sub T k y0); auto]. }
    apply np_eps with (sub T k i).
    { apply (sh_edges _ _ _ Sh). right. exists k, p, T, i, o, q. split; [exact E|]. left. auto. }
    rewrite <- (app_nil_r w). apply npath_trans with (sub T k o); [now apply Cp|]. apply np_eps with q; [|constructor].
    apply (sh_edges _ _ _ Sh). right. exists k, p, T, i, o, q. split; [exact E|]. right. left. auto.
Qed.
Lemma leads_npath : forall p alts q x a w, leads C ds G p alts q -> In x alts -> stands_for ds x a -> reads ds a w -> npath C (k_states b) p w q.
Proof. intros p alts q x a w L I F R. destruct (L x a I F) as (a' & Ra & P). now apply reads_npath with a a'. Qed.
Lemma chain_npath : forall p l t, chain C ds G p l t -> forall w, reads_all ds l w ->
  match t with To dests => forall d, In d dests -> npath C (k_states b) p w d | Marked tags => forall g, In g tags -> exists q, npath C (k_states b) p w q /\ In (q, g) (g_mk G) end.
Proof.
  intros p l t H. induction H as [p alts dests L|p alts tags q L M|p alts q rest t L Ne _ IH]; intros w R; inversion R as [|? ? ? x a u v I F R1 R2]; subst.
  - inversion R2; subst. rewrite app_nil_r. intros d J. now apply leads_npath with alts x a; [apply L| | |].
  - inversion R2; subst. rewrite app_nil_r. intros g J. exists q. split; [now apply leads_npath with alts x a|now apply M].
  - specialize (IH v R2). assert (X : npath C (k_states b) p u q) by now apply leads_npath with alts x a. destruct t as [dests|tags].
    + intros d J. apply npath_trans with q; [exact X|now apply IH].
    + intros g J. destruct (IH g J) as (q' & Y & K). exists q'. split; [now apply npath_trans with q|exact K].
Qed.
Lemma chain_mid : forall p l t, chain C ds G p l t -> t <> To [] -> forall pre alts post v, l = pre ++ alts :: post -> reads_all ds pre v ->
  exists p' q, npath C (k_states b) p v p' /\ leads C ds G p' alts q.
Proof.
  intros p l t H. induction H as [p alts dests L|p alts tags q L M|p alts q rest t L Ne _ IH]; intros Nt pre alts0 post v E R.
  - destruct pre as [|z pre]; [|destruct pre; discriminate]. injection E as <- <-. inversion R; subst. destruct dests as [|d dests]; [congruence|].
    exists p, d. split; [constructor|]. apply L. now left.
  - destruct pre as [|z pre]; [|destruct pre; discriminate]. injection E as <- <-. inversion R; subst. exists p, q. split; [constructor|exact L].
  - destruct pre as [|z pre].
    + injection E as <- _. inversion R; subst. exists p, q. split; [constructor|exact L].
    + injection E as <- E. inversion R as [|? ? ? x a u v' I F R1 R2]; subst. destruct (IH Nt pre alts0 post v' eq_refl R2) as (p' & q' & N & L').
      exists p', q'. split; [|exact L']. apply npath_trans with q; [|exact N]. now apply leads_npath with alts x a.
Qed.
Lemma goes_npath : forall p w q, goes ds D p w q -> npath C (k_states b) p w q.
Proof.
  enough (X : forall ds1 D1 p w q, goes ds1 D1 p w q -> ds1 = ds -> D1 = D -> npath C (k_states b) p w q) by (intros p w q H; now apply (X ds D)).
  intros ds1 D1 p w q H. induction H as [ds1 D1 p|ds1 D1 p l dests d u v q HLs T I R _ IH]; intros E1 E2; [constructor|].
  apply npath_trans with d; [|now apply IH]. rewrite E2 in HLs. rewrite E1 in R. pose proof (HL p l HLs) as Ch.
  apply chain_npath with (w := u) in Ch; [|exact R]. rewrite T in Ch. now apply Ch.
Qed.
Theorem block_meaning : meaning C ds D (k_states b).
Proof.
  constructor.
  - intros p w q Np Nq H. apply sem_start in H as [[[_ H]|(m & s & l & j & u & v & -> & _)]|(k & src & T & i & o & d & m & x & u & v & _ & _ & -> & _)]; auto; [now apply internal_hash in Nq|now apply sub_hash in Nq].
  - intros p w q g Np H Tg. apply sem_start in H; [|exact Np]. apply (sh_tags _ _ _ Sh) in Tg as [J|J].
    + apply (so_mk _ _ _ _ _ So) in J as (m & s & l & tags & -> & E & HLs & Et & Ig).
      destruct H as [[[Nq _]|(m' & s' & l' & j & u & v & E1 & E' & -> & Go & R)]|(k & src & T & i & o & d & m' & x & u & v & E' & _ & X & _)].
      * now apply internal_hash in Nq.
      * apply internal_inj in E1 as <-. rewrite E in E'. injection E' as <- <- <-. rewrite firstn_all in R. now apply sees_here with s l tags.
      * apply internal_sub in X; [destruct X|]. now apply hash_of in E'.
    + destruct J as (k & src & T & i & o & d & m & x & E & M & -> & Tm). pose proof (hash_of _ _ _ _ _ _ E) as (HT & Hi & Ho).
      destruct H as [H|(k' & src' & T' & i' & o' & d' & m' & x' & u & v & E' & M' & X & -> & S & P)]; [now apply sem0_not_sub in H|].
      pose proof (hash_of _ _ _ _ _ _ E') as (HT' & _). apply sub_inj in X as (<- & <- & <-); auto. unfold master in *. rewrite M in M'. injection M' as <-. rewrite E in E'. injection E' as <- <- <- <-.
      destruct (so_inl _ _ _ _ _ So _ _ _ _ _ _ E) as (_ & y & (s & l & j & alts & Nd & HLs & Ej & Iy & _) & F).
      destruct (sem0_node _ _ _ _ _ _ S Nd HLs) as (u1 & u2 & -> & Go & R). destruct (HM1 T m M) as (before & D' & BA & Me).
      rewrite <- app_assoc. apply sees_within with s l (firstn j (l_stims l)) alts (skipn (Datatypes.S j) (l_stims l)) y T i o before D'; auto.
      * rewrite <- (skipn_nth _ _ _ _ Ej). symmetry. apply firstn_skipn.
      * now apply (me_sees _ _ _ _ Me) with x.
  - apply goes_npath.
  - intros p w g H. inversion H as [? ? ? u q l tags ? v Go HLs Et Ig R|? ? ? u q l pre alts post v x T i o before c y ? Go HLs El R Ix F BA Se]; subst.
    + apply goes_npath in Go. pose proof (HL q l HLs) as Ch. apply chain_npath with (w := v) in Ch; [|exact R]. rewrite Et in Ch. destruct (Ch g Ig) as (q' & P & J).
      exists q'. split; [now apply npath_trans with q|]. apply (sh_tags _ _ _ Sh). now left.
    + apply goes_npath in Go. pose proof (HL q l HLs) as Ch. unfold done in Ch.
      destruct (chain_mid _ _ _ Ch) with (pre := pre) (alts := alts) (post := post) (v := v) as (p' & d & P & L); auto.
      { intros Et. apply (line_plain D HD) in HLs as [_ [_ X]]. rewrite Et in X. destruct X as [X _]. now apply X. }
      destruct (L x _ Ix F) as (a' & Ra & Pr). destruct a' as [t|T' i' o']; cbn [repr] in Ra; [destruct Ra|]. destruct Ra as (<- & <- & <-). destruct Pr as [k E].
      destruct (HM2 _ _ _ BA) as (m & M & Me). destruct (me_tag _ _ _ _ Me _ _ _ Se) as (z & Pz & Tz).
      exists (sub T k z). split.
      * apply npath_trans with q; [exact Go|]. apply npath_trans with p'; [exact P|]. apply np_eps with (sub T k i).
        { apply (sh_edges _ _ _ Sh). right. exists k, p', T, i, o, d. split; [exact E|]. left. auto. }
        assert (Ce : forall x t y, has (k_states m) x t y -> has (k_states b) (sub T k x) t (sub T k y)).
        { intros x0 t y0 J. apply (sh_edges _ _ _ Sh). right. exists k, p', T, i, o, d. split; [exact E|]. right. right. exists m, x0, y0. auto. }
        clear -Pz Ce. induction Pz as [z|z y0 v r J _ IH|z t s y0 v r J F _ IH]; [constructor|apply np_eps with (sub T k y0); auto|apply np_read with t (sub T k y0); auto].
      * apply (sh_tags _ _ _ Sh). right. exists k, p', T, i, o, d, m, z. auto.
Qed.
End Meaning.
