(* Folder expansion, continued. *)
From Verif Require Import Base M_Search M_Glob S_Glob L_Search4 L_Glob L_Glob2 M_Paths S_Paths L_Paths.
Local Open Scope N_scope.

Lemma last_slash_app a b : ~ In 47 b -> last_slash (a ++ 47 :: b) = Some (a, b).
Proof.
  intros H. assert (N : last_slash b = None).
  { clear a. induction b as [|c b IH]; [reflexivity|]. cbn [last_slash]. rewrite IH by (intros X; apply H; now right).
    destruct (N.eqb_spec c 47) as [->|NE]; [exfalso; apply H; now left|reflexivity]. }
  induction a as [|c a IH]; cbn [app last_slash]; [now rewrite N|now rewrite IH].
Qed.
Lemma last_slash_ex p : In 47 p -> exists a b, p = a ++ 47 :: b /\ ~ In 47 b.
Proof.
  induction p as [|c p IH]; [intros []|]. intros H. destruct (in_dec N.eq_dec 47 p) as [I|NI].
  - destruct (IH I) as (a & b & -> & X). exists (c :: a), b. auto.
  - destruct H as [->|H]; [|contradiction]. exists [], p. auto.
Qed.
Definition absb (p : bytes) : bool := match p with c :: _ => c =? 47 | [] => false end.
Lemma absb_spec p : absb p = true <-> absolute p.
Proof.
  destruct p as [|c p]; cbn [absb]; [split; [discriminate|intros (r & X); discriminate]|]. rewrite N.eqb_eq. split; [intros ->; exists p; reflexivity|now intros (r & [= -> _])].
Qed.
Lemma absb_false p : absb p = false <-> ~ absolute p.
Proof. rewrite <- absb_spec. now rewrite not_true_iff_false. Qed.
Lemma skipn_below base r : skipn (S (length base)) (below base r) = r.
Proof. unfold below. induction base as [|c base IH]; [reflexivity|]. cbn [length app skipn]. exact IH. Qed.
Lemma all_bytes_below a b : all_bytes a -> all_bytes b -> all_bytes (below a b).
Proof. intros HA HB. unfold below. apply Forall_app. split; [exact HA|]. constructor; [reflexivity|exact HB]. Qed.
Lemma c_string_bytes s : c_string s -> all_bytes s.
Proof. apply Forall_impl. intros x [_ H]. exact H. Qed.
Lemma is_wild_false s : no_wild s -> is_wild s = false.
Proof.
  intros H. unfold is_wild. apply not_true_iff_false. rewrite existsb_exists. intros (c & I & X). destruct (H c I) as (A & B & C).
  change (ch "*") with 42 in *. change (ch "?") with 63 in *. change (ch "[") with 91 in *. lia.
Qed.
Lemma is_wild_pattern p : Exists a_wild p -> is_wild (show_pattern p) = true.
Proof.
  intros H. unfold is_wild. rewrite existsb_exists. apply Exists_exists in H as (g & I & W).
  assert (X : exists c, In c (show_item g) /\ ((c =? 91) || (c =? 42) || (c =? 63)) = true).
  { destruct g; [destruct W|exists 63|exists 91|exists 42|exists 42]; (split; [now left|reflexivity]). }
  destruct X as (c & J & X). exists c. split; [|exact X]. unfold show_pattern. apply in_flat_map. exists g. auto.
Qed.
Definition dot3 : bytes := [46; 46; 46].
Lemma dotted_yes (x : bytes) : x <> [] -> let full := x ++ dot3 in
  (4 <=? length full)%nat && bytes_eqb (skipn (length full - 3) full) dot3 = true /\ firstn (length full - 3) full = x.
Proof.
  intros H full. assert (L : length full = (length x + 3)%nat) by (unfold full; rewrite app_length; reflexivity).
  replace (length full - 3)%nat with (length x) by lia. unfold full in *. rewrite skipn_app, skipn_all, Nat.sub_diag, firstn_app, firstn_all, Nat.sub_diag. cbn [skipn firstn app].
  rewrite app_nil_r. split; [|reflexivity]. rewrite L. assert (4 <=? length x + 3 = true)%nat as -> by (destruct x; [congruence|]; apply Nat.leb_le; cbn [length]; lia). reflexivity.
Qed.
Lemma dotted_no (x : bytes) : (forall y, x <> y ++ dot3) -> bytes_eqb (skipn (length x - 3) x) dot3 = false.
Proof.
  intros H. apply not_true_iff_false. rewrite bytes_eqb_spec. intros E. apply (H (firstn (length x - 3) x)). rewrite <- E. symmetry. apply firstn_skipn.
Qed.
Lemma below_no3 base p : (forall y, p <> y ++ dot3) -> forall y, below base p <> y ++ dot3.
Proof.
  intros H y E. unfold below in E. change (bs "/") with [47] in E. cbn [app] in E.
  assert (R : rev (base ++ 47 :: p) = 46 :: 46 :: 46 :: rev y) by (rewrite E, rev_app_distr; reflexivity).
  rewrite rev_app_distr in R. cbn [rev] in R. rewrite <- app_assoc in R. cbn [app] in R.
  destruct (rev p) as [|a [|b [|c l]]] eqn:EP; cbn [app] in R; try discriminate.
  injection R as -> -> -> R. apply (H (rev l)). rewrite <- (rev_involutive p), EP. cbn [rev]. now rewrite <- !app_assoc.
Qed.

Definition matches (omit : option (list globber)) (pats : list (list gitem)) : Prop :=
  forall s, all_bytes s -> is_globber_array_match omit s = true <-> exists p, In p pats /\ gmatch p s.

Section One.
Context (f : fs) (k : folder_kind) (omit : option (list globber)) (pats : list (list gitem)) (fuel : nat) (base : bytes).
Context (HF : fs_ok f fuel) (HM : matches omit pats) (HB : c_string base).
Notation m := (methods_of k).

Section Entry.
Context (e : entry).
Definition bl_of : nat := if absb (entry_path e) then 0%nat else S (length base).
Definition dom (p : bytes) : Prop := all_bytes p /\ (absolute (entry_path e) \/ exists r, p = below base r).
Lemma dom_below d n : dom d -> listed f d n -> dom (below d n).
Proof.
  intros [A B] L. split; [apply all_bytes_below; [exact A|apply c_string_bytes; destruct HF as [X _]; now apply (X d)]|].
  destruct B as [B|(r & ->)]; [now left|right]. exists (below r n). unfold below. now rewrite <- !app_assoc.
Qed.
Lemma below_inj a x y : below a x = below a y -> x = y.
Proof. unfold below. intros H. apply app_inv_head in H. injection H as H. exact H. Qed.
Lemma dom_om p : dom p -> omitted omit bl_of p = true <-> omits pats base e p.
Proof.
  intros [A B]. unfold omitted, bl_of, omits. destruct (absb (entry_path e)) eqn:E.
  - apply absb_spec in E. cbn [skipn]. rewrite (HM p A). split; intros (x & I & X); exists x; [tauto|]. split; [exact I|]. destruct X as [[_ X]|[X _]]; tauto.
  - apply absb_false in E. destruct B as [B|(r & ->)]; [contradiction|]. rewrite skipn_below.
    assert (R : all_bytes r) by (unfold below in A; apply Forall_app in A as [_ A]; inversion A; assumption).
    rewrite (HM r R). split; intros (x & I & X); exists x; (split; [exact I|]).
    + right. split; [exact E|]. exists r. auto.
    + destruct X as [[X _]|[_ (r' & Y & X)]]; [contradiction|]. apply below_inj in Y. now subst.
Qed.
Lemma ranked : exists rank : bytes -> nat, (forall p, (rank p < fuel)%nat) /\
    forall d n, listed f d n -> a_dir f (below d n) -> (rank (below d n) < rank d)%nat.
Proof. apply HF. Qed.
Lemma append_both : append_ok f k (omits pats base e) dom (is_deep e)
  (if is_deep e then append_deep f m omit fuel bl_of else shallow f m omit bl_of).
Proof.
  destruct ranked as (rank & R1 & R2). destruct (is_deep e).
  - intros p s HD H. exact (deep_spec f k omit bl_of (omits pats base e) dom rank dom_below dom_om R2 fuel p s HD H (R1 p)).
  - apply shallow_ok. apply dom_om.
Qed.
Definition full_of (p : bytes) : bytes := if absb p then p else below base p.
Lemma full_placed p : placed base p (full_of p).
Proof. unfold full_of, placed. destruct (absb p) eqn:E; [left|right]; (split; [now (apply absb_spec || apply absb_false)|reflexivity]). Qed.
Lemma placed_full p q : placed base p q -> q = full_of p.
Proof. unfold full_of. intros [[A ->]|[A ->]]; [apply absb_spec in A|apply absb_false in A]; now rewrite A. Qed.

Lemma one_path_unfold : (is_deep e = false -> forall x, entry_path e <> x ++ bs "...") ->
  handle_one_path f m omit fuel base (show_entry e) =
  (let full := full_of (entry_path e) in
   let append := if is_deep e then append_deep f m omit fuel bl_of else shallow f m omit bl_of in
   match last_slash full with
   | Some (dir, comp) => if is_wild comp then handle_wild f omit append bl_of dir comp else handle_single f append full
   | None => if is_wild full then handle_wild f omit append bl_of (bs ".") full else handle_single f append full
   end).
Proof.
  intros H. unfold handle_one_path, show_entry.
  change (bs "...") with dot3 in *.
  assert (A : is_abs (entry_path e ++ (if is_deep e then dot3 else [])) = absb (entry_path e)).
  { destruct (entry_path e); [|reflexivity]. cbn [app]. now destruct (is_deep e). }
  assert (F : full_path base (entry_path e ++ (if is_deep e then dot3 else [])) = full_of (entry_path e) ++ (if is_deep e then dot3 else [])).
  { unfold full_path, full_of. rewrite A. destruct (absb (entry_path e)); [reflexivity|]. unfold child, below. now rewrite <- !app_assoc. }
  rewrite F. unfold base_len_of. rewrite A. unfold bl_of. clear F A.
  assert (NE : full_of (entry_path e) <> []).
  { unfold full_of. destruct (absb (entry_path e)) eqn:E; [destruct (entry_path e); discriminate|]. unfold below. intros X. apply app_eq_nil in X as [_ X]. discriminate. }
  destruct (is_deep e).
  - destruct (dotted_yes _ NE) as [E1 E2]. cbn zeta in E1, E2. rewrite E1, E2. reflexivity.
  - rewrite app_nil_r.
    rewrite dotted_no; [|unfold full_of; destruct (absb _); [now apply H|apply below_no3; now apply H]].
    rewrite andb_false_r. reflexivity.
Qed.

Lemma select_shape (T : bytes -> Prop) l : (forall q, start f (omits pats base e) base e q <-> T q) ->
  (forall q, In q l <-> exists top, T top /\ (if is_deep e then visits f k (omits pats base e) top q else q = top) /\ is_folder f k q /\ ~ omits pats base e q) ->
  forall q, In q l <-> selected f k pats base e q.
Proof.
  intros HT HL q. rewrite HL. unfold selected, selects. split; intros (t & X & Y); exists t; (split; [now apply HT|exact Y]).
Qed.
End Entry.

Lemma single_ok e path : e = E_plain path (is_deep e) -> c_string path ->
  exists l, handle_single f (if is_deep e then append_deep f m omit fuel (bl_of e) else shallow f m omit (bl_of e)) (full_of path) = Ok l /\
    forall q, In q l <-> selected f k pats base e q.
Proof.
  intros E HP. unfold handle_single.
  assert (EP : entry_path e = path) by (rewrite E; reflexivity).
  assert (ST : forall q, start f (omits pats base e) base e q <-> q = full_of path /\ exists_ f q).
  { intros q. rewrite E at 2. cbn [start]. split; intros [A B]; (split; [|exact B]); [now apply placed_full|subst; apply full_placed]. }
  destruct (stat f (full_of path)) as [s|] eqn:ES.
  - assert (HD : dom e (full_of path)).
    { unfold dom, full_of. rewrite EP. destruct (absb path) eqn:A.
      - split; [now apply c_string_bytes|left; now apply absb_spec].
      - split; [apply all_bytes_below; now apply c_string_bytes|right; now exists path]. }
    destruct (append_both e (full_of path) s HD ES) as (l & El & Hl). exists l. split; [exact El|].
    apply (select_shape e _ l ST). intros q. rewrite Hl. split.
    + intros X. exists (full_of path). split; [split; [reflexivity|now exists s]|exact X].
    + intros (t & [-> _] & X). exact X.
  - exists []. split; [reflexivity|]. apply (select_shape e _ [] ST). intros q. split; [intros []|]. intros (t & [-> (s & X)] & _). congruence.
Qed.

Lemma wild_ok e dir p : e = E_wild dir p (is_deep e) -> entry_ok e ->
  let d := match dir with None => base | Some x => full_of x end in
  exists l, handle_wild f omit (if is_deep e then append_deep f m omit fuel (bl_of e) else shallow f m omit (bl_of e)) (bl_of e) d (show_pattern p) = Ok l /\
    forall q, In q l <-> selected f k pats base e q.
Proof.
  intros E (HO & HE & _) d. rewrite E in HE. destruct HE as (P1 & P2 & P3 & P4 & P5). unfold handle_wild.
  destruct (glob_exact p [] P1 P2 (Forall_nil _)) as (g & EG & _).
  assert (HG : forall s, all_bytes s -> is_glob_match g s = true <-> gmatch p s).
  { intros s HS. destruct (glob_exact p s P1 P2 HS) as (g' & EG' & X). rewrite EG in EG'. injection EG' as <-. exact X. }
  rewrite EG. cbn [bind].
  assert (ST : forall q, start f (omits pats base e) base e q <-> exists n, q = below d n /\ listed f d n /\ gmatch p n /\ ~ omits pats base e q /\ exists_ f q).
  { intros q. rewrite E at 2. cbn [start]. split.
    - intros (d' & n & A & B). assert (d' = d) as -> by (unfold d; destruct dir; [now apply placed_full|exact A]). exists n. exact B.
    - intros (n & B). exists d, n. split; [|exact B]. unfold d. destruct dir; [apply full_placed|reflexivity]. }
  destruct (ls f d) as [ns|] eqn:EL.
  - assert (LI : forall n, In n ns -> dots n = false -> listed f d n).
    { intros n I X. apply dots_spec in X. exists ns. tauto. }
    assert (NB : forall n, listed f d n -> all_bytes n) by (intros n X; apply c_string_bytes; destruct HF as [Y _]; now apply (Y d)).
    assert (DD : forall n, listed f d n -> dom e (below d n)).
    { intros n L. unfold dom. assert (EP : entry_path e = match dir with None => show_pattern p | Some x => below x (show_pattern p) end) by (rewrite E; cbn [entry_path]; destruct dir; reflexivity).
      rewrite EP. unfold d in *. destruct dir as [x|].
      - destruct P5 as [P5 P6]. split.
        + apply all_bytes_below; [|now apply NB]. unfold full_of. destruct (absb x); [now apply c_string_bytes|apply all_bytes_below; now apply c_string_bytes].
        + unfold full_of. destruct (absb x) eqn:A; [left; apply absb_spec in A as (r & ->); now exists (r ++ bs "/" ++ show_pattern p)|right].
          exists (below x n). unfold below. now rewrite <- !app_assoc.
      - split; [apply all_bytes_below; [now apply c_string_bytes|now apply NB]|right; now exists n]. }
    assert (GM : forall n, In n ns -> is_glob_match g n = true <-> gmatch p n \/ dots n = true /\ is_glob_match g n = true).
    { intros n I. destruct (dots n) eqn:X; [|rewrite <- HG by (apply NB, LI; auto); intuition discriminate].
      assert (HGd : all_bytes n). { unfold dots in X. apply orb_true_iff in X as [X|X]; apply bytes_eqb_spec in X; subst; repeat constructor. } rewrite (HG n HGd). tauto. }
    assert (GM' : forall n, In n ns -> is_glob_match g n = true <-> gmatch p n).
    { intros n I. apply HG. destruct (dots n) eqn:X; [|apply NB, LI; auto]. unfold dots in X. apply orb_true_iff in X as [X|X]; apply bytes_eqb_spec in X; subst; repeat constructor. }
    destruct (wild_spec f k omit (bl_of e) (omits pats base e) (dom e) (dom_om e) (is_deep e) _ g p d ns (append_both e) DD GM' LI) as (l & El & Hl).
    exists l. split; [exact El|]. apply (select_shape e _ l ST). intros q. rewrite Hl. split.
    + intros (n & (I & A & B & C & X) & Y). exists (below d n). split; [|exact Y]. exists n. split; [reflexivity|]. split; [now apply LI|tauto].
    + intros (t & (n & -> & (ns' & EL' & I & ND) & B & C & X) & Y). exists n. split; [|exact Y]. assert (ns' = ns) as -> by congruence. split; [exact I|]. split; [now apply dots_spec|tauto].
  - exists []. split; [reflexivity|]. apply (select_shape e _ [] ST). intros q. split; [intros []|]. intros (t & (n & _ & (ns & X & _) & _) & _). congruence.
Qed.

Theorem one_path e : entry_ok e -> exists l, handle_one_path f m omit fuel base (show_entry e) = Ok l /\ forall q, In q l <-> selected f k pats base e q.
Proof.
  intros HE. rewrite (one_path_unfold e (proj1 HE)). cbv zeta. destruct e as [path deep|dir p deep].
  - destruct HE as (H1 & (H2 & H3) & H4). cbn [entry_path] in *.
    pose proof (single_ok (E_plain path deep) path eq_refl H2) as SO.
    assert (X : exists a b, full_of path = a ++ 47 :: b /\ ~ In 47 b /\ no_wild b).
    { destruct (in_dec N.eq_dec 47 path) as [I|NI].
      - destruct (last_slash_ex path I) as (a & b & E & NB). assert (W : no_wild b) by (apply (H3 a b); [exact E|exact NB]).
        unfold full_of. destruct (absb path); [exists a, b; auto|]. exists (base ++ 47 :: a), b. split; [|auto]. unfold below. rewrite E, <- app_assoc. reflexivity.
      - unfold full_of. destruct (absb path) eqn:A; [apply absb_spec in A as (r & ->); exfalso; apply NI; now left|].
        exists base, path. split; [reflexivity|]. split; [exact NI|now apply H4]. }
    destruct X as (a & b & E & NB & W). rewrite E in *. rewrite last_slash_app by exact NB. rewrite is_wild_false by exact W. exact SO.
  - pose proof (wild_ok (E_wild dir p deep) dir p eq_refl HE) as WO. cbv zeta in WO. destruct HE as (H1 & (P1 & P2 & P3 & P4 & P5) & _). cbn [entry_path] in *.
    assert (X : full_of (entry_path (E_wild dir p deep)) = match dir with None => base | Some x => full_of x end ++ 47 :: show_pattern p).
    { cbn [entry_path]. destruct dir as [x|].
      - destruct P5 as [_ P5]. unfold full_of. assert (A : absb (below x (show_pattern p)) = absb x) by (destruct x; [congruence|reflexivity]). rewrite A.
        destruct (absb x); [reflexivity|]. unfold below. now rewrite <- !app_assoc.
      - unfold full_of. destruct (absb (show_pattern p)) eqn:A; [|reflexivity]. exfalso. apply P4. apply absb_spec in A as (r & ->). now left. }
    cbn [entry_path] in X. rewrite X, last_slash_app by exact P4. rewrite is_wild_pattern by exact P3. exact WO.
Qed.
Theorem all_paths es : Forall entry_ok es -> exists l, glob_and_expand_paths f m omit fuel base (map show_entry es) = Ok l /\
  forall q, In q l <-> exists e, In e es /\ selected f k pats base e q.
Proof.
  induction 1 as [|e es HE _ IH]; cbn [map glob_and_expand_paths].
  - exists []. split; [reflexivity|]. intros q. split; [intros []|intros (e & [] & _)].
  - destruct (one_path e HE) as (a & Ea & Ha). destruct IH as (b & Eb & Hb). rewrite Ea. cbn [bind]. rewrite Eb. cbn [bind]. eexists. split; [reflexivity|].
    intros q. rewrite in_app_iff, Ha, Hb. split.
    + intros [X|(x & I & X)]; [exists e|exists x]; cbn [In]; tauto.
    + intros (x & [->|I] & X); [left; exact X|right; exists x; tauto].
Qed.
End One.

Lemma make_globbers_ok pats : Forall (fun p => pattern_ok p /\ (atoms p <= 30)%nat) pats ->
  exists gs, make_globbers (map show_pattern pats) = Ok gs /\ matches (Some gs) pats.
Proof.
  induction 1 as [|p pats [P1 P2] _ IH]; cbn [map make_globbers].
  - exists []. split; [reflexivity|]. intros s _. cbn. split; [discriminate|intros (x & [] & _)].
  - destruct (glob_exact p [] P1 P2 (Forall_nil _)) as (g & EG & _). destruct IH as (gs & Eg & Hg). rewrite EG. cbn [bind]. rewrite Eg. cbn [bind]. eexists. split; [reflexivity|].
    intros s HS. specialize (Hg s HS). cbn [is_globber_array_match existsb] in *. rewrite orb_true_iff, Hg.
    destruct (glob_exact p s P1 P2 HS) as (g' & EG' & X). rewrite EG in EG'. injection EG' as <-. rewrite X. split.
    + intros [Y|(x & I & Y)]; [exists p|exists x]; cbn [In]; tauto.
    + intros (x & [->|I] & Y); [now left|right; exists x; tauto].
Qed.
(* lists of names as they can be written in a setting *)
Definition names_ok (names : list bytes) : Prop := names <> [] /\ forall x, In x names -> x <> [] /\ last x 0 <> ch "\".
Lemma names_split names : names_ok names -> split_on_colons (colon_list names) = Ok names.
Proof.
  intros [H1 H2]. apply split_colons; [exact H1| |right].
  - intros x I. apply H2. rewrite (app_removelast_last [] H1). apply in_or_app. now left.
  - apply H2. rewrite (app_removelast_last [] H1) at 2. apply in_or_app. right. now left.
Qed.
Lemma omit_setting pats : names_ok (map show_pattern pats) -> Forall (fun p => pattern_ok p /\ (atoms p <= 30)%nat) pats ->
  exists gs, colon_sep_string_to_globber_array (colon_list (map show_pattern pats)) = Ok gs /\ matches (Some gs) pats.
Proof. intros H1 H2. unfold colon_sep_string_to_globber_array. rewrite names_split by exact H1. now apply make_globbers_ok. Qed.
(* the omit setting: absent when there is no pattern *)
Definition omit_text (pats : list (list gitem)) : option bytes := match pats with [] => None | _ => Some (colon_list (map show_pattern pats)) end.
Definition pats_ok (pats : list (list gitem)) : Prop :=
  Forall (fun p => pattern_ok p /\ (atoms p <= 30)%nat /\ show_pattern p <> [] /\ last (show_pattern p) 0 <> ch "\") pats.
Lemma omit_ok pats : pats_ok pats -> exists o, omit_globs (omit_text pats) = Ok o /\ matches o pats.
Proof.
  intros H. destruct pats as [|p pats].
  - exists None. split; [reflexivity|]. intros s _. cbn. split; [discriminate|intros (x & [] & _)].
  - destruct (omit_setting (p :: pats)) as (gs & E & M).
    + split; [discriminate|]. intros x I. apply in_map_iff in I as (g & <- & I). unfold pats_ok in H. rewrite Forall_forall in H. destruct (H g I) as (_ & _ & X). exact X.
    + eapply Forall_impl; [|exact H]. intros x (A & B & _). auto.
    + exists (Some gs). cbn [omit_text omit_globs]. rewrite E. split; [reflexivity|exact M].
Qed.
Definition entries_ok (es : list entry) : Prop :=
  es <> [] /\ Forall (fun e => entry_ok e /\ show_entry e <> [] /\ last (show_entry e) 0 <> ch "\") es.
Lemma folders_exact f k pats fuel base es : fs_ok f fuel -> c_string base -> pats_ok pats -> entries_ok es ->
  exists o l, omit_globs (omit_text pats) = Ok o /\ folders_of f (methods_of k) o fuel base (colon_list (map show_entry es)) = Ok l /\
    forall q, In q l <-> exists e, In e es /\ selected f k pats base e q.
Proof.
  intros HF HB HP [HE1 HE2]. destruct (omit_ok pats HP) as (o & EO & HM). exists o.
  unfold folders_of. rewrite names_split.
  - cbn [bind]. destruct (all_paths f k o pats fuel base HF HM HB es) as (l & El & Hl); [eapply Forall_impl; [|exact HE2]; cbv beta; tauto|]. exists l. auto.
  - split; [destruct es; [congruence|discriminate]|]. intros x I. apply in_map_iff in I as (g & <- & I). rewrite Forall_forall in HE2. now apply HE2.
Qed.
