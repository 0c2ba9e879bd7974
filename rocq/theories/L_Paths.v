(* Lemmas for folder expansion. *)
From Verif Require Import Base M_Search M_Glob S_Glob L_Search4 L_Glob L_Glob2 M_Paths S_Paths.
Local Open Scope N_scope.

Definition methods_of (k : folder_kind) : methods :=
  match k with F_mbox => mbox_methods | F_maildir => maildir_methods | F_mh => mh_methods end.

Lemma bytes_eqb_spec a : forall b, bytes_eqb a b = true <-> a = b.
Proof.
  induction a as [|x a IH]; intros [|y b]; cbn [bytes_eqb]; try (split; [discriminate|congruence]); [tauto|].
  rewrite andb_true_iff, N.eqb_eq, IH. split; [intros [-> ->]; reflexivity|now intros [= -> ->]].
Qed.
Lemma bytes_eq_dec (a b : bytes) : {a = b} + {a <> b}.
Proof. apply list_eq_dec, N.eq_dec. Qed.
Lemma below_child d n : below d n = child d n. Proof. reflexivity. Qed.
Lemma dots_spec n : dots n = false <-> n <> bs "." /\ n <> bs "..".
Proof. unfold dots. rewrite orb_false_iff, <- !not_true_iff_false, !bytes_eqb_spec. tauto. Qed.

Section S.
Context (f : fs).
Lemma a_dir_spec p s : stat f p = Some s -> is_dir s = true <-> a_dir f p.
Proof.
  intros H. unfold is_dir, a_dir. split.
  - intros X. exists s. split; [exact H|]. destruct (st_kind s); congruence.
  - intros (t & E & K). rewrite H in E. injection E as <-. now rewrite K.
Qed.
Lemma a_file_spec p s : stat f p = Some s -> is_reg s = true <-> a_file f p.
Proof.
  intros H. unfold is_reg, a_file. split.
  - intros X. exists s. split; [exact H|]. destruct (st_kind s); congruence.
  - intros (t & E & K). rewrite H in E. injection E as <-. now rewrite K.
Qed.
Lemma child_dir_spec p n : has_child_dir f p n = true <-> a_dir f (below p n).
Proof.
  unfold has_child_dir. rewrite <- below_child. destruct (stat f (below p n)) as [s|] eqn:E; [now apply a_dir_spec|].
  split; [discriminate|]. intros (t & X & _). congruence.
Qed.
Lemma child_file_spec p n : has_child_file f p n = true <-> a_file f (below p n).
Proof.
  unfold has_child_file. rewrite <- below_child. destruct (stat f (below p n)) as [s|] eqn:E; [now apply a_file_spec|].
  split; [discriminate|]. intros (t & X & _). congruence.
Qed.
Lemma filter_spec k p s : stat f p = Some s -> m_filter (methods_of k) f p s = true <-> is_folder f k p.
Proof.
  intros H. destruct k; cbn [methods_of m_filter mbox_methods maildir_methods mh_methods is_folder].
  - now apply a_file_spec.
  - rewrite !andb_true_iff, !child_dir_spec, (a_dir_spec p s H). tauto.
  - rewrite andb_true_iff, existsb_exists, (a_dir_spec p s H). split.
    + intros [A (n & I & B)]. split; [exact A|]. exists n. split; [exact I|now apply child_file_spec].
    + intros [A (n & I & B)]. split; [exact A|]. exists n. split; [exact I|now apply child_file_spec].
Qed.
End S.

Lemma isdigit_spec c : isdigit c = true <-> ch "0" <= c <= ch "9".
Proof. unfold isdigit. change (ch "0") with 48. change (ch "9") with 57. lia. Qed.
Lemma mh_digits_spec n : mh_digits n = true <-> number n \/ exists d, number d /\ n = d ++ bs ".".
Proof.
  induction n as [|c n IH]; cbn [mh_digits].
  - split; [intros _; left; constructor|reflexivity].
  - destruct (isdigit c) eqn:E.
    + apply isdigit_spec in E. rewrite IH. split.
      * intros [H|(d & H & ->)]; [left; now constructor|right]. exists (c :: d). split; [now constructor|reflexivity].
      * intros [H|(d & H & X)]; [left; now inversion H|right]. destruct d as [|x d]; [injection X as -> _; vm_compute in E; exfalso; destruct E as [E _]; now apply E|].
        injection X as -> ->. exists d. split; [now inversion H|reflexivity].
    + assert (E' : ~ (ch "0" <= c <= ch "9")) by (rewrite <- isdigit_spec; congruence). split.
      * intros X. apply andb_true_iff in X as [X Y]. apply N.eqb_eq in X. destruct n; [|discriminate]. right. exists []. split; [constructor|]. subst. reflexivity.
      * intros [H|(d & H & X)]; [inversion H; contradiction|]. destruct d as [|x d]; [injection X as -> ->; reflexivity|].
        injection X as -> ->. inversion H; contradiction.
Qed.
Lemma mh_name_spec n : valid_mh_filename_p n = true <-> mh_name n.
Proof.
  unfold valid_mh_filename_p, mh_name. destruct n as [|c n]; [split; [discriminate|intros [H _]; congruence]|].
  rewrite mh_digits_spec. split; [intros H; split; [discriminate|exact H]|tauto].
Qed.

Lemma visits_trans f k om a b c : visits f k om a b -> visits f k om b c -> visits f k om a c.
Proof. intros H. induction 1; [exact H|]. now apply v_in. Qed.
Definition one_step f k (om : bytes -> Prop) d n : Prop :=
  a_dir f d /\ listed f d n /\ ~ om (below d n) /\ ~ part_of_folder f k om d n /\ (a_dir f (below d n) \/ a_file f (below d n)).
Lemma visits_inv f k om p q : visits f k om p q <-> q = p \/ exists n, one_step f k om p n /\ visits f k om (below p n) q.
Proof.
  split.
  - induction 1 as [|d n V IH A B C D E]; [now left|right]. destruct IH as [->|(m & S & W)].
    + exists n. split; [now repeat split|constructor].
    + exists m. split; [exact S|]. now apply v_in.
  - intros [->|(n & (A & B & C & D & E) & W)]; [constructor|]. eapply visits_trans; [|exact W]. apply v_in; auto. constructor.
Qed.
Lemma visits_file f k om p q : ~ a_dir f p -> visits f k om p q <-> q = p.
Proof. intros H. rewrite visits_inv. split; [|now left]. intros [E|(n & (A & _) & _)]; [exact E|contradiction]. Qed.

Section Deep.
Context (f : fs) (k : folder_kind) (omit : option (list globber)) (bl : nat) (om D : bytes -> Prop) (rank : bytes -> nat).
Context (D_below : forall d n, D d -> listed f d n -> D (below d n)).
Context (om_spec : forall p, D p -> omitted omit bl p = true <-> om p).
Context (ranked : forall d n, listed f d n -> a_dir f (below d n) -> (rank (below d n) < rank d)%nat).
Notation m := (methods_of k).

Lemma om_false p : D p -> omitted omit bl p = false <-> ~ om p.
Proof. intros H. rewrite <- not_true_iff_false, om_spec by exact H. tauto. Qed.
Lemma shallow_spec p s q : D p -> stat f p = Some s -> In q (append_shallow f m omit bl p s) <-> q = p /\ is_folder f k p /\ ~ om p.
Proof.
  intros HD H. unfold append_shallow. destruct (_ && _) eqn:E.
  - apply andb_true_iff in E as [A B]. apply (filter_spec f k p s H) in A. apply negb_true_iff, om_false in B; [|exact HD].
    split; [intros [X|[]]; auto|]. intros [-> _]. now left.
  - split; [intros []|]. intros (_ & A & B). apply (filter_spec f k p s H) in A. apply om_false in B; [|exact HD]. rewrite A, B in E. discriminate.
Qed.
Lemma this_spec p s : D p -> stat f p = Some s -> nonempty (append_shallow f m omit bl p s) = true <-> is_folder f k p /\ ~ om p.
Proof.
  intros HD H. destruct (append_shallow f m omit bl p s) as [|x l] eqn:E; cbn [nonempty].
  - split; [discriminate|]. intros X. assert (Y : In p []) by (rewrite <- E; apply shallow_spec; auto). destruct Y.
  - split; [intros _|reflexivity]. assert (Y : In x (x :: l)) by now left. rewrite <- E in Y. apply shallow_spec in Y; tauto.
Qed.
Lemma scrut_spec p s n : D p -> stat f p = Some s ->
  m_scrut m (nonempty (append_shallow f m omit bl p s)) n = true <-> ~ part_of_folder f k om p n.
Proof.
  intros HD H. pose proof (this_spec p s HD H) as T. unfold part_of_folder.
  destruct k; cbn [methods_of m_scrut mbox_methods maildir_methods mh_methods] in *.
  - tauto.
  - destruct (nonempty _).
    + rewrite negb_true_iff, !orb_false_iff, <- !not_true_iff_false, !bytes_eqb_spec. assert (X := proj1 T eq_refl). cbn [map In]. intuition.
    + split; [|reflexivity]. intros _ [X _]. apply T in X. discriminate.
  - rewrite negb_true_iff, <- not_true_iff_false, mh_name_spec. tauto.
Qed.

Definition deep_ok (p : bytes) (r : res (list bytes)) : Prop :=
  exists l, r = Ok l /\ forall q, In q l <-> visits f k om p q /\ is_folder f k q /\ ~ om q.
Lemma entry_spec deep p s n : D p -> stat f p = Some s -> a_dir f p -> (exists ns, ls f p = Some ns /\ In n ns) ->
  (forall s', listed f p n -> stat f (below p n) = Some s' -> a_dir f (below p n) -> deep_ok (below p n) (deep (below p n) s')) ->
  exists l, deep_entry f m omit deep bl p (nonempty (append_shallow f m omit bl p s)) n = Ok l /\
    forall q, In q l <-> (one_step f k om p n /\ visits f k om (below p n) q) /\ is_folder f k q /\ ~ om q.
Proof.
  intros HD H HA (ns & HL & HI) HR. unfold deep_entry. destruct (dots n) eqn:ED.
  { exists []. split; [reflexivity|]. intros q. split; [intros []|]. intros [[(_ & (ns' & _ & _ & X) & _) _] _]. apply dots_spec in X. congruence. }
  apply dots_spec in ED. assert (LI : listed f p n) by (exists ns; tauto). pose proof (D_below p n HD LI) as HD'. rewrite <- below_child.
  destruct (omitted omit bl (below p n)) eqn:EO.
  { apply (om_spec _ HD') in EO. exists []. split; [reflexivity|]. intros q. split; [intros []|]. intros [[(_ & _ & X & _) _] _]. contradiction. }
  apply (om_false _ HD') in EO. pose proof (scrut_spec p s n HD H) as SC. destruct (m_scrut _ _ n).
  2:{ exists []. split; [reflexivity|]. intros q. split; [intros []|]. intros [[(_ & _ & _ & X & _) _] _]. apply SC in X. discriminate. }
  assert (SC' := proj1 SC eq_refl).
  assert (NS : (a_dir f (below p n) \/ a_file f (below p n)) -> one_step f k om p n) by (intros X; now repeat split).
  destruct (stat f (below p n)) as [s'|] eqn:ES.
  2:{ exists []. split; [reflexivity|]. intros q. split; [intros []|]. intros [[(_ & _ & _ & _ & [(t & X & _)|(t & X & _)]) _] _]; congruence. }
  destruct (st_kind s') eqn:EK.
  - assert (FI : a_file f (below p n)) by (exists s'; auto).
    assert (ND : ~ a_dir f (below p n)) by (intros (t & X & Y); congruence).
    eexists. split; [reflexivity|]. intros q. rewrite (shallow_spec _ _ q HD' ES), (visits_file f k om _ q ND). split.
    + intros (-> & A & B). tauto.
    + intros [[_ ->] X]. tauto.
  - assert (FI : a_dir f (below p n)) by (exists s'; auto).
    destruct (HR s' LI eq_refl FI) as (l & El & Hl). exists l. split; [exact El|]. intros q. rewrite Hl. tauto.
  - exists []. split; [reflexivity|]. intros q. split; [intros []|]. intros [[(_ & _ & _ & _ & [(t & X & Y)|(t & X & Y)]) _] _]; congruence.
Qed.
Lemma entries_spec deep p s : D p -> stat f p = Some s -> a_dir f p ->
  (forall n s', listed f p n -> stat f (below p n) = Some s' -> a_dir f (below p n) -> deep_ok (below p n) (deep (below p n) s')) ->
  forall ns all, ls f p = Some all -> incl ns all ->
  exists l, deep_entries f m omit deep bl p (nonempty (append_shallow f m omit bl p s)) ns = Ok l /\
    forall q, In q l <-> (exists n, In n ns /\ one_step f k om p n /\ visits f k om (below p n) q) /\ is_folder f k q /\ ~ om q.
Proof.
  intros HD H HA HR ns all HL. induction ns as [|n ns IH]; intros HI.
  - exists []. split; [reflexivity|]. intros q. split; [intros []|]. intros [(n & [] & _) _].
  - destruct (entry_spec deep p s n HD H HA) as (a & Ea & Ha); [exists all; split; [exact HL|apply HI; now left]|intros; now apply HR|].
    destruct IH as (b & Eb & Hb); [intros x X; apply HI; now right|].
    exists (a ++ b). cbn [deep_entries]. rewrite Ea. cbn [bind]. rewrite Eb. split; [reflexivity|]. intros q. rewrite in_app_iff, Ha, Hb. split.
    + intros [[[A B] C]|[(x & X & B) C]]; (split; [|exact C]); [exists n|exists x]; cbn [In]; tauto.
    + intros [(x & [->|X] & B) C]; [left; tauto|right]. split; [exists x; tauto|exact C].
Qed.
Lemma deep_spec : forall fuel p s, D p -> stat f p = Some s -> (rank p < fuel)%nat -> deep_ok p (append_deep f m omit fuel bl p s).
Proof.
  induction fuel as [|fuel IH]; intros p s HD H HF; [lia|]. cbn [append_deep].
  pose proof (a_dir_spec f p s H) as AD. pose proof (fun q => shallow_spec p s q HD H) as SH. destruct (is_dir s) eqn:ED.
  - assert (A : a_dir f p) by now apply AD. destruct (ls f p) as [ns|] eqn:EL.
    + destruct (entries_spec (append_deep f m omit fuel bl) p s HD H A) with (ns := ns) (all := ns) as (l & El & Hl); auto.
      { intros n s' LI ES A'. apply IH; [now apply D_below|exact ES|]. pose proof (ranked _ _ LI A'). lia. }
      { intros x X; exact X. }
      rewrite El. cbn [bind]. eexists. split; [reflexivity|]. intros q. rewrite in_app_iff, SH, Hl, (visits_inv f k om p q). split.
      * intros [(-> & X)|[(n & _ & X) Y]]; [tauto|]. split; [right; exists n; exact X|exact Y].
      * intros [[->|(n & X & Y)] Z]; [left; tauto|right]. split; [|exact Z]. exists n. split; [|tauto].
        destruct X as (_ & (ns' & E & I & _) & _). congruence.
    + eexists. split; [reflexivity|]. intros q. rewrite SH, (visits_inv f k om p q). split; [intros (-> & X); tauto|].
      intros [[->|(n & (_ & (ns' & E & _) & _) & _)] Z]; [tauto|congruence].
  - eexists. split; [reflexivity|]. intros q. rewrite SH, visits_file; [|intros X; apply AD in X; discriminate]. split; [intros (-> & X); tauto|intros [-> X]; tauto].
Qed.

(* the two kinds of append *)
Definition append_ok (deep : bool) (append : bytes -> stat_t -> res (list bytes)) : Prop :=
  forall p s, D p -> stat f p = Some s -> exists l, append p s = Ok l /\
    forall q, In q l <-> (if deep then visits f k om p q else q = p) /\ is_folder f k q /\ ~ om q.
Lemma shallow_ok : append_ok false (shallow f m omit bl).
Proof.
  intros p s HD H. eexists. split; [reflexivity|]. intros q. rewrite (shallow_spec p s q HD H). split; [intros (-> & X); tauto|intros (-> & X); tauto].
Qed.
Lemma wild_spec deep append g p dir ns : append_ok deep append -> (forall n, listed f dir n -> D (below dir n)) ->
  (forall n, In n ns -> is_glob_match g n = true <-> gmatch p n) ->
  (forall n, In n ns -> dots n = false -> listed f dir n) ->
  exists l, wild_entries f omit append g bl dir ns = Ok l /\
    forall q, In q l <-> exists n, (In n ns /\ dots n = false /\ gmatch p n /\ ~ om (below dir n) /\ exists_ f (below dir n)) /\
      (if deep then visits f k om (below dir n) q else q = below dir n) /\ is_folder f k q /\ ~ om q.
Proof.
  intros HAP HD HG HL. induction ns as [|n ns IH]; cbn [wild_entries].
  { exists []. split; [reflexivity|]. intros q. split; [intros []|]. intros (n & ([] & _) & _). }
  destruct IH as (b & Eb & Hb); [intros x X; apply HG; now right|intros x X; apply HL; now right|].
  assert (HEAD : exists a, (if dots n then Ok [] else if is_glob_match g n then
      if omitted omit bl (child dir n) then Ok [] else match stat f (child dir n) with Some s => append (child dir n) s | None => Ok [] end else Ok []) = Ok a /\
      forall q, In q a <-> (dots n = false /\ gmatch p n /\ ~ om (below dir n) /\ exists_ f (below dir n)) /\
        (if deep then visits f k om (below dir n) q else q = below dir n) /\ is_folder f k q /\ ~ om q).
  { assert (NIL : forall P : bytes -> Prop, (forall q, ~ P q) -> exists a : list bytes, @Ok (list bytes) [] = Ok a /\ forall q, In q a <-> P q).
    { intros P HP. exists []. split; [reflexivity|]. intros q. split; [intros []|]. intros X. now apply HP in X. }
    destruct (dots n) eqn:ED; [apply NIL; intros q [[X _] _]; discriminate|].
    assert (LI := HL n (or_introl eq_refl) ED). pose proof (HD _ LI) as HD'. rewrite <- below_child.
    specialize (HG n (or_introl eq_refl)). destruct (is_glob_match g n).
    2:{ apply NIL. intros q [[_ [X _]] _]. apply HG in X. discriminate. }
    destruct (omitted omit bl (below dir n)) eqn:EO.
    { apply (om_spec _ HD') in EO. apply NIL. intros q [[_ [_ [X _]]] _]. contradiction. }
    apply (om_false _ HD') in EO. destruct (stat f (below dir n)) as [s|] eqn:ES.
    2:{ apply NIL. intros q [[_ [_ [_ (t & X)]]] _]. congruence. }
    destruct (HAP _ s HD' ES) as (l & El & Hl). exists l. split; [exact El|]. intros q. rewrite Hl.
    assert (X : exists_ f (below dir n)) by (exists s; exact ES). assert (Y := proj1 HG eq_refl). tauto. }
  destruct HEAD as (a & Ea & Ha). rewrite Ea. cbn [bind]. rewrite Eb. cbn [bind]. eexists. split; [reflexivity|].
  intros q. rewrite in_app_iff, Ha, Hb. split.
  - intros [[A B]|(x & [X A] & B)]; [exists n|exists x]; cbn [In]; tauto.
  - intros (x & [[->|X] A] & B); [left; tauto|right; exists x; tauto].
Qed.
End Deep.
