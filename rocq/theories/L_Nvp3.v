(* What make_nvp makes of each kind of component, and of the list. *)
From Verif Require Import Base M_Decode M_Nvp S_Nvp L_Nvp L_Nvp2.
From Verif Require M_Tokens.
Local Open Scope N_scope.

Definition valued (v : bytes) (x : nvp_vars) : nvp_vars := {| x_name := x_name x; x_minor := x_minor x; x_value := Some v; x_result := x_result x |}.
Definition minored (v : bytes) (x : nvp_vars) : nvp_vars := {| x_name := x_name x; x_minor := Some v; x_value := x_value x; x_result := x_result x |}.
Lemma white_in : forall i w last text x, Forall white w -> to white i i -> plainb i = true -> cop i = COPY_NOWHERE -> act i = GOT_NOTHING ->
  exists text', go w (Cfg i last COPY_NOWHERE text x) = Some (Cfg i last COPY_NOWHERE text' x).
Proof. intros i w last text x W T P C A. exists (rev w ++ text). rewrite <- C. apply (stay white); try assumption. unfold upd. now rewrite A. Qed.
(* white space that may lead from i to j *)
Lemma white_to : forall i j w last text x, Forall white w -> to white i j -> to white j j -> plainb j = true -> cop j = COPY_NOWHERE -> act j = GOT_NOTHING ->
  exists k text', go w (Cfg i last COPY_NOWHERE text x) = Some (Cfg k last COPY_NOWHERE text' x) /\ (k = i \/ k = j).
Proof.
  intros i j w last text x W T T' P C A. destruct w as [|c w]; [exists i, text; split; [reflexivity|now left]|].
  exists j. eexists. split; [|now right]. rewrite (enter white i j) by (assumption || (split; [discriminate|exact W])). unfold kept, settled. cbn [c_lc c_x c_text]. rewrite C. cbn [copier_beq]. unfold upd. rewrite A. reflexivity.
Qed.

(* percent signs *)
Lemma pct_digit_hex : forall v x, pct_digit v x -> nvp_hex x = Z.of_N v /\ value_char x.
Proof.
  intros v x H. assert (L : (N.to_nat v < 16)%nat). { destruct H as [H|H]; apply nth_error_Some_lt in H || (assert (K : nth_error (bs "0123456789ABCDEF") (N.to_nat v) <> None \/ nth_error (bs "0123456789abcdef") (N.to_nat v) <> None) by (rewrite H; (left; discriminate) || (right; discriminate)); destruct K as [K|K]; apply nth_error_Some in K; exact K). }
  replace (Z.of_N v) with (Z.of_nat (N.to_nat v)) by lia. revert H L. unfold pct_digit. generalize (N.to_nat v) as n. intros n H L.
  do 16 (destruct n as [|n]; [destruct H as [H|H]; cbn in H; injection H as <-; (split; [reflexivity|]; split; [lia|cbn; intuition discriminate])|]). lia.
Qed.
Lemma pct_ok : forall v t, pct_spelled v t -> percent t = Some v /\ Forall value_char t /\ M_Tokens.cstr v = v.
Proof.
  induction 1 as [|c s t V NE P (IH & F & Z)|v w x y s t V W NZ P (IH & F & Z)]; cbn [percent M_Tokens.cstr]; [split; [reflexivity|split; [constructor|reflexivity]]| |].
  - destruct (N.eqb_spec c 37); [contradiction|]. rewrite IH, Z. split; [reflexivity|]. split; [now constructor|]. destruct V as [V _]. destruct (N.eqb_spec c 0); [lia|reflexivity].
  - destruct (pct_digit_hex _ _ V) as [HV CV], (pct_digit_hex _ _ W) as [HW CW]. change (37 =? 37) with true. cbn iota. rewrite HV, HW.
    destruct (Z.ltb_spec (Z.of_N v) 0); [lia|]. destruct (Z.ltb_spec (Z.of_N w) 0); [lia|]. cbn [orb]. rewrite IH, Z. cbn [option_map]. split; [|split; [constructor; [split; [lia|cbn; intuition discriminate]|]; exact (Forall_cons _ CV (Forall_cons _ CW F))|]].
    + apply f_equal. f_equal. lia.
    + destruct (N.eqb_spec (16 * v + w) 0); [contradiction|reflexivity].
Qed.
Lemma pct_some : forall v t, v <> [] -> pct_spelled v t -> some_of value_char t.
Proof. intros v t NE P. split; [|apply (pct_ok v t P)]. destruct P; [contradiction|discriminate|discriminate]. Qed.

(* what a terminator does *)
Lemma combine_ok : forall n v es es', joined n v es es' ->
  (combine_into es n v = Some es') \/ (combine_into es n v = None /\ es' = es ++ [Entry NVP_NAMEVALUE n v]).
Proof.
  assert (Rf : forall a, bytes_eqb a a = true). { induction a as [|c a IH]; [reflexivity|]. cbn. now rewrite N.eqb_refl. }
  assert (Eq : forall a b, bytes_eqb a b = true -> a = b). { induction a as [|c a IH]; intros [|d b] H; try discriminate; [reflexivity|]. cbn in H. rewrite andb_true_iff, N.eqb_eq in H. destruct H as [-> H]. now rewrite (IH b H). }
  induction 1 as [r es| |e es es' NE J IH]; cbn [combine_into].
  - left. cbn [e_type e_lhs e_rhs]. now rewrite Rf.
  - right. now split.
  - destruct (e_type e) eqn:T; [| |destruct (bytes_eqb (e_lhs e) n) eqn:B; [apply Eq in B; destruct (NE eq_refl B)|]]; (destruct IH as [->|[-> ->]]; [left; reflexivity|right; split; reflexivity]).
Qed.
Section Space.
Variable isspc : N -> bool.
Hypothesis space_blank : forall c, blank c -> isspc c = true.
Hypothesis space_name : forall c, name_char c -> isspc c = false.
Definition fin (a : action) (y : nvp_vars) (es : list nvp_entry) : Prop := exists z, terminator isspc a y = Ok (Some z) /\ x_result z = es.

(* a value to the right of an equals sign, unquoted *)
Lemma plain_value : forall i j k a v last text x es, some_of value_char v ->
  to value_char i j -> to value_char j j -> plainb j = true -> act j = a -> a <> GOT_NOTHING -> cop j = COPY_TO_VALUE ->
  to white j k -> to white k k -> plainb k = true -> cop k = COPY_NOWHERE -> act k = a \/ act k = GOT_NOTHING ->
  next j (Some 59) = 4%nat -> next j None = 2%nat -> next k (Some 59) = 4%nat -> next k None = 2%nat ->
  fin a (valued v x) es -> exists q, go v (Cfg i last COPY_NOWHERE text x) = Some q /\ ends isspc q es.
Proof.
  intros i j k a v last text x es V T T' P A NA C W W' P' C' A' N1 N2 N3 N4 (z & Z & R). eexists. split; [apply (enter value_char i j); assumption|].
  assert (U : upd last j = a). { unfold upd. rewrite A. now destruct a. }
  assert (U' : upd a k = a). { unfold upd. destruct A' as [-> | ->]; [now destruct a|reflexivity]. }
  rewrite U, C. unfold kept, settled. cbn [c_lc c_x c_text]. rewrite C. cbn [copier_beq flush]. rewrite app_nil_r. eapply (ends_by isspc j k a) with (x' := z); try assumption.
  unfold settled. cbn [c_lc c_x c_text]. change (cop 4) with COPY_NOWHERE. cbn [copier_beq flush]. rewrite rev_involutive. exact Z.
Qed.
(* and between quotes *)
Lemma quoted_value : forall i q0 j e k a v last text x es, some_of quoted_char v ->
  next i (Some 34) = q0 -> plainb q0 = true -> cop q0 = COPY_NOWHERE ->
  to quoted_char q0 j -> to quoted_char j j -> plainb j = true -> cop j = COPY_TO_VALUE ->
  next j (Some 34) = e -> plainb e = true -> act e = a -> a <> GOT_NOTHING -> cop e = COPY_NOWHERE ->
  to white e k -> to white k k -> plainb k = true -> cop k = COPY_NOWHERE -> act k = a ->
  next e (Some 59) = 4%nat -> next e None = 2%nat -> next k (Some 59) = 4%nat -> next k None = 2%nat ->
  fin a (valued v x) es -> exists q, go ([34] ++ v ++ [34]) (Cfg i last COPY_NOWHERE text x) = Some q /\ ends isspc q es.
Proof.
  intros i q0 j e k a v last text x es V Q0 P0 C0 T T' P C E PE AE NA CE W W' P' C' A' N1 N2 N3 N4 (z & Z & R).
  eexists. split.
  - eapply go_app_ok; [apply (step1 34 i q0); assumption|]. eapply go_app_ok; [apply (enter quoted_char q0 j); assumption|]. apply (step1 34 j e); assumption.
  - unfold kept, settled. cbn [c_lc c_x c_text c_i c_last]. rewrite C0, C, CE. cbn [copier_beq flush].
    assert (U : forall l, upd l e = a). { intro l. unfold upd. rewrite AE. now destruct a. }
    assert (U' : upd a k = a). { unfold upd. rewrite A'. now destruct a. }
    rewrite U, app_nil_r, rev_involutive. eapply (ends_by isspc e k a) with (x' := z); try assumption.
Qed.
Lemma value_param : forall v t last text x es, value_spelled v t -> fin GOT_NAMEVALUE (valued v x) es ->
  exists q, go t (Cfg 5 last COPY_NOWHERE text x) = Some q /\ ends isspc q es.
Proof.
  intros v t last text x es [u V|u V] F.
  - apply (plain_value 5 12 21 GOT_NAMEVALUE); try assumption; try reflexivity; try discriminate; try (left; reflexivity); by_class.
  - apply (quoted_value 5 13 22 31 38 GOT_NAMEVALUE); try assumption; try reflexivity; try discriminate; by_class.
Qed.
Lemma value_piece : forall v t last text x es, value_spelled v t -> fin GOT_NAMEVALUE_CONT (valued v x) es ->
  exists q, go t (Cfg 27 last COPY_NOWHERE text x) = Some q /\ ends isspc q es.
Proof.
  intros v t last text x es [u V|u V] F.
  - apply (plain_value 27 34 40 GOT_NAMEVALUE_CONT); try assumption; try reflexivity; try discriminate; try (left; reflexivity); by_class.
  - apply (quoted_value 27 35 41 46 50 GOT_NAMEVALUE_CONT); try assumption; try reflexivity; try discriminate; by_class.
Qed.

Lemma fin_param : forall n v x, fin GOT_NAMEVALUE (valued v (named n x)) (x_result x ++ [Entry NVP_NAMEVALUE n v]).
Proof. intros. eexists. split; reflexivity. Qed.
Lemma fin_piece : forall n v x es y, joined n v (x_result x) es -> x_name y = Some n -> x_result y = x_result x -> fin GOT_NAMEVALUE_CONT (valued v y) es.
Proof.
  intros n v x es y J EN ER. unfold fin. cbn [terminator valued x_name x_minor x_value x_result]. rewrite EN, ER. destruct (combine_ok _ _ _ _ J) as [->|[-> ->]]; eexists; (split; [reflexivity|]); cbn [x_result]; now rewrite ?ER.
Qed.
Lemma fin_coded : forall a n v t x es y, a = GOT_NAMEVALUE_CSET \/ a = GOT_NAMEVALUE_CCONT -> pct_spelled v t -> joined n v (x_result x) es -> x_name y = Some n -> x_result y = x_result x -> fin a (valued t y) es.
Proof.
  intros a n v t x es y A P J EN ER. unfold fin. destruct A as [-> | ->]; cbn [terminator valued x_name x_minor x_value x_result]; destruct (pct_ok _ _ P) as (-> & _ & ->); rewrite EN, ER; destruct (combine_ok _ _ _ _ J) as [->|[-> ->]]; eexists; (split; [reflexivity|]); cbn [x_result]; now rewrite ?ER.
Qed.

(* one component; what it does to the entries *)
Inductive adds : component -> list nvp_entry -> list nvp_entry -> Prop :=
| ad_word n es : adds (Word n) es (es ++ [Entry NVP_NAME n []])
| ad_type a b es : adds (Type_of a b) es (es ++ [Entry NVP_MAJORMINOR a b])
| ad_param n v es : adds (Param n v) es (es ++ [Entry NVP_NAMEVALUE n v])
| ad_piece n v es es' : joined n v es es' -> adds (Piece n v) es es'.
Lemma after_name : forall c k j n x last', (j = 1 \/ j = 9)%nat -> next 1 (Some c) = k -> next 9 (Some c) = k -> plainb k = true -> cop k = COPY_NOWHERE -> upd GOT_NAME k = last' ->
  exists text, go [c] (Cfg j GOT_NAME COPY_TO_NAME (rev n) x) = Some (Cfg k last' COPY_NOWHERE text (named n x)).
Proof.
  intros c k j n x last' J N1 N9 P C U. eexists. rewrite (step1 c j k) by (try assumption; destruct J as [-> | ->]; assumption). unfold kept, settled. cbn [c_lc c_x c_text]. rewrite C, U. cbn [copier_beq flush]. rewrite rev_involutive. reflexivity.
Qed.
Lemma one : forall c i j last text x, next i (Some c) = j -> plainb j = true -> cop j = COPY_NOWHERE -> act j = GOT_NOTHING ->
  exists text', go [c] (Cfg i last COPY_NOWHERE text x) = Some (Cfg j last COPY_NOWHERE text' x).
Proof. intros c i j last text x N P C A. eexists. rewrite (step1 c i j) by assumption. unfold kept, settled, upd. cbn [c_lc c_x c_text]. rewrite C, A. reflexivity. Qed.
Lemma digits_run : forall s last text x, some_of is_digit s -> exists j text', go s (Cfg 6 last COPY_NOWHERE text x) = Some (Cfg j last COPY_NOWHERE text' x) /\ (j = 15 \/ j = 18 \/ j = 25)%nat.
Proof.
  intros s last text x [NE F]. destruct s as [|c s]; [contradiction|]. pose proof (Forall_inv F) as Fc. apply Forall_inv_tail in F. change (c :: s) with ([c] ++ s).
  assert (exists j text', go [c] (Cfg 6 last COPY_NOWHERE text x) = Some (Cfg j last COPY_NOWHERE text' x) /\ (j = 15 \/ j = 18)%nat) as (j & text' & G & J).
  { destruct (N.eqb_spec c 48) as [->|NZ].
    - destruct (one 48 6 15 last text x) as [t H]; try reflexivity. exists 15%nat, t. split; [exact H|now left].
    - assert (T : to (fun c => is_digit c /\ c <> 48) 6 18). { refine (to_class _ (fun c => has DIGIT c && negb (c =? 48)) _ _ _ _); [|vm_compute; reflexivity]. intros d [D Z]. destruct (digit_has d D) as [L ->]. split; [exact L|]. destruct (N.eqb_spec d 48); [contradiction|reflexivity]. }
      destruct (one c 6 18 last text x (T c (conj Fc NZ))) as [t H]; try reflexivity. exists 18%nat, t. split; [exact H|now right]. }
  destruct s as [|d s].
  - exists j, text'. split; [exact G|tauto].
  - exists 25%nat. eexists. split; [|tauto]. eapply go_app_ok; [exact G|].
    assert (T15 : to is_digit 15 25) by by_class. assert (T18 : to is_digit 18 25) by by_class. assert (T25 : to is_digit 25 25) by by_class.
    destruct J as [-> | ->]; [rewrite (enter is_digit 15 25)|rewrite (enter is_digit 18 25)]; try assumption; try reflexivity; (split; [discriminate|exact F]).
Qed.
Lemma component_ok : forall c t i last text x es, (i = 0 \/ i = 4 \/ i = 10)%nat -> spelled c t -> adds c (x_result x) es ->
  exists q, go t (Cfg i last COPY_NOWHERE text x) = Some q /\ ends isspc q es.
Proof.
  intros c t i last text x es I S A. destruct S as [n N|a b NA NB|n v w t N W V|n k w1 w2 v t N D W1 W2 V|n z w1 w2 cs v t N Z W1 W2 CS NV P|n k w1 w2 v t N D NZ W1 W2 NV P].
  - destruct (name_run n i last text x I N) as (j & G & J & _). exists (Cfg j GOT_NAME COPY_TO_NAME (rev n) x). split; [exact G|]. inversion A; subst. now apply word_ends.
  - assert (NO : name_ok a). { destruct NA as [NE F]. destruct a as [|c a]; [contradiction|]. exists c, a. split; [reflexivity|]. split; [exact (Forall_inv F)|]. split; [|eapply Forall_impl; [|exact (Forall_inv_tail F)]; intros; now left].
      rewrite Forall_forall in F. apply F. assert (NE' : c :: a <> []) by discriminate. rewrite (app_removelast_last 0 NE') at 2. apply in_or_app. right. now left. }
    destruct (name_run a i last text x I NO) as (j & G & J & O). specialize (O (proj2 NA)). subst j. eexists. split.
    + eapply go_app_ok; [exact G|]. eapply go_app_ok; [apply (step1 47 1 7); reflexivity|]. apply (enter minor_char 7 19); [by_class|by_class|exact NB|reflexivity].
    + unfold kept, settled. cbn [c_lc c_x c_text c_i c_last]. change (cop 7) with COPY_NOWHERE. change (cop 19) with COPY_TO_MINOR. cbn [copier_beq flush]. rewrite rev_involutive, app_nil_r. change (upd (upd GOT_NAME 7) 19) with GOT_MAJORMINOR.
      inversion A; subst. eapply (ends_by isspc 19 20); try reflexivity; [by_class|by_class|]. unfold settled. cbn [c_lc c_x c_text]. change (cop 4) with COPY_NOWHERE. cbn [copier_beq flush]. rewrite rev_involutive. reflexivity.
  - destruct (name_run n i last text x I N) as (j & G & J & _). destruct (after_name 61 5 j n x GOT_NAME J) as [t1 G1]; try reflexivity.
    destruct (white_in 5 w GOT_NAME t1 (named n x) W) as [t2 G2]; try reflexivity; [by_class|]. inversion A; subst.
    destruct (value_param v t GOT_NAME t2 (named n x) _ V (fin_param n v x)) as (q & G3 & E). exists q. split; [|exact E].
    eapply go_app_ok; [exact G|]. eapply go_app_ok; [exact G1|]. eapply go_app_ok; [exact G2|]. exact G3.
  - destruct (name_run n i last text x I N) as (j & G & J & _). destruct (after_name 42 6 j n x GOT_NAME J) as [t1 G1]; try reflexivity.
    destruct (digits_run k GOT_NAME t1 (named n x) D) as (j2 & t2 & G2 & J2).
    assert (exists j3 t3, go w1 (Cfg j2 GOT_NAME COPY_NOWHERE t2 (named n x)) = Some (Cfg j3 GOT_NAME COPY_NOWHERE t3 (named n x)) /\ next j3 (Some 61) = 27%nat) as (j3 & t3 & G3 & J3).
    { destruct J2 as [->|[->| ->]].
      - destruct (white_to 15 26 w1 GOT_NAME t2 (named n x) W1) as (j3 & t3 & G3 & [-> | ->]); try reflexivity; try by_class; (eexists; eexists; split; [exact G3|reflexivity]).
      - destruct (white_to 18 26 w1 GOT_NAME t2 (named n x) W1) as (j3 & t3 & G3 & [-> | ->]); try reflexivity; try by_class; (eexists; eexists; split; [exact G3|reflexivity]).
      - destruct (white_to 25 26 w1 GOT_NAME t2 (named n x) W1) as (j3 & t3 & G3 & [-> | ->]); try reflexivity; try by_class; (eexists; eexists; split; [exact G3|reflexivity]). }
    destruct (one 61 j3 27 GOT_NAME t3 (named n x) J3) as [t4 G4]; try reflexivity.
    destruct (white_in 27 w2 GOT_NAME t4 (named n x) W2) as [t5 G5]; try reflexivity; [by_class|]. inversion A; subst.
    destruct (value_piece v t GOT_NAME t5 (named n x) es V) as (q & G6 & E); [eapply fin_piece; [eassumption|reflexivity|reflexivity]|]. exists q. split; [|exact E].
    eapply go_app_ok; [exact G|]. eapply go_app_ok; [exact G1|]. eapply go_app_ok; [exact G2|]. eapply go_app_ok; [exact G3|]. eapply go_app_ok; [exact G4|]. eapply go_app_ok; [exact G5|]. exact G6.
  - destruct (name_run n i last text x I N) as (j & G & J & _). destruct (after_name 42 6 j n x GOT_NAME J) as [t1 G1]; try reflexivity.
    assert (exists t2, go (z ++ w1 ++ [61]) (Cfg j GOT_NAME COPY_TO_NAME (rev n) x) = Some (Cfg 17 GOT_NAME COPY_NOWHERE t2 (named n x))) as [t2 G2].
    { destruct Z as [-> | ->].
      - destruct (white_to 6 16 w1 GOT_NAME t1 (named n x) W1) as (j3 & t3 & G3 & J3); try reflexivity; try by_class.
        destruct (one 61 j3 17 GOT_NAME t3 (named n x)) as [t4 G4]; [destruct J3 as [-> | ->]; reflexivity|reflexivity|reflexivity|reflexivity|]. exists t4. eapply go_app_ok; [exact G1|]. eapply go_app_ok; [exact G3|exact G4].
      - change (bs "*0*") with ([42] ++ [48] ++ [42]). destruct (one 48 6 15 GOT_NAME t1 (named n x)) as [t3 G3]; try reflexivity. destruct (one 42 15 28 GOT_NAME t3 (named n x)) as [t4 G4]; try reflexivity.
        destruct (white_in 28 w1 GOT_NAME t4 (named n x) W1) as [t5 G5]; try reflexivity; [by_class|]. destruct (one 61 28 17 GOT_NAME t5 (named n x)) as [t6 G6]; try reflexivity.
        exists t6. rewrite <- !app_assoc. eapply go_app_ok; [exact G1|]. eapply go_app_ok; [exact G3|]. eapply go_app_ok; [exact G4|]. eapply go_app_ok; [exact G5|exact G6]. }
    destruct (white_in 17 w2 GOT_NAME t2 (named n x) W2) as [t3 G3]; try reflexivity; [by_class|]. inversion A; subst.
    pose proof (pct_some _ _ NV P) as PS.
    assert (exists q, go (cs ++ bs "''" ++ t) (Cfg 17 GOT_NAME COPY_NOWHERE t3 (named n x)) = Some q /\ ends isspc q es) as (q & G4 & E).
    { change (bs "''") with ([39] ++ [39]). destruct cs as [|c cs].
      - cbn [app]. change (39 :: 39 :: t) with ([39] ++ [39] ++ t). destruct (one 39 17 30 GOT_NAME t3 (named n x)) as [t4 G4]; try reflexivity. destruct (one 39 30 37 GOT_NAME t4 (named n x)) as [t5 G5]; try reflexivity.
        destruct (plain_value 37 44 49 GOT_NAMEVALUE_CSET t GOT_NAME t5 (named n x) es PS) as (q & G6 & E); try reflexivity; try discriminate; try by_class; [left; reflexivity|eapply fin_coded; [now left|exact P|eassumption|reflexivity|reflexivity]|].
        exists q. split; [|exact E]. eapply go_app_ok; [exact G4|]. eapply go_app_ok; [exact G5|exact G6].
      - assert (S : some_of minor_char (c :: cs)) by (split; [discriminate|exact CS]). set (m := c :: cs) in *.
        assert (exists t4, go (m ++ [39] ++ [39]) (Cfg 17 GOT_NAME COPY_NOWHERE t3 (named n x)) = Some (Cfg 43 GOT_NAME COPY_NOWHERE t4 (minored m (named n x)))) as [t4 G4].
        { eexists. eapply go_app_ok; [apply (enter minor_char 17 29); [by_class|by_class|exact S|reflexivity]|]. eapply go_app_ok; [apply (step1 39 29 36); reflexivity|]. rewrite (step1 39 36 43) by reflexivity. unfold kept, settled. cbn [c_lc c_x c_text]. change (cop 29) with COPY_TO_MINOR. change (cop 36) with COPY_NOWHERE. change (cop 43) with COPY_NOWHERE. cbn [copier_beq flush]. rewrite app_nil_r, rev_involutive. reflexivity. }
        destruct (plain_value 43 48 51 GOT_NAMEVALUE_CSET t GOT_NAME t4 (minored m (named n x)) es PS) as (q & G6 & E); try reflexivity; try discriminate; try by_class; [left; reflexivity|eapply fin_coded; [now left|exact P|eassumption|reflexivity|reflexivity]|].
        exists q. split; [|exact E]. replace (m ++ ([39] ++ [39]) ++ t) with ((m ++ [39] ++ [39]) ++ t) by (now rewrite <- !app_assoc). eapply go_app_ok; [exact G4|exact G6]. }
    exists q. split; [|exact E]. replace (n ++ z ++ w1 ++ [61] ++ w2 ++ cs ++ bs "''" ++ t) with (n ++ (z ++ w1 ++ [61]) ++ w2 ++ (cs ++ bs "''" ++ t)) by (now rewrite <- !app_assoc).
    eapply go_app_ok; [exact G|]. eapply go_app_ok; [exact G2|]. eapply go_app_ok; [exact G3|exact G4].
  - destruct (name_run n i last text x I N) as (j & G & J & _). destruct (after_name 42 6 j n x GOT_NAME J) as [t1 G1]; try reflexivity.
    assert (exists t2, go [k; 42] (Cfg 6 GOT_NAME COPY_NOWHERE t1 (named n x)) = Some (Cfg 24 GOT_NAME COPY_NOWHERE t2 (named n x))) as [t2 G2].
    { change [k; 42] with ([k] ++ [42]).
      assert (next 6 (Some k) = 14%nat \/ next 6 (Some k) = 18%nat) as [Q|Q].
      { assert (L : k < 256 /\ (has NOT_ZERO k = true)). { unfold alnum_ascii in D. cbn [has]. unfold letter, between. split; [lia|]. rewrite !orb_true_iff, !andb_true_iff, !N.leb_le. lia. }
        destruct L as [L K]. pose proof (sweep_bytes (fun k => negb (has NOT_ZERO k) || (next 6 (Some k) =? 14)%nat || (next 6 (Some k) =? 18)%nat) ltac:(vm_compute; reflexivity) k L) as W. cbv beta in W. rewrite K in W. cbn [negb orb] in W. rewrite orb_true_iff, !Nat.eqb_eq in W. exact W. }
      - destruct (one k 6 14 GOT_NAME t1 (named n x) Q) as [t3 G3]; try reflexivity. destruct (one 42 14 24 GOT_NAME t3 (named n x)) as [t4 G4]; try reflexivity. exists t4. eapply go_app_ok; [exact G3|exact G4].
      - destruct (one k 6 18 GOT_NAME t1 (named n x) Q) as [t3 G3]; try reflexivity. destruct (one 42 18 24 GOT_NAME t3 (named n x)) as [t4 G4]; try reflexivity. exists t4. eapply go_app_ok; [exact G3|exact G4]. }
    destruct (white_in 24 w1 GOT_NAME t2 (named n x) W1) as [t3 G3]; try reflexivity; [by_class|]. destruct (one 61 24 33 GOT_NAME t3 (named n x)) as [t4 G4]; try reflexivity.
    destruct (white_in 33 w2 GOT_NAME t4 (named n x) W2) as [t5 G5]; try reflexivity; [by_class|]. inversion A; subst. pose proof (pct_some _ _ NV P) as PS.
    destruct (plain_value 33 39 45 GOT_NAMEVALUE_CCONT t GOT_NAME t5 (named n x) es PS) as (q & G6 & E); try reflexivity; try discriminate; try by_class; [left; reflexivity|eapply fin_coded; [now right|exact P|eassumption|reflexivity|reflexivity]|].
    exists q. split; [|exact E]. change (n ++ [42; k; 42] ++ w1 ++ [61] ++ w2 ++ t) with (n ++ [42] ++ [k; 42] ++ w1 ++ [61] ++ w2 ++ t).
    eapply go_app_ok; [exact G|]. eapply go_app_ok; [exact G1|]. eapply go_app_ok; [exact G2|]. eapply go_app_ok; [exact G3|]. eapply go_app_ok; [exact G4|]. eapply go_app_ok; [exact G5|exact G6].
Qed.

(* the list *)
Lemma start_white : forall w i last text x, (i = 0 \/ i = 4 \/ i = 10)%nat -> Forall white w -> exists j text', go w (Cfg i last COPY_NOWHERE text x) = Some (Cfg j last COPY_NOWHERE text' x) /\ (j = 0 \/ j = 4 \/ j = 10)%nat /\ (i <> 0%nat -> j <> 0%nat).
Proof.
  intros w i last text x I W. destruct I as [->|[->| ->]].
  - destruct (white_in 0 w last text x W) as [t G]; try reflexivity; [by_class|]. exists 0%nat, t. split; [exact G|]. split; [tauto|tauto].
  - destruct (white_to 4 10 w last text x W) as (j & t & G & J); try reflexivity; try by_class. exists j, t. split; [exact G|]. split; [tauto|]. intros _. destruct J as [-> | ->]; discriminate.
  - destruct (white_in 10 w last text x W) as [t G]; try reflexivity; [by_class|]. exists 10%nat, t. split; [exact G|]. split; [tauto|discriminate].
Qed.
Lemma stands_cons : forall c cs es fs, stands (c :: cs) es fs -> exists es', adds c es es' /\ stands cs es' fs.
Proof. intros c cs es fs H. inversion H; subst; eexists; (split; [constructor; eassumption || constructor|eassumption]) || (split; [constructor|eassumption]). Qed.
Lemma list_ok : forall cs t, listed cs t -> forall i last text x fs, (i = 0 \/ i = 4 \/ i = 10)%nat -> stands cs (x_result x) fs ->
  looped isspc t (Cfg i last COPY_NOWHERE text x) = Ok (Some fs).
Proof.
  assert (Begin : forall c w1 t w2 i last text x es s, (i = 0 \/ i = 4 \/ i = 10)%nat -> Forall white w1 -> spelled c t -> Forall white w2 -> adds c (x_result x) es ->
    exists q, looped isspc (w1 ++ t ++ w2 ++ s) (Cfg i last COPY_NOWHERE text x) = looped isspc s q /\ ready isspc q es).
  { intros c w1 t w2 i last text x es s I W1 S W2 A. destruct (start_white w1 i last text x I W1) as (j & t1 & G1 & J & _). destruct (component_ok c t j last t1 x es J S A) as (q & G2 & E). destruct (E w2 W2) as (q' & G3 & R).
    exists q'. split; [|exact R]. rewrite (looped_go _ _ _ _ _ G1), (looped_go _ _ _ _ _ G2), (looped_go _ _ _ _ _ G3). reflexivity. }
  induction 1 as [c w1 t w2 W1 S W2|c w1 t w2 w3 W1 S W2 W3|c cs w1 t w2 r W1 S W2 L IH]; intros i last text x fs I ST; apply stands_cons in ST; destruct ST as (es & A & ST).
  - inversion ST; subst. destruct (Begin c w1 t w2 i last text x fs [] I W1 S W2 A) as (q & G & R). rewrite app_nil_r in G. rewrite G. now apply ready_end.
  - inversion ST; subst. destruct (Begin c w1 t w2 i last text x fs ([59] ++ w3) I W1 S W2 A) as (q & G & R). rewrite G. destruct (ready_more isspc q fs w3 R) as (t1 & y & H & RY). cbn [app]. rewrite H.
    destruct (start_white w3 4 GOT_NOTHING t1 y) as (j & t2 & G2 & J & NZ); [tauto|exact W3|]. specialize (NZ ltac:(discriminate)). rewrite <- (app_nil_r w3), (looped_go _ _ _ _ _ G2). unfold looped. cbn [iloop c_i c_last c_lc c_text c_x].
    assert (next j None = 2%nat) as -> by (destruct J as [->|[->| ->]]; [contradiction|reflexivity|reflexivity]). cbn [Nat.eqb]. change (act 2) with GOT_TERMINATOR. change (cop 2) with COPY_NOWHERE. cbn [copier_beq terminator bind fst]. now rewrite RY.
  - destruct (Begin c w1 t w2 i last text x es ([59] ++ r) I W1 S W2 A) as (q & G & R). rewrite G. destruct (ready_more isspc q es r R) as (t1 & y & H & RY). cbn [app]. rewrite H. apply IH; [tauto|]. now rewrite RY.
Qed.
End Space.
