(* Headers are read without running out of bounds; types, names and encodings. *)
From Verif Require Import Base M_Tokens M_Decode M_Header M_Words M_Nvp M_Rfc822 S_Decode S_Header S_Words S_Nvp S_Rfc822 S_Multipart S_Mime
  L_Decode L_Header L_TokTable L_Words3 L_Nvp4 L_Multipart L_Multipart2 L_Output3 L_Rfc822 L_Rfc822b L_Rfc822c L_Rfc822d L_Mime.
Local Open Scope N_scope.

Lemma case_refuse : forall a b, ~ same_name a b -> case_eqb a b = false.
Proof. intros a b H. destruct (case_eqb a b) eqn:E; [apply case_eqb_iff in E; contradiction|reflexivity]. Qed.
Lemma same_trans : forall a b c, same_name a b -> same_name a c -> same_name b c.
Proof. unfold same_name. congruence. Qed.

Section Total.
Variable isspc : N -> bool.
Variable mktime : Z -> Z -> Z -> Z.
Hypothesis A : forall c, c < 128 -> isspc c = isspace c.

Lemma colon_cut : forall x n v, cut_colon x = Some (n, v) -> after_colon x = Some v.
Proof.
  induction x as [|c x IH]; intros n v C; [discriminate|]. cbn [cut_colon after_colon] in *. destruct (c =? 58); [injection C as _ <-; reflexivity|].
  destruct (cut_colon x) as [[n' v']|] eqn:E; [|discriminate]. injection C as _ <-. exact (IH _ _ eq_refl).
Qed.
Lemma tail_c : forall x n v, cut_colon x = Some (n, v) -> c_string x -> c_string v.
Proof.
  induction x as [|c x IH]; intros n v C S; [discriminate|]. cbn [cut_colon] in C. inversion S; subst. destruct (c =? 58); [injection C as _ <-; assumption|].
  destruct (cut_colon x) as [[n' v']|] eqn:E; [|discriminate]. injection C as _ <-. exact (IH _ _ eq_refl H2).
Qed.
Lemma cstr_app : forall r t, ~ In 0 r -> cstr (r ++ 0 :: t) = r.
Proof.
  induction r as [|c r IH]; intros t H; [reflexivity|]. cbn [app cstr]. destruct (c =? 0) eqn:E; [apply N.eqb_eq in E; subst c; exfalso; apply H; left; reflexivity|].
  f_equal. apply IH. intros G. apply H. right. exact G.
Qed.
Lemma copy_some : forall x n v, cut_colon x = Some (n, v) -> c_string x -> exists r, copy_header_value x = Ok (Some r) /\ forall r', reads v r' -> ~ In 0 r' -> r = r'.
Proof.
  intros x n v C S. unfold copy_header_value. rewrite (colon_cut _ _ _ C). pose proof (tail_c _ _ _ C S) as V. destruct (safe_main v [] V) as (r & junk & E & _).
  rewrite E. cbn [bind]. eexists. split; [reflexivity|]. intros r' R Z. destruct (reads_main v r' [] V R) as (junk' & E' & _). rewrite E' in E. apply Ok_inj in E. rewrite <- E. apply cstr_app. exact Z.
Qed.
Lemma date_cases : forall s, (exists d, parse_rfc822_date isspc mktime s = Ok d) \/ parse_rfc822_date isspc mktime s = Err E_ub.
Proof.
  intros s. assert (AT : forall s, (exists d, atoi s = Ok d) \/ atoi s = Err E_ub) by (intros t; unfold atoi; destruct (_ <? _)%Z; eauto).
  unfold parse_rfc822_date. cbv zeta.
  repeat match goal with
  | |- context [bind (atoi ?t) _] => destruct (AT t) as [[? ->]| ->]; cbn [bind]; [|right; reflexivity]
  | |- (exists _, Ok _ = Ok _) \/ _ => left; eexists; reflexivity
  | |- context [match skip_while ?p ?t with _ => _ end] => destruct (skip_while p t)
  | |- context [if ?b then Ok _ else _] => destruct b
  | |- context [match month_number ?a ?b ?c with _ => _ end] => destruct (month_number a b c)
  end.
Qed.
Lemma entry_cases : forall st x, c_string x -> (exists st', header_entry isspc mktime st x = Ok st') \/
  header_entry isspc mktime st x = Err E_ub /\ exists v r, value_of "date" x = [v] /\ (forall r', reads v r' -> ~ In 0 r' -> r = r') /\ parse_rfc822_date isspc mktime r = Err E_ub.
Proof.
  intros st x C. rewrite entry_view. cbv zeta. 
  assert (TN : forall slot pfx, exists o, try_nvp isspc slot x pfx = Ok o) by (intros [s|] pfx; unfold try_nvp, unset; [eexists; reflexivity|exact (nvp_safe isspc A x pfx C)]).
  destruct (TN (hs_ct st) (bs "content-type" ++ [58])) as [o1 O1], (TN (hs_cte st) (bs "content-transfer-encoding" ++ [58])) as [o2 O2], (TN (hs_cd st) (bs "content-disposition" ++ [58])) as [o3 O3].
  rewrite O1, O2, O3. clear TN O1 O2 O3. cbn [bind]. unfold value_of. destruct (cut_colon x) as [[n v]|] eqn:E.
  - destruct (copy_some x n v E C) as (r & R & SH).
    assert (CC : forall o, exists w, copy_or_concat_header_value o x = Ok w) by (intros [o|]; unfold copy_or_concat_header_value; rewrite R; cbn [bind]; eexists; reflexivity).
    destruct (CC (h_to (hs st))) as [w1 W1], (CC (h_cc (hs st))) as [w2 W2]. rewrite W1, W2, R. cbn [bind].
    destruct (bytes_eqb (map tolower n) (bs "to")); [eauto|]. destruct (bytes_eqb (map tolower n) (bs "cc")); [eauto|].
    destruct (_ && bytes_eqb (map tolower n) (bs "from")); [eauto|]. destruct (_ && bytes_eqb (map tolower n) (bs "subject")); [eauto|].
    destruct o1; [eauto|]. destruct o2; [eauto|]. destruct o3; [eauto|].
    destruct (bytes_eqb (map tolower n) (bs "date")) eqn:D.
    + rewrite andb_true_r. destruct (_ =? _)%Z.
      * destruct (date_cases r) as [[d Q]|Q]; rewrite Q; cbn [bind]; [eauto|]. right. split; [reflexivity|]. exists v, r. auto.
      * repeat match goal with |- context [if ?b then Ok _ else _] => destruct b; [eauto|] end. eauto.
    + rewrite andb_false_r. repeat match goal with |- context [if ?b then Ok _ else _] => destruct b; [eauto|] end. eauto.
  - rewrite !andb_false_r. destruct o1; [eauto|]. destruct o2; [eauto|]. destruct o3; eauto.
Qed.
Lemma entries_total : forall lines st, Forall c_string lines -> dates_ok isspc lines -> exists st', header_entries isspc mktime st lines = Ok st'.
Proof.
  intros lines st C. revert st. induction C as [|x lines X C IH]; intros st D; [eexists; reflexivity|]. cbn [header_entries].
  destruct (entry_cases st x X) as [[st' E]|(_ & v & r & V & SH & E)].
  - rewrite E. cbn [bind]. apply IH. destruct D as [D|(v & r & y & m & d & D & D2)]; rewrite values_cons in D.
    + apply app_eq_nil in D. left. tauto.
    + destruct (value_one "date" x) as [W|[w W]]; rewrite W in D; [right; exists v, r, y, m, d; auto|]. injection D as -> D. left. exact D.
  - exfalso. destruct D as [D|(v' & r' & y & m & d & D & RE & NZ & DT)]; rewrite values_cons, V in D; [discriminate|]. injection D as -> _.
    rewrite (SH _ RE NZ), (date_main isspc mktime A _ _ _ _ DT) in E. discriminate.
Qed.

(* types and names *)
Lemma type_read : forall cs es major P, stands cs [] es -> has_type cs major P -> exists b, P b /\ nvp_minor es = Some b /\ exists a, nvp_major es = Some a /\ same_name a (bs major).
Proof. intros cs es major P ST (a & b & r & -> & S & Q). destruct (type_ok _ _ _ _ ST) as [T1 T2]. eauto 8. Qed.
Lemma param_read : forall cs es key o, stands cs [] es -> param cs key o -> nvp_lookupcase es key = o.
Proof.
  intros cs es key [v|] ST H.
  - destruct H as (pre & n & post & -> & S & N). apply (found_ok _ _ _ _ _ _ ST S).
    + intros c I. apply N. apply in_or_app. left. exact I.
    + intros m u I E. apply (N (Piece m u)); [apply in_or_app; right; exact I|]. exists m, u. auto.
  - exact (look_before _ _ _ _ ST eq_refl H).
Qed.
Lemma joined_names : forall n v es es', joined n v es es' -> forall e, In e es' -> e_type e = NVP_NAMEVALUE -> e_lhs e = n \/ exists e', In e' es /\ e_type e' = NVP_NAMEVALUE /\ e_lhs e' = e_lhs e.
Proof.
  intros n v es es' J. induction J as [r es| |x es es' NT J IH]; intros e I T.
  - destruct I as [<-|I]; [left; reflexivity|]. right. exists e. cbn; auto.
  - destruct I as [<-|[]]. left. reflexivity.
  - destruct I as [<-|I]; [right; exists x; cbn; auto|]. destruct (IH e I T) as [E|(e' & I' & Q)]; [left; exact E|]. right. exists e'. cbn; auto.
Qed.
Lemma stands_names : forall cs es fs, stands cs es fs -> forall e, In e fs -> e_type e = NVP_NAMEVALUE ->
  (exists e', In e' es /\ e_type e' = NVP_NAMEVALUE /\ e_lhs e' = e_lhs e) \/ exists v, In (Param (e_lhs e) v) cs \/ In (Piece (e_lhs e) v) cs.
Proof.
  intros cs es fs ST. induction ST as [es|n cs es fs ST IH|a b cs es fs ST IH|n v cs es fs ST IH|n v cs es es' fs J ST IH]; intros e I T; [left; eauto|..];
    (destruct (IH e I T) as [(e' & I' & T' & L)|(u & Q)]; [|right; exists u; cbn; tauto]).
  - apply in_app_or in I'. destruct I' as [I'|[<-|[]]]; [left; eauto|discriminate].
  - apply in_app_or in I'. destruct I' as [I'|[<-|[]]]; [left; eauto|discriminate].
  - apply in_app_or in I'. destruct I' as [I'|[<-|[]]]; [left; eauto|]. right. exists v. left. left. cbn in L. rewrite L. reflexivity.
  - destruct (joined_names _ _ _ _ J e' I' T') as [E|(e2 & I2 & T2 & L2)]; [|left; exists e2; split; [exact I2|]; split; [exact T2|congruence]].
    right. exists v. right. left. congruence.
Qed.
Lemma name_exact : forall cs es key, stands cs [] es -> (forall n v, In (Param n v) cs \/ In (Piece n v) cs -> same_name n key -> n = key) -> nvp_lookup es key = nvp_lookupcase es key.
Proof.
  intros cs es key ST H. unfold nvp_lookup, nvp_lookupcase. f_equal.
  assert (G : forall e, In e es -> e_type e = NVP_NAMEVALUE -> case_eqb (e_lhs e) key = bytes_eqb (e_lhs e) key).
  { intros e I T. destruct (stands_names _ _ _ ST e I T) as [(e' & [] & _)|(v & Q)]. destruct (case_eqb (e_lhs e) key) eqn:E.
    - apply case_eqb_iff in E. rewrite (H _ v Q E). symmetry. apply bytes_eqb_refl.
    - symmetry. apply bytes_eqb_neq. intros Z. rewrite Z, (proj2 (case_eqb_iff key key) eq_refl) in E. discriminate. }
  clear ST H. induction es as [|e es IH]; [reflexivity|]. cbn [find]. rewrite IH by (intros; apply G; [right|]; assumption).
  destruct (e_type e) eqn:T; try reflexivity. rewrite (G e (or_introl eq_refl) T). reflexivity.
Qed.
Lemma named_read : forall ct es cd h o, stands ct [] es -> read_as cd h -> file_named cd ct o -> file_name es h = o.
Proof.
  intros ct es cd h o ST R F. destruct F as [ct|w cd ct NW|w cd ct f SW P|w cd ct o SW P Q X]; destruct h as [h|]; cbn [read_as] in R; try contradiction; cbn [file_name]; [reflexivity|..]; 
    destruct (word_ok _ _ _ R) as [_ W]; rewrite W; cbn [is].
  - rewrite (case_refuse _ _ NW). reflexivity.
  - rewrite (proj2 (case_eqb_iff _ _) SW). rewrite (param_read _ _ _ _ R P). reflexivity.
  - rewrite (proj2 (case_eqb_iff _ _) SW). rewrite (param_read _ _ _ _ R P). rewrite (name_exact ct es (bs "name") ST); [exact (param_read _ _ _ _ ST Q)|].
    intros n v [I|I] S; [exact (X n v I S)|]. exfalso. destruct o as [u|]; [|apply (Q _ I); exists n, v; auto]. destruct Q as (pre & m & post & -> & _ & N).
    apply in_app_or in I. destruct I as [I|[I|I]]; [|discriminate|]; apply (N (Piece n v)); try (apply in_or_app; tauto); exists n, v; auto.
Qed.
(* encodings *)
Definition encoding (h : hdr) : option bytes := match h with Some es => nvp_first es | None => None end.
Lemma transfer_read : forall cte h raw d after, read_as cte h -> transfer isspc cte raw d -> (h = None \/ exists es e, h = Some es /\ nvp_first es = Some e) /\ unencode_data isspc (raw ++ after) (length raw) (encoding h) = Ok d.
Proof.
  intros cte h raw d after R T. destruct T as [raw|e cs raw E|e cs raw d E Q|e cs u junk d E B S J]; destruct h as [h|]; cbn [read_as] in R; try contradiction.
  - split; [left; reflexivity|]. apply plain_main; [exact A|left; reflexivity].
  - destruct (word_ok _ _ _ R) as [_ W]. split; [right; eauto|]. cbn [encoding]. rewrite W. apply plain_main; [exact A|right; eauto].
  - destruct (word_ok _ _ _ R) as [_ W]. split; [right; eauto|]. cbn [encoding]. rewrite W. apply qp_main; assumption.
  - destruct (word_ok _ _ _ R) as [_ W]. split; [right; eauto|]. cbn [encoding]. rewrite W. apply base64_main; assumption.
Qed.
Lemma spread_length : forall s u, spread s u -> (length s <= length u)%nat.
Proof. intros s u H. induction H; cbn [length]; lia. Qed.
Lemma base64_length : forall s, (length s <= length (base64_of s))%nat.
Proof.
  assert (G : forall n s, (length s <= n)%nat -> (length s <= length (base64_of s))%nat); [|intros s; exact (G _ s (Nat.le_refl _))].
  induction n as [|n IH]; intros s L; [destruct s; [cbn; lia|cbn [length] in L; lia]|]. destruct s as [|a [|b [|c s]]]; cbn [base64_of]; cbv zeta; cbn [length] in *; try lia. specialize (IH s ltac:(lia)). lia.
Qed.
Lemma hex_small : forall x v, hex x v -> v < 16.
Proof.
  intros x v H. assert (L : (N.to_nat v < 16)%nat) by (destruct H as [H|H]; match type of H with ?z = _ => assert (Z : z <> None) by (rewrite H; discriminate) end; apply nth_error_Some in Z; exact Z). lia.
Qed.
Lemma transfer_small : forall cte raw d, transfer isspc cte raw d -> (length d <= length raw)%nat /\ (Forall (fun c => c < 256) raw -> Forall (fun c => c < 256) d).
Proof.
  intros cte raw d T. destruct T as [raw|e cs raw E|e cs raw d E Q|e cs u junk d E B S J]; auto.
  - clear E. induction Q as [|c s t N Q IH|x y a b s t X Y Q IH|w s t W Q IH]; [auto|..]; destruct IH as [I1 I2]; (split; [cbn [length]; rewrite ?app_length; cbn [length]; lia|]); intros F.
    + inversion F; subst. apply Forall_cons; auto.
    + inversion F; subst. inversion H2; subst. inversion H4; subst. apply Forall_cons; [|auto]. apply hex_small in X, Y. lia.
    + inversion F; subst. apply Forall_app in H2. destruct H2 as [_ H2]. inversion H2; subst. auto.
  - split; [|auto]. pose proof (spread_length _ _ S). pose proof (base64_length d). rewrite app_length. lia.
Qed.
End Total.
