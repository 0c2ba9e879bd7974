(* The model of the scanner takes what flex takes. *)
From Verif Require Import Base M_Scan S_Flex L_Mbox L_Flex L_Flex2.
Local Open Scope N_scope.

Ltac inv H := inversion H; subst; clear H.
Lemma take st b s y z r bg gv o o' : s = y ++ z -> s <> [] -> chosen st b s r y -> act r = Do bg gv ->
  scans (match bg with Some st' => st' | None => st end) (last y 0 =? 10) z o -> o' = prepend (option_map (fun g => g y) gv) o -> scans st b s o'.
Proof. intros -> N C A S ->. exact (sc_take _ _ _ _ _ _ _ _ N C A S). Qed.
Lemma given (t : token) o : (let! ts := o in Ok (t :: ts)) = prepend (Some t) o.
Proof. now destruct o. Qed.
(* taking short marks *)
Lemma take_short st b c s i y z r bg gv o o' : nth_error rules i = Some r -> where_ r = st -> bol r = false -> eol r = false -> matches (pat r) y -> c :: s = y ++ z -> y <> [] ->
  forallb (short (length y) i) (possible st c) = true -> act r = Do bg gv ->
  scans (match bg with Some st' => st' | None => st end) (last y 0 =? 10) z o -> o' = prepend (option_map (fun g => g y) gv) o -> scans st b (c :: s) o'.
Proof. intros. eapply take; try eassumption; [discriminate|]. eapply choose_short; eassumption. Qed.
(* the rules that can take nothing else than what another takes, or less *)
Lemma other st b c s i r y : nth_error rules i = Some r -> applies st b (c :: s) r y -> y <> [] ->
  (forall j r' c' y', In j (possible st c) -> nth_error rules j = Some r' -> where_ r' = st -> (bol r' = true -> b = true) -> matches (pat r') (c' :: y') ->
     (exists z, c :: s = (c' :: y') ++ z /\ (eol r' = true -> exists z', z = 10 :: z')) -> (weight r' (c' :: y') < weight r y)%nat \/ (weight r' (c' :: y') = weight r y /\ (i <= j)%nat)) ->
  chosen st b (c :: s) r y.
Proof. intros H A Y G. apply (choose_at st b c s i); try assumption. intros j r' c' y' J H' (W & B & M & Z). exact (G j r' c' y' J H' W B M Z). Qed.
Lemma quit b c s : dot c = true ->
  (forall j r' c' y', In j (possible INITIAL c) -> nth_error rules j = Some r' -> where_ r' = INITIAL -> (bol r' = true -> b = true) -> matches (pat r') (c' :: y') ->
     (exists z, c :: s = (c' :: y') ++ z /\ (eol r' = true -> exists z', z = 10 :: z')) -> j = 43%nat) ->
  scans INITIAL b (c :: s) (Err (E_exit 1)).
Proof.
  intros D G. apply (sc_quit _ _ _ dot_rule [c]); [discriminate| |reflexivity]. apply (other _ _ _ _ 43); [exact nth43| |discriminate|].
  - split; [reflexivity|]. split; [discriminate|]. split; [now exists c|]. exists s. split; [reflexivity|discriminate].
  - intros j r' c' y' J H W B M Z. assert (j = 43%nat) by exact (G j r' c' y' J H W B M Z). subst j. rewrite nth43 in H. inv H. right. split; [|lia]. destruct M as (d & M & _). now rewrite M.
Qed.
Ltac pos J H := vm_compute in J; repeat (destruct J as [<-|J]; [cbn in H; inv H|]); [..|destruct J].

(* a match on a number that is not the one *)
Ltac lit d G NE := let p := fresh in destruct d as [|p]; [exact G|]; do 7 (try (destruct p as [p|p|]; try exact G)); try (exfalso; apply NE; reflexivity).
Definition claim (f : nat) : Prop := forall st b b' s, (length s <= f)%nat -> (st = STR \/ st = CHARCLASS \/ b = b') -> scans st b s (lex f st b' s).

Lemma step_str f b b' c s : claim f -> (length s <= f)%nat -> scans STR b (c :: s) (lex (S f) STR b' (c :: s)).
Proof.
  intros IH L. cbn [lex]. destruct (c =? 34) eqn:C.
  - apply N.eqb_eq in C. subst c. eapply (take_short STR b 34 s 47 [34] s); try reflexivity; try discriminate; [now left|]. apply IH; [exact L|right; right; reflexivity].
  - destruct (take_while (fun c => negb (c =? 34)) (c :: s)) as (w, r) eqn:T. destruct (tw_spec _ _ _ _ T) as (E & F & R).
    assert (Y : w <> []) by (intros ->; cbn [app] in E; subst r; rewrite C in R; discriminate).
    assert (P : forallb (Nat.eqb 48) (possible STR c) = true).
    { apply (check_all (forallb (Nat.eqb 48)) (fun c => negb (c =? 34))); [|vm_compute; reflexivity|now rewrite C]. intros d D. replace (d =? 34) with false by (symmetry; apply N.eqb_neq; lia). reflexivity. }
    rewrite given. eapply (take STR b _ w r (Rule STR false (Many (fun c => negb (c =? 34))) false (Do None (Some STRING)))); [exact E|discriminate| |reflexivity| |reflexivity].
    + apply (other _ _ _ _ 48); [reflexivity| |exact Y|].
      * split; [reflexivity|]. split; [discriminate|]. split; [exact F|]. exists r. split; [exact E|discriminate].
      * intros j r' c' y' J H W B M (z & Z & _). rewrite forallb_forall in P. specialize (P _ J). apply Nat.eqb_eq in P. subst j. cbn in H. inv H. cbn [pat matches] in M. rewrite E in Z.
        destruct (prefix_max (fun c => negb (c =? 34)) w r _ z Z R M) as (LE & _). unfold weight. cbn [eol]. lia.
    + apply IH; [|now left]. apply (f_equal (@length N)) in E. rewrite app_length in E. cbn [length] in E. destruct w; [congruence|]. cbn [length] in E. lia.
Qed.
Lemma blank_line_iff s r' : blank_line s = Some r' <-> exists v, forallb space v = true /\ s = v ++ 10 :: r'.
Proof.
  unfold blank_line. rewrite (tw_ext _ _ s blank_space). split.
  - destruct (take_while space s) as (v, r) eqn:T. destruct (tw_spec _ _ _ _ T) as (-> & F & _). cbn [snd]. intros H. exists v. split; [exact F|].
    destruct r as [|d r]; [discriminate|]. assert (D : d = 10) by (destruct d as [|[[[[]|[]|]|[[]|[]|]|]|[[[]|[]|]|[[]|[]|]|]|]]; try discriminate H; reflexivity). subst d. now inv H.
  - intros (v & F & ->). rewrite tw_exact by (exact F || reflexivity). reflexivity.
Qed.
(* %{ and %} on a line of their own *)
Lemma brace_matches (w : bytes) y : matches (Then (AnyOf [w]) (Then (Many space) (AnyOf [[10]]))) y <-> exists v, forallb space v = true /\ y = w ++ v ++ [10].
Proof.
  split.
  - intros (u & v & -> & [<-|[]] & (v1 & v2 & -> & V & [<-|[]])). exists v1. split; [exact V|reflexivity].
  - intros (v & V & ->). exists w, (v ++ [10]). split; [reflexivity|]. split; [now left|]. exists v, [10]. split; [reflexivity|]. split; [exact V|now left].
Qed.
Lemma step_passthru f b c s : claim f -> (length s <= f)%nat -> scans PASSTHRU b (c :: s) (lex (S f) PASSTHRU b (c :: s)).
Proof.
  intros IH L. cbn [lex]. destruct (c =? 10) eqn:C.
  - apply N.eqb_eq in C. subst c. eapply (take_short PASSTHRU b 10 s 45 [10] s); try reflexivity; try discriminate; [now left|]. apply IH; [exact L|right; right; reflexivity].
  - assert (P : forallb (fun j => Nat.eqb 44 j || Nat.eqb 46 j) (possible PASSTHRU c) = true).
    { apply (check_all (forallb (fun j => Nat.eqb 44 j || Nat.eqb 46 j)) (fun c => negb (c =? 10))); [|vm_compute; reflexivity|now rewrite C]. intros d D. replace (d =? 10) with false by (symmetry; apply N.eqb_neq; lia). reflexivity. }
    assert (G : (forall r r', b = true -> c :: s = 37 :: 125 :: r -> blank_line r = Some r' -> False) -> scans PASSTHRU b (c :: s) (lex f PASSTHRU false (snd (take_while not_newline (c :: s))))).
    { intros NO. destruct (take_while not_newline (c :: s)) as (w, r) eqn:T. cbn [snd]. destruct (tw_spec _ _ _ _ T) as (E & F & R).
      assert (Y : w <> []) by (intros ->; cbn [app] in E; subst r; unfold not_newline in R; rewrite C in R; discriminate).
      eapply (take PASSTHRU b _ w r (Rule PASSTHRU false (Then (One dot) (Many dot)) false (Do None None))); [exact E|discriminate| |reflexivity| |reflexivity].
      - apply (other _ _ _ _ 46); [reflexivity| |exact Y|].
        + split; [reflexivity|]. split; [discriminate|]. split; [now apply some_matches|]. exists r. split; [exact E|discriminate].
        + intros j r' c' y' J H W B M (z & Z & _). rewrite forallb_forall in P. specialize (P _ J). apply orb_true_iff in P. destruct P as [P|P]; apply Nat.eqb_eq in P; subst j; cbn in H; inv H.
          * exfalso. cbn [pat bol] in *. apply brace_matches in M. destruct M as (v & V & M). rewrite M in Z. change (bs "%}") with [37; 125] in Z. cbn [app] in Z. rewrite <- app_assoc in Z. cbn [app] in Z.
            apply (NO (v ++ 10 :: z) z (B eq_refl) Z). apply blank_line_iff. eauto.
          * apply matches_some in M. rewrite E in Z. destruct (prefix_max dot w r _ z Z R M) as (LE & _). unfold weight. cbn [eol]. lia.
      - rewrite (last_not dot w F eq_refl Y). apply IH; [|right; right; reflexivity]. apply (f_equal (@length N)) in E. rewrite app_length in E. cbn [length] in E. destruct w; [congruence|]. cbn [length] in E. lia. }
    assert (D : (exists r r', b = true /\ c :: s = 37 :: 125 :: r /\ blank_line r = Some r') \/ (forall r r', b = true -> c :: s = 37 :: 125 :: r -> blank_line r = Some r' -> False)).
    { destruct b; [|right; discriminate]. destruct (N.eq_dec c 37) as [-> |NE]; [|right; congruence]. destruct s as [|d s]; [right; discriminate|].
      destruct (N.eq_dec d 125) as [-> |NE]; [|right; congruence]. destruct (blank_line s) as [r'|] eqn:BL; [left; eauto|right; congruence]. }
    destruct D as [(r & r' & -> & E & BL)|NO].
    + inv E. rewrite BL. clear G. apply blank_line_iff in BL. destruct BL as (v & V & ->).
      eapply (take PASSTHRU true _ (37 :: 125 :: v ++ [10]) r' (Rule PASSTHRU true (Then (AnyOf [bs "%}"]) (Then (Many space) (AnyOf [[10]]))) false (Do (Some INITIAL) None)));
        [cbn [app]; now rewrite <- app_assoc|discriminate| |reflexivity| |reflexivity].
      * apply (other _ _ _ _ 44); [reflexivity| |discriminate|].
        -- split; [reflexivity|]. split; [reflexivity|]. split; [apply brace_matches; now exists v|]. exists r'. split; [cbn [app]; now rewrite <- app_assoc|discriminate].
        -- intros j q c' y' J H W B M (z & Z & _). rewrite forallb_forall in P. specialize (P _ J). apply orb_true_iff in P. destruct P as [P|P]; apply Nat.eqb_eq in P; subst j; cbn in H; inv H.
           ++ cbn [pat] in M. apply brace_matches in M. destruct M as (v' & V' & M). rewrite M in *. change (bs "%}") with [37; 125] in *. cbn [app] in Z. rewrite <- app_assoc in Z. cbn [app] in Z. inv Z.
              assert (X : take_while space (v ++ 10 :: r') = take_while space (v' ++ 10 :: z)) by now rewrite H0. rewrite !tw_exact in X by (assumption || reflexivity). inv X. right. split; [reflexivity|lia].
           ++ apply matches_some in M. left. assert (Z' : (37 :: 125 :: v) ++ 10 :: r' = (c' :: y') ++ z) by exact Z.
              destruct (prefix_max dot (37 :: 125 :: v) (10 :: r') _ z Z' eq_refl M) as (LE & _). unfold weight. cbn [eol length] in *. rewrite app_length. cbn [length]. lia.
      * change (37 :: 125 :: v ++ [10]) with ((37 :: 125 :: v) ++ [10]). rewrite last_snoc. apply IH; [|right; right; reflexivity]. cbn [length] in L. rewrite app_length in L. cbn [length] in L. lia.
    + specialize (G NO). destruct b; [|exact G]. destruct (N.eq_dec c 37) as [-> |NE].
      * destruct s as [|d s]; [exact G|]. destruct (N.eq_dec d 125) as [-> |NE]; [|lit d G NE].
        destruct (blank_line s) as [r'|] eqn:BL; [|exact G]. destruct (NO s r' eq_refl eq_refl BL).
      * lit c G NE.
Qed.
