(* The model of the scanner takes what flex takes: classes, and the rest. *)
From Verif Require Import Base M_Scan S_Flex L_Mbox L_Flex L_Flex2 L_Flex3.
Local Open Scope N_scope.

Definition escapes : list (nat * N) := [(51%nat, 45); (52%nat, 93); (53%nat, 94); (54%nat, 110); (55%nat, 114); (56%nat, 102); (57%nat, 116); (58%nat, 92)].
(* what can be taken from a backslash on *)
Lemma backslash s j r' y' : In j (possible CHARCLASS 92) -> nth_error rules j = Some r' -> matches (pat r') y' -> (exists z, 92 :: s = y' ++ z) ->
  eol r' = false /\
  ((exists e z, In (j, e) escapes /\ y' = [92; e] /\ s = e :: z) \/
   (j = 60%nat /\ exists h k z, hex_digit h = true /\ hex_digit k = true /\ y' = [92; 120; h; k] /\ s = 120 :: h :: k :: z) \/
   (j = 61%nat /\ exists h k l z, octal_digit h = true /\ octal_digit k = true /\ octal_digit l = true /\ y' = [92; h; k; l] /\ s = h :: k :: l :: z) \/
   (j = 62%nat /\ y' = [92])).
Proof.
  intros J H M (z & Z).
  assert (J' : In j [51; 52; 53; 54; 55; 56; 57; 58; 60; 61; 62]%nat) by exact J. clear J. cbn [In] in J'.
  do 8 (destruct J' as [<-|J']; [cbn in H; inv H; split; [reflexivity|]; left; destruct M as [<-|[]]; cbn [app] in Z; inv Z; eexists; eexists; split; [|split; reflexivity]; vm_compute; tauto|]).
  destruct J' as [<-|[<-|[<-|[]]]]; cbn in H; inv H; (split; [reflexivity|]); right.
  - left. split; [reflexivity|]. destruct M as (u & v & -> & [<-|[]] & u1 & v1 & -> & (h & -> & HH) & (k & -> & KK)). cbn [app] in Z. inv Z. exists h, k, z. repeat split; assumption.
  - right; left. split; [reflexivity|]. destruct M as (u & v & -> & [<-|[]] & u1 & v1 & -> & (h & -> & HH) & u2 & v2 & -> & (k & -> & KK) & (l & -> & LL)). cbn [app] in Z. inv Z. exists h, k, l, z. repeat split; assumption.
  - right; right. split; [reflexivity|]. destruct M as (d & -> & D). cbn [app] in Z. now inv Z.
Qed.
Lemma hex_spec c : hex c = if hex_digit c then Some (digit c) else None.
Proof.
  unfold hex, hex_digit, digit, range, between. destruct ((48 <=? c) && (c <=? 57)) eqn:A.
  - apply andb_true_iff in A. destruct A as (_ & A). rewrite A. reflexivity.
  - destruct ((97 <=? c) && (c <=? 102)) eqn:B.
    + cbn [orb]. apply andb_true_iff in B. destruct B as (B & _). apply N.leb_le in B. replace (c <=? 57) with false by (symmetry; apply N.leb_gt; lia). replace (c <=? 70) with false by (symmetry; apply N.leb_gt; lia). reflexivity.
    + cbn [orb]. destruct ((65 <=? c) && (c <=? 70)) eqn:D; [|reflexivity]. apply andb_true_iff in D. destruct D as (D & D'). rewrite D'. apply N.leb_le in D. replace (c <=? 57) with false by (symmetry; apply N.leb_gt; lia). reflexivity.
Qed.
Lemma digit_hex c : hex_digit c = true -> digit c < 16.
Proof.
  unfold hex_digit, digit, between. intros H. repeat rewrite orb_true_iff in H. repeat rewrite andb_true_iff in H. repeat rewrite N.leb_le in H.
  destruct (c <=? 57) eqn:A; [apply N.leb_le in A; lia|]. apply N.leb_gt in A. destruct (c <=? 70) eqn:B; [apply N.leb_le in B; lia|]. apply N.leb_gt in B. lia.
Qed.
Lemma digit_octal c : octal_digit c = true -> digit c = c - 48.
Proof. unfold octal_digit, between, digit. intros H. apply andb_true_iff in H. destruct H as (_ & H). apply N.leb_le in H. replace (c <=? 57) with true by (symmetry; apply N.leb_le; lia). reflexivity. Qed.
Lemma number_hex h k : hex_digit h = true -> hex_digit k = true -> number 16 [h; k] = digit h * 16 + digit k.
Proof. intros H K. apply digit_hex in H, K. unfold number. cbn [fold_left]. rewrite N.mul_0_l, N.add_0_l. apply N.mod_small. lia. Qed.
Lemma number_octal h k l : octal_digit h = true -> octal_digit k = true -> octal_digit l = true -> number 8 [h; k; l] = ((h - 48) * 64 + (k - 48) * 8 + (l - 48)) mod 256.
Proof. intros H K L. unfold number. cbn [fold_left]. rewrite !digit_octal by assumption. f_equal. rewrite N.mul_0_l, N.add_0_l. lia. Qed.
Lemma escape_one j j' e : In (j, e) escapes -> In (j', e) escapes -> j = j'.
Proof. intros A B. cbn [escapes In] in A, B. repeat (destruct A as [A|A]; [inv A; repeat (destruct B as [B|B]; [now inv B|]); destruct B|]). destruct A. Qed.
Lemma escape_not_octal j e : In (j, e) escapes -> octal_digit e = false /\ e <> 120.
Proof. intros A. cbn [escapes In] in A. repeat (destruct A as [A|A]; [inv A; split; [reflexivity|discriminate]|]). destruct A. Qed.
Definition dot_class : rule := Rule CHARCLASS false (One dot) false (give_char (fun y => nth 0 y 0)).
Lemma nth62 : nth_error rules 62 = Some dot_class. Proof. reflexivity. Qed.
(* nothing but the character itself *)
Lemma plain_char f b b' c s : claim f -> (length s <= f)%nat -> dot c = true ->
  (forall j r' y', In j (possible CHARCLASS c) -> nth_error rules j = Some r' -> matches (pat r') y' -> (exists z, c :: s = y' ++ z) -> j = 62%nat) ->
  scans CHARCLASS b (c :: s) (let! ts := lex f CHARCLASS b' s in Ok (CHAR c :: ts)).
Proof.
  intros IH L D G. rewrite given. eapply (take CHARCLASS b _ [c] s dot_class); [reflexivity|discriminate| |reflexivity|apply IH; [exact L|tauto]|reflexivity].
  apply (other _ _ _ _ 62); [exact nth62| |discriminate|].
  - split; [reflexivity|]. split; [discriminate|]. split; [now exists c|]. exists s. split; [reflexivity|discriminate].
  - intros j r' c' y' J H W B M (z & Z & _). assert (j = 62%nat) by (apply (G j r' (c' :: y') J H M); eauto). subst j. rewrite nth62 in H. inv H. right. split; [|lia]. destruct M as (d & M & _). now rewrite M.
Qed.
Lemma step_escape f b b' j e x s : claim f -> (length s <= f)%nat -> In (j, e) escapes -> nth_error rules j = Some (Rule CHARCLASS false (AnyOf [[92; e]]) false (give_char (fun _ => x))) ->
  scans CHARCLASS b (92 :: e :: s) (let! ts := lex f CHARCLASS b' s in Ok (CHAR x :: ts)).
Proof.
  intros IH L E H. rewrite given. eapply (take CHARCLASS b _ [92; e] s (Rule CHARCLASS false (AnyOf [[92; e]]) false (give_char (fun _ => x)))); [reflexivity|discriminate| |reflexivity|apply IH; [exact L|tauto]|reflexivity].
  apply (other _ _ _ _ j _ _ H); [|discriminate|].
  - split; [reflexivity|]. split; [discriminate|]. split; [now left|]. exists s. split; [reflexivity|discriminate].
  - intros j' r' c' y' J H' W B M (z & Z & _). destruct (backslash _ _ _ _ J H' M (ex_intro _ _ Z)) as (EO & D). unfold weight. rewrite EO. cbn [eol].
    destruct (escape_not_octal _ _ E) as (NO & NX). destruct D as [(e' & z' & E' & -> & Q)|[(-> & h & k & z' & _ & _ & _ & Q)|[(-> & h & k & l & z' & O & _ & _ & _ & Q)|(-> & ->)]]].
    + inv Q. rewrite (escape_one _ _ _ E' E). right. split; [reflexivity|lia].
    + inv Q. congruence.
    + inv Q. congruence.
    + left. cbn [length]. lia.
Qed.
Lemma step_backslash f b b' s : claim f -> (length s <= f)%nat ->
  scans CHARCLASS b (92 :: s) (match class_char (92 :: s) with Some (x, r) => let! ts := lex f CHARCLASS b' r in Ok (CHAR x :: ts) | None => Err E_fuel end).
Proof.
  intros IH L. destruct s as [|c s].
  - cbn [class_char]. apply plain_char; [exact IH|exact L|reflexivity|]. intros j r' y' J H M Z.
    destruct (backslash _ _ _ _ J H M Z) as (_ & [(e & z & _ & _ & Q)|[(_ & h & k & z & _ & _ & _ & Q)|[(_ & h & k & l & z & _ & _ & _ & _ & Q)|(Q & _)]]]); try discriminate. exact Q.
  - cbn [length] in L. cbn [class_char].
    assert (ESC : forall j e x, c = e -> In (j, e) escapes -> nth_error rules j = Some (Rule CHARCLASS false (AnyOf [[92; e]]) false (give_char (fun _ => x))) ->
      scans CHARCLASS b (92 :: c :: s) (let! ts := lex f CHARCLASS b' s in Ok (CHAR x :: ts))).
    { intros j e x -> E H. apply (step_escape f b b' j e x s); [exact IH|lia|exact E|exact H]. }
    destruct (c =? 45) eqn:C1; [apply N.eqb_eq in C1; subst c; cbn [orb]; apply (ESC 51%nat 45); [reflexivity|vm_compute; tauto|reflexivity]|].
    destruct (c =? 93) eqn:C2; [apply N.eqb_eq in C2; subst c; cbn [orb]; apply (ESC 52%nat 93); [reflexivity|vm_compute; tauto|reflexivity]|].
    destruct (c =? 94) eqn:C3; [apply N.eqb_eq in C3; subst c; cbn [orb]; apply (ESC 53%nat 94); [reflexivity|vm_compute; tauto|reflexivity]|].
    destruct (c =? 92) eqn:C4; [apply N.eqb_eq in C4; subst c; cbn [orb]; apply (ESC 58%nat 92); [reflexivity|vm_compute; tauto|reflexivity]|]. cbn [orb].
    destruct (c =? 110) eqn:C5; [apply N.eqb_eq in C5; apply (ESC 54%nat 110); [exact C5|vm_compute; tauto|reflexivity]|].
    destruct (c =? 114) eqn:C6; [apply N.eqb_eq in C6; apply (ESC 55%nat 114); [exact C6|vm_compute; tauto|reflexivity]|].
    destruct (c =? 102) eqn:C7; [apply N.eqb_eq in C7; apply (ESC 56%nat 102); [exact C7|vm_compute; tauto|reflexivity]|].
    destruct (c =? 116) eqn:C8; [apply N.eqb_eq in C8; apply (ESC 57%nat 116); [exact C8|vm_compute; tauto|reflexivity]|].
    assert (NE : forall j, ~ In (j, c) escapes).
    { intros j E. cbn [escapes In] in E. repeat (destruct E as [E|E]; [inversion E; subst c; discriminate|]). destruct E. }
    clear ESC. 
    assert (PL : (forall h k z, c :: s = 120 :: h :: k :: z -> hex_digit h = true -> hex_digit k = true -> False) ->
                 (forall h k l z, c :: s = h :: k :: l :: z -> octal_digit h = true -> octal_digit k = true -> octal_digit l = true -> False) ->
                 scans CHARCLASS b (92 :: c :: s) (let! ts := lex f CHARCLASS b' (c :: s) in Ok (CHAR 92 :: ts))).
    { intros N1 N2. apply plain_char; [exact IH|exact L|reflexivity|]. intros j r' y' J H M Z.
      destruct (backslash _ _ _ _ J H M Z) as (_ & [(e & z & E & _ & Q)|[(_ & h & k & z & HH & KK & _ & Q)|[(_ & h & k & l & z & HH & KK & LL & _ & Q)|(Q & _)]]]); [| | |exact Q]; exfalso.
      - inv Q. exact (NE _ E).
      - exact (N1 _ _ _ Q HH KK).
      - exact (N2 _ _ _ _ Q HH KK LL). }
    assert (HX : forall h k z, c = 120 -> s = h :: k :: z -> hex_digit h = true -> hex_digit k = true -> scans CHARCLASS b (92 :: c :: s) (let! ts := lex f CHARCLASS b' z in Ok (CHAR (digit h * 16 + digit k) :: ts))).
    { intros h k z -> -> HH KK. rewrite given. eapply (take CHARCLASS b _ [92; 120; h; k] z (Rule CHARCLASS false (Then (AnyOf [bs "\x"]) (Then (One hex_digit) (One hex_digit))) false (give_char (fun y => number 16 (skipn 2 y)))));
        [reflexivity|discriminate| |reflexivity|apply IH; [cbn [length] in L; lia|tauto]|cbn [option_map give_char skipn]; now rewrite number_hex].
      apply (other _ _ _ _ 60); [reflexivity| |discriminate|].
      - split; [reflexivity|]. split; [discriminate|]. split; [|exists z; split; [reflexivity|discriminate]]. exists [92; 120], [h; k]. split; [reflexivity|]. split; [now left|]. exists [h], [k]. split; [reflexivity|]. split; [now exists h|now exists k].
      - intros j' r' c' y' J H' W B M (z' & Z & _). destruct (backslash _ _ _ _ J H' M (ex_intro _ _ Z)) as (EO & D). unfold weight. rewrite EO. cbn [eol].
        destruct D as [(e' & z'' & E' & -> & Q)|[(-> & h' & k' & z'' & _ & _ & -> & Q)|[(-> & h' & k' & l & z'' & O & _ & _ & -> & Q)|(-> & ->)]]]; cbn [length]; try lia; inv Q; discriminate. }
    assert (OC : forall d e z, s = d :: e :: z -> octal_digit c = true -> octal_digit d = true -> octal_digit e = true ->
      scans CHARCLASS b (92 :: c :: s) (let! ts := lex f CHARCLASS b' z in Ok (CHAR (((c - 48) * 64 + (d - 48) * 8 + (e - 48)) mod 256) :: ts))).
    { intros d e z -> CC DD EE. rewrite given.
      eapply (take CHARCLASS b _ [92; c; d; e] z (Rule CHARCLASS false (Then (AnyOf [bs "\"]) (Then (One octal_digit) (Then (One octal_digit) (One octal_digit)))) false (give_char (fun y => number 8 (skipn 1 y)))));
        [reflexivity|discriminate| |reflexivity|apply IH; [cbn [length] in L; lia|tauto]|cbn [option_map give_char skipn]; now rewrite number_octal].
      apply (other _ _ _ _ 61); [reflexivity| |discriminate|].
      - split; [reflexivity|]. split; [discriminate|]. split; [|exists z; split; [reflexivity|discriminate]]. exists [92], [c; d; e]. split; [reflexivity|]. split; [now left|]. exists [c], [d; e]. split; [reflexivity|]. split; [now exists c|].
        exists [d], [e]. split; [reflexivity|]. split; [now exists d|now exists e].
      - intros j' r' c' y' J H' W B M (z' & Z & _). destruct (backslash _ _ _ _ J H' M (ex_intro _ _ Z)) as (EO & D). unfold weight. rewrite EO. cbn [eol].
        destruct D as [(e' & z'' & E' & -> & Q)|[(-> & h' & k' & z'' & _ & _ & -> & Q)|[(-> & h' & k' & l & z'' & O & _ & _ & -> & Q)|(-> & ->)]]]; cbn [length]; try lia. inv Q. discriminate. }
    destruct (c =? 120) eqn:C9.
    + apply N.eqb_eq in C9.
      assert (N2 : forall h k l z, c :: s = h :: k :: l :: z -> octal_digit h = true -> octal_digit k = true -> octal_digit l = true -> False) by (intros h k l z Q O; inv Q; discriminate).
      destruct s as [|x [|y s]].
      * apply PL; [discriminate|exact N2].
      * apply PL; [discriminate|exact N2].
      * rewrite !hex_spec. destruct (hex_digit x) eqn:X; [destruct (hex_digit y) eqn:Y|].
        -- exact (HX x y s C9 eq_refl X Y).
        -- apply PL; [|exact N2]. intros h k z Q _ K. inv Q. congruence.
        -- apply PL; [|exact N2]. intros h k z Q K _. inv Q. congruence.
    + assert (N1 : forall h k z, c :: s = 120 :: h :: k :: z -> hex_digit h = true -> hex_digit k = true -> False) by (intros h k z Q; inv Q; discriminate).
      destruct s as [|x [|y s]]; [apply PL; [exact N1|discriminate]|apply PL; [exact N1|discriminate]|].
      change octal with octal_digit. destruct (octal_digit c) eqn:O1; [destruct (octal_digit x) eqn:O2; [destruct (octal_digit y) eqn:O3|]|]; cbn [andb].
      * exact (OC x y s eq_refl eq_refl O2 O3).
      * apply PL; [exact N1|]. intros h k l z Q _ _ K. inv Q. congruence.
      * apply PL; [exact N1|]. intros h k l z Q _ K _. inv Q. congruence.
      * apply PL; [exact N1|]. intros h k l z Q K _ _. inv Q. congruence.
Qed.
