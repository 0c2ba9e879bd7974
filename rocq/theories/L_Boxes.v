From Verif Require Import Base M_DbFile M_Mbox S_Mbox S_Multipart M_Update S_Update M_Session S_Session S_Boxes L_Mbox L_Mbox2.
Local Open Scope N_scope.

Lemma whole_app a b : whole_lines a -> whole_lines b -> whole_lines (a ++ b).
Proof. intros A [->|(u & ->)]; [now rewrite app_nil_r|]. right. exists (a ++ u). now rewrite app_assoc. Qed.

(* ---- pieces ---- *)
Section Pieces.
Variable from_ok : bytes -> bool.
Variable va : bytes.
Notation LEN := (N.of_nat (length va)).
Notation sep b := (separator from_ok va b).
(* ms are the pieces from b on *)
Definition parted (b : N) (ms : list (N * N)) : Prop := (forall m, In m ms <-> is_message from_ok va b m) /\ in_file_order ms.
Lemma order_tail (m : N * N) ms : in_file_order (m :: ms) -> in_file_order ms.
Proof. intros H i j a b L A B. apply (H (S i) (S j)); auto. lia. Qed.
Lemma order_head (m : N * N) ms : in_file_order (m :: ms) -> forall x, In x ms -> fst m + snd m < fst x.
Proof. intros H x I. apply In_nth_error in I as (j & J). apply (H 0%nat (S j)); auto. lia. Qed.
Lemma order_eq : forall l l', in_file_order l -> in_file_order l' -> (forall m, In m l <-> In m l') -> l = l'.
Proof.
  induction l as [|m l IH]; intros [|m' l'] O O' E; auto.
  - destruct (proj2 (E m') (or_introl eq_refl)).
  - destruct (proj1 (E m) (or_introl eq_refl)).
  - assert (m = m').
    { destruct (proj1 (E m) (or_introl eq_refl)) as [->|I]; auto. destruct (proj2 (E m') (or_introl eq_refl)) as [->|I']; auto.
      pose proof (order_head _ _ O _ I'). pose proof (order_head _ _ O' _ I). lia. }
    subst m'. f_equal. apply IH; try (eapply order_tail; eassumption). intros x. split; intros I.
    + destruct (proj1 (E x) (or_intror I)) as [<-|]; auto. pose proof (order_head _ _ O _ I). lia.
    + destruct (proj2 (E x) (or_intror I)) as [<-|]; auto. pose proof (order_head _ _ O' _ I). lia.
Qed.
Lemma parted_eq b ms ms' : parted b ms -> parted b ms' -> ms = ms'.
Proof. intros [A O] [A' O']. apply order_eq; auto. intros m. now rewrite A, A'. Qed.
(* ms are the pieces, the first of which begins at q *)
Definition begun (b q : N) (ms : list (N * N)) : Prop :=
  (exists e ms', sep b e /\ q <= e /\ (forall x, sep b x -> q <= x -> e <= x) /\ ms = (q, e - q) :: ms' /\ parted e ms') \/
  ((forall x, sep b x -> x < q) /\ ms = [(q, LEN - q)]).

Lemma parted_none b : (forall x, ~ sep b x) -> parted b [].
Proof. intros H. split; [|intros i j m m' L E; destruct i; discriminate]. intros m. split; [intros []|]. intros ((p & S & _) & _). destruct (H p S). Qed.
Lemma parted_begun b p q ms : sep b p -> (forall x, sep b x -> p <= x) -> next_line_at va p q -> begun b q ms -> parted b ms.
Proof.
  intros S M NL B. pose proof (nl_gt from_ok va p q NL) as [G1 G2]. pose proof (sep_ge from_ok va b p S) as BP.
  assert (Old : forall m, is_message from_ok va b m -> fst m = q \/ exists p', sep b p' /\ q <= p' /\ p' < fst m).
  { intros m ((p0 & S0 & N0) & _). pose proof (nl_gt from_ok va _ _ N0) as G0. destruct (N.eq_dec p0 p) as [->|D]; [left; eapply (nl_det from_ok); eauto|]. pose proof (M p0 S0).
    right. exists p0. split; [exact S0|]. split; [apply (sep_after from_ok va b p q p0); auto; lia|lia]. }
  destruct B as [(e & ms' & SE & GE & ME & -> & IN & OR)|(NO & ->)].
  - assert (LE : line_start va b e) by apply SE.
    assert (ISQ : is_message from_ok va b (q, e - q)).
    { split; [exists p; auto|]. cbn [fst snd]. replace (q + (e - q)) with e by lia. split; [exact ME|now left]. }
    assert (UP : forall m, is_message from_ok va e m <-> is_message from_ok va b m /\ e < fst m).
    { intros m. assert (RB : forall x, sep e x <-> sep b x /\ e <= x) by (intros x; apply rebase; auto; lia). split.
      - intros ((p0 & S0 & N0) & A1 & A2). pose proof (nl_gt from_ok va _ _ N0) as G0. apply RB in S0 as [S0 L0]. split; [|lia]. split; [eauto|]. split.
        + intros x Sx Lx. apply A1; auto. apply RB. split; auto. lia.
        + destruct A2 as [A2|]; auto. left. now apply RB in A2.
      - intros [((p0 & S0 & N0) & A1 & A2) L]. split.
        + exists p0. split; auto. apply RB. split; auto. destruct (N.le_gt_cases e p0) as [|C]; auto. exfalso. pose proof (sep_after from_ok va b p0 (fst m) e SE ltac:(lia) S0 N0). lia.
        + split; [intros x Sx Lx; apply RB in Sx as [Sx _]; auto|]. destruct A2 as [A2|]; auto. left. apply RB. split; auto. lia. }
    split.
    + intros m. split.
      * intros [<-|I]; [exact ISQ|]. apply IN in I. now apply UP.
      * intros I. destruct (Old m I) as [E|(p' & S' & L1 & L2)]; [left; eapply message_det; eauto|]. right. apply IN, UP. split; auto. pose proof (ME _ S' L1). lia.
    + intros i j m m' L E1 E2. destruct j as [|j]; [lia|]. cbn [nth_error] in E2. destruct i as [|i]; cbn [nth_error] in E1; [|apply (OR i j); auto; lia].
      injection E1 as <-. cbn [fst snd]. apply nth_error_In, IN, UP in E2. lia.
  - assert (ISQ : is_message from_ok va b (q, LEN - q)).
    { split; [exists p; auto|]. cbn [fst snd]. replace (q + (LEN - q)) with LEN by lia. split; [|now right]. intros x Sx Lx. pose proof (NO x Sx). lia. }
    split.
    + intros m. split; [intros [<-|[]]; exact ISQ|]. intros I. destruct (Old m I) as [E|(p' & S' & L1 & L2)]; [left; eapply message_det; eauto|]. pose proof (NO _ S'). lia.
    + intros i j m m' L E1 E2. destruct j as [|j]; [lia|]. cbn [nth_error] in E2. destruct j; discriminate.
Qed.
End Pieces.

(* ---- grouping is a function ---- *)
Lemma grouped_det W va : forall ms a b, grouped W va ms a -> grouped W va ms b -> a = b.
Proof.
  intros ms a b A. revert b. induction A as [|st ln cs k c pl E L EW FA G IH|st ln cs pl FA G IH]; intros b B; inversion B as [|? ? ? k' c' pl' E' L' EW' FA' G'|? ? ? pl' FA' G']; subst; auto.
  - destruct (Nat.lt_trichotomy k k') as [C|[C|C]]; [destruct (FA' _ _ C E EW)| |destruct (FA _ _ C E' EW')]. subst k'. rewrite E in E'. injection E' as <-. f_equal. now apply IH.
  - destruct (FA' _ _ L E EW).
  - destruct (FA _ _ L' E' EW').
  - f_equal. now apply IH.
Qed.
