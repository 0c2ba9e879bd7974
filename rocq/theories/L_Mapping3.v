From Verif Require Import Base M_Mapping S_Mapping L_Mbox.
Local Open Scope N_scope.

Definition low (e : bytes) : Prop := Forall (fun c => ~ (65 <= c <= 90)) e.
Lemma lower_case c d : ~ (65 <= d <= 90) -> (tolower c = d <-> same_but_case c d).
Proof. unfold same_but_case, tolower. intros H. unfold isupper. destruct (_ && _) eqn:E; lia. Qed.
Lemma lower_all : forall e t, low e -> (map tolower t = e <-> Forall2 same_but_case t e).
Proof.
  induction e as [|d e IH]; intros t L; split; intros H.
  - destruct t; [constructor|discriminate].
  - inversion H; reflexivity.
  - inversion L as [|? ? L1 L2]; subst. destruct t as [|c t]; [discriminate|]. cbn [map] in H. injection H as H1 H2. constructor; [now apply lower_case|now apply IH].
  - inversion L as [|? ? L1 L2]; subst. inversion H as [|c ? t' ? S1 S2]; subst. cbn [map]. f_equal; [now apply lower_case|now apply IH].
Qed.
Lemma same_length : forall t e, Forall2 same_but_case t e -> length t = length e.
Proof. induction 1; cbn [length]; congruence. Qed.
Lemma ending_iff name e : low e -> (has_ending name e = true <-> ends_in e name).
Proof.
  intros L. unfold has_ending. rewrite andb_true_iff, bytes_eqb_iff, (lower_all _ _ L). split.
  - intros [A B]. exists (firstn (length name - length e) name), (skipn (length name - length e) name). split; [symmetry; apply firstn_skipn|]. split; [|exact B].
    intros E. apply (f_equal (@length N)) in E. rewrite firstn_length in E. cbn [length] in E. lia.
  - intros (stem & tail & -> & NE & F). pose proof (same_length _ _ F) as SL. rewrite app_length. split; [destruct stem; [contradiction|]; cbn [length]; lia|].
    replace (length stem + length tail - length e)%nat with (length stem) by lia. rewrite skipn_app, skipn_all, Nat.sub_diag. exact F.
Qed.
Lemma last_same : forall t e d, Forall2 same_but_case t (e ++ [d]) -> exists t' c, t = t' ++ [c] /\ same_but_case c d.
Proof. intros t e d H. apply Forall2_app_inv_r in H. destruct H as (t' & u & _ & F & ->). inversion F as [|c ? v ? S1 S2]; subst. inversion S2; subst. exists t', c. auto. Qed.
Lemma not_both e d e' d' name : ends_in (e ++ [d]) name -> ends_in (e' ++ [d']) name -> exists c, same_but_case c d /\ same_but_case c d'.
Proof.
  intros (s & t & -> & _ & F) (s' & t' & E & _ & F'). apply last_same in F as (u & c & -> & S1). apply last_same in F' as (u' & c' & -> & S2). rewrite !app_assoc in E. apply app_inj_tail in E. destruct E as [_ <-]. exists c. auto.
Qed.
Lemma second_last e x d e' x' d' name : ends_in (e ++ [x] ++ [d]) name -> ends_in (e' ++ [x'] ++ [d']) name -> exists c, same_but_case c x /\ same_but_case c x'.
Proof.
  rewrite !app_assoc. intros (s & t & -> & _ & F) (s' & t' & E & _ & F'). apply Forall2_app_inv_r in F as (u & v & F & G & ->). apply Forall2_app_inv_r in F' as (u' & v' & F' & G' & ->).
  apply last_same in F as (w & c & -> & S1). apply last_same in F' as (w' & c' & -> & S2). inversion G as [|? ? ? ? _ G1]; subst. inversion G1; subst. inversion G' as [|? ? ? ? _ G2]; subst. inversion G2; subst.
  rewrite !app_assoc in E. apply app_inj_tail in E as [E _]. apply app_inj_tail in E as [_ <-]. exists c. auto.
Qed.
Lemma kind_main g b x name :
  (get_compression_type g b x name = COMPRESSION_GZIP <-> g = true /\ ends_in (bs ".gz") name) /\
  (get_compression_type g b x name = COMPRESSION_BZIP <-> b = true /\ ends_in (bs ".bz2") name) /\
  (get_compression_type g b x name = COMPRESSION_XZ <-> x = true /\ ends_in (bs ".xz") name).
Proof.
  assert (L1 : low (bs ".gz")) by (apply Forall_forall; cbn; intuition lia). assert (L2 : low (bs ".bz2")) by (apply Forall_forall; cbn; intuition lia). assert (L3 : low (bs ".xz")) by (apply Forall_forall; cbn; intuition lia).
  pose proof (ending_iff name _ L1) as E1. pose proof (ending_iff name _ L2) as E2. pose proof (ending_iff name _ L3) as E3.
  assert (D12 : ends_in (bs ".gz") name -> ends_in (bs ".bz2") name -> False) by (intros A B; destruct (not_both (bs ".g") 122 (bs ".bz") 50 name A B) as (c & P & Q); unfold same_but_case in *; lia).
  assert (D32 : ends_in (bs ".xz") name -> ends_in (bs ".bz2") name -> False) by (intros A B; destruct (not_both (bs ".x") 122 (bs ".bz") 50 name A B) as (c & P & Q); unfold same_but_case in *; lia).
  assert (D13 : ends_in (bs ".gz") name -> ends_in (bs ".xz") name -> False) by (intros A B; destruct (second_last (bs ".") 103 122 (bs ".") 120 122 name A B) as (c & P & Q); unfold same_but_case in *; lia).
  unfold get_compression_type. destruct g, b, x, (has_ending name (bs ".gz")), (has_ending name (bs ".bz2")), (has_ending name (bs ".xz")); cbn [andb]; intuition (discriminate || (exfalso; eauto) || auto).
Qed.
