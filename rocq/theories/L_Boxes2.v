From Verif Require Import Base M_DbFile M_Mbox S_Mbox S_Multipart M_Update S_Update M_Session S_Session S_Boxes L_Mbox L_Mbox2 L_Boxes.
Local Open Scope N_scope.

Lemma begun_base from_ok va p b x ms : p <= b -> line_start va p b -> b <= x -> begun from_ok va p x ms -> begun from_ok va b x ms.
Proof.
  intros L LS G B. assert (RB : forall y, separator from_ok va b y <-> separator from_ok va p y /\ b <= y) by (intros y; apply rebase; auto).
  destruct B as [(e & ms' & SE & GE & ME & -> & PA)|(NO & ->)].
  - left. exists e, ms'. split; [apply RB; split; auto; lia|]. split; [exact GE|]. split; [|auto]. intros y Sy Ly. apply RB in Sy as [Sy _]. auto.
  - right. split; auto. intros y Sy. apply RB in Sy as [Sy _]. auto.
Qed.
Lemma app_at (va a s : bytes) : va = a ++ s -> from va (N.of_nat (length a)) = s.
Proof. intros ->. unfold from. rewrite Nat2N.id, skipn_app, Nat.sub_diag, skipn_all. reflexivity. Qed.
Lemma from_split (va : bytes) p : p <= N.of_nat (length va) -> va = firstn (N.to_nat p) va ++ from va p.
Proof. intros _. symmetry. apply firstn_skipn. Qed.
Lemma from_no10 : ~ In 10 (bs "From ").
Proof. intros [E|[E|[E|[E|[E|[]]]]]]; discriminate. Qed.

Section Mail.
Variable W : world.
Notation fo := (w_from_ok W).
Variable va A l t B : bytes.
Variable p : N.
Notation LEN := (N.of_nat (length va)).
Hypothesis OK : mail_ok (fun r => fo r = true) (fun t => snd (w_parse W t) = true) (l, t).
Hypothesis EV : va = A ++ bs "From " ++ l ++ [10] ++ t ++ B.
Hypothesis EP : p = N.of_nat (length A).
Definition q0 : N := p + N.of_nat (length l) + 6.
Definition E_ : N := q0 + N.of_nat (length t).
Hypothesis EB : B = [] \/ exists l' r, B = bs "From " ++ l' ++ 10 :: r /\ fo (l' ++ 10 :: r) = true.
Notation sep := (separator fo va p).

Lemma text_at : from va q0 = t ++ B.
Proof.
  replace q0 with (N.of_nat (length (A ++ bs "From " ++ l ++ [10]))). { apply app_at. rewrite EV, <- !app_assoc. reflexivity. }
  rewrite !app_length. change (length (bs "From ")) with 5%nat. cbn [length]. unfold q0. rewrite EP. lia.
Qed.
Lemma end_at : from va E_ = B.
Proof.
  replace E_ with (N.of_nat (length (A ++ bs "From " ++ l ++ [10] ++ t))). { apply app_at. rewrite EV, <- !app_assoc. reflexivity. }
  rewrite !app_length. change (length (bs "From ")) with 5%nat. cbn [length]. unfold E_, q0. rewrite EP. lia.
Qed.
Lemma len_va : LEN = E_ + N.of_nat (length B).
Proof. rewrite EV, !app_length. change (length (bs "From ")) with 5%nat. cbn [length]. unfold E_, q0. rewrite EP. lia. Qed.
Lemma first_sep : sep p.
Proof.
  split; [now left|]. exists (l ++ [10] ++ t ++ B). split; [rewrite EP; apply app_at; exact EV|]. apply (mo_sep _ _ _ OK).
Qed.
Lemma first_line : next_line_at va p q0.
Proof.
  exists (bs "From " ++ l), (t ++ B). split; [rewrite EP; apply app_at; rewrite EV, <- !app_assoc; reflexivity|]. split; [|split].
  - intros I. apply in_app_or in I as [I|I]; [exact (from_no10 I)|exact (mo_line _ _ _ OK I)].
  - pose proof (mo_some _ _ _ OK) as S. cbn [snd] in S. destruct t; [congruence|discriminate].
  - rewrite app_length. change (length (bs "From ")) with 5%nat. unfold q0. lia.
Qed.
Lemma va_text k : k < N.of_nat (length t) -> nth_error va (N.to_nat (q0 + k)) = nth_error t (N.to_nat k).
Proof.
  intros L. transitivity (nth_error (from va q0) (N.to_nat k)); [rewrite from_at; f_equal; lia|]. rewrite text_at, nth_error_app1 by lia. reflexivity.
Qed.
Lemma last_nl : exists u, t = u ++ [10].
Proof. destruct (mo_lines _ _ _ OK) as [E|E]; [destruct (mo_some _ _ _ OK E)|exact E]. Qed.
Lemma end_start : line_start va p E_.
Proof.
  right. split; [unfold E_, q0; lia|]. destruct last_nl as (u & E). replace (E_ - 1) with (q0 + N.of_nat (length u)) by (unfold E_; rewrite E, app_length; cbn [length]; lia).
  rewrite va_text by (rewrite E, app_length; cbn [length]; lia). rewrite E, Nat2N.id, nth_error_app2, Nat.sub_diag by lia. reflexivity.
Qed.
(* lines of the text *)
Lemma start_lines x : q0 <= x -> x <= E_ -> line_start va p x -> whole_lines (firstn (N.to_nat (x - q0)) t).
Proof.
  intros L1 L2 LS. destruct (N.eq_dec x q0) as [->|D]; [left; replace (q0 - q0) with 0 by lia; reflexivity|]. destruct LS as [->|[_ LS]]; [exfalso; unfold q0 in *; lia|].
  right. replace (x - 1) with (q0 + (x - 1 - q0)) in LS by lia. rewrite va_text in LS by (unfold E_ in L2; lia). exists (firstn (N.to_nat (x - 1 - q0)) t).
  replace (N.to_nat (x - q0)) with (S (N.to_nat (x - 1 - q0))) by lia. clear -LS. revert LS. generalize (N.to_nat (x - 1 - q0)) as n. induction t as [|c t0 IH]; intros [|n] H; cbn in *; try discriminate; [injection H as ->; reflexivity|]. now rewrite (IH n H).
Qed.
Lemma lines_start a b : t = a ++ b -> whole_lines a -> line_start va p (q0 + N.of_nat (length a)).
Proof.
  intros E [->|(u & ->)].
  - cbn [length]. rewrite N.add_0_r. apply (nl_start fo va p p q0); [lia|exact first_line].
  - right. split; [unfold q0; lia|]. rewrite app_length. cbn [length]. replace (q0 + N.of_nat (length u + 1) - 1) with (q0 + N.of_nat (length u)) by lia.
    rewrite va_text by (rewrite E, !app_length; cbn [length]; lia). rewrite E, Nat2N.id, <- app_assoc, nth_error_app2, Nat.sub_diag by lia. reflexivity.
Qed.
(* what a separator inside the text is *)
Lemma inner_sep x : sep x -> q0 <= x -> x < E_ -> exists a b, t = a ++ bs "From " ++ b /\ N.of_nat (length a) = x - q0 /\ whole_lines a /\ fo (b ++ B) = true.
Proof.
  intros [LS (r & ER & FO)] L1 L2. set (n := N.to_nat (x - q0)). exists (firstn n t).
  assert (LN : (n < length t)%nat) by (unfold n, E_ in *; lia).
  assert (ES : skipn n t ++ B = bs "From " ++ r).
  { rewrite <- ER. unfold from. replace (N.to_nat x) with (N.to_nat q0 + n)%nat by (unfold n; lia). rewrite <- skipn_skipn'. change (skipn (N.to_nat q0) va) with (from va q0). rewrite text_at, skipn_app. replace (n - length t)%nat with 0%nat by lia. reflexivity. }
  assert (L5 : (5 <= length (skipn n t))%nat).
  { destruct (Nat.le_gt_cases 5 (length (skipn n t))) as [|C]; auto. exfalso. destruct last_nl as (u & Eu).
    assert (X : nth_error (skipn n t) (length (skipn n t) - 1) = Some 10).
    { rewrite nth_error_skipn', skipn_length. replace (n + (length t - n - 1))%nat with (length u) by (rewrite Eu, app_length in *; cbn [length] in *; lia). rewrite Eu, nth_error_app2, Nat.sub_diag by lia. reflexivity. }
    assert (L0 : (0 < length (skipn n t))%nat) by (rewrite skipn_length; lia).
    assert (Y : nth_error (bs "From ") (length (skipn n t) - 1) = Some 10).
    { rewrite <- X, <- (nth_error_app1 (skipn n t) B) by lia. rewrite ES, nth_error_app1; [reflexivity|change (length (bs "From ")) with 5%nat; lia]. }
    apply nth_error_In in Y. exact (from_no10 Y). }
  assert (EF : firstn 5 (skipn n t) = bs "From ").
  { transitivity (firstn 5 (skipn n t ++ B)); [rewrite firstn_app; replace (5 - length (skipn n t))%nat with 0%nat by lia; cbn [firstn]; now rewrite app_nil_r|]. rewrite ES. reflexivity. }
  exists (skipn 5 (skipn n t)). split; [rewrite <- EF, firstn_skipn, firstn_skipn; reflexivity|]. split; [rewrite firstn_length; unfold n in *; lia|]. split.
  - apply start_lines; auto. lia.
  - rewrite <- FO. f_equal. apply (app_inv_head (bs "From ")). rewrite <- ES, <- EF, app_assoc, firstn_skipn. reflexivity.
Qed.

Definition inside (d : N * N) : Prop := exists a, looks_inside (fun r => fo r = true) t a /\ snd (w_parse W a) = true /\ fst d + snd d = q0 + N.of_nat (length a) /\ exists b, t = a ++ b.
Lemma inner ms' : (B = [] -> ms' = []) -> (B <> [] -> parted fo va E_ ms') ->
  forall n x, (N.to_nat (E_ - x) < n)%nat -> q0 <= x -> x <= E_ -> line_start va p x ->
  exists ds c, begun fo va p x (ds ++ c :: ms') /\ fst (hd c ds) = x /\ fst c + snd c = E_ /\ (forall d, In d ds -> inside d /\ x <= fst d + snd d) /\ NoDup (map (fun d => fst d + snd d) ds).
Proof.
  intros M0 M1. induction n as [|n IH]; intros x F L1 L2 LS; [lia|].
  assert (PX : p <= x) by (unfold q0 in *; lia).
  assert (RB : forall y, separator fo va x y <-> sep y /\ x <= y) by (intros y; apply rebase; auto).
  assert (DONE : (forall y, sep y -> x <= y -> E_ <= y) -> exists ds c, begun fo va p x (ds ++ c :: ms') /\ fst (hd c ds) = x /\ fst c + snd c = E_ /\ (forall d, In d ds -> inside d /\ x <= fst d + snd d) /\ NoDup (map (fun d => fst d + snd d) ds)).
  { intros H. exists [], (x, E_ - x). split; [|split; [reflexivity|split; [cbn [fst snd]; lia|split; [intros d []|constructor]]]]. cbn [app]. destruct EB as [E0|(l' & r & E0 & FO)].
    - right. rewrite (M0 E0). pose proof len_va as LV. rewrite E0 in LV. cbn [length] in LV. split; [|f_equal; f_equal; lia]. intros y Sy. destruct (N.lt_ge_cases y x) as [|C]; auto. exfalso. pose proof (H y Sy C). pose proof (sep_lt fo va p y Sy). lia.
    - left. exists E_, ms'. assert (SE : sep E_) by (split; [exact end_start|]; exists (l' ++ 10 :: r); split; [rewrite end_at; exact E0|exact FO]).
      split; [exact SE|]. split; [exact L2|]. split; [exact H|]. split; [reflexivity|]. apply M1. rewrite E0. discriminate. }
  destruct (find_next_ok fo va x) as [(e & _ & SE & ME)|(_ & NO)].
  2: { apply DONE. intros y Sy Ly. exfalso. apply (NO y). apply RB. auto. }
  apply RB in SE as [SE GE]. destruct (N.lt_ge_cases e E_) as [LT|GEE].
  2: { apply DONE. intros y Sy Ly. specialize (ME y (proj2 (RB y) (conj Sy Ly))). lia. }
  destruct (inner_sep e SE ltac:(lia) LT) as (a & b & Et & La & WA & FO).
  destruct (mo_inside _ _ _ OK a b WA Et (ex_intro _ B FO)) as (OA & l' & r & Eb & NI & NR).
  set (x2 := e + N.of_nat (length (bs "From " ++ l')) + 1).
  assert (EF : from va e = (bs "From " ++ l') ++ 10 :: (r ++ B)).
  { replace e with (q0 + N.of_nat (length a)) by lia. unfold from. replace (N.to_nat (q0 + N.of_nat (length a))) with (N.to_nat q0 + length a)%nat by lia. rewrite <- skipn_skipn'. change (skipn (N.to_nat q0) va) with (from va q0).
    rewrite text_at, Et, Eb, <- !app_assoc, skipn_app, skipn_all, Nat.sub_diag. reflexivity. }
  assert (NL2 : next_line_at va e x2).
  { exists (bs "From " ++ l'), (r ++ B). split; [exact EF|]. split; [|split; [destruct r; [congruence|discriminate]|reflexivity]]. intros I. apply in_app_or in I as [I|I]; [exact (from_no10 I)|auto]. }
  assert (LX2 : e < x2 /\ x2 < E_).
  { unfold x2, E_. rewrite app_length. change (length (bs "From ")) with 5%nat. rewrite Et, Eb, !app_length. change (length (bs "From ")) with 5%nat. cbn [length]. destruct r; [congruence|]. cbn [length]. lia. }
  destruct (IH x2) as (ds & c & BE & HD & EC & DS & ND); [lia|lia|lia|apply (nl_start fo va p e x2); [unfold q0 in *; lia|exact NL2]|].
  exists ((x, e - x) :: ds), c. assert (LSE : line_start va p e) by apply SE. split; [|split; [reflexivity|split; [exact EC|split]]].
  - left. exists e, (ds ++ c :: ms'). split; [exact SE|]. split; [exact GE|]. split; [intros y Sy Ly; apply ME, RB; auto|]. split; [reflexivity|].
    assert (SEE : separator fo va e e) by (split; [now left|apply SE]). apply (parted_begun fo va e e x2); auto; [intros y Sy; now apply (sep_ge fo va e)|]. apply (begun_base fo va p e); auto; [lia|lia].
  - intros d [<-|I].
    + cbn [fst snd]. split; [|lia]. exists a. split; [split; [exact WA|]; exists b, B; auto|]. split; [exact OA|]. split; [cbn [fst snd]; lia|eauto].
    + destruct (DS d I) as [D1 D2]. split; [exact D1|lia].
  - cbn [map fst snd]. constructor; [|exact ND]. intros I. apply in_map_iff in I as (d & E1 & I). destruct (DS d I) as [_ D2]. lia.
Qed.

(* the pieces of this mail, and the mail made of them *)
Lemma cut_text k b : k <= N.of_nat (length t) -> b = firstn (N.to_nat k) t -> firstn (N.to_nat k) (skipn (N.to_nat q0) va) = b.
Proof. intros L ->. change (skipn (N.to_nat q0) va) with (from va q0). rewrite text_at, firstn_app. replace (N.to_nat k - length t)%nat with 0%nat by lia. cbn [firstn]. apply app_nil_r. Qed.
Lemma mail_step ms' places' : parted fo va E_ ms' -> grouped W va ms' places' -> exists ms, parted fo va p ms /\ grouped W va ms ((q0, N.of_nat (length t)) :: places').
Proof.
  intros PA GR. assert (M0 : B = [] -> ms' = []).
  { intros E. destruct ms' as [|m ms']; auto. exfalso. destruct PA as [IN _]. destruct (proj1 (IN m) (or_introl eq_refl)) as ((y & Sy & _) & _). pose proof (sep_lt fo va E_ y Sy). pose proof (sep_ge fo va E_ y Sy). pose proof len_va as LV. rewrite E in LV. cbn [length] in LV. lia. }
  destruct (inner ms' M0 (fun _ => PA) (S (N.to_nat (E_ - q0))) q0) as (ds & c & BE & HD & EC & DS & ND); [lia|lia|unfold E_; lia|apply (nl_start fo va p p q0); [lia|exact first_line]|].
  exists (ds ++ c :: ms'). split; [apply (parted_begun fo va p p q0); auto; [exact first_sep|intros y; apply sep_ge|exact first_line]|].
  assert (FEW : (length ds < 100)%nat).
  { assert (X : forall ds, (forall d, In d ds -> inside d) -> NoDup (map (fun d => fst d + snd d) ds) -> exists l, length l = length ds /\ NoDup l /\ (forall a, In a l -> looks_inside (fun r => fo r = true) t a /\ exists d, In d ds /\ fst d + snd d = q0 + N.of_nat (length a))).
    { clear. induction ds as [|d ds IH]; intros H N; [exists []; split; [reflexivity|split; [constructor|intros a []]]|]. cbn [map] in N. inversion N as [|? ? N1 N2]; subst. destruct IH as (l0 & L1 & L2 & L3); [intros; apply H; now right|exact N2|].
      destruct (H d (or_introl eq_refl)) as (a & A1 & A2 & A3 & _). exists (a :: l0). split; [cbn; lia|]. split; [constructor; auto|].
      - intros I. destruct (L3 a I) as (_ & d' & D1 & D2). apply N1. rewrite A3, <- D2. now apply (in_map (fun d => fst d + snd d)).
      - intros a' [<-|I]; [split; [exact A1|exists d; split; [now left|exact A3]]|]. destruct (L3 a' I) as (X1 & d' & D1 & D2). split; [exact X1|]. exists d'. split; [now right|exact D2]. }
    destruct (X ds (fun d I => proj1 (DS d I)) ND) as (l0 & L1 & L2 & L3). rewrite <- L1. apply (mo_few _ _ _ OK l0 L2). intros a I. apply (L3 a I). }
  assert (HD' : exists ln rest, ds ++ c :: ms' = (q0, ln) :: rest /\ skipn (length ds) rest = ms').
  { destruct ds as [|[x ln] ds]; cbn [hd fst app length] in *; [destruct c as [x ln]; cbn [fst] in HD; subst x; exists ln, ms'; auto|]. subst x. exists ln, (ds ++ c :: ms'). split; [reflexivity|]. clear. induction ds as [|d ds IH]; [reflexivity|exact IH]. }
  destruct HD' as (ln & rest & EQ & SK). rewrite EQ. replace (N.of_nat (length t)) with (fst c + snd c - q0) by (rewrite EC; unfold E_; lia).
  apply (Grouped_join W va q0 ln rest (length ds) c places'); [| exact FEW| | |rewrite SK; exact GR].
  - rewrite <- EQ, nth_error_app2, Nat.sub_diag by lia. reflexivity.
  - unfold ends_well. rewrite EC. replace (E_ - q0) with (N.of_nat (length t)) by (unfold E_; lia). rewrite (cut_text (N.of_nat (length t)) t); [|lia|now rewrite Nat2N.id, firstn_all].
    pose proof (mo_closed _ _ _ OK) as C. cbn [snd] in C. destruct (snd (w_parse W t)); [destruct (C eq_refl)|reflexivity].
  - intros i d LI EI. rewrite <- EQ, nth_error_app1 in EI by exact LI. destruct (DS d (nth_error_In _ _ EI)) as ((a & _ & OA & EE & b & Et) & _). unfold ends_well. rewrite EE. replace (q0 + N.of_nat (length a) - q0) with (N.of_nat (length a)) by lia.
    rewrite (cut_text (N.of_nat (length a)) a); [rewrite OA; discriminate|rewrite Et, app_length; lia|rewrite Et, Nat2N.id, firstn_app, firstn_all, Nat.sub_diag; cbn [firstn]; now rewrite app_nil_r].
Qed.
End Mail.

Lemma mails_parted W : forall mails A va, mails_ok W mails -> va = A ++ box_text mails ->
  exists ms, parted (w_from_ok W) va (N.of_nat (length A)) ms /\ grouped W va ms (places (N.of_nat (length A)) mails).
Proof.
  induction mails as [|[l t] mails IH]; intros A va OK EV.
  - cbn [box_text flat_map] in EV. rewrite app_nil_r in EV. subst A. exists []. split; [|constructor]. apply parted_none. intros x S. pose proof (sep_lt _ _ _ _ S). pose proof (sep_ge _ _ _ _ S). lia.
  - inversion OK as [|? ? O1 O2]; subst. cbn [box_text flat_map fst snd]. fold (box_text mails).
    destruct (IH (A ++ bs "From " ++ l ++ [10] ++ t) (A ++ box_text ((l, t) :: mails)) O2) as (ms' & PA & GR); [cbn [box_text flat_map fst snd]; fold (box_text mails); rewrite <- !app_assoc; reflexivity|].
    cbn [places]. assert (EE : N.of_nat (length (A ++ bs "From " ++ l ++ [10] ++ t)) = E_ l t (N.of_nat (length A))).
    { rewrite !app_length. change (length (bs "From ")) with 5%nat. cbn [length]. unfold E_, q0. lia. }
    rewrite EE in PA, GR. apply (mail_step W _ A l t (box_text mails) (N.of_nat (length A)) O1) with (ms' := ms'); auto.
    + cbn [box_text flat_map fst snd]. fold (box_text mails). rewrite <- !app_assoc. reflexivity.
    + destruct mails as [|[l' t'] mails]; [now left|]. right. exists l', (t' ++ box_text mails). cbn [box_text flat_map fst snd]. fold (box_text mails). split; [rewrite <- !app_assoc; reflexivity|]. inversion O2 as [|? ? O3 O4]; subst. apply (mo_sep _ _ _ O3).
Qed.
