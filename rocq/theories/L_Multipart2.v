(* Splitting any body at all. *)
From Verif Require Import Base M_Tokens M_Header M_Words M_Rfc822 S_Multipart L_Multipart.
Local Open Scope N_scope.

Lemma end_tail : forall b x y input, input = x ++ mark b ++ y -> end_boundary b input (length x) = two 45 45 (skipn (length x + length (mark b)) input).
Proof. intros b x y input ->. rewrite end_view. rewrite <- app_length, app_assoc, skipn_app2. reflexivity. Qed.
Lemma skip_add : forall (A : Type) n m (l : list A), skipn (n + m) l = skipn m (skipn n l).
Proof. induction n as [|n IH]; intros m l; [reflexivity|]. destruct l as [|x l]; [cbn; symmetry; apply skipn_nil|]. exact (IH m l). Qed.
Section Any.
Variables b input : bytes.

Lemma starts_at : forall x y, input = x ++ mark b ++ y -> starts x = true -> boundary_at b input (length x).
Proof.
  intros x y E S. split.
  - apply starts_ok in S. destruct S as [->|[u ->]]; [left; reflexivity|]. right. rewrite E, app_length. cbn [length].
    replace (length u + 1 - 1)%nat with (length u) by lia. rewrite <- app_assoc, nth_error_app2, Nat.sub_diag by lia. reflexivity.
  - exists y. rewrite E. apply skipn_app2.
Qed.
Lemma skip_nul : forall k, (k <= length input)%nat -> skipn k (input ++ [0]) = skipn k input ++ [0].
Proof. intros k H. rewrite skipn_app. replace (k - length input)%nat with 0%nat by lia. reflexivity. Qed.

Definition found (from : nat) (r : bfound) : Prop :=
  match r with
  | B_at k l => (from <= k < length input)%nat /\ boundary_at b input k /\ l = two 45 45 (skipn (k + length (mark b)) input)
  | B_missing => True
  | B_oops => exists k, (k < length input)%nat /\ ~ In 10 (cstr (skipn k input))
  end.
Lemma next_any : forall fuel from, (from <= length input)%nat -> (length input - from < fuel)%nat -> exists r, next_boundary fuel b input from = Ok r /\ found from r.
Proof.
  induction fuel as [|fuel IH]; intros from L F; [lia|]. cbn [next_boundary]. destruct (scan_for b (skipn from input) from) as [k|] eqn:E.
  2:{ exists B_missing. split; [reflexivity|exact Logic.I]. }
  destruct (scan_some _ _ _ _ E) as (x & z & E1 & E2 & E3 & E4). destruct (hit_inv _ _ E3) as (y & G1 & G2).
  assert (INP : input = (firstn from input ++ x) ++ mark b ++ y) by (rewrite <- app_assoc, <- G1, <- E1, firstn_skipn; reflexivity).
  assert (K : k = length (firstn from input ++ x)) by (rewrite app_length, firstn_length; lia).
  assert (KL : (from <= k < length input)%nat).
  { split; [lia|]. rewrite INP, app_length, <- K, app_length, mark_length. lia. }
  destruct (boundary_ok b input k) eqn:OK.
  - eexists. split; [reflexivity|]. cbn [found]. split; [exact KL|]. rewrite INP, K in OK at 1. rewrite ok_view in OK. apply andb_true_iff in OK. split.
    + rewrite K. apply (starts_at _ y); tauto.
    + rewrite K. exact (end_tail _ _ _ _ INP).
  - rewrite skip_nul by lia. destruct (strchr_cases 10 (skipn k input)) as (r & A & B); [discriminate|]. rewrite A. cbn [bind]. destruct r as [j|].
    + destruct B as (u & v & B1 & B2 & B3 & B4). assert (LEN := f_equal (@length N) B1). rewrite skipn_length, app_length in LEN. cbn [length] in LEN.
      destruct (IH (k + j + 1)%nat) as (r & R1 & R2); [lia|lia|]. exists r. split; [exact R1|]. destruct r; [exact R2|exact R2|]. cbn [found] in *. destruct R2 as (R2 & R3). split; [lia|exact R3].
    + exists B_oops. split; [reflexivity|]. exists k. split; [lia|exact B].
Qed.
Lemma next_line_ok : forall k, boundary_at b input k -> exists j, line_after input k = Ok j /\ (k < j <= length input)%nat /\ next_line input k j.
Proof.
  intros k [_ [y Y]]. assert (L : (k < length input)%nat).
  { assert (LEN := f_equal (@length N) Y). rewrite skipn_length, app_length, mark_length in LEN. lia. }
  unfold line_after. rewrite skip_nul by lia. destruct (strchr_cases 10 (skipn k input)) as (r & A & B); [discriminate|]. rewrite A. cbn [bind].
  unfold next_line. rewrite skip_nul by lia. destruct r as [j|].
  - destruct B as (u & v & B1 & B2 & B3 & B4). assert (LEN := f_equal (@length N) B1). rewrite skipn_length, app_length in LEN. cbn [length] in LEN.
    eexists. split; [reflexivity|]. split; [lia|]. exists (u ++ [10]), (v ++ [0]). split; [rewrite B1, <- !app_assoc; reflexivity|]. split.
    { intros G. apply in_app_or in G. destruct G as [G|[G|[]]]; [auto|discriminate]. }
    split; [left; exists u; split; [reflexivity|exact B2]|]. rewrite app_length. cbn [length]. lia.
  - assert (CS : forall s, exists r, s ++ [0] = cstr s ++ 0 :: r /\ ~ In 0 (cstr s)).
    { induction s as [|c s IH]; [exists []; split; [reflexivity|intros []]|]. cbn [cstr]. destruct (c =? 0) eqn:C.
      - apply N.eqb_eq in C. subst c. exists (s ++ [0]). split; [reflexivity|intros []].
      - apply N.eqb_neq in C. destruct IH as (r & I1 & I2). exists r. cbn [app]. rewrite I1. split; [reflexivity|]. intros [G|G]; [congruence|auto]. }
    destruct (CS (skipn k input)) as (r & C1 & C2).
    assert (P : (0 < length (cstr (skipn k input)))%nat) by (rewrite Y; unfold mark; cbn [app bs cstr]; apply Nat.lt_0_succ).
    assert (LEN := f_equal (@length N) C1). rewrite !app_length, skipn_length in LEN. cbn [length] in LEN.
    eexists. split; [reflexivity|]. split; [lia|]. exists (cstr (skipn k input)), (0 :: r). split; [exact C1|]. split; [exact C2|].
    split; [right; split; [exact B|exists r; reflexivity]|reflexivity].
Qed.

Definition slice_ok (p : nat * nat) : Prop :=
  (fst p <= snd p < length input)%nat /\ boundary_at b input (snd p) /\ exists i, boundary_at b input i /\ next_line input i (fst p).
(* one after the other *)
Fixpoint chained (ps : list (nat * nat)) : Prop :=
  match ps with
  | p :: (q :: _) as ps' => next_line input (snd p) (fst q) /\ (snd p < fst q)%nat /\ chained ps'
  | _ => True
  end.
Definition ended (e : dtr8) : Prop :=
  e = DTR8_MISSING_END \/ (e = DTR8_OK /\ (found 0 B_oops \/ exists k, boundary_at b input k /\ closing (skipn (k + length (mark b)) input))).

Lemma two_closing : forall y, two 45 45 y = true -> closing y.
Proof.
  intros [|c [|d y]] H; try discriminate. cbn in H. apply andb_true_iff in H. destruct H as [A B]. apply N.eqb_eq in A, B. subst. exists y. reflexivity.
Qed.
Lemma slices_any : forall fuel b0 from, (from <= length input)%nat -> (length input - from < fuel)%nat ->
  (b0 = true -> exists i, boundary_at b input i /\ next_line input i from) ->
  exists ps e, slices fuel b input b0 from = Ok (ps, e) /\ Forall slice_ok ps /\ chained ps /\ ended e /\
    (b0 = true -> match ps with p :: _ => fst p = from | [] => True end) /\
    (b0 = false -> match ps with p :: _ => (from < fst p)%nat | [] => True end).
Proof.
  induction fuel as [|fuel IH]; intros b0 from L F H; [lia|]. cbn [slices]. destruct (next_any (S (length input)) from L) as (r & R1 & R2); [lia|].
  rewrite R1. cbn [bind]. destruct r as [| |k l].
  - exists [], DTR8_MISSING_END. split; [reflexivity|]. split; [apply Forall_nil|]. split; [exact Logic.I|]. split; [left; reflexivity|]. tauto.
  - exists [], DTR8_OK. split; [reflexivity|]. split; [apply Forall_nil|]. split; [exact Logic.I|]. split; [right; split; [reflexivity|left; exact R2]|]. tauto.
  - destruct R2 as (K1 & K2 & K3). destruct (next_line_ok k K2) as (j & J1 & J2 & J3). rewrite J1. cbn [bind].
    destruct l; cbn [negb].
    + exists (if b0 then [(from, k)] else []), DTR8_OK. split; [reflexivity|]. split.
      { destruct b0; [|apply Forall_nil]. apply Forall_cons; [|apply Forall_nil]. split; [cbn; lia|]. split; [exact K2|]. apply H. reflexivity. }
      split; [destruct b0; exact Logic.I|]. split.
      { right. split; [reflexivity|]. right. exists k. split; [exact K2|]. apply two_closing. symmetry. exact K3. }
      split; intros ->; [reflexivity|exact Logic.I].
    + destruct (IH true j) as (ps & e & A & B & C & D & E & _); [lia|lia|intros _; exists k; split; assumption|].
      rewrite A. cbn [bind]. exists ((if b0 then [(from, k)] else []) ++ ps), e. split; [reflexivity|]. specialize (E eq_refl). split.
      { apply Forall_app. split; [|exact B]. destruct b0; [|apply Forall_nil]. apply Forall_cons; [|apply Forall_nil]. split; [cbn; lia|]. split; [exact K2|]. apply H. reflexivity. }
      split.
      { destruct b0; [|exact C]. cbn [app chained]. destruct ps as [|q ps]; [exact Logic.I|]. rewrite E. cbn [snd]. split; [exact J3|]. split; [lia|exact C]. }
      split; [exact D|]. split; intros ->; [reflexivity|]. cbn [app]. destruct ps; [exact Logic.I|]. rewrite E. lia.
Qed.
Lemma chained_far : forall ps, Forall slice_ok ps -> chained ps -> forall i j p q, (i < j)%nat -> nth_error ps i = Some p -> nth_error ps j = Some q -> (snd p < fst q)%nat.
Proof.
  induction ps as [|p ps IH]; intros F C i j x y L X Y; [destruct i; discriminate|]. inversion F; subst.
  assert (C' : chained ps) by (destruct ps; [exact Logic.I|]; exact (proj2 (proj2 C))).
  destruct j as [|j]; [lia|]. cbn [nth_error] in Y. destruct i as [|i].
  - injection X as <-. destruct ps as [|q ps]; [destruct j; discriminate|]. destruct C as (_ & C2 & _). destruct j as [|j].
    + injection Y as <-. exact C2.
    + pose proof (IH H2 C' 0%nat (S j) q y ltac:(lia) eq_refl Y) as Z. inversion H2; subst. destruct H3 as ((Q & _) & _). lia.
  - exact (IH H2 C' i j x y ltac:(lia) X Y).
Qed.
Lemma chained_near : forall ps, chained ps -> forall i p q, nth_error ps i = Some p -> nth_error ps (S i) = Some q -> next_line input (snd p) (fst q).
Proof.
  induction ps as [|p ps IH]; intros C i x y X Y; [destruct i; discriminate|]. destruct i as [|i].
  - injection X as <-. destruct ps as [|q ps]; [discriminate|]. injection Y as <-. exact (proj1 C).
  - apply (IH (ltac:(destruct ps; [exact Logic.I|]; exact (proj2 (proj2 C)))) i x y X Y).
Qed.
End Any.

(* Any body is split into disjoint pieces in order, each from behind a boundary line to the start of the next. *)
Lemma order_main : forall b input, exists ps e, slices (S (length input)) b input false 0 = Ok (ps, e) /\
  (forall p, In p ps -> (fst p <= snd p < length input)%nat /\ boundary_at b input (snd p) /\ exists i, boundary_at b input i /\ next_line input i (fst p)) /\
  (forall i p q, nth_error ps i = Some p -> nth_error ps (S i) = Some q -> next_line input (snd p) (fst q)) /\
  (forall i j p q, (i < j)%nat -> nth_error ps i = Some p -> nth_error ps j = Some q -> (snd p < fst q)%nat).
Proof.
  intros b input. destruct (slices_any b input (S (length input)) false 0) as (ps & e & A & B & C & _); [lia|lia|discriminate|].
  exists ps, e. split; [exact A|]. split; [apply Forall_forall; exact B|]. split; [exact (chained_near _ _ C)|exact (chained_far _ _ _ B C)].
Qed.
Lemma cstr_id : forall s, ~ In 0 s -> cstr s = s.
Proof.
  induction s as [|c s IH]; intros H; [reflexivity|]. cbn [cstr]. destruct (c =? 0) eqn:E; [apply N.eqb_eq in E; subst c; exfalso; apply H; left; reflexivity|].
  rewrite IH; [reflexivity|]. intros G. apply H. right. exact G.
Qed.
(* A body of whole lines whose last boundary is missing is reported. *)
Lemma reported_main : forall b input, whole_lines input -> ~ In 0 input ->
  (forall x y, input = x ++ mark b ++ y -> whole_lines x -> ~ closing y) ->
  exists ps, slices (S (length input)) b input false 0 = Ok (ps, DTR8_MISSING_END).
Proof.
  intros b input W Z H. destruct (slices_any b input (S (length input)) false 0) as (ps & e & A & B & C & D & _); [lia|lia|discriminate|].
  exists ps. destruct D as [->|(-> & D)]; [exact A|]. exfalso. destruct D as [(k & L & D)|(k & (D1 & y & D2) & D3)].
  - rewrite cstr_id in D by (intros G; apply Z; rewrite <- (firstn_skipn k input); apply in_or_app; right; exact G).
    assert (W2 : whole_lines (skipn k input)) by (apply (whole_tail (firstn k input)); rewrite firstn_skipn; exact W).
    destruct W2 as [W2|[u W2]]; [assert (LEN := f_equal (@length N) W2); rewrite skipn_length in LEN; cbn in LEN; lia|].
    apply D. rewrite W2. apply in_or_app. right. left. reflexivity.
  - rewrite skip_add, D2, skipn_app2 in D3. apply (H (firstn k input) y); [rewrite <- D2, firstn_skipn; reflexivity| |exact D3].
    destruct D1 as [->|D1]; [left; reflexivity|]. destruct k as [|k]; [left; reflexivity|]. cbn in D1. rewrite Nat.sub_0_r in D1. right.
    destruct (nth_error_split _ _ D1) as (l1 & l2 & E1 & E2). exists l1. rewrite E1. subst k. rewrite firstn_app.
    replace (S (length l1) - length l1)%nat with 1%nat by lia. rewrite firstn_all2 by lia. reflexivity.
Qed.

(* Concrete bodies. *)
Definition nl (s : string) : bytes := bs s ++ [10].
Definition ex_body : bytes := nl "preamble --bb" ++ nl "--bb" ++ nl "" ++ nl "one" ++ nl "--bb2" ++ nl "not --bb" ++ (bs "--bb" ++ [13; 10]) ++ nl "two" ++ nl "--bb--" ++ nl "--bb".
Definition ex_parts : list bytes := [nl "" ++ nl "one" ++ nl "--bb2" ++ nl "not --bb"; nl "two"].
Fixpoint free_of (b t : bytes) (start : bool) : bool :=
  match t with
  | [] => true
  | c :: t' => negb (start && prefix (mark b) t && (let y := skipn (length (mark b)) t in two 45 45 y || one 10 y || two 13 10 y)) && free_of b t' (c =? 10)
  end.
Lemma delim_bool : forall y, delimits y -> two 45 45 y || one 10 y || two 13 10 y = true.
Proof. intros y [[r ->]|(e & r & [->| ->] & ->)]; cbn; try reflexivity. destruct r; cbn; rewrite ?orb_true_r; reflexivity. Qed.
Lemma free_of_ok : forall b t start, free_of b t start = true -> forall x y, t = x ++ mark b ++ y -> (x = [] -> start = true) -> (x <> [] -> starts x = true) -> ~ delimits y.
Proof.
  intros b. induction t as [|c t IH]; intros start H x y E A B D.
  - destruct x; [unfold mark in E|]; discriminate.
  - cbn [free_of] in H. apply andb_true_iff in H. destruct H as [H1 H2]. destruct x as [|d x].
    + change (c :: t = mark b ++ y) in E. rewrite (A eq_refl), E, prefix_app, skipn_app2, (delim_bool _ D) in H1. discriminate.
    + injection E as <- E. apply (IH _ H2 x y E); [| |exact D].
      * intros ->. specialize (B ltac:(discriminate)). exact B.
      * intros N. specialize (B ltac:(discriminate)). unfold starts in *. cbn [rev] in B. destruct (rev x) eqn:R; [reflexivity|exact B].
Qed.
Lemma free_of_no : forall b t, starts t = true -> forallb (fun c => negb (c =? 0)) t = true -> free_of b t true = true -> no_boundary b t.
Proof.
  intros b t A B C. split; [apply starts_ok; exact A|]. split.
  - intros G. rewrite forallb_forall in B. specialize (B _ G). discriminate.
  - intros x y E W. apply (free_of_ok b t true C x y E); [reflexivity|]. intros _. apply starts_ok. exact W.
Qed.
Lemma ex_multipart : boundary_string (bs "bb") /\ multipart (bs "bb") ex_parts ex_body.
Proof.
  split; [split; cbn; intuition discriminate|]. exists (nl "preamble --bb"), (nl "--bb" ++ nl "" ++ nl "one" ++ nl "--bb2" ++ nl "not --bb" ++ (bs "--bb" ++ [13; 10]) ++ nl "two" ++ nl "--bb--" ++ nl "--bb").
  split; [reflexivity|]. split; [apply free_of_no; vm_compute; reflexivity|].
  refine (parted_part (bs "bb") [10] _ _ _ (or_introl eq_refl) _ (parted_part (bs "bb") [13; 10] _ _ _ (or_intror eq_refl) _ (parted_last (bs "bb") ([10] ++ nl "--bb")))); apply free_of_no; vm_compute; reflexivity.
Qed.
Lemma ex_split : exists ps, slices (S (length ex_body)) (bs "bb") ex_body false 0 = Ok (ps, DTR8_OK) /\ map (piece ex_body) ps = ex_parts.
Proof. vm_compute. eexists. split; reflexivity. Qed.
Fixpoint nowhere (r t : bytes) : bool := negb (prefix r t) && match t with [] => true | _ :: t' => nowhere r t' end.
Lemma nowhere_ok : forall r t, nowhere r t = true -> forall x y, t <> x ++ r ++ y.
Proof.
  intros r. induction t as [|c t IH]; intros H x y E; cbn [nowhere] in H; apply andb_true_iff in H; destruct H as [A B].
  - destruct x; [|discriminate]. change ([] = r ++ y) in E. rewrite E, prefix_app in A. discriminate.
  - destruct x as [|d x]; [change (c :: t = r ++ y) in E; rewrite E, prefix_app in A; discriminate|]. injection E as _ E. exact (IH B _ _ E).
Qed.
Definition ex_open : bytes := nl "--b" ++ nl "one --b".
Lemma ex_missing : whole_lines ex_open /\ ~ In 0 ex_open /\ (forall x y, ex_open = x ++ mark (bs "b") ++ y -> whole_lines x -> ~ closing y) /\
  exists ps, slices (S (length ex_open)) (bs "b") ex_open false 0 = Ok (ps, DTR8_MISSING_END).
Proof.
  split; [apply starts_ok; vm_compute; reflexivity|]. split; [cbn; intuition discriminate|]. split; [|vm_compute; eexists; reflexivity].
  intros x y E _ [r ->]. rewrite (app_assoc (mark (bs "b"))) in E. revert E. apply nowhere_ok. vm_compute. reflexivity.
Qed.
Lemma not_whole : forall y, negb (one 10 y || two 13 10 y || match y with [] => true | _ => false end || two 45 45 y && (let z := skipn 2 y in one 10 z || two 13 10 z || match z with [] => true | _ => false end)) = true -> ~ whole_line y.
Proof.
  intros y H (e & r & [[E [->| ->]]|[->| ->]]).
  - destruct E as [->| ->]; discriminate.
  - destruct E as [->| ->]; discriminate.
  - discriminate.
  - discriminate.
Qed.
Lemma closing_refuted_main : exists b body ps e p y, slices (S (length body)) b body false 0 = Ok (ps, e) /\ In p ps /\ skipn (snd p) body = mark b ++ y /\ closing y /\ ~ whole_line y.
Proof.
  exists (bs "b"), (nl "--b" ++ nl "one" ++ nl "--b--xyz" ++ nl "two" ++ nl "--b--").
  eexists. eexists. eexists. eexists. split; [vm_compute; reflexivity|]. split; [left; reflexivity|]. split; [vm_compute; reflexivity|].
  split; [eexists; reflexivity|]. apply not_whole. reflexivity.
Qed.
Lemma ending_refuted_main : exists b body ps e p y, slices (S (length body)) b body false 0 = Ok (ps, e) /\ In p ps /\ skipn (snd p) body = mark b ++ y /\ ~ closing y /\ ~ whole_line y.
Proof.
  exists (bs "b"), (nl "--b" ++ nl "one" ++ bs "--bx").
  eexists. eexists. eexists. eexists. split; [vm_compute; reflexivity|]. split; [left; reflexivity|]. split; [vm_compute; reflexivity|].
  split; [intros [r R]; discriminate|]. apply not_whole. reflexivity.
Qed.
Lemma unreported_main : exists b p, ~ In 0 p /\ (forall x y, p = x ++ mark b ++ y -> whole_lines x -> ~ closing y) /\
  slices (S (length (mark b ++ [10] ++ p))) b (mark b ++ [10] ++ p) false 0 = Ok ([], DTR8_OK).
Proof.
  exists (bs "b"), (nl "one" ++ bs "see --bx!"). split; [cbn; intuition discriminate|]. split; [|vm_compute; reflexivity].
  intros x y E W C. assert (F : free_of (bs "b") (nl "one" ++ bs "see --bx!") true = true) by (vm_compute; reflexivity).
  apply (free_of_ok _ _ _ F x y E); [reflexivity|intros _; apply starts_ok; exact W|left; exact C].
Qed.
Lemma padding_main : exists b p, no_boundary b p /\ p <> [] /\
  slices (S (length (mark b ++ [32; 10] ++ p ++ mark b ++ bs "--"))) b (mark b ++ [32; 10] ++ p ++ mark b ++ bs "--") false 0 = Ok ([], DTR8_OK).
Proof.
  exists (bs "b"), (nl "" ++ nl "one"). split; [apply free_of_no; vm_compute; reflexivity|]. split; [discriminate|]. vm_compute. reflexivity.
Qed.
