(* Wildcards: the bit-parallel automaton recognises the documented language. *)
From Verif Require Import Base L_Bits M_Search M_Glob S_Glob.
Local Open Scope N_scope.

(* A pattern as states: flags of state 0, then for each atom its characters and the flags of the
   state behind it. *)
Definition flags : Type := bool * bool.   (* star, double star *)
Definition stays (f : flags) (c : N) : bool := snd f || (fst f && negb (c =? 47)).
Fixpoint accepts (f : flags) (l : list ((N -> bool) * flags)) (s : bytes) : bool :=
  match s with
  | [] => match l with [] => true | _ => false end
  | c :: s' => (stays f c && accepts f l s') ||
               match l with (a, f') :: l' => a c && accepts f' l' s' | [] => false end
  end.
Definition in_itemb (x : citem) (c : N) : bool :=
  match x with CS d => c =? d | CR a b => (N.min a b <=? c) && (c <=? N.max a b) end.
Definition one_char (g : gitem) (c : N) : bool :=
  match g with Gc d => c =? d | Gany => true | Gclass l => existsb (fun x => in_itemb x c) l | _ => false end.
Fixpoint states (p : list gitem) : flags * list ((N -> bool) * flags) :=
  match p with
  | [] => ((false, false), [])
  | Gstar :: p' => let (f, l) := states p' in ((true, snd f), l)
  | Gdstar :: p' => let (f, l) := states p' in ((fst f, true), l)
  | g :: p' => ((false, false), (one_char g, fst (states p')) :: snd (states p'))
  end.

Lemma accepts_dstar f l a b : snd f = true -> accepts f l b = true -> accepts f l (a ++ b) = true.
Proof. intros H HB. induction a as [|c a IH]; [exact HB|]. cbn [app accepts]. unfold stays. now rewrite H, IH. Qed.
Lemma accepts_mono st ds st' ds' l : (st = true -> st' = true) -> (ds = true -> ds' = true) -> forall s, accepts (st, ds) l s = true -> accepts (st', ds') l s = true.
Proof.
  intros H1 H2. induction s as [|c s IH]; [auto|]. cbn [accepts]. rewrite !orb_true_iff. intros [H|H]; [left|right; exact H].
  apply andb_true_iff in H as [A B]. rewrite (IH B), andb_true_r. unfold stays in *. cbn [fst snd] in *. rewrite orb_true_iff, andb_true_iff in *. destruct A as [A|[A C]]; auto.
Qed.
Lemma accepts_star st ds l s : accepts (true, ds) l s = true <-> exists a b, s = a ++ b /\ ~ In 47 a /\ accepts (st, ds) l b = true.
Proof.
  split.
  - induction s as [|c s IH]; intros H; [exists [], []; auto|]. cbn [accepts] in H. apply orb_true_iff in H as [H|H].
    + apply andb_true_iff in H as [A B]. destruct (IH B) as (a & b & -> & NI & AC). unfold stays in A. cbn [fst snd] in A.
      destruct (N.eqb_spec c 47) as [->|NE].
      * assert (ds = true) by (destruct ds; [reflexivity|discriminate]). subst ds. exists [], (47 :: a ++ b). split; [reflexivity|]. split; [auto|].
        apply (accepts_dstar (st, true) l (47 :: a) b); auto.
      * exists (c :: a), b. split; [reflexivity|]. split; [|exact AC]. intros [E|E]; [congruence|auto].
    + exists [], (c :: s). split; [reflexivity|]. split; [auto|]. cbn [accepts]. rewrite H. apply orb_true_r.
  - intros (a & b & -> & NI & AC). apply (accepts_mono st ds true ds) in AC; [|auto|auto]. induction a as [|c a IH]; [exact AC|].
    cbn [app accepts]. rewrite IH by (intros X; apply NI; now right). unfold stays. cbn [fst snd]. destruct (N.eqb_spec c 47) as [->|]; [exfalso; apply NI; now left|].
    cbn [negb andb]. now rewrite orb_true_r.
Qed.
Lemma accepts_two st ds l s : accepts (st, true) l s = true <-> exists a b, s = a ++ b /\ accepts (st, ds) l b = true.
Proof.
  split.
  - induction s as [|c s IH]; intros H; [exists [], []; auto|]. cbn [accepts] in H. apply orb_true_iff in H as [H|H].
    + apply andb_true_iff in H as [A B]. destruct (IH B) as (a & b & -> & AC). exists (c :: a), b. auto.
    + exists [], (c :: s). split; [reflexivity|]. cbn [accepts]. rewrite H. apply orb_true_r.
  - intros (a & b & -> & AC). apply accepts_dstar; [reflexivity|]. eapply accepts_mono; [| |exact AC]; auto.
Qed.
Lemma in_itemb_ok x c : in_itemb x c = true <-> in_item x c.
Proof. destruct x; cbn; [apply N.eqb_eq|]. rewrite andb_true_iff, !N.leb_le. lia. Qed.
Lemma states_match p : forall s, accepts (fst (states p)) (snd (states p)) s = true <-> gmatch p s.
Proof.
  induction p as [|g p IH]; intros s.
  - cbn. destruct s as [|c s]; cbn; [tauto|]. split; discriminate.
  - destruct g as [d| |l| |]; cbn [states fst snd gmatch].
    + destruct s as [|c s]; cbn [accepts stays fst snd andb orb]; [split; [discriminate|intros (s' & E & _); discriminate]|].
      cbn [one_char]. rewrite andb_true_iff, N.eqb_eq, IH. split; [intros [-> H]; eauto|intros (s' & [= -> ->] & H); auto].
    + destruct s as [|c s]; cbn [accepts stays fst snd andb orb]; [split; [discriminate|intros (? & s' & E & _); discriminate]|].
      cbn [one_char andb]. rewrite IH. split; [eauto|intros (c' & s' & [= -> ->] & H); auto].
    + destruct s as [|c s]; cbn [accepts stays fst snd andb orb]; [split; [discriminate|intros (? & s' & E & _); discriminate]|].
      cbn [one_char]. rewrite andb_true_iff, IH, existsb_exists. split.
      * intros [(x & H1 & H2) H]. exists c, s. split; [reflexivity|]. split; [exists x; split; [exact H1|now apply in_itemb_ok]|exact H].
      * intros (c' & s' & [= -> ->] & (x & H1 & H2) & H). split; [exists x; split; [exact H1|now apply in_itemb_ok]|exact H].
    + destruct (states p) as [[st ds] l] eqn:E. cbn [fst snd] in *. rewrite (accepts_star st). setoid_rewrite IH. reflexivity.
    + destruct (states p) as [[st ds] l] eqn:E. cbn [fst snd] in *. rewrite (accepts_two st ds). setoid_rewrite IH. reflexivity.
Qed.

(* ---- the words of the compiled pattern ---- *)
Definition star_at (f : flags) (l : list ((N -> bool) * flags)) (k : nat) : bool :=
  match k with O => fst f | S k' => match nth_error l k' with Some x => fst (snd x) | None => false end end.
Definition two_at (f : flags) (l : list ((N -> bool) * flags)) (k : nat) : bool :=
  match k with O => snd f | S k' => match nth_error l k' with Some x => snd (snd x) | None => false end end.
Definition acc_at (l : list ((N -> bool) * flags)) (c : N) (k : nat) : bool :=
  match nth_error l k with Some x => fst x c | None => false end.

Record compiled (g : globber) (f : flags) (l : list ((N -> bool) * flags)) : Prop := {
  c_len : (length l <= 30)%nat;
  c_pat : forall c k, is_byte c -> N.testbit (pat g c) (N.of_nat k) = acc_at l c k;
  c_star : forall k, N.testbit (starpat g) (N.of_nat k) = star_at f l k;
  c_two : forall k, N.testbit (twostarpat g) (N.of_nat k) = two_at f l k;
  c_hit : hit g = 2 ^ N.of_nat (length l) }.

(* accepting from state k *)
Definition from (f : flags) (l : list ((N -> bool) * flags)) (k : nat) (s : bytes) : bool :=
  match k with O => accepts f l s | S k' => match nth_error l k' with Some x => accepts (snd x) (skipn k l) s | None => false end end.
Lemma skipn_nth {A} (l : list A) k x : nth_error l k = Some x -> skipn k l = x :: skipn (S k) l.
Proof. revert k. induction l as [|y l IH]; intros [|k] H; try discriminate; cbn in *; [congruence|]. now rewrite (IH k H). Qed.
Lemma from_step f l k c s : (k <= length l)%nat ->
  from f l k (c :: s) = (((two_at f l k || (star_at f l k && negb (c =? 47))) && from f l k s) || (acc_at l c k && from f l (S k) s)).
Proof.
  intros H. assert (G : forall fl r, (forall x, nth_error l k = Some x -> r = x :: skipn (S k) l) -> (nth_error l k = None -> r = []) ->
     accepts fl r (c :: s) = ((stays fl c && accepts fl r s) || (acc_at l c k && from f l (S k) s))).
  { intros fl r G1 G2. cbn [accepts]. f_equal. unfold acc_at, from. destruct (nth_error l k) as [[a f']|] eqn:E.
    - rewrite (G1 _ eq_refl). reflexivity.
    - now rewrite (G2 eq_refl). }
  destruct k as [|k]; cbn [from star_at two_at].
  - apply G; destruct l; cbn; congruence.
  - destruct (nth_error l k) as [[a fl]|] eqn:E; [|apply nth_error_None in E; lia]. cbn [snd fst]. apply G.
    + intros x Hx. apply skipn_nth. exact Hx.
    + intros Hx. apply skipn_all2. now apply nth_error_None.
Qed.
Lemma from_nil f l k : (k <= length l)%nat -> from f l k [] = true <-> k = length l.
Proof.
  intros H. destruct k as [|k]; cbn [from].
  - destruct l; cbn; split; intros; try reflexivity; try discriminate; lia.
  - destruct (nth_error l k) as [x|] eqn:E; [|apply nth_error_None in E; lia]. cbn [accepts]. pose proof (skipn_length (S k) l) as L.
    destruct (skipn (S k) l); cbn [length] in L; split; intros; try reflexivity; try discriminate; lia.
Qed.
Lemma bit_shift x i : x < 2 ^ 31 -> N.testbit (u32 (N.shiftl x 1)) (N.of_nat (S i)) = N.testbit x (N.of_nat i).
Proof.
  intros H. unfold u32. rewrite N.mod_small.
  - rewrite Nat2N.inj_succ, N.shiftl_spec_high by lia. f_equal. lia.
  - rewrite N.shiftl_mul_pow2. change (2 ^ 1) with 2. change (2 ^ 31) with 2147483648 in H. change (2 ^ 32) with 4294967296. lia.
Qed.
Lemma bit_shift0 x : N.testbit (u32 (N.shiftl x 1)) (N.of_nat 0) = false.
Proof.
  unfold u32. change (N.of_nat 0) with 0. rewrite N.mod_pow2_bits_low by lia. rewrite N.shiftl_spec_low; [reflexivity|lia].
Qed.
Lemma bits_lt x n : (forall k, (n <= k)%nat -> N.testbit x (N.of_nat k) = false) -> x < 2 ^ N.of_nat n.
Proof.
  intros H. destruct (N.eq_dec x 0) as [->|NZ]; [apply N.neq_0_lt_0, N.pow_nonzero; lia|].
  apply N.log2_lt_pow2; [lia|]. destruct (N.lt_ge_cases (N.log2 x) (N.of_nat n)) as [L|L]; [exact L|].
  pose proof (N.bit_log2 x NZ) as B. rewrite <- (N2Nat.id (N.log2 x)), H in B by lia. discriminate.
Qed.
Lemma star_high f l k : (length l < k)%nat -> star_at f l k = false /\ two_at f l k = false.
Proof. intros H. destruct k as [|k]; [lia|]. cbn. assert (E : nth_error l k = None) by (apply nth_error_None; lia). now rewrite E. Qed.
Lemma acc_high l c k : (length l <= k)%nat -> acc_at l c k = false.
Proof. intros H. unfold acc_at. assert (E : nth_error l k = None) by (apply nth_error_None; lia). now rewrite E. Qed.

Lemma run_ok g f l : compiled g f l -> forall s reg, all_bytes s ->
  (forall k, (length l < k)%nat -> N.testbit reg (N.of_nat k) = false) ->
  N.testbit (glob_run g reg s) (N.of_nat (length l)) = true <-> exists k, N.testbit reg (N.of_nat k) = true /\ from f l k s = true.
Proof.
  intros C. induction s as [|c s IH]; intros reg HB HR.
  - cbn [glob_run]. split.
    + intros H. exists (length l). split; [exact H|]. now apply from_nil.
    + intros (k & H & F). destruct (Nat.le_gt_cases k (length l)) as [L|L]; [|rewrite HR in H by exact L; discriminate]. apply from_nil in F; [now subst|exact L].
  - inversion HB as [|? ? Hc HB']; subst. cbn [glob_run].
    set (reg' := N.lor _ _).
    assert (ST : forall k, N.testbit (N.land reg (pat g c)) (N.of_nat k) = N.testbit reg (N.of_nat k) && acc_at l c k).
    { intros k. rewrite N.land_spec, (c_pat _ _ _ C) by exact Hc. reflexivity. }
    assert (LT : N.land reg (pat g c) < 2 ^ 31).
    { eapply N.lt_le_trans; [apply (bits_lt _ (length l))|].
      - intros k Hk. rewrite ST, (acc_high l c k Hk). apply andb_false_r.
      - pose proof (c_len _ _ _ C). apply N.pow_le_mono_r; lia. }
    assert (S2 : forall k, N.testbit (if c =? 47 then N.land reg (twostarpat g) else N.lor (N.land reg (starpat g)) (N.land reg (twostarpat g))) (N.of_nat k) =
      N.testbit reg (N.of_nat k) && (two_at f l k || (star_at f l k && negb (c =? 47)))).
    { intros k. destruct (c =? 47).
      - rewrite N.land_spec, (c_two _ _ _ C). cbn [negb]. now rewrite andb_false_r, orb_false_r.
      - rewrite N.lor_spec, !N.land_spec, (c_two _ _ _ C), (c_star _ _ _ C). cbn [negb]. rewrite andb_true_r.
        destruct (N.testbit reg _), (star_at f l k), (two_at f l k); reflexivity. }
    assert (B0 : N.testbit reg' (N.of_nat 0) = N.testbit reg (N.of_nat 0) && (two_at f l 0 || (star_at f l 0 && negb (c =? 47)))).
    { unfold reg'. rewrite N.lor_spec, bit_shift0, S2. reflexivity. }
    assert (BS : forall k, N.testbit reg' (N.of_nat (S k)) = (N.testbit reg (N.of_nat k) && acc_at l c k) ||
       (N.testbit reg (N.of_nat (S k)) && (two_at f l (S k) || (star_at f l (S k) && negb (c =? 47))))).
    { intros k. unfold reg'. rewrite N.lor_spec, bit_shift by exact LT. now rewrite S2, ST. }
    rewrite IH; [|exact HB'|].
    2:{ intros k Hk. destruct k as [|k]; [lia|]. rewrite BS. rewrite (acc_high l c k) by lia. destruct (star_high f l (S k) Hk) as [-> ->]. rewrite (HR (S k)) by lia.
        now rewrite andb_false_r. }
    split.
    + intros (k & H & F). destruct k as [|k].
      * rewrite B0 in H. apply andb_true_iff in H as [H1 H2]. exists 0%nat. split; [exact H1|]. rewrite from_step by lia. now rewrite H2, F.
      * rewrite BS in H. apply orb_true_iff in H as [H|H]; apply andb_true_iff in H as [H1 H2].
        -- exists k. split; [exact H1|]. assert ((k <= length l)%nat) by (destruct (Nat.le_gt_cases k (length l)); [assumption|rewrite (HR k) in H1 by assumption; discriminate]).
           rewrite from_step by assumption. rewrite H2, F. apply orb_true_r.
        -- exists (S k). split; [exact H1|]. assert ((S k <= length l)%nat) by (destruct (Nat.le_gt_cases (S k) (length l)); [assumption|rewrite (HR (S k)) in H1 by assumption; discriminate]).
           rewrite from_step by assumption. now rewrite H2, F.
    + intros (k & H & F). assert (HK : (k <= length l)%nat) by (destruct (Nat.le_gt_cases k (length l)); [assumption|rewrite (HR k) in H by assumption; discriminate]).
      rewrite from_step in F by exact HK. apply orb_true_iff in F as [F|F]; apply andb_true_iff in F as [F1 F2].
      * exists k. split; [|exact F2]. destruct k as [|k]; [now rewrite B0, H, F1|]. rewrite BS, H, F1. apply orb_true_r.
      * exists (S k). split; [|exact F2]. now rewrite BS, H, F1.
Qed.
Lemma land_pow2 x k : negb (N.land x (2 ^ k) =? 0) = N.testbit x k.
Proof.
  destruct (N.testbit x k) eqn:B.
  - apply negb_true_iff, N.eqb_neq. intros E. assert (X : N.testbit (N.land x (2 ^ k)) k = false) by now rewrite E, N.bits_0.
    rewrite N.land_spec, B, N.pow2_bits_true in X. discriminate.
  - apply negb_false_iff, N.eqb_eq. apply N.bits_inj_0. intros i. rewrite N.land_spec, N.pow2_bits_eqb. destruct (N.eqb_spec k i) as [->|]; [now rewrite B|apply andb_false_r].
Qed.
Lemma match_ok g f l s : compiled g f l -> all_bytes s -> is_glob_match g s = accepts f l s.
Proof.
  intros C HB. unfold is_glob_match. rewrite (c_hit _ _ _ C), land_pow2. apply eq_true_iff_eq. rewrite (run_ok g f l C s 1 HB).
  - split.
    + intros (k & H & F). destruct k as [|k]; [exact F|]. exfalso. rewrite Nat2N.inj_succ in H. change 1 with (2 ^ 0) in H. rewrite N.pow2_bits_eqb in H. apply N.eqb_eq in H. lia.
    + intros F. exists 0%nat. auto.
  - intros k Hk. change 1 with (2 ^ 0). rewrite N.pow2_bits_eqb. apply N.eqb_neq. lia.
Qed.
