(* Reading what an IMAP server sends. *)
From Verif Require Import Base M_Output M_Search M_Tokens M_Rfc822 M_Imap S_Imap S_Server.
Local Open Scope N_scope.

Lemma eat_app : forall tag a r b, eat tag r (a ++ b) = match eat tag r a with Ok (inl r') => eat tag r' b | Ok (inr (l, x)) => Ok (inr (l, x ++ b)) | Err e => Err e end.
Proof.
  induction a as [|c a IH]; intros r b; [reflexivity|]. cbn [app eat]. destruct (step tag r c) as [[r'|l]|e]; cbn [bind]; [apply IH|reflexivity|reflexivity].
Qed.
(* how the bytes arrive does not matter *)
Definition rest_of (x : res (reader + option tok * bytes)) : res (option tok * bytes) :=
  match x with Ok (inl _) => Ok (None, []) | Ok (inr p) => Ok p | Err e => Err e end.
Lemma wait_all : forall tag net r buf, match waitline tag r buf net with Ok (l, b, n) => Ok (l, b ++ concat n) | Err e => Err e end = rest_of (eat tag r (buf ++ concat net)).
Proof.
  induction net as [|ch net IH]; intros r buf; cbn [waitline concat].
  - rewrite app_nil_r. destruct (eat tag r buf) as [[r'|[l b]]|e]; cbn [bind rest_of]; [reflexivity|cbn [concat]; rewrite app_nil_r; reflexivity|reflexivity].
  - rewrite eat_app. destruct (eat tag r buf) as [[r'|[l b]]|e]; cbn [bind rest_of]; [apply IH|reflexivity|reflexivity].
Qed.

Definition mk (o : list (tltype * list tok)) (n : Z) (c : option (bytes * N)) : reader := {| r_state := 4; r_plus := false; r_open := o; r_num := n; r_cur := c |}.
Definition mks (s : N) (o : list (tltype * list tok)) (n : Z) (c : option (bytes * N)) : reader := {| r_state := s; r_plus := false; r_open := o; r_num := n; r_cur := c |}.
Definition eats (tag : Z) (r : reader) (t : bytes) (r' : reader) : Prop := eat tag r t = Ok (inl r').
Lemma eats_nil tag r : eats tag r [] r.
Proof. reflexivity. Qed.
Lemma eats_app tag r a r1 b r2 : eats tag r a r1 -> eats tag r1 b r2 -> eats tag r (a ++ b) r2.
Proof. unfold eats. intros A B. rewrite eat_app, A. exact B. Qed.
Lemma eats_cons tag r c r1 b r2 : step tag r c = Ok (More r1) -> eats tag r1 b r2 -> eats tag r (c :: b) r2.
Proof. unfold eats. intros A B. cbn [eat]. rewrite A. exact B. Qed.
Lemma eats_one tag r c r1 : step tag r c = Ok (More r1) -> eats tag r [c] r1.
Proof. intros A. eapply eats_cons; [exact A|reflexivity]. Qed.

Definition stands (p : place) (o : list (tltype * list tok)) : Prop :=
  match p with
  | On_line n => exists ty ks, o = [(ty, ks)] /\ length ks = n /\ (ty = T_untagged \/ ty = T_tagged)
  | In_paren => exists ks x y, o = (T_list, ks) :: x :: y
  | In_square => exists ks x y, o = (T_sqlist, ks) :: x :: y
  end.
Definition add (o : list (tltype * list tok)) (ts : list tok) : list (tltype * list tok) := match o with (ty, ks) :: o' => (ty, ks ++ ts) :: o' | [] => [] end.
Lemma add_nil o : add o [] = o.
Proof. destruct o as [|[ty ks] o]; [reflexivity|]. cbn [add]. now rewrite app_nil_r. Qed.
Lemma add_add o a b : add (add o a) b = add o (a ++ b).
Proof. destruct o as [|[ty ks] o]; [reflexivity|]. cbn [add]. now rewrite app_assoc. Qed.
Definition next_place (p : place) : place := match p with On_line n => On_line (S n) | q => q end.
Lemma stands_add p o t : stands p o -> stands (next_place p) (add o [t]).
Proof.
  destruct p as [n| |]; cbn [stands next_place].
  - intros (ty & ks & -> & L & T). exists ty, (ks ++ [t]). split; [reflexivity|]. split; [rewrite app_length; cbn [length]; lia|exact T].
  - intros (ks & x & y & ->). exists (ks ++ [t]), x, y. reflexivity.
  - intros (ks & x & y & ->). exists (ks ++ [t]), x, y. reflexivity.
Qed.
Lemma stands_some p o : stands p o -> exists ty ks o', o = (ty, ks) :: o'.
Proof. destruct p; cbn [stands]; [intros (ty & ks & -> & _)|intros (ks & x & y & ->)|intros (ks & x & y & ->)]; eauto. Qed.

(* growing a token *)
Lemma extend_ok s max x : N.of_nat (length s) <= max -> 1 <= max -> exists max', token_extend (s, max) x = Ok (s ++ [x], max') /\ N.of_nat (length (s ++ [x])) <= max' /\ 1 <= max'.
Proof.
  intros L M. unfold token_extend. rewrite app_length. cbn [length]. destruct (N.leb_spec max (N.of_nat (length s))).
  - exists (2 * max). replace (_ <? _) with true by lia. split; [reflexivity|lia].
  - exists max. replace (_ <? _) with true by lia. split; [reflexivity|lia].
Qed.
Lemma step_atom tag p o n cur c : stands p o -> atom_char p c -> c =? 10 = false /\
  step tag (mk o n cur) c = (let! x := token_extend (match cur with Some c => c | None => ([], 25) end) c in Ok (More (mk o n (Some x)))).
Proof.
  intros ST [NI NB]. assert (X : forall k, In k [0; 9; 10; 13; 32; 34; 40; 123] -> c =? k = false) by (intros k I; apply N.eqb_neq; intros ->; contradiction).
  assert (E10 : c =? 10 = false) by (apply X; cbn; auto). split; [exact E10|]. unfold step. cbn [mk r_state r_open r_cur]. rewrite E10. cbn [andb].
  rewrite (X 34), (X 123), (X 40) by (cbn; auto 10).
  assert (SQ : (c =? 91) && match o with [(_, [_])] => true | _ => false end = false).
  { destruct p as [k| |]; cbn [stands] in ST.
    - destruct ST as (ty & ks & -> & L & _). destruct ks as [|k1 [|k2 ks]]; [apply andb_false_r| |apply andb_false_r]. cbn [length] in L. replace (c =? 91) with false by lia. reflexivity.
    - destruct ST as (ks & x & y & ->). destruct ks as [|k1 [|k2 ks]]; apply andb_false_r.
    - destruct ST as (ks & x & y & ->). destruct ks as [|k1 [|k2 ks]]; apply andb_false_r. }
  rewrite SQ. destruct (stands_some _ _ ST) as (ty & ks & o' & EO).
  assert (CL : same_type ty T_list && (c =? 41) || same_type ty T_sqlist && (c =? 93) = false).
  { destruct p as [k| |]; cbn [stands] in ST.
    - destruct ST as (ty' & ks' & E & _ & T). rewrite E in EO. injection EO as <- <- _. destruct T; subst ty'; reflexivity.
    - destruct ST as (ks' & x & y & E). rewrite E in EO. injection EO as <- _ _. replace (c =? 41) with false by lia. reflexivity.
    - destruct ST as (ks' & x & y & E). rewrite E in EO. injection EO as <- _ _. replace (c =? 93) with false by lia. reflexivity. }
  rewrite EO, CL. rewrite (X 32), (X 9), (X 13) by (cbn; auto 10). cbn [orb]. reflexivity.
Qed.
Lemma eats_atom tag p o n : stands p o -> forall s t max, Forall (atom_char p) s -> N.of_nat (length t) <= max -> 1 <= max -> exists max', eats tag (mk o n (Some (t, max))) s (mk o n (Some (t ++ s, max'))) /\ N.of_nat (length (t ++ s)) <= max'.
Proof.
  intros ST. induction s as [|c s IH]; intros t max F L M.
  - exists max. rewrite app_nil_r. split; [reflexivity|exact L].
  - inversion F as [|? ? A F']; subst. destruct (step_atom tag p o n (Some (t, max)) c ST A) as [_ E]. destruct (extend_ok t max c L M) as (m1 & E1 & L1 & M1). rewrite E1 in E. cbn [bind] in E.
    destruct (IH (t ++ [c]) m1 F' L1 M1) as (m2 & E2 & L2). exists m2. rewrite <- app_assoc in E2, L2. split; [|exact L2]. eapply eats_cons; [exact E|exact E2].
Qed.
(* in quotes *)
Lemma eats_quoted tag o n : forall s t max, (forall c, In c s -> c <> 34 /\ c <> 10) -> N.of_nat (length t) <= max -> 1 <= max -> exists max', eats tag (mks 5 o n (Some (t, max))) s (mks 5 o n (Some (t ++ s, max'))) /\ N.of_nat (length (t ++ s)) <= max'.
Proof.
  induction s as [|c s IH]; intros t max F L M.
  - exists max. rewrite app_nil_r. split; [reflexivity|exact L].
  - destruct (F c (or_introl eq_refl)) as [A B]. destruct (extend_ok t max c L M) as (m1 & E1 & L1 & M1).
    destruct (IH (t ++ [c]) m1 (fun d I => F d (or_intror I)) L1 M1) as (m2 & E2 & L2). exists m2. rewrite <- app_assoc in E2, L2. split; [|exact L2]. eapply eats_cons; [|exact E2].
    unfold step. cbn [mks r_state r_cur]. replace (c =? 10) with false by lia. replace (c =? 34) with false by lia. cbn [andb]. change (with_cur (mks 5 o n (Some (t, max)))) with (mks 5 o n). rewrite E1. reflexivity.
Qed.
(* numbers *)
Definition num (n : Z) (ds : bytes) : Z := fold_left (fun a c => (a * 10 + Z.of_N (c - 48))%Z) ds n.
Lemma num_mono : forall ds n, (0 <= n)%Z -> (n <= num n ds)%Z.
Proof. induction ds as [|c ds IH]; intros n H; [cbn; lia|]. cbn [num fold_left]. fold (num (n * 10 + Z.of_N (c - 48)) ds). specialize (IH (n * 10 + Z.of_N (c - 48))%Z ltac:(lia)). lia. Qed.
Lemma num_number : forall ds a, num (Z.of_N a) ds = Z.of_N (fold_left (fun a c => 10 * a + (c - 48)) ds a).
Proof. induction ds as [|c ds IH]; intros a; [reflexivity|]. unfold num in *. cbn [fold_left]. rewrite <- IH. f_equal. lia. Qed.
Lemma eats_digits tag o st : st = 2 \/ st = 6 -> forall ds n cur, Forall digit ds -> (0 <= n)%Z -> (num n ds < 2147483648)%Z -> eats tag (mks st o n cur) ds (mks st o (num n ds) cur).
Proof.
  intros ST. induction ds as [|c ds IH]; intros n cur F H L; [reflexivity|]. inversion F as [|? ? D F']; subst. unfold digit in D. cbn [num fold_left] in L. fold (num (n * 10 + Z.of_N (c - 48)) ds) in L.
  pose proof (num_mono ds (n * 10 + Z.of_N (c - 48))%Z ltac:(lia)) as MO. eapply eats_cons; [|apply (IH (n * 10 + Z.of_N (c - 48))%Z); [exact F'|lia|exact L]].
  unfold step. assert (DG : isdigit c = true) by (unfold isdigit; lia). assert (AD : add_digit n c = Ok (n * 10 + Z.of_N (c - 48))%Z) by (unfold add_digit; replace (_ <? _)%Z with true by lia; reflexivity).
  destruct ST; subst st; cbn [mks r_state r_num]; replace (c =? 10) with false by lia; cbn [andb].
  - replace (c =? 32) with false by lia. rewrite DG, AD. reflexivity.
  - replace (c =? 125) with false by lia. rewrite DG, AD. reflexivity.
Qed.
(* the bytes of a literal *)
Lemma eats_bytes tag ty ks o n : forall s t max, N.of_nat (length (t ++ s)) = max -> s <> [] -> eats tag (mks 8 ((ty, ks) :: o) n (Some (t, max))) s (mk ((ty, ks ++ [Tok T_string (Some (t ++ s)) []]) :: o) n None).
Proof.
  induction s as [|c s IH]; intros t max L NE; [contradiction|]. rewrite app_length in L. cbn [length] in L.
  assert (E : step tag (mks 8 ((ty, ks) :: o) n (Some (t, max))) c = if N.of_nat (length t) + 1 =? max then Ok (More (mk ((ty, ks ++ [Tok T_string (Some (t ++ [c])) []]) :: o) n None)) else Ok (More (mks 8 ((ty, ks) :: o) n (Some (t ++ [c], max))))).
  { unfold step. cbn [mks r_state r_cur]. change (8 <? 7) with false. rewrite andb_false_r. replace (_ <? max + 1) with true by lia. destruct (N.eqb_spec (N.of_nat (length t) + 1) max) as [E|E]; [|reflexivity].
    unfold finish. cbn [with_cur r_cur mktoken]. rewrite app_length. cbn [length]. replace (_ <=? max) with true by lia. reflexivity. }
  destruct s as [|d s].
  - cbn [length] in L. replace (_ =? max) with true in E by lia. apply eats_one. exact E.
  - cbn [length] in L. replace (_ =? max) with false in E by lia. eapply eats_cons; [exact E|]. specialize (IH (t ++ [c]) max). rewrite <- app_assoc in IH. apply IH; [rewrite app_length; cbn [length app]; lia|discriminate].
Qed.

(* between items: [r] is where the line is read on, and the items so far are those of [o] *)
Inductive at_end : list (tltype * list tok) -> reader -> Prop :=
| ae_clean o n : at_end o (mk o n None)
| ae_atom ty ks q n s max : N.of_nat (length s) <= max -> at_end ((ty, ks ++ [Tok T_atom (Some s) []]) :: q) (mk ((ty, ks) :: q) n (Some (s, max))).
Lemma end_finish o r : at_end o r -> exists n, finish T_atom r = Ok (mk o n None).
Proof.
  intros [o' n|ty ks q n s max L]; exists n; [reflexivity|]. unfold finish. cbn [mk r_cur mktoken r_open]. replace (_ <=? max) with true by lia. reflexivity.
Qed.
Lemma end_state o r : at_end o r -> r_state r = 4.
Proof. intros [|]; reflexivity. Qed.
Lemma end_open ty ks q r : at_end ((ty, ks) :: q) r -> exists ks', r_open r = (ty, ks') :: q.
Proof. intros H. inversion H; subst; eexists; reflexivity. Qed.
Lemma end_blank tag p o r c : at_end o r -> stands p o -> c = 32 \/ c = 9 \/ c = 13 -> exists n, step tag r c = Ok (More (mk o n None)).
Proof.
  intros A ST C. destruct (end_finish _ _ A) as [n F]. exists n. pose proof (end_state _ _ A) as ES. destruct (stands_some _ _ ST) as (ty & ks & q & ->). destruct (end_open _ _ _ _ A) as [ks' EO].
  unfold step. rewrite ES, EO, F. change (4 <? 7) with true. destruct C as [->|[->| ->]]; cbn [N.eqb Pos.eqb andb orb]; rewrite !andb_false_r; reflexivity.
Qed.
Lemma end_close tag ty ks x ks' y r c : at_end ((ty, ks) :: (x, ks') :: y) r -> ty = T_list /\ c = 41 \/ ty = T_sqlist /\ c = 93 -> exists n, step tag r c = Ok (More (mk ((x, ks' ++ [Tok ty None ks]) :: y) n None)).
Proof.
  intros A C. destruct (end_finish _ _ A) as [n F]. exists n. pose proof (end_state _ _ A) as ES. destruct (end_open _ _ _ _ A) as [k2 EO].
  unfold step. rewrite ES, EO, F. change (4 <? 7) with true. destruct C as [[-> ->]|[-> ->]]; reflexivity.
Qed.
Lemma end_line tag o r : at_end o r -> step tag r 10 = Ok (Done (whole_line None o)).
Proof. intros A. destruct (end_finish _ _ A) as [n F]. unfold step. rewrite (end_state _ _ A), F. reflexivity. Qed.
Lemma end_blanks tag p : forall b o r, at_end o r -> stands p o -> Forall blank b -> b <> [] -> exists n, eats tag r b (mk o n None).
Proof.
  induction b as [|c b IH]; intros o r A ST F NE; [contradiction|]. inversion F as [|? ? B F']; subst. destruct (end_blank tag p o r c A ST) as [n E]; [destruct B; auto|]. destruct b as [|d b].
  - exists n. apply eats_one. exact E.
  - destruct (IH o (mk o n None) (ae_clean o n) ST F' ltac:(discriminate)) as [m E2]. exists m. eapply eats_cons; [exact E|exact E2].
Qed.

Scheme spelt_mut := Minimality for spelt Sort Prop with spelt_all_mut := Minimality for spelt_all Sort Prop.
Combined Scheme spelt_both from spelt_mut, spelt_all_mut.
Definition reads (p : place) (is : list item) (t : bytes) : Prop :=
  forall tag o n, stands p o -> exists r, eats tag (mk o n None) t r /\ at_end (add o (map tok_of is)) r.
Lemma reads_atom p s : s <> [] -> Forall (atom_char p) s -> reads p [Atom s] s.
Proof.
  intros NE F tag o n ST. destruct s as [|c s]; [contradiction|]. inversion F as [|? ? A F']; subst. destruct (step_atom tag p o n None c ST A) as [_ E]. cbn [bind] in E.
  destruct (extend_ok [] 25 c ltac:(cbn; lia) ltac:(lia)) as (m1 & E1 & L1 & M1). rewrite E1 in E. cbn [bind app] in E.
  destruct (eats_atom tag p o n ST s [c] m1 F' L1 M1) as (m2 & E2 & L2). cbn [app] in E2, L2. exists (mk o n (Some (c :: s, m2))). split; [eapply eats_cons; [exact E|exact E2]|].
  destruct (stands_some _ _ ST) as (ty & ks & q & ->). cbn [add map tok_of]. apply ae_atom. exact L2.
Qed.
Lemma reads_quoted p s : (forall c, In c s -> c <> 34 /\ c <> 10) -> reads p [Str s] (34 :: s ++ [34]).
Proof.
  intros F tag o n ST. destruct (stands_some _ _ ST) as (ty & ks & q & ->). destruct (eats_quoted tag ((ty, ks) :: q) n s [] 50 F ltac:(cbn; lia) ltac:(lia)) as (m & E & L). cbn [app] in E, L.
  exists (mk ((ty, ks ++ [Tok T_string (Some s) []]) :: q) n None). split; [|apply ae_clean]. eapply eats_cons; [reflexivity|]. eapply eats_app; [exact E|]. apply eats_one.
  unfold step. cbn [mks r_state]. cbn [N.eqb Pos.eqb andb]. unfold finish. cbn [r_cur mktoken r_open mks]. replace (_ <=? m) with true by lia. reflexivity.
Qed.
Lemma reads_literal p s ds cr : ds <> [] -> Forall digit ds -> number ds = N.of_nat (length s) -> number ds < 2 ^ 31 -> cr = [] \/ cr = [13] -> reads p [Str s] (123 :: ds ++ [125] ++ cr ++ [10] ++ s).
Proof.
  intros NE F EQ LT CR tag o n ST. destruct (stands_some _ _ ST) as (ty & ks & q & ->). assert (NM : num 0 ds = Z.of_N (number ds)) by apply (num_number ds 0).
  assert (A : eats tag (mk ((ty, ks) :: q) n None) (123 :: ds ++ [125] ++ cr) (mks 7 ((ty, ks) :: q) (num 0 ds) None)).
  { eapply eats_cons; [reflexivity|]. eapply eats_app; [apply (eats_digits tag ((ty, ks) :: q) 6 (or_intror eq_refl) ds 0%Z None F ltac:(lia)); rewrite NM; change (2 ^ 31) with 2147483648 in LT; lia|].
    eapply eats_app; [apply eats_one; reflexivity|]. destruct CR; subst cr; [reflexivity|apply eats_one; reflexivity]. }
  replace (123 :: ds ++ [125] ++ cr ++ [10] ++ s) with ((123 :: ds ++ [125] ++ cr) ++ [10] ++ s) by (cbn [app]; rewrite <- !app_assoc; reflexivity).
  destruct s as [|c s].
  - cbn [length] in EQ. exists (mk ((ty, ks ++ [Tok T_string (Some []) []]) :: q) (num 0 ds) None). split; [|apply ae_clean]. eapply eats_app; [exact A|]. apply eats_one. rewrite NM, EQ. reflexivity.
  - exists (mk ((ty, ks ++ [Tok T_string (Some (c :: s)) []]) :: q) (num 0 ds) None). split; [|apply ae_clean]. eapply eats_app; [exact A|]. eapply eats_cons; [|apply (eats_bytes tag ty ks q (num 0 ds) (c :: s) [] (number ds)); [cbn [app]; lia|discriminate]].
    unfold step. cbn [mks r_state]. change (10 =? 10) with true. change (7 <? 7) with false. cbn [andb]. change (10 =? 13) with false. cbn [r_num mks]. rewrite NM. cbn [length] in EQ. replace (Z.of_N (number ds) =? 0)%Z with false by lia. rewrite N2Z.id. reflexivity.
Qed.
Lemma reads_both : (forall p i t, spelt p i t -> reads p [i] t) /\ (forall p is t, spelt_all p is t -> reads p is t).
Proof.
  apply spelt_both; intros.
  - apply reads_atom; assumption.
  - apply reads_quoted. intros c I. destruct (H c I) as (A & B & _). auto.
  - apply reads_literal; assumption.
  - intros tag o n ST. destruct (stands_some _ _ ST) as (ty & ks & q & ->). destruct (H0 tag ((T_list, []) :: (ty, ks) :: q) n) as (r & E & A); [do 3 eexists; reflexivity|]. cbn [add app] in A.
    destruct (end_close tag _ _ _ _ _ _ 41 A (or_introl (conj eq_refl eq_refl))) as [m C]. exists (mk ((ty, ks ++ [Tok T_list None (map tok_of l)]) :: q) m None). split; [|apply ae_clean].
    eapply eats_cons; [|eapply eats_app; [exact E|apply eats_one; exact C]]. unfold step. cbn [mk r_state r_open]. cbn [N.eqb Pos.eqb andb]. reflexivity.
  - intros tag o n (ty & ks & -> & L & T). destruct ks as [|k [|k2 ks]]; try discriminate L. destruct (H0 tag [(T_sqlist, []); (ty, [k])] n) as (r & E & A); [do 3 eexists; reflexivity|]. cbn [add app] in A.
    destruct (end_close tag _ _ _ _ _ _ 93 A (or_intror (conj eq_refl eq_refl))) as [m C]. exists (mk [(ty, [k] ++ [Tok T_sqlist None (map tok_of l)])] m None). split; [|apply ae_clean].
    eapply eats_cons; [|eapply eats_app; [exact E|apply eats_one; exact C]]. reflexivity.
  - intros tag o n ST. exists (mk o n None). split; [reflexivity|]. cbn [map]. rewrite add_nil. apply ae_clean.
  - exact (H0).
  - intros tag o n ST. destruct (H0 tag o n ST) as (r & E & A). cbn [map] in A. pose proof (stands_add p o (tok_of i) ST) as ST2. destruct (end_blanks tag _ b _ _ A ST2 H2 H1) as [m B].
    destruct (H5 tag (add o [tok_of i]) m) as (r2 & E2 & A2); [destruct p; exact ST2|]. exists r2. split; [eapply eats_app; [exact E|eapply eats_app; [exact B|exact E2]]|]. rewrite add_add in A2. exact A2.
Qed.

Lemma line_eat tag l t rest : line_spelt tag l t -> tag < 2 ^ 31 -> eat (Z.of_N tag) reader0 (t ++ rest) = Ok (inr (Some (tok_of_line l), rest)).
Proof.
  assert (G : forall tg ty n is t, ty = T_untagged \/ ty = T_tagged -> spelt_all (On_line 0) is t -> forall pre, eats tg reader0 pre (mk [(ty, [])] n None) -> eat tg reader0 ((pre ++ t ++ [13; 10]) ++ rest) = Ok (inr (Some (Tok ty None (map tok_of is)), rest))).
  { intros tg ty n is t' T SP pre E. assert (ST : stands (On_line 0) [(ty, [])]) by (exists ty, []; auto). destruct (proj2 reads_both _ _ _ SP tg [(ty, [])] n ST) as (r & E1 & A). cbn [add app] in A.
    assert (ST2 : stands (On_line (length (map tok_of is))) [(ty, map tok_of is)]) by (exists ty, (map tok_of is); auto).
    destruct (end_blank tg _ _ _ 13 A ST2 ltac:(auto)) as [m B]. assert (W : eats tg reader0 (pre ++ t' ++ [13]) (mk [(ty, map tok_of is)] m None)) by (eapply eats_app; [exact E|eapply eats_app; [exact E1|apply eats_one; exact B]]).
    replace ((pre ++ t' ++ [13; 10]) ++ rest) with ((pre ++ t' ++ [13]) ++ 10 :: rest) by (rewrite <- !app_assoc; reflexivity). rewrite eat_app, W. cbn [eat]. rewrite (end_line _ _ _ (ae_clean _ m)). reflexivity. }
  intros [is t' SP|is t' ds SP NE F EQ] LT.
  - apply (G (Z.of_N tag) T_untagged 0%Z is t' (or_introl eq_refl) SP (bs "* ")). reflexivity.
  - replace (bs "t" ++ ds ++ [32] ++ t' ++ [13; 10]) with ((bs "t" ++ ds ++ [32]) ++ t' ++ [13; 10]) by (rewrite <- !app_assoc; reflexivity).
    assert (NM : num 0 ds = Z.of_N (number ds)) by apply (num_number ds 0). apply (G (Z.of_N tag) T_tagged (num 0 ds) is t' (or_intror eq_refl) SP).
    eapply eats_cons; [reflexivity|]. eapply eats_app; [apply (eats_digits _ [] 2 (or_introl eq_refl) ds 0%Z None F ltac:(lia)); rewrite NM; change (2 ^ 31) with 2147483648 in LT; lia|].
    apply eats_one. unfold step. cbn [mks r_state]. cbn [N.eqb Pos.eqb andb r_num mks]. rewrite NM, EQ, Z.eqb_refl. reflexivity.
Qed.
(* a whole line, however it arrives *)
Lemma wait_reads tag l t rest buf net : line_spelt tag l t -> tag < 2 ^ 31 -> buf ++ concat net = t ++ rest ->
  exists b n, waitline (Z.of_N tag) reader0 buf net = Ok (Some (tok_of_line l), b, n) /\ b ++ concat n = rest.
Proof.
  intros SP LT EQ. pose proof (wait_all (Z.of_N tag) net reader0 buf) as W. rewrite EQ, (line_eat _ _ _ _ SP LT) in W. cbn [rest_of] in W. destruct (waitline (Z.of_N tag) reader0 buf net) as [[[l' b] n]|e]; [|discriminate]. injection W as -> <-. exists b, n. split; reflexivity.
Qed.
