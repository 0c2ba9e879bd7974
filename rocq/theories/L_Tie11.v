(* make_nvp on the tables made from nvp.nfa does what M_Nvp says. *)
From Verif Require Import Base M_Charclass M_Dfasyn M_Compdfa M_Parse M_Blocks M_Files M_Tables S_Dfasyn L_Dfasyn2 L_Outcome L_Tie2 L_Tie3 L_Tie4 L_Tie5 L_Room L_Sim L_Tie10.
From Verif Require M_Nvp L_Nvp M_Decode.

Lemma sim_inv ds (P : nfa_file -> bool) : match compile 5 ds with Ok F => P F | Err _ => false end = true -> exists F, compile 5 ds = Ok F /\ P F = true /\ forall stack, compile stack ds = Ok (with_stack stack F).
Proof. destruct (compile 5 ds) as [F|] eqn:Co; [|discriminate]. intros H. exists F. split; [reflexivity|]. split; [exact H|]. intros stack. exact (compile_stack _ _ _ _ Co). Qed.
Lemma simb_stack stack F cls nextK dead shown spec L : simb (with_stack stack F) cls nextK dead shown spec L = simb F cls nextK dead shown spec L.
Proof. reflexivity. Qed.
Opaque nv_pairs nv.
Lemma nv_compiles : exists F, compile 5 nv = Ok F /\ f_ntokens F = 1 /\ simb F ncls nnext 60 nshown nspec nv_pairs = true /\ forall stack, compile stack nv = Ok (with_stack stack F).
Proof.
  destruct (sim_inv nv nv_check nv_sim) as (F & C & H & K). unfold nv_check in H. apply andb_prop in H as [A B]. exists F. split; [exact C|]. split; [exact (proj1 (Nat.eqb_eq _ _) A)|]. split; [exact B|exact K].
Qed.
(* every state leads to one with an attribute *)
Definition leads : list symbol := map (fun c => Chr (N.to_nat c)) (bs "a'=""*;").
Fixpoint hopef (k i : nat) : bool :=
  negb (L_Nvp.action_beq (L_Nvp.act i) M_Nvp.GOT_NOTHING) ||
  match k with O => false | S k' => existsb (fun s => let j := nnext i (ncls s) in negb (j =? 60) && hopef k' j) leads end.
Lemma hope_all : forallb (hopef 6) (seq 0 52) = true.
Proof. vm_compute. reflexivity. Qed.
Notation nrun := (run ncls nnext 60).
Lemma hopef_ok : forall k i, hopef k i = true -> i <> 60 -> exists u, Forall (fun s => match s with Tok _ => False | Chr c => c < 256 end) u /\ nrun i u <> 60 /\ L_Nvp.act (nrun i u) <> M_Nvp.GOT_NOTHING.
Proof.
  induction k as [|k IH]; intros i H D; cbn [hopef] in H; apply orb_prop in H as [H|H]; try discriminate;
    try (exists []; split; [constructor|]; split; [exact D|]; intros E; cbn [run] in E; rewrite E in H; discriminate).
  apply existsb_exists in H as (s & I & H). cbv zeta in H. apply andb_prop in H as [A B]. apply negb_true_iff, Nat.eqb_neq in A. destruct (IH _ B A) as (u & K & R & Ac). exists (s :: u).
  assert (Ks : match s with Tok _ => False | Chr c => c < 256 end).
  { unfold leads in I. apply in_map_iff in I as (c & <- & I). assert (X : forallb (fun c => (c <? 256)%N) (bs "a'=""*;") = true) by reflexivity. rewrite forallb_forall in X. specialize (X c I). lia. }
  split; [constructor; assumption|]. cbn [run]. cbv zeta. replace (nnext i (ncls s) =? 60) with false by (symmetry; now apply Nat.eqb_neq). auto.
Qed.
Lemma nnext_range i s : nnext i (ncls s) < 52 \/ nnext i (ncls s) = 60.
Proof. exact (L_Nvp.next_range i (opt s)). Qed.
Lemma nrun_range : forall w i, i < 52 -> nrun i w < 52 \/ nrun i w = 60.
Proof.
  induction w as [|s w IH]; intros i L; cbn [run]; [now left|]. cbv zeta. destruct (Nat.eqb_spec (nnext i (ncls s)) 60); [now right|]. destruct (nnext_range i s) as [R|R]; [now apply IH|contradiction].
Qed.
Lemma nrun_cat : forall w i u, nrun i w <> 60 -> nrun i (w ++ u) = nrun (nrun i w) u.
Proof.
  induction w as [|s w IH]; intros i u D; cbn [run app] in *; [reflexivity|]. cbv zeta in *. destruct (Nat.eqb_spec (nnext i (ncls s)) 60); [congruence|]. now apply IH.
Qed.
Lemma nv_hope F : forall w, known F w -> nrun 0 w <> 60 -> exists u g y n, known F u /\ nrun 0 (w ++ u) <> 60 /\ nth_error nspec g = Some y /\ In n (nth g (nshown (nrun 0 (w ++ u))) []) /\ n <> snd y.
Proof.
  intros w _ D. destruct (nrun_range w 0) as [R|R]; [lia| |contradiction]. pose proof hope_all as H. rewrite forallb_forall in H. specialize (H (nrun 0 w) ltac:(apply in_seq; lia)).
  destruct (hopef_ok _ _ H D) as (u & K & Ru & A). exists u, 1, (nth 1 nspec ([], [])), (action_name (L_Nvp.act (nrun (nrun 0 w) u))). rewrite (nrun_cat w 0 u D). split; [|split; [exact Ru|split; [reflexivity|split]]].
  - unfold known. eapply Forall_impl; [|exact K]. intros [t|c]; cbn; [intros []|auto].
  - unfold nshown. cbn [nth]. destruct (L_Nvp.act _); try (now left). congruence.
  - destruct (L_Nvp.act _); try discriminate. congruence.
Qed.
Lemma nv_one : forall g i, length (nth g (nshown i) []) <= 1.
Proof. intros [|[|[|g]]] i; cbn [nshown nth]; [destruct (L_Nvp.cop i); cbn; lia|destruct (L_Nvp.act i); cbn; lia|cbn; lia|destruct g; cbn; lia]. Qed.

Section Nv.
Variables (fuel stack : nat) (qsort : sorter) (sc : scanner).
Hypothesis Sq : sorts qsort.
Hypothesis Tx : dfasyn_text fuel stack qsort false nvp_text = Ok sc.
Let next := next_state_uncompressed (sc_nt sc) (sc_trans sc).
Definition follows (F : nfa_file) (e0 : Z) : Prop := f_ntokens F = 1 /\ nth_error (sc_entries sc) 0 = Some e0 /\ (forall c, (c < 256)%N -> char_token sc c = Ok (token_of sc (Chr (N.to_nat c)))) /\
  forall w, known F w -> exists s, scan next sc e0 w = Ok s /\
    if nrun 0 w =? 60 then s = (-1)%Z else (0 <= s)%Z /\ nvp_copier sc s = Ok (L_Nvp.cop (nrun 0 w)) /\ nvp_action sc s = Ok (L_Nvp.act (nrun 0 w)).
Lemma nv_follows : exists F e0, follows F e0.
Proof.
  destruct (text_inv _ _ _ _ _ _ Tx) as (ds & F & R & C & D). rewrite nv_read in R. assert (ds = nv) by congruence. subst ds. destruct nv_compiles as (F0 & _ & T1 & Sb & K). specialize (K stack). assert (F = with_stack stack F0) by congruence. subst F.
  rewrite <- (simb_stack stack) in Sb. set (F := with_stack stack F0) in *. destruct (sim_made _ _ _ _ _ _ _ Sb) as (e & m & ncc & eclo & Si).
  pose proof (next_uncompressed _ _ _ _ _ _ (sim_room _ _ _ _ _ _ _ _ _ _ _ Si nv_one) D) as Nx.
  destruct (after_sim _ _ _ _ _ _ _ _ _ _ _ Si (nv_hope F) fuel qsort sc next Sq D Nx) as (e0 & E0 & H). exists F, e0. split; [exact T1|]. split; [exact E0|]. split.
  - intros c Lc. exact (char_table _ _ _ _ _ _ D (si_classes _ _ _ _ _ _ _ _ _ _ _ Si) Lc).
  - intros w Kw. destruct (H w Kw) as (s & Sc & V). exists s. split; [exact Sc|]. destruct (nrun 0 w =? 60); [exact V|]. destruct V as (Ls & V). split; [exact Ls|]. unfold nvp_copier, nvp_action. rewrite (V 0 _ eq_refl), (V 1 _ eq_refl). cbn [bind]. unfold shown_at, nshown. cbn [nth]. split.
    + destruct (L_Nvp.cop _); reflexivity.
    + destruct (L_Nvp.act _); reflexivity.
Qed.

Section Loop.
Variables (F : nfa_file) (e0 : Z).
Hypothesis Fo : follows F e0.
Definition sym_of (s : bytes) : symbol := match s with [] => Tok 0 | c :: _ => Chr (N.to_nat c) end.
Lemma nvp_loop_ok isspc : forall s w z la lc text x, known F w -> Forall (fun c => (c < 256)%N) s -> scan next sc e0 w = Ok z -> nrun 0 w <> 60 ->
  nvp_loop next sc isspc s z la lc text x = L_Nvp.iloop isspc s (nrun 0 w) la lc text x.
Proof.
  destruct Fo as (T1 & E0 & Ct & Af).
  assert (Step : forall s w z, known F w -> Forall (fun c => (c < 256)%N) s -> scan next sc e0 w = Ok z -> nrun 0 w <> 60 ->
    exists t z', (match s with [] => Ok nvp_EOS | qq :: _ => char_token sc qq end) = Ok t /\ next z t = Ok z' /\ known F (w ++ [sym_of s]) /\ scan next sc e0 (w ++ [sym_of s]) = Ok z' /\
      nrun 0 (w ++ [sym_of s]) = L_Nvp.next (nrun 0 w) (match s with [] => None | c :: _ => Some c end) /\
      if nrun 0 (w ++ [sym_of s]) =? 60 then z' = (-1)%Z else (0 <= z')%Z /\ nvp_copier sc z' = Ok (L_Nvp.cop (nrun 0 (w ++ [sym_of s]))) /\ nvp_action sc z' = Ok (L_Nvp.act (nrun 0 (w ++ [sym_of s])))).
  { intros s w z Kw Ks Sc D. assert (Lz : (0 <= z)%Z). { destruct (Af w Kw) as (z1 & Z1 & V). rewrite Sc in Z1. injection Z1 as <-. destruct (Nat.eqb_spec (nrun 0 w) 60); [contradiction|]. exact (proj1 V). }
    assert (K1 : known F (w ++ [sym_of s])). { apply Forall_app. split; [exact Kw|]. constructor; [|constructor]. destruct s as [|c s]; cbn [sym_of]; [rewrite T1; lia|]. assert (Lc : (c < 256)%N) by exact (Forall_inv Ks). lia. }
    destruct (Af _ K1) as (z' & Z' & V). exists (token_of sc (sym_of s)), z'. split; [destruct s as [|c s]; [reflexivity|exact (Ct c (Forall_inv Ks))]|].
    rewrite (scan_step next sc e0 w (sym_of s) z Sc Lz) in Z'. split; [exact Z'|]. split; [exact K1|]. split; [now rewrite (scan_step next sc e0 w (sym_of s) z Sc Lz)|]. split; [|exact V].
    rewrite run_app by discriminate. replace (nrun 0 w =? 60) with false by (symmetry; now apply Nat.eqb_neq). unfold nnext, ncls, L_Nvp.next. destruct s as [|c s]; cbn [sym_of opt]; [reflexivity|now rewrite Nnat.N2Nat.id]. }
  induction s as [|c s IH]; intros w z la lc text x Kw Ks Sc D.
  - destruct (Step [] w z Kw Ks Sc D) as (t & z' & Et & En & K1 & S1 & Rn & V). cbn [nvp_loop L_Nvp.iloop]. rewrite Et. cbn [bind]. rewrite En. cbn [bind]. rewrite <- Rn.
    destruct (Nat.eqb_spec (nrun 0 (w ++ [sym_of []])) 60) as [Q|Q]; [subst z'; reflexivity|]. destruct V as (Lz & Vc & Va). replace (z' <? 0)%Z with false by lia. rewrite Vc. cbn [bind]. rewrite Va. cbn [bind]. destruct (L_Nvp.act (nrun 0 (w ++ [sym_of []]))); reflexivity.
  - destruct (Step (c :: s) w z Kw Ks Sc D) as (t & z' & Et & En & K1 & S1 & Rn & V). cbn [nvp_loop L_Nvp.iloop]. rewrite Et. cbn [bind]. rewrite En. cbn [bind]. rewrite <- Rn.
    destruct (Nat.eqb_spec (nrun 0 (w ++ [sym_of (c :: s)])) 60) as [Q|Q]; [subst z'; reflexivity|]. destruct V as (Lz & Vc & Va). replace (z' <? 0)%Z with false by lia. rewrite Vc. cbn [bind]. rewrite Va. cbn [bind].
    destruct (L_Nvp.act (nrun 0 (w ++ [sym_of (c :: s)]))); try (cbn [bind fst snd]; exact (IH _ _ _ _ _ _ K1 (Forall_inv_tail Ks) S1 Q)).
    destruct (M_Nvp.terminator _ _ _) as [[y|]|]; cbn [bind fst snd]; [exact (IH _ _ _ _ _ _ K1 (Forall_inv_tail Ks) S1 Q)|reflexivity|reflexivity].
Qed.
End Loop.
Theorem nvp_tables isspc s pfx : Forall (fun c => (c < 256)%N) s -> make_nvp next sc isspc s pfx = M_Nvp.make_nvp isspc s pfx.
Proof.
  intros Ks. destruct (M_Decode.match_string pfx s) eqn:M; [|unfold make_nvp, M_Nvp.make_nvp; now rewrite M]. rewrite (L_Nvp.make_table isspc s pfx Ks M). unfold make_nvp. rewrite M. destruct nv_follows as (F & e0 & Fo). pose proof Fo as (_ & E0 & _).
  destruct (sc_entries sc) as [|e1 r]; [discriminate|]. injection E0 as ->.
  apply (nvp_loop_ok F e0 Fo isspc (skipn (length pfx) s) [] e0); [constructor| |reflexivity|discriminate].
  revert Ks. clear. generalize (length pfx) as n. induction s as [|c s IH]; intros [|n] O; cbn [skipn]; auto. apply IH. exact (Forall_inv_tail O).
Qed.
End Nv.
Theorem nvp_tables_made : exists d0 f0, forall stack fuel qsort, d0 <= stack -> f0 <= fuel -> sorts qsort -> exists sc, dfasyn_text fuel stack qsort false nvp_text = Ok sc.
Proof.
  destruct nv_compiles as (F0 & _ & _ & Sb & K). destruct (sim_made _ _ _ _ _ _ _ Sb) as (e & m & ncc & eclo & Si). destruct (outcome F0 (sim_well_made _ _ _ _ _ _ _ _ _ _ _ Si)) as (d0 & f0 & H). exists d0, f0. intros stack fuel qsort D Fu Sq.
  destruct (H stack fuel qsort false D Fu Sq) as [[_ [sc E]]|[Fa _]]; [|exfalso; exact (faulty_not F0 Fa (sim_faultless _ _ _ _ _ _ _ _ _ _ _ Si nv_one))]. exists sc. exact (text_made _ _ _ _ _ _ _ _ nv_read (K stack) E).
Qed.
