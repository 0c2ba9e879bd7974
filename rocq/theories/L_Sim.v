(* A description whose automaton is followed, state set by state set, by another one given as a table: checked by computation. *)
From Verif Require Import Base M_Charclass M_Dfasyn M_Compdfa M_Parse M_Blocks M_Tables S_Dfasyn L_Charclass2 L_Charclass3 L_Nfa L_Nfa2 L_Nfa3 L_Dfasyn L_Dfasyn2 L_Outcome L_Room L_Tie2 L_Tie3 L_Tie4.
From Verif Require L_Mbox.

Definition pair_in (row : list N) (i : nat) (L : list (list N * nat)) : bool := existsb (fun p => if snd p =? i then bytes_eqb row (fst p) else false) L.
Lemma pair_in_ok row i L : pair_in row i L = true -> In (row, i) L.
Proof.
  intros H. apply existsb_exists in H as ([r j] & I & E). cbn [fst snd] in E. destruct (Nat.eqb_spec j i) as [->|]; [|discriminate]. apply L_Mbox.bytes_eqb_iff in E. now subst r.
Qed.
(* the symbols there are *)
Definition symbols (nt : nat) : list symbol := map Tok (seq 0 nt) ++ map Chr (seq 0 256).
Lemma symbols_ok F s : known F [s] -> In s (symbols (f_ntokens F)).
Proof.
  intros H. inversion H as [|? ? K _]; subst. unfold symbols. apply in_or_app. destruct s; [left|right]; apply in_map, in_seq; lia.
Qed.
Definition kind_in (x : Z * nat) (P : list (Z * nat)) : bool := existsb (fun y => if (fst x =? fst y)%Z then snd x =? snd y else false) P.
Lemma kind_in_ok x P : kind_in x P = true -> In x P.
Proof. intros H. apply existsb_exists in H as ([a b] & I & E). destruct x as [c d]. cbn [fst snd] in E. destruct (Z.eqb_spec c a); [|discriminate]. apply Nat.eqb_eq in E. now subst. Qed.
Definition kinds (tk : symbol -> Z) (cls : symbol -> nat) (l : list symbol) : list (Z * nat) :=
  fold_left (fun P s => let x := (tk s, cls s) in if kind_in x P then P else x :: P) l [].
Lemma kinds_in tk cls s : forall l, In s l -> In (tk s, cls s) (kinds tk cls l).
Proof.
  unfold kinds. assert (K : forall l P, (In s l \/ In (tk s, cls s) P) -> In (tk s, cls s) (fold_left (fun P s => let x := (tk s, cls s) in if kind_in x P then P else x :: P) l P)).
  { induction l as [|x l IH]; intros P H; cbn [fold_left]; [destruct H as [[]|H]; exact H|]. apply IH. cbv zeta. destruct H as [[->|H]|H]; [right|left; exact H|right].
    - destruct (kind_in _ P) eqn:E; [now apply kind_in_ok|now left].
    - destruct (kind_in _ P); [exact H|now right]. }
  intros l I. apply K. now left.
Qed.
Section Check.
Variables (F : nfa_file) (cls : symbol -> nat) (nextK : nat -> nat -> nat) (dead : nat) (shown : nat -> list (list bytes)) (spec : list (list bytes * bytes)) (L : list (list N * nat)).
Definition ev_okb (x : evaluator) (s : list bytes * bytes) : bool :=
  forallb simple_line (attrs x) && names_eqb (map (fun l => fst (fst l)) (attrs x)) (fst s) && match defattr x with Some d => bytes_eqb d (snd s) | None => false end.
Fixpoint evs_okb (l : list evaluator) (s : list (list bytes * bytes)) : bool :=
  match l, s with [], [] => true | x :: l', y :: s' => ev_okb x y && evs_okb l' s' | _, _ => false end.
Definition on_row (b : block) (row : list N) (s : list bytes * bytes) : list bytes := let ts := tags_of b row in filter (fun n => existsb (bytes_eqb n) ts) (fst s).
Fixpoint shows_okb (b : block) (row : list N) (s : list (list bytes * bytes)) (v : list (list bytes)) : bool :=
  match s, v with [], [] => true | x :: s', y :: v' => names_eqb (on_row b row x) y && shows_okb b row s' v' | _, _ => false end.
Definition simb : bool :=
  let cs := map make_class (f_classes F) in
  match split_charclasses (reduce_list (f_block F) cs), f_entries F with
  | Ok (m, ncc), [e] =>
    let b := expand_fast (f_ntokens F) cs m (f_block F) in
    match generate_epsilon_closure b with
    | Err _ => false
    | Ok eclo =>
      let nt := f_ntokens F + ncc in let n := length b in
      let c2t := char2tok (f_ntokens F) m in
      let P := kinds (fun s => match s with Tok t => Z.of_nat t | Chr c => nth c c2t (-1)%Z end) cls (symbols (f_ntokens F)) in
      pair_in (or_row (repeat 0%N (round_up n)) (nth e eclo [])) 0 L &&
      forallb (fun p => let act := active b (fst p) in
        shows_okb b (fst p) spec (shown (snd p)) && negb (snd p =? dead) &&
        forallb (fun tk => let j := nextK (snd p) (snd tk) in
          if (0 <=? fst tk)%Z then let x := goto n eclo act (Z.to_nat (fst tk)) in if snd x then pair_in (fst x) j L else j =? dead else j =? dead) P) L &&
      (nt <=? 256) && (Z.of_nat (length L) <? 32768)%Z && (N.of_nat (length L) * N.of_nat nt <? 65536)%N &&
      in_range (f_ntokens F) (length (f_classes F)) (f_block F) (f_entries F) &&
      forallb class_okb (f_classes F) && forallb (fun k => existsb (fun c => in_class c k) (seq 0 256)) (f_classes F) && evs_okb (r_evs (f_rules F)) spec && match r_defs (f_rules F) with [] => true | _ => false end
    end
  | _, _ => false
  end.
End Check.

Section Follow.
Variables (F : nfa_file) (cls : symbol -> nat) (nextK : nat -> nat -> nat) (dead : nat) (shown : nat -> list (list bytes)) (spec : list (list bytes * bytes)) (L : list (list N * nat)).
Hypothesis C : simb F cls nextK dead shown spec L = true.
Record sim (e : nat) (m : list Z) (ncc : nat) (eclo : list (list N)) : Prop := {
  si_entry : f_entries F = [e];
  si_classes : Forall class_ok (f_classes F);
  si_chars : forall k, In k (f_classes F) -> exists c, c < 256 /\ in_class c k = true;
  si_split : split_charclasses (reduce_list (f_block F) (map make_class (f_classes F))) = Ok (m, ncc);
  si_groups : groups (reduce_list (f_block F) (map make_class (f_classes F))) m ncc;
  si_wf : wellformed F;
  si_eclo : generate_epsilon_closure (expand_charclass_transitions (f_ntokens F) (map make_class (f_classes F)) m (f_block F)) = Ok eclo;
  si_start : In (or_row (repeat 0%N (round_up (length (expand_charclass_transitions (f_ntokens F) (map make_class (f_classes F)) m (f_block F))))) (nth e eclo []), 0) L;
  si_shows : forall row i, In (row, i) L -> shows_okb (expand_charclass_transitions (f_ntokens F) (map make_class (f_classes F)) m (f_block F)) row spec (shown i) = true /\ i <> dead;
  si_step : forall row i s, In (row, i) L -> known F [s] -> let t := tok (f_ntokens F) m s in let j := nextK i (cls s) in
    if (0 <=? t)%Z then let x := targets (expand_charclass_transitions (f_ntokens F) (map make_class (f_classes F)) m (f_block F)) eclo row (Z.to_nat t) in
      if snd x then In (fst x, j) L else j = dead
    else j = dead;
  si_small : (f_ntokens F + ncc <= 256) /\ (Z.of_nat (length L) < 32768)%Z /\ (N.of_nat (length L) * N.of_nat (f_ntokens F + ncc) < 65536)%N;
  si_evs : evs_okb (r_evs (f_rules F)) spec = true;
  si_defs : r_defs (f_rules F) = [] }.
Lemma sim_made : exists e m ncc eclo, sim e m ncc eclo.
Proof.
  unfold simb in C. cbv zeta in C. destruct (split_charclasses _) as [[m ncc]|] eqn:Sp; [|discriminate]. destruct (f_entries F) as [|e [|]] eqn:En; [discriminate| |discriminate].
  rewrite <- expand_fast_ok in C. destruct (generate_epsilon_closure _) as [eclo|] eqn:Ec; [|discriminate].
  repeat match type of C with _ && _ = true => let H := fresh "H" in apply andb_prop in C as [C H] end.
  exists e, m, ncc, eclo. assert (Cl : Forall class_ok (f_classes F)) by (apply Forall_forall; intros k I; apply class_okb_ok; rewrite forallb_forall in H2; now apply H2).
  constructor; auto.
  - intros k I. rewrite forallb_forall in H1. specialize (H1 k I). apply existsb_exists in H1 as (c & Ic & T). exists c. split; [apply in_seq in Ic; lia|exact T].
  - apply split_groups; [|exact Sp]. apply reduce_sound, Cl.
  - unfold wellformed. rewrite En. exact H3.
  - now apply pair_in_ok.
  - intros row i I. rewrite forallb_forall in H7. specialize (H7 _ I). cbn [fst snd] in H7. apply andb_prop in H7 as [H7 _]. apply andb_prop in H7 as [H7 X]. split; [exact H7|]. intros ->. rewrite Nat.eqb_refl in X. discriminate.
  - intros row i s I K. rewrite forallb_forall in H7. specialize (H7 _ I). cbn [fst snd] in H7. apply andb_prop in H7 as [_ H7]. rewrite forallb_forall in H7.
    specialize (H7 _ (kinds_in (tok (f_ntokens F) m) cls s _ (symbols_ok F s K))). cbn [fst snd] in H7. cbv zeta. destruct (0 <=? _)%Z; [|now apply Nat.eqb_eq]. rewrite goto_ok. destruct (snd (goto _ _ _ _)); [now apply pair_in_ok|now apply Nat.eqb_eq].
  - apply Nat.leb_le in H6. apply Z.ltb_lt in H5. apply N.ltb_lt in H4. auto.
  - destruct (r_defs (f_rules F)); [reflexivity|discriminate].
Qed.

Fixpoint run (i : nat) (w : list symbol) : nat :=
  match w with
  | [] => i
  | s :: w' => let j := nextK i (cls s) in if j =? dead then dead else run j w'
  end.
Lemma run_app : forall w i s, i <> dead -> run i (w ++ [s]) = if run i w =? dead then dead else nextK (run i w) (cls s).
Proof.
  induction w as [|x w IH]; intros i s D; cbn [app run].
  - replace (i =? dead) with false by (symmetry; now apply Nat.eqb_neq). destruct (Nat.eqb_spec (nextK i (cls s)) dead); congruence.
  - cbv zeta. destruct (Nat.eqb_spec (nextK i (cls x)) dead) as [E|E]; [now rewrite Nat.eqb_refl|]. now apply IH.
Qed.
Section Sim.
Variables (e : nat) (m : list Z) (ncc : nat) (eclo : list (list N)).
Hypothesis S : sim e m ncc eclo.
Let b1 := expand_charclass_transitions (f_ntokens F) (map make_class (f_classes F)) m (f_block F).
Lemma alive_start : 0 <> dead.
Proof. destruct S as [_ _ _ _ _ _ _ St Sh _ _ _ _]. exact (proj2 (Sh _ _ St)). Qed.
Lemma follow : forall w, known F w ->
  (exists row, In (row, run 0 w) L /\ run 0 w <> dead /\ forall q, has row q = true <-> path F e w q) \/ (run 0 w = dead /\ forall q, ~ path F e w q).
Proof.
  destruct S as [En Cl _ Sp G W EC St Sh Step _ _ _]. destruct (the_closure F m eclo W EC) as (Lc & Hc & _). fold b1 in EC, St, Sh, Step, Lc, Hc.
  induction w as [|s w IH] using rev_ind; intros K.
  - left. eexists. split; [exact St|]. split; [exact alive_start|]. intros q. assert (Le : e < length b1) by (apply (entries_b1 F m W); rewrite En; now left). destruct (Hc e Le) as (Or & Hr).
    rewrite or_has by (rewrite repeat_length; symmetry; apply Or). rewrite zero_has. cbn [orb]. rewrite Hr, path_nil. apply eps_b1.
  - unfold known in K. apply Forall_app in K as [Kw Ks]. rewrite (run_app w 0 s alive_start). destruct (IH Kw) as [(row & I & D & M)|[D N]].
    + replace (run 0 w =? dead) with false by (symmetry; now apply Nat.eqb_neq). specialize (Step row (run 0 w) s I Ks). cbv zeta in Step. set (t := tok (f_ntokens F) m s) in *.
      assert (SE : forall p q, (exists y, edge (f_block F) p y q /\ fits (f_classes F) y s) <-> (0 <= t)%Z /\ edge b1 p (TT_TOKEN (Z.to_nat t)) q).
      { intros p q. pose proof (symbol_edge (f_classes F) (f_block F) (f_ntokens F) m ncc Cl G (fun p' q' y E' => proj2 (wf_edge _ _ _ _ W E')) p q s) as SE. specialize (SE ltac:(inversion Ks; assumption)). exact SE. }
      destruct (0 <=? t)%Z eqn:T.
      * apply Z.leb_le in T. destruct (targets_ok b1 eclo Lc (edge_b1 F m W) Hc row (Z.to_nat t)) as (_ & Tq & Ta). fold b1 in Step.
        assert (PT : forall q, has (fst (targets b1 eclo row (Z.to_nat t))) q = true <-> path F e (w ++ [s]) q).
        { intros q. rewrite Tq, path_snoc. split.
          - intros (p & dd & A & E1 & E2). destruct (proj2 (SE p dd) (conj T E1)) as (y & X & Y). exists p, y, dd. split; [apply M; exact A|]. split; [exact X|]. split; [exact Y|]. apply (eps_b1 F m). exact E2.
          - intros (p & y & dd & A & X & Y & E2). exists p, dd. split; [apply M; exact A|]. split; [apply (proj1 (SE p dd)); eauto|]. apply (eps_b1 F m). exact E2. }
        destruct (snd (targets b1 eclo row (Z.to_nat t))) eqn:Any.
        -- left. eexists. split; [exact Step|]. split; [exact (proj2 (Sh _ _ Step))|exact PT].
        -- right. split; [exact Step|]. intros q Q. apply PT in Q. destruct Ta as [_ Ta]. specialize (Ta (ex_intro _ q Q)). congruence.
      * right. split; [exact Step|]. intros q Q. apply path_snoc in Q as (p & y & dd & A & X & Y & _). destruct (proj1 (SE p dd)) as [T' _]; [eauto|]. apply Z.leb_gt in T. lia.
    + right. rewrite D, Nat.eqb_refl. split; [reflexivity|]. intros q Q. apply path_snoc in Q as (p & _ & _ & A & _). exact (N p A).
Qed.

(* which tags are seen *)
Lemma shows_nth : forall (b : block) row s v, shows_okb b row s v = true -> forall g x, nth_error s g = Some x -> on_row b row x = nth g v [].
Proof.
  induction s as [|y s IH]; intros v H [|g] x E; destruct v as [|z v]; try discriminate; cbn [shows_okb nth_error nth] in *; apply andb_prop in H as [A B].
  - injection E as ->. now apply names_eqb_ok.
  - exact (IH v B g x E).
Qed.
Lemma evs_nth : forall l s, evs_okb l s = true -> forall g, match nth_error l g, nth_error s g with Some x, Some y => ev_okb x y = true | None, None => True | _, _ => False end.
Proof.
  induction l as [|x l IH]; intros [|y s] H; try discriminate; cbn [evs_okb] in H.
  - intros [|g]; exact I.
  - apply andb_prop in H as [A B]. intros [|g]; [exact A|exact (IH s B g)].
Qed.
Lemma ev_simple x y : ev_okb x y = true -> (forall l, In l (attrs x) -> l = (fst (fst l), E_TAG (fst (fst l)), false)) /\ map (fun l => fst (fst l)) (attrs x) = fst y /\ defattr x = Some (snd y).
Proof.
  unfold ev_okb. intros H. apply andb_prop in H as [H D]. apply andb_prop in H as [A B]. split; [|split].
  - intros l I. rewrite forallb_forall in A. now apply simple_line_ok, A.
  - now apply names_eqb_ok.
  - destruct (defattr x) as [d|]; [|discriminate]. apply L_Mbox.bytes_eqb_iff in D. now subst d.
Qed.
Lemma simple_applies w l : l = (fst (fst l), E_TAG (fst (fst l)), false) -> (applies F e w l <-> tagged F e w (fst (fst l))).
Proof.
  intros E. rewrite E. cbn [fst snd]. unfold applies. cbn [fst snd]. rewrite (si_defs _ _ _ _ S). split.
  - intros T. inversion T; subst; [assumption|discriminate].
  - intros T. apply T_set; [reflexivity|exact T].
Qed.
Lemma tags_seen row w i g y n : In (row, i) L -> (forall q, has row q = true <-> path F e w q) -> nth_error spec g = Some y -> (In n (nth g (shown i) []) <-> In n (fst y) /\ tagged F e w n).
Proof.
  intros I M E. pose proof (shows_nth _ _ _ _ (proj1 (si_shows _ _ _ _ S row i I)) g y E) as <-. unfold on_row. cbv zeta. rewrite filter_In. rewrite <- (means_tags F m (Node row [] [] false false) e w n M). cbn [d_nfas]. split.
  - intros [A B]. split; [exact A|]. apply existsb_exists in B as (x & B & X). apply L_Mbox.bytes_eqb_iff in X. now subst x.
  - intros [A B]. split; [exact A|]. apply existsb_exists. exists n. split; [exact B|]. now apply L_Mbox.bytes_eqb_iff.
Qed.
Lemma never_stops w : ~ stops F e w.
Proof.
  intros (x & line & I & Ln & _ & Q). apply In_nth_error in I as (g & I). pose proof (evs_nth _ _ (si_evs _ _ _ _ S) g) as V. rewrite I in V. destruct (nth_error spec g) as [y|]; [|contradiction].
  destruct (ev_simple x y V) as (Z & _). rewrite (Z line Ln) in Q. discriminate.
Qed.
Lemma no_overrun w : ~ overrun F e w.
Proof. intros (u & v & _ & _ & Q). exact (never_stops u Q). Qed.
Hypothesis One : forall g i, length (nth g (shown i) []) <= 1.
Lemma not_ambiguous w : known F w -> readable F e w -> ~ ambiguous F e w /\ ~ mixed F e w.
Proof.
  intros K [[q Q] _]. split.
  2:{ intros (tag & _ & N). apply N. rewrite (si_defs _ _ _ _ S). reflexivity. }
  destruct (follow w K) as [(row & I & _ & M)|[_ N]]; [|exfalso; exact (N q Q)].
  intros (x & l1 & a & l2 & c & l3 & Ix & E & A & B). apply In_nth_error in Ix as (g & Ix). pose proof (evs_nth _ _ (si_evs _ _ _ _ S) g) as V. rewrite Ix in V. destruct (nth_error spec g) as [y|] eqn:Y; [|contradiction].
  destruct (ev_simple x y V) as (Z & Nm & _). assert (Ia : In a (attrs x)) by (rewrite E; apply in_or_app; right; now left). assert (Ic : In c (attrs x)) by (rewrite E; apply in_or_app; right; right; apply in_or_app; right; now left).
  apply (simple_applies w a (Z a Ia)) in A. apply (simple_applies w c (Z c Ic)) in B. specialize (One g (run 0 w)).
  rewrite <- (shows_nth _ _ _ _ (proj1 (si_shows _ _ _ _ S row _ I)) g y Y) in One. unfold on_row in One. cbv zeta in One. rewrite <- Nm, E, map_app in One. cbn [map] in One. rewrite map_app in One. cbn [map] in One.
  assert (T : forall n, tagged F e w n -> existsb (bytes_eqb n) (tags_of b1 row) = true).
  { intros n T. apply existsb_exists. exists n. split; [|now apply L_Mbox.bytes_eqb_iff]. exact (proj2 (means_tags F m (Node row [] [] false false) e w n M) T). }
  fold b1 in One. rewrite filter_app in One. cbn [filter] in One. rewrite (T _ A), filter_app in One. cbn [filter] in One. rewrite (T _ B) in One. rewrite app_length in One. cbn [length] in One. rewrite app_length in One. cbn [length] in One. lia.
Qed.
Lemma sim_faultless : faultless F.
Proof. intros e' w I K R. rewrite (si_entry _ _ _ _ S) in I. destruct I as [<-|[]]. now apply not_ambiguous. Qed.
Lemma sim_well_made : well_made F.
Proof.
  destruct S as [En Cl Ch Sp G W EC St Sh Step Sm Ev Df]. constructor.
  - intros x I. apply In_nth_error in I as (g & I). pose proof (evs_nth _ _ Ev g) as V. rewrite I in V. destruct (nth_error spec g) as [y|]; [|contradiction]. destruct (ev_simple x y V) as (_ & _ & ->). discriminate.
  - split; [intros p y q E; exact (wf_edge F p y q W E)|]. intros e' I. now apply wf_entry.
  - exact Cl.
  - intros k (i & I & _). apply nth_error_In in I. now apply Ch.
  - rewrite Df. exists (fun _ => 0). discriminate.
Qed.
(* what can still be seen *)
Definition shown_at (i : nat) (g : nat) (d : bytes) : bytes := match nth g (shown i) [] with n :: _ => n | [] => d end.
Hypothesis Hope : forall w, known F w -> run 0 w <> dead -> exists u g y n, known F u /\ run 0 (w ++ u) <> dead /\ nth_error spec g = Some y /\ In n (nth g (shown (run 0 (w ++ u))) []) /\ n <> snd y.
Lemma alive_promising w : known F w -> (promising F e w <-> run 0 w <> dead).
Proof.
  intros K. split.
  - intros (u & x & v & Ku & [[q Q] _] & _) D. assert (P : exists p, path F e w p).
    { clear - Q. revert q Q. induction u as [|s u IH] using rev_ind; intros q Q; [rewrite app_nil_r in Q; eauto|]. rewrite app_assoc in Q. apply path_snoc in Q as (p & _ & _ & Q & _). eauto. }
    destruct P as (p & P). destruct (follow w K) as [(row & _ & D' & _)|[_ N]]; [contradiction|]. exact (N p P).
  - intros D. destruct (Hope w K D) as (u & g & y & n & Ku & D' & Y & In_ & Nd). assert (Kwu : known F (w ++ u)) by (apply Forall_app; split; assumption).
    destruct (follow (w ++ u) Kwu) as [(row & I & _ & M)|[X _]]; [|contradiction]. pose proof (evs_nth _ _ (si_evs _ _ _ _ S) g) as V. rewrite Y in V. destruct (nth_error (r_evs (f_rules F)) g) as [x|] eqn:X; [|contradiction].
    destruct (ev_simple x y V) as (Z & Nm & Dx). apply (tags_seen row (w ++ u) _ g y n I M Y) in In_ as [In1 In2].
    exists u, x, n. split; [exact Ku|]. split; [split; [|apply no_overrun]; destruct In2 as (q & st & P & _); eauto|]. split; [exact (nth_error_In _ _ X)|]. split; [|rewrite Dx; congruence].
    left. rewrite <- Nm in In1. apply in_map_iff in In1 as (l & <- & Il). exists l. split; [exact Il|]. split; [|reflexivity]. now apply (simple_applies _ l (Z l Il)).
Qed.
Section Tables.
Variables (fuel : nat) (qsort : sorter) (sc : scanner) (next : Z -> Z -> res Z).
Hypothesis Sq : sorts qsort.
Hypothesis Dy : dfasyn fuel qsort false F = Ok sc.
Hypothesis Nx : next_state sc next.
Lemma after_sim : exists e0, nth_error (sc_entries sc) 0 = Some e0 /\ forall w, known F w -> exists s, scan next sc e0 w = Ok s /\
  if run 0 w =? dead then s = (-1)%Z else (0 <= s)%Z /\ forall g y, nth_error spec g = Some y -> attr_at sc g s = Ok (shown_at (run 0 w) g (snd y)).
Proof.
  assert (En : nth_error (f_entries F) 0 = Some e) by (now rewrite (si_entry _ _ _ _ S)).
  destruct (compressed_scanner_ok fuel qsort F sc next 0 e [] Sq Dy (si_classes _ _ _ _ S) Nx En (Forall_nil _)) as (e0 & _ & E0 & _). exists e0. split; [exact E0|]. intros w K.
  destruct (compressed_scanner_ok fuel qsort F sc next 0 e w Sq Dy (si_classes _ _ _ _ S) Nx En K) as (e1 & s & E1 & Sc & H). rewrite E0 in E1. injection E1 as <-. exists s. split; [exact Sc|].
  destruct (Nat.eqb_spec (run 0 w) dead) as [D|D].
  - destruct H as [(_ & _ & P)|[-> _]]; [|reflexivity]. apply (alive_promising w K) in P. contradiction.
  - destruct H as [(Ls & [_ T] & _)|[_ P]]; [|exfalso; apply P, (alive_promising w K), D]. split; [exact Ls|]. intros g y Y. apply attr_table.
    pose proof (evs_nth _ _ (si_evs _ _ _ _ S) g) as V. rewrite Y in V. destruct (nth_error (r_evs (f_rules F)) g) as [x|] eqn:X; [|contradiction]. destruct (ev_simple x y V) as (Z & Nm & Dx). apply (T g x _ X).
    destruct (follow w K) as [(row & I & _ & M)|[D' _]]; [|contradiction]. unfold has_value, shown_at. destruct (nth g (shown (run 0 w)) []) as [|n r] eqn:Q.
    + right. split; [|exact Dx]. intros l Il A. apply (simple_applies w l (Z l Il)) in A. assert (J : In (fst (fst l)) (nth g (shown (run 0 w)) [])); [|rewrite Q in J; destruct J]. apply (tags_seen row w _ g y _ I M Y). split; [rewrite <- Nm; now apply (in_map (fun l => fst (fst l)))|exact A].
    + left. assert (J : In n (nth g (shown (run 0 w)) [])) by (rewrite Q; now left). apply (tags_seen row w _ g y n I M Y) in J as [J1 J2]. rewrite <- Nm in J1. apply in_map_iff in J1 as (l & E & Il). exists l. split; [exact Il|]. split; [|now symmetry]. apply (simple_applies w l (Z l Il)). now rewrite E.
Qed.
End Tables.
Lemma sim_room : roomb F (map fst L) = true.
Proof.
  destruct S as [En Cl Ch Sp G W EC St Sh Step (Sm1 & Sm2 & Sm3) Ev Df]. unfold roomb. cbv zeta. rewrite Sp, <- expand_fast_ok, EC. rewrite En. cbn [forallb]. rewrite map_length.
  assert (Mm : forall row j, In (row, j) L -> mem row (map fst L) = true).
  { intros row j I. apply existsb_exists. exists row. split; [apply in_map_iff; exists (row, j); auto|now apply L_Mbox.bytes_eqb_iff]. }
  rewrite (Mm _ _ St). cbn [andb]. replace (closedb _ _ _ _) with true; [cbn [andb]; repeat (apply andb_true_intro; split); [now apply Nat.leb_le|now apply Z.ltb_lt|now apply N.ltb_lt]|].
  symmetry. unfold closedb. apply forallb_forall. intros row I. apply in_map_iff in I as ([r i] & <- & I). cbn [fst]. cbv zeta. apply forallb_forall. intros t T. apply in_seq in T.
  destruct (token_symbol F m ncc G t ltac:(lia)) as (s & Ks & Ts). specialize (Step r i s I Ks). cbv zeta in Step. rewrite Ts in Step. replace (0 <=? Z.of_nat t)%Z with true in Step by lia. rewrite Nat2Z.id in Step. rewrite <- goto_ok.
  destruct (snd (targets _ eclo r t)); [|reflexivity]. cbn [negb orb]. exact (Mm _ _ Step).
Qed.
End Sim.
End Follow.
