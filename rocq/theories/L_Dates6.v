(* Lemmas about dates.c: ranges. *)
From Coq Require Import Lia.
From Verif Require Import Base M_Dates S_Dates S_Zone L_TokTable L_Dates L_Dates2 L_Dates3 L_Dates4 L_Dates5 L_Calendar L_Zone.
Local Open Scope Z_scope.

Lemma spells_accept : forall localtime now first x e w, spells e w -> in_range e -> exists y, scan_date_expr localtime now first w x = Ok (Some y).
Proof.
  intros localtime now first x e w SP R.
  destruct SP as [d w H|y w H|yy m d H1 H2 H3|y m d H1 H2 H3|y m d wy wm wd Hy Hm Hd|y m d wy wm wd Hy Hm Hd|m w H
                            |m d wm wd Hm Hd|m d wm wd Hm Hd|m y wm wy Hm Hy|m y wm wy Hm Hy|u w NE D].
  - eexists. destruct (day_small d w H). apply (expr_digits localtime now first x DS_D w (sweep_day d w H)); [discriminate|assumption|assumption].
  - eexists. destruct (year_small y w H). apply (expr_digits localtime now first x DS_Y w (sweep_year y w H)); [discriminate|assumption|assumption].
  - destruct (two_ok yy H1) as [A1 A2], (two_ok m H2) as [B1 B2], (two_ok d H3) as [C1 C2].
    assert (DG : digs (two yy ++ two m ++ two d)) by (apply digs_app; [assumption|apply digs_app; assumption]).
    eexists. apply (expr_digits localtime now first x DS_YYMMDD); [apply type_yymmdd; [exact DG|left; reflexivity]|discriminate|exact DG|].
    apply short_number; [exact DG|cbn; lia].
  - destruct (four_ok y H1) as [A1 A2], (two_ok m H2) as [B1 B2], (two_ok d H3) as [C1 C2].
    assert (DG : digs (four y ++ two m ++ two d)) by (apply digs_app; [assumption|apply digs_app; assumption]).
    eexists. apply (expr_digits localtime now first x DS_YYMMDD); [apply type_yymmdd; [exact DG|right; reflexivity]|discriminate|exact DG|].
    apply short_number; [exact DG|cbn; lia].
  - destruct (day_small d wd Hd), (year_small y wy Hy). eexists. apply (expr_month localtime now first x DS_DMY wd m wm wy); try assumption; [apply (sweep_dmy m d y); assumption|discriminate].
  - destruct (day_small d wd Hd), (year_small y wy Hy). eexists. apply (expr_month localtime now first x DS_YMD wy m wm wd); try assumption; [apply (sweep_dmy m d y); assumption|discriminate].
  - pose proof (expr_month localtime now first x DS_M [] m w []) as E. cbn [app] in E. rewrite app_nil_r in E.
    eexists. apply E; try (now constructor); [apply (sweep_month m); exact H|discriminate|exact H].
  - destruct (day_small d wd Hd). pose proof (expr_month localtime now first x DS_DM wd m wm []) as E. rewrite app_nil_r in E.
    eexists. apply E; try (now constructor); try assumption; [apply (sweep_dm m d); assumption|discriminate].
  - destruct (day_small d wd Hd). pose proof (expr_month localtime now first x DS_MD [] m wm wd) as E. cbn [app] in E.
    eexists. apply E; try (now constructor); try assumption; [apply (sweep_dm m d); assumption|discriminate].
  - destruct (year_small y wy Hy). pose proof (expr_month localtime now first x DS_MY [] m wm wy) as E. cbn [app] in E.
    eexists. apply E; try (now constructor); try assumption; [apply (sweep_my m y); assumption|discriminate].
  - destruct (year_small y wy Hy). pose proof (expr_month localtime now first x DS_YM wy m wm []) as E. rewrite app_nil_r in E.
    eexists. apply E; try (now constructor); try assumption; [apply (sweep_my m y); assumption|discriminate].
  - eexists. now apply expr_ago.
Qed.

Lemma ago_inv : forall n u s, spells (X_ago n u) s -> exists w, s = w ++ [unit_letter u] /\ w <> [] /\ digs w /\ n = number w.
Proof. intros n u s H. inversion H. subst. eexists. repeat split; assumption. Qed.
(* Which arguments are accepted. *)
Section Ranges.
Context (localtime : Z -> tm) (mktime : tm -> tm * Z) (now : Z).
Let sds := scan_date_string localtime mktime now.
Let expr := scan_date_expr localtime now.
Lemma hyphen_is : 45%N = ch "-".
Proof. reflexivity. Qed.
Lemma settled_ok : forall first s x, expr first s x = Ok None \/ expr first s x = Err E_ub \/
  exists y e, expr first s x = Ok (Some y) /\ spells e s /\ in_range e.
Proof. intros. apply expr_settled. Qed.
Lemma not_none : forall first s x e, spells e s -> expr first s x <> Ok None.
Proof.
  intros first s x e SP X. destruct e; try (destruct (spells_accept localtime now first x _ s SP Logic.I) as [z Z1]; unfold expr in X; congruence).
  destruct (ago_inv _ _ _ SP) as (w & -> & NE & D & ->). destruct (Z.lt_ge_cases (number w * unit_seconds u) (2 ^ 31)) as [L|L].
  - destruct (spells_accept localtime now first x _ _ SP L) as [y Y]. unfold expr in X. congruence.
  - unfold expr in X. rewrite expr_ago_over in X by assumption. discriminate.
Qed.
Lemma ranges_back : forall s, sds s = Ok None \/ sds s = Err E_ub \/ exists r, sds s = Ok (Some r) /\ drange in_range s.
Proof.
  intro s. unfold sds, scan_date_string. cbv zeta. fold expr. destruct (split_hyphen s) as [[a b]|] eqn:SH.
  - apply split_inv in SH. subst s. destruct b as [|b0 b'].
    + cbn [bind]. destruct a as [|a0 a'].
      * right. right. eexists. split; [reflexivity|apply r_all].
      * cbn [app bind]. set (a := a0 :: a'). change (a0 :: a' ++ [45%N]) with (a ++ [45%N]).
        destruct (settled_ok true a (set_time (localtime now) 0 0 0 (-1))) as [E|[E|(y & e & E & SP & R)]]; rewrite E; cbn [bind]; [now left|right; now left|].
        right. right. eexists. split; [reflexivity|]. now apply (r_from _ e).
    + set (b := b0 :: b').
      destruct (settled_ok false b (set_time (localtime now) 23 59 59 (-1))) as [E|[E|(y & e & E & SP & R)]]; rewrite E; cbn [bind]; [now left|right; now left|].
      destruct a as [|a0 a'].
      * right. right. eexists. split; [reflexivity|]. now apply (r_until _ e).
      * set (a := a0 :: a'). change (a0 :: a' ++ 45%N :: b) with (a ++ 45%N :: b).
        destruct (settled_ok true a (fst (mktime y))) as [E'|[E'|(y' & e' & E' & SP' & R')]]; rewrite E'; cbn [bind]; [now left|right; now left|].
        right. right. eexists. split; [reflexivity|]. now apply (r_both _ e' a e b).
  - destruct (settled_ok true s (set_time (localtime now) 0 0 0 (-1))) as [E|[E|(y & e & E & SP & R)]].
    + rewrite E. cbn [bind].
      destruct (settled_ok false s (set_time (localtime now) 23 59 59 (-1))) as [F|[F|(y' & e' & F & SP' & R')]]; rewrite F; cbn [bind]; [now left|right; now left|now left].
    + rewrite E. cbn [bind]. right. now left.
    + destruct (spells_accept localtime now false (set_time (localtime now) 23 59 59 (-1)) e s SP R) as [y' Y']. unfold expr in *. rewrite E, Y'. cbn [bind].
      right. right. eexists. split; [reflexivity|]. now apply (r_period _ e).
Qed.
Lemma ranges_forth : forall s, drange (fun _ => True) s -> sds s <> Ok None.
Proof.
  intros s D X. unfold sds, scan_date_string in X. cbv zeta in X. fold expr in X. destruct D as [e w SP _|e1 w1 e2 w2 S1 S2 _ _|e w SP _|e w SP _|].
  - destruct (spells_hyphen e w SP) as [NH NE]. rewrite (split_none w NH) in X.
    pose proof (not_none true w (set_time (localtime now) 0 0 0 (-1)) e SP) as N1. pose proof (not_none false w (set_time (localtime now) 23 59 59 (-1)) e SP) as N2.
    destruct (expr true w _) as [[y|]|er]; cbn [bind] in X; [|congruence|discriminate].
    destruct (expr false w _) as [[y'|]|er]; cbn [bind] in X; [discriminate|congruence|discriminate].
  - destruct (spells_hyphen e1 w1 S1) as [NH1 NE1], (spells_hyphen e2 w2 S2) as [NH2 NE2]. change (ch "-") with 45%N in X. rewrite (split_some w1 w2 NH1) in X.
    destruct w2 as [|b0 b]; [congruence|]. destruct w1 as [|a0 a]; [congruence|].
    pose proof (not_none false (b0 :: b) (set_time (localtime now) 23 59 59 (-1)) e2 S2) as N2.
    destruct (expr false (b0 :: b) _) as [[y|]|er]; cbn [bind] in X; [|congruence|discriminate].
    pose proof (not_none true (a0 :: a) (fst (mktime y)) e1 S1) as N1.
    destruct (expr true (a0 :: a) _) as [[y'|]|er]; cbn [bind] in X; [discriminate|congruence|discriminate].
  - destruct (spells_hyphen e w SP) as [NH NE]. change (ch "-") with 45%N in X. rewrite (split_some w [] NH) in X. cbn [bind] in X.
    destruct w as [|a0 a]; [congruence|]. pose proof (not_none true (a0 :: a) (set_time (localtime now) 0 0 0 (-1)) e SP) as N1.
    destruct (expr true (a0 :: a) _) as [[y|]|er]; cbn [bind] in X; [discriminate|congruence|discriminate].
  - destruct (spells_hyphen e w SP) as [NH NE]. change (ch "-") with 45%N in X. change (45%N :: w) with ([] ++ 45%N :: w) in X.
    rewrite (split_some [] w (fun H => H)) in X. destruct w as [|b0 b]; [congruence|].
    pose proof (not_none false (b0 :: b) (set_time (localtime now) 23 59 59 (-1)) e SP) as N2.
    destruct (expr false (b0 :: b) _) as [[y|]|er]; cbn [bind] in X; [discriminate|congruence|discriminate].
  - discriminate.
Qed.
Lemma ranges_in : forall s, drange in_range s -> exists r, sds s = Ok (Some r).
Proof.
  intros s D. unfold sds, scan_date_string. cbv zeta. destruct D as [e w SP R|e1 w1 e2 w2 S1 S2 R1 R2|e w SP R|e w SP R|].
  - destruct (spells_hyphen e w SP) as [NH NE]. rewrite (split_none w NH).
    destruct (spells_accept localtime now true (set_time (localtime now) 0 0 0 (-1)) e w SP R) as [y ->]. cbn [bind].
    destruct (spells_accept localtime now false (set_time (localtime now) 23 59 59 (-1)) e w SP R) as [y' ->]. cbn [bind]. eexists. reflexivity.
  - destruct (spells_hyphen e1 w1 S1) as [NH1 NE1], (spells_hyphen e2 w2 S2) as [NH2 NE2]. change (ch "-") with 45%N. rewrite (split_some w1 w2 NH1).
    destruct w2 as [|b0 b]; [congruence|]. destruct w1 as [|a0 a]; [congruence|].
    destruct (spells_accept localtime now false (set_time (localtime now) 23 59 59 (-1)) e2 (b0 :: b) S2 R2) as [y ->]. cbn [bind].
    destruct (spells_accept localtime now true (fst (mktime y)) e1 (a0 :: a) S1 R1) as [y' ->]. cbn [bind]. eexists. reflexivity.
  - destruct (spells_hyphen e w SP) as [NH NE]. change (ch "-") with 45%N. rewrite (split_some w [] NH). cbn [bind].
    destruct w as [|a0 a]; [congruence|]. destruct (spells_accept localtime now true (set_time (localtime now) 0 0 0 (-1)) e (a0 :: a) SP R) as [y ->].
    cbn [bind]. eexists. reflexivity.
  - destruct (spells_hyphen e w SP) as [NH NE]. change (ch "-") with 45%N. change (45%N :: w) with ([] ++ 45%N :: w).
    rewrite (split_some [] w (fun H => H)). destruct w as [|b0 b]; [congruence|].
    destruct (spells_accept localtime now false (set_time (localtime now) 23 59 59 (-1)) e (b0 :: b) SP R) as [y ->]. cbn [bind]. eexists. reflexivity.
  - eexists. reflexivity.
Qed.
Lemma accepted : forall s, (exists r, sds s = Ok (Some r)) <-> drange in_range s.
Proof.
  intro s. split; [|apply ranges_in]. intros [r H]. destruct (ranges_back s) as [H'|[H'|(r' & H' & D)]]; [congruence|congruence|exact D].
Qed.
Lemma refused : forall s, ~ drange in_range s -> sds s = Ok None /\ ~ drange (fun _ => True) s \/ sds s = Err E_ub.
Proof.
  intros s H. destruct (ranges_back s) as [H'|[H'|(r' & H' & D)]]; [|now right|contradiction].
  left. split; [exact H'|]. intro D. now apply (ranges_forth s D).
Qed.
End Ranges.
