(* Lemmas about dates.c: the days an expression stands for. *)
From Coq Require Import Lia.
From Verif Require Import Base M_Dates S_Dates S_Zone L_TokTable L_Dates L_Dates2 L_Dates3.
Local Open Scope Z_scope.

Lemma set_at : forall D h mi s dst y m d, set_date (at_ D h mi s dst) y m d = at_ (mk (y + 1900) (m + 1) d) h mi s dst.
Proof. intros. unfold set_date, at_, mk. cbn. f_equal; lia. Qed.
Lemma month_len_bounds : forall y m, 28 <= month_len y m <= 31.
Proof. intros y m. unfold month_len. destruct (m =? 2), (leap y), ((m =? 4) || (m =? 6) || (m =? 9) || (m =? 11)); lia. Qed.
Lemma month_len_1 : forall y m, month_len 1 m <= month_len y m.
Proof. intros y m. unfold month_len. change (leap 1) with false. destruct (m =? 2), (leap y), ((m =? 4) || (m =? 6) || (m =? 9) || (m =? 11)); lia. Qed.
Lemma leap_range : forall y, 1900 < y < 2100 -> leap y = (Z.rem (y - 1900) 4 =? 0).
Proof.
  intros y H.
  assert (C : forallb (fun i => let y := (1901 + Z.of_nat i)%Z in Bool.eqb (leap y) (Z.rem (y - 1900) 4 =? 0)) (List.seq 0 199) = true)
    by (vm_compute; reflexivity).
  rewrite forallb_forall in C. specialize (C (Z.to_nat (y - 1901)) ltac:(apply in_seq; lia)). cbv zeta in C.
  rewrite Z2Nat.id in C by lia. replace (1901 + (y - 1901)) with y in C by lia. now apply Bool.eqb_prop in C.
Qed.
Lemma last_day_ok : forall m y, 1 <= m <= 12 -> (m = 2 -> 1900 < y < 2100) -> M_Dates.last_day (m - 1) (y - 1900) = month_len y m.
Proof.
  intros m y H L. unfold M_Dates.last_day.
  assert (E : m = 2 \/ m <> 2) by lia. destruct E as [->|E].
  - change (negb (2 - 1 =? 1)) with false. cbv iota. unfold month_len. change (2 =? 2) with true. cbv iota. now rewrite (leap_range y (L eq_refl)).
  - assert (M : m = 1 \/ m = 3 \/ m = 4 \/ m = 5 \/ m = 6 \/ m = 7 \/ m = 8 \/ m = 9 \/ m = 10 \/ m = 11 \/ m = 12) by lia.
    repeat (destruct M as [->|M]; [reflexivity|]). subst m. reflexivity.
Qed.

Section Days.
Context (ref : date) (h mi s dst : Z).
Hypothesis REAL : real ref.
Let x := at_ ref h mi s dst.

Lemma day_latest : forall d, 1 <= d -> (day ref < d -> d <= month_len (fst (month_before ref)) (snd (month_before ref))) ->
  exists D, latest (fun D => day D = d) ref D /\ set_day x d = at_ D h mi s dst.
Proof.
  intros d H P. destruct REAL as [RM RD]. unfold set_day, x. cbn [tm_mday tm_mon tm_year at_].
  destruct (Z.ltb_spec (day ref) d) as [L|L].
  - specialize (P L). unfold month_before in P. destruct (Z.eqb_spec (month ref - 1) 0) as [M|M].
    + exists (mk (year ref - 1) 12 d). split; [|rewrite set_at; f_equal; unfold mk; f_equal; lia].
      destruct (Z.eqb_spec (month ref) 1) as [M1|M1]; [|lia]. cbn [fst snd] in P.
      split; [split; cbn [year month day mk]; [lia|lia]|]. split; [reflexivity|]. split; [left; cbn [year month day mk]; lia|].
      intros D' [R1 R2] E U. unfold upto in *. cbn [year month day mk]. lia.
    + exists (mk (year ref) (month ref - 1) d). split; [|rewrite set_at; f_equal; unfold mk; f_equal; lia].
      destruct (Z.eqb_spec (month ref) 1) as [M1|M1]; [lia|]. cbn [fst snd] in P.
      split; [split; cbn [year month day mk]; [lia|lia]|]. split; [reflexivity|]. split; [right; cbn [year month day mk]; lia|].
      intros D' [R1 R2] E U. unfold upto in *. cbn [year month day mk]. lia.
  - exists (mk (year ref) (month ref) d). split; [|rewrite set_at; f_equal; unfold mk; f_equal; lia].
    split; [split; cbn [year month day mk]; [lia|lia]|]. split; [reflexivity|]. split; [right; cbn [year month day mk]; lia|].
    intros D' [R1 R2] E U. unfold upto in *. cbn [year month day mk]. lia.
Qed.
Definition month_year (m : Z) : Z := if tm_mon x <? m - 1 then tm_year x - 1 else tm_year x.
Lemma month_latest : forall m, 1 <= m <= 12 ->
  latest (fun D => month D = m /\ day D = 1) ref (mk (month_year m + 1900) m 1) /\ year ref - 1 <= month_year m + 1900 <= year ref.
Proof.
  intros m H. destruct REAL as [RM RD]. unfold month_year, x. cbn [tm_mon tm_year at_].
  assert (L1 : forall y, real (mk y m 1)) by (intro y; split; cbn [year month day mk]; [lia|]; pose proof (month_len_bounds y m); lia).
  destruct (Z.ltb_spec (month ref - 1) (m - 1)) as [L|L].
  - split; [|lia]. split; [apply L1|]. split; [split; reflexivity|]. split; [left; cbn [year month day mk]; lia|].
    intros D' [R1 R2] [E1 E2] U. unfold upto in *. cbn [year month day mk]. lia.
  - split; [|lia]. split; [apply L1|]. split; [split; reflexivity|]. split; [right; cbn [year month day mk]; lia|].
    intros D' [R1 R2] [E1 E2] U. unfold upto in *. cbn [year month day mk]. lia.
Qed.
Lemma month_day_latest : forall m d, 1 <= m <= 12 -> 1 <= d <= month_len 1 m ->
  latest (fun D => month D = m /\ day D = d) ref (mk ((if is_later_dm x m d then tm_year x - 1 else tm_year x) + 1900) m d).
Proof.
  intros m d H Hd. destruct REAL as [RM RD].
  assert (L1 : forall y, real (mk y m d)) by (intro y; split; cbn [year month day mk]; [lia|]; pose proof (month_len_1 y m); lia).
  split; [apply L1|]. split; [split; reflexivity|]. unfold is_later_dm, x. cbn [tm_mon tm_mday tm_year at_].
  destruct (Z.ltb_spec (month ref - 1) (m - 1)), (Z.eqb_spec (month ref - 1) (m - 1)), (Z.ltb_spec (day ref) d); cbn [orb andb];
  (split; [unfold upto; cbn [year month day mk]; lia|intros D' [R1 R2] [E1 E2] U; unfold upto in *; cbn [year month day mk]; lia]).
Qed.

(* The number of a date written with digits only. *)
Lemma yymmdd : forall y m d, 0 <= y <= 9999 -> 0 <= m <= 99 -> 0 <= d <= 99 -> let v := (y * 100 + m) * 100 + d in
  Z.quot v 10000 = y /\ Z.rem (Z.quot v 100) 100 = m /\ Z.rem v 100 = d.
Proof.
  intros y m d Hy Hm Hd v.
  assert (Q1 : Z.quot v 100 = y * 100 + m) by (symmetry; apply Z.quot_unique with d; unfold v; lia).
  assert (Q2 : Z.quot v 10000 = y) by (symmetry; apply Z.quot_unique with (m * 100 + d); unfold v; lia).
  assert (R1 : Z.rem (y * 100 + m) 100 = m) by (symmetry; apply Z.rem_unique with y; lia).
  assert (R2 : Z.rem v 100 = d) by (symmetry; apply Z.rem_unique with (y * 100 + m); unfold v; lia).
  rewrite Q1. auto.
Qed.

Context (localtime : Z -> tm) (now : Z).
Definition to_first (e : dexpr) (w : bytes) : Prop :=
  exists D, first_day e ref D /\ real D /\ scan_date_expr localtime now true w x = Ok (Some (at_ D h mi s dst)).
Definition to_last (e : dexpr) (w : bytes) : Prop :=
  exists D, last_day_of e ref D /\ real D /\ scan_date_expr localtime now false w x = Ok (Some (at_ D h mi s dst)).
Definition to_both (e : dexpr) (w : bytes) : Prop := to_first e w /\ to_last e w.
(* An expression for a single day. *)
Lemma single_day : forall e w D t, match e with X_day _ | X_date _ _ _ | X_month_day _ _ => True | _ => False end ->
  first_day e ref D -> real D -> (forall first, scan_date_expr localtime now first w x = Ok (Some (t first))) -> (forall first : bool, t first = at_ D h mi s dst) -> to_both e w.
Proof.
  intros e w D t S F R E T. split; exists D; (split; [|split; [exact R|rewrite E, T; reflexivity]]); [exact F|now apply ld_single].
Qed.
Lemma small : forall n, n <= 99999999 -> n < 2 ^ 31.
Proof. intros. change (2 ^ 31) with 2147483648. lia. Qed.
Lemma expr_days : forall e w, spells e w -> plain e ref -> to_both e w.
Proof.
  intros e w SP P. destruct SP as [d w H|y w H|yy m d H1 H2 H3|y m d H1 H2 H3|y m d wy wm wd Hy Hm Hd|y m d wy wm wd Hy Hm Hd|m w H
                            |m d wm wd Hm Hd|m d wm wd Hm Hd|m y wm wy Hm Hy|m y wm wy Hm Hy|u w NE D]; cbn [plain] in P.
  - destruct (day_ok d w H) as (D & V & R & NE). destruct (day_latest d ltac:(lia) P) as (D0 & L & E).
    apply (single_day _ _ D0 (fun _ => set_day x d)); [exact Logic.I|now constructor|apply L| |intros _; exact E].
    intro first. rewrite (expr_digits localtime now first x DS_D w (sweep_day d w H)); [|discriminate|exact D|apply small; lia]. now rewrite V.
  - destruct (year_ok y w H) as (D & V & R & NE & B). split.
    + exists (mk y 1 1). split; [constructor|]. split; [split; cbn [year month day mk]; [lia|]; pose proof (month_len_bounds y 1); lia|].
      rewrite (expr_digits localtime now true x DS_Y w (sweep_year y w H)); [|discriminate|exact D|apply small; lia].
      cbn [apply_type]. rewrite V. unfold x. rewrite set_at. do 3 f_equal. unfold mk. f_equal; lia.
    + exists (mk y 12 31). split; [constructor|]. split; [split; cbn [year month day mk]; [|change (month_len y 12) with 31]; lia|].
      rewrite (expr_digits localtime now false x DS_Y w (sweep_year y w H)); [|discriminate|exact D|apply small; lia].
      cbn [apply_type]. rewrite V. unfold x. rewrite set_at. do 3 f_equal. unfold mk. f_equal; lia.
  - destruct (two_ok yy H1) as [A1 A2], (two_ok m H2) as [B1 B2], (two_ok d H3) as [C1 C2].
    assert (V : number (two yy ++ two m ++ two d) = (yy * 100 + m) * 100 + d) by (rewrite app_assoc, !number_app by assumption; now rewrite A2).
    assert (DG : digs (two yy ++ two m ++ two d)) by (apply digs_app; [assumption|apply digs_app; assumption]).
    eapply (single_day _ _ (mk (century yy) m d)); [exact Logic.I|now constructor; apply P|apply P| |].
    + intro first. rewrite (expr_digits localtime now first x DS_YYMMDD); [reflexivity|apply type_yymmdd; [exact DG|left; reflexivity]|discriminate|exact DG|apply small; lia].
    + intro first. cbn [apply_type]. rewrite V. destruct (yymmdd yy m d ltac:(lia) H2 H3) as (Q1 & Q2 & Q3). rewrite Q1, Q2, Q3.
      unfold x. rewrite set_at. f_equal. unfold mk, year_fix, century. destruct (Z.ltb_spec 100 yy); [lia|]. destruct (Z.ltb_spec yy 70); f_equal; lia.
  - destruct (four_ok y ltac:(lia)) as [A1 A2], (two_ok m H2) as [B1 B2], (two_ok d H3) as [C1 C2].
    assert (V : number (four y ++ two m ++ two d) = (y * 100 + m) * 100 + d) by (rewrite app_assoc, !number_app by assumption; now rewrite A2).
    assert (DG : digs (four y ++ two m ++ two d)) by (apply digs_app; [assumption|apply digs_app; assumption]).
    eapply (single_day _ _ (mk y m d)); [exact Logic.I|now constructor; apply P|apply P| |].
    + intro first. rewrite (expr_digits localtime now first x DS_YYMMDD); [reflexivity|apply type_yymmdd; [exact DG|right; reflexivity]|discriminate|exact DG|apply small; lia].
    + intro first. cbn [apply_type]. rewrite V. destruct (yymmdd y m d ltac:(lia) H2 H3) as (Q1 & Q2 & Q3). rewrite Q1, Q2, Q3.
      unfold x. rewrite set_at. f_equal. unfold mk, year_fix. destruct P as [_ P]. destruct (Z.ltb_spec 100 y); [|lia]. f_equal; lia.
  - destruct (day_ok d wd Hd) as (D & V & R & NE). destruct (year_ok y wy Hy) as (Dy & Vy & Ry & NEy & B).
    eapply (single_day _ _ (mk y m d)); [exact Logic.I|now constructor; apply P|apply P| |].
    + intro first. rewrite (expr_month localtime now first x DS_DMY wd m wm wy); [reflexivity|apply (sweep_dmy m d y); assumption|discriminate|exact Hm|exact D|apply small; lia|exact Dy|apply small; lia].
    + intro first. cbn [apply_type]. rewrite V, Vy. unfold x. rewrite set_at. f_equal. unfold mk. f_equal; lia.
  - destruct (day_ok d wd Hd) as (D & V & R & NE). destruct (year_ok y wy Hy) as (Dy & Vy & Ry & NEy & B).
    eapply (single_day _ _ (mk y m d)); [exact Logic.I|now constructor; apply P|apply P| |].
    + intro first. rewrite (expr_month localtime now first x DS_YMD wy m wm wd); [reflexivity|apply (sweep_dmy m d y); assumption|discriminate|exact Hm|exact Dy|apply small; lia|exact D|apply small; lia].
    + intro first. cbn [apply_type]. rewrite V, Vy. unfold x. rewrite set_at. f_equal. unfold mk. f_equal; lia.
  - destruct (month_word_ok m w H) as (L & R & _ & _). destruct (month_latest m R) as [LT YR].
    assert (E : forall first, scan_date_expr localtime now first w x = Ok (Some (apply_type first DS_M (number []) m (number []) x))).
    { intro first. pose proof (expr_month localtime now first x DS_M [] m w []) as E. cbn [app] in E. rewrite app_nil_r in E.
      apply E; try (now constructor); [apply (sweep_month m); exact H|discriminate|exact H]. }
    split.
    + exists (mk (month_year m + 1900) m 1). split; [now constructor|]. split; [apply LT|]. rewrite E. cbn [apply_type]. fold (month_year m).
      unfold x. rewrite set_at. do 3 f_equal. unfold mk. f_equal; lia.
    + exists (mk (month_year m + 1900) m (month_len (month_year m + 1900) m)).
      split; [apply (ld_month m ref (mk (month_year m + 1900) m 1)); now constructor|].
      split; [split; cbn [year month day mk]; [lia|]; pose proof (month_len_bounds (month_year m + 1900) m); lia|]. rewrite E. cbn [apply_type]. fold (month_year m).
      unfold x at 1. rewrite set_at. do 3 f_equal. unfold mk. f_equal; [lia|].
      rewrite <- (last_day_ok m (month_year m + 1900) R) by (intro M2; specialize (P M2); lia). f_equal. lia.
  - destruct (day_ok d wd Hd) as (D & V & R & NE). destruct (month_word_ok m wm Hm) as (L & Rm & _ & _).
    eapply single_day; [exact Logic.I|constructor; apply (month_day_latest m d Rm); lia| | |].
    + apply (month_day_latest m d Rm). lia.
    + intro first. pose proof (expr_month localtime now first x DS_DM wd m wm []) as E. rewrite app_nil_r in E.
      rewrite E; try (now constructor); [apply (sweep_dm m d); assumption|discriminate|exact Hm|exact D|apply small; lia].
    + intro first. cbn [apply_type]. rewrite V. unfold x at 1. rewrite set_at. f_equal. unfold mk. f_equal; lia.
  - destruct (day_ok d wd Hd) as (D & V & R & NE). destruct (month_word_ok m wm Hm) as (L & Rm & _ & _).
    eapply single_day; [exact Logic.I|constructor; apply (month_day_latest m d Rm); lia| | |].
    + apply (month_day_latest m d Rm). lia.
    + intro first. pose proof (expr_month localtime now first x DS_MD [] m wm wd) as E. cbn [app] in E.
      rewrite E; try (now constructor); [apply (sweep_dm m d); assumption|discriminate|exact Hm|exact D|apply small; lia].
    + intro first. cbn [apply_type]. rewrite V. unfold x at 1. rewrite set_at. f_equal. unfold mk. f_equal; lia.
  - destruct (year_ok y wy Hy) as (Dy & Vy & Ry & NEy & B). destruct (month_word_ok m wm Hm) as (L & Rm & _ & _).
    assert (E : forall first, scan_date_expr localtime now first (wm ++ wy) x = Ok (Some (apply_type first DS_MY (number []) m (number wy) x))).
    { intro first. pose proof (expr_month localtime now first x DS_MY [] m wm wy) as E. cbn [app] in E.
      apply E; try (now constructor); [apply (sweep_my m y); assumption|discriminate|exact Hm|exact Dy|apply small; lia]. }
    split.
    + exists (mk y m 1). split; [constructor|]. split; [split; cbn [year month day mk]; [lia|]; pose proof (month_len_bounds y m); lia|]. rewrite E. cbn [apply_type]. rewrite Vy.
      unfold x. rewrite set_at. do 3 f_equal. unfold mk. f_equal; lia.
    + exists (mk y m (month_len y m)). split; [constructor|]. split; [split; cbn [year month day mk]; [lia|]; pose proof (month_len_bounds y m); lia|]. rewrite E. cbn [apply_type]. rewrite Vy.
      unfold x. rewrite set_at. do 3 f_equal. unfold mk. f_equal; [lia|lia|]. apply last_day_ok; assumption.
  - destruct (year_ok y wy Hy) as (Dy & Vy & Ry & NEy & B). destruct (month_word_ok m wm Hm) as (L & Rm & _ & _).
    assert (E : forall first, scan_date_expr localtime now first (wy ++ wm) x = Ok (Some (apply_type first DS_YM (number wy) m (number []) x))).
    { intro first. pose proof (expr_month localtime now first x DS_YM wy m wm []) as E. rewrite app_nil_r in E.
      apply E; try (now constructor); [apply (sweep_my m y); assumption|discriminate|exact Hm|exact Dy|apply small; lia]. }
    split.
    + exists (mk y m 1). split; [constructor|]. split; [split; cbn [year month day mk]; [lia|]; pose proof (month_len_bounds y m); lia|]. rewrite E. cbn [apply_type]. rewrite Vy.
      unfold x. rewrite set_at. do 3 f_equal. unfold mk. f_equal; lia.
    + exists (mk y m (month_len y m)). split; [constructor|]. split; [split; cbn [year month day mk]; [lia|]; pose proof (month_len_bounds y m); lia|]. rewrite E. cbn [apply_type]. rewrite Vy.
      unfold x. rewrite set_at. do 3 f_equal. unfold mk. f_equal; [lia|lia|]. apply last_day_ok; assumption.
  - contradiction.
Qed.
End Days.
