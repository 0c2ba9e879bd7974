(* Counting days in the Gregorian calendar. *)
From Coq Require Import Lia.
From Verif Require Import Base M_Dates S_Dates S_Zone L_Dates4.
Local Open Scope Z_scope.

Definition shift_month (m : Z) : Z := if 2 <? m then m - 3 else m + 9.
Definition days_in_era (yoe m d : Z) : Z := yoe * 365 + yoe / 4 - yoe / 100 + ((153 * shift_month m + 2) / 5 + d - 1).
Definition days_of (D : date) : Z :=
  let y := if month D <=? 2 then year D - 1 else year D in
  (y / 400) * 146097 + days_in_era (y mod 400) (month D) (day D).
Definition civil_in_era (doe : Z) : date :=
  let yoe := (doe - doe / 1460 + doe / 36524 - doe / 146096) / 365 in
  let doy := doe - (365 * yoe + yoe / 4 - yoe / 100) in
  let mp := (5 * doy + 2) / 153 in
  let m := if mp <? 10 then mp + 3 else mp - 9 in
  mk (if m <=? 2 then yoe + 1 else yoe) m (doy - (153 * mp + 2) / 5 + 1).
Definition add_years (D : date) (n : Z) : date := mk (year D + n) (month D) (day D).
Definition civil (z : Z) : date := add_years (civil_in_era (z mod 146097)) (400 * (z / 146097)).

Definition realb (D : date) : bool :=
  (1 <=? month D) && (month D <=? 12) && (1 <=? day D) && (day D <=? month_len (year D) (month D)).
Lemma realb_ok : forall D, realb D = true <-> real D.
Proof. intro D. unfold realb, real. rewrite !andb_true_iff, !Z.leb_le. lia. Qed.
Definition before (a b : date) : Prop := upto a b /\ a <> b.
Definition beforeb (a b : date) : bool :=
  (year a <? year b) || ((year a =? year b) && ((month a <? month b) || ((month a =? month b) && (day a <? day b)))).
Lemma beforeb_ok : forall a b, beforeb a b = true -> before a b.
Proof.
  intros a b H. unfold beforeb in H. rewrite orb_true_iff, andb_true_iff, orb_true_iff, andb_true_iff, !Z.ltb_lt, !Z.eqb_eq in H.
  split; [unfold upto; lia|]. intros ->. lia.
Qed.
Lemma upto_refl : forall a, upto a a.
Proof. intro a. unfold upto. lia. Qed.
Lemma upto_trans : forall a b c, upto a b -> upto b c -> upto a c.
Proof. unfold upto. intros. lia. Qed.
Lemma upto_antisym : forall a b, upto a b -> upto b a -> a = b.
Proof. intros [y m d] [y' m' d']. unfold upto. cbn. intros. f_equal; lia. Qed.
Lemma upto_total : forall a b, upto a b \/ upto b a.
Proof. intros a b. unfold upto. lia. Qed.
Definition eqb_date (a b : date) : bool := (year a =? year b) && (month a =? month b) && (day a =? day b).
Lemma eqb_date_ok : forall a b, eqb_date a b = true -> a = b.
Proof. intros [y m d] [y' m' d']. unfold eqb_date. cbn. rewrite !andb_true_iff, !Z.eqb_eq. intros [[-> ->] ->]. reflexivity. Qed.

(* One era of 400 years, day by day. *)
Definition idx (n : nat) : list Z := map Z.of_nat (List.seq 0 n).
Lemma idx_in : forall n z, 0 <= z < Z.of_nat n -> In z (idx n).
Proof. intros n z H. apply in_map_iff. exists (Z.to_nat z). split; [lia|]. apply in_seq. lia. Qed.
Definition day_check (doe : Z) : bool :=
  let D := civil_in_era doe in
  realb D && (days_in_era (if month D <=? 2 then year D - 1 else year D) (month D) (day D) =? doe) &&
  (0 <=? (if month D <=? 2 then year D - 1 else year D)) && ((if month D <=? 2 then year D - 1 else year D) <? 400) &&
  (if doe =? 146096 then true else beforeb D (civil_in_era (doe + 1))).
(* The years of an era begin in March; y is the year, q the day in it. *)
Definition start (y : Z) : Z := 365 * y + y / 4 - y / 100.
Definition year_len (y : Z) : Z := if leap (y + 1) then 366 else 365.
Definition count (doe : Z) : Z := doe - doe / 1460 + doe / 36524 - doe / 146096.
Definition year_check (y : Z) : bool :=
  (count (start y) / 365 =? y) && (count (start y + year_len y - 1) / 365 =? y) && (0 <=? start y) && (start y + year_len y <=? 146097) &&
  ((y =? 399) || (start (y + 1) =? start y + year_len y)).
Lemma year_sweep : forallb year_check (idx 400) = true.
Proof. vm_compute. reflexivity. Qed.
Definition month_in (q : Z) : Z := let mp := (5 * q + 2) / 153 in if mp <? 10 then mp + 3 else mp - 9.
Definition day_in (q : Z) : Z := q - (153 * ((5 * q + 2) / 153) + 2) / 5 + 1.
Definition len_in (q m : Z) : Z := if m =? 2 then (if q =? 365 then 29 else 28) else month_len 1 m.
Definition q_check (q : Z) : bool :=
  (1 <=? month_in q) && (month_in q <=? 12) && (1 <=? day_in q) && (day_in q <=? len_in q (month_in q)) &&
  ((153 * shift_month (month_in q) + 2) / 5 + day_in q - 1 =? q) &&
  ((q =? 365) || (shift_month (month_in q) <? shift_month (month_in (q + 1))) || ((month_in q =? month_in (q + 1)) && (day_in q <? day_in (q + 1)))) &&
  ((q <? 364) || (month_in q =? 2)).
Lemma q_sweep : forallb q_check (idx 366) = true.
Proof. vm_compute. reflexivity. Qed.
Lemma count_step : forall a, 0 <= a < 146096 -> count a <= count (a + 1).
Proof.
  intros a H. unfold count. assert (E : (a + 1) / 1460 <= a / 1460 + 1) by (rewrite <- Z.div_add by lia; apply Z.div_le_mono; lia).
  assert (F : a / 36524 <= (a + 1) / 36524) by (apply Z.div_le_mono; lia). rewrite (Z.div_small a 146096) by lia.
  destruct (Z.eq_dec a 146095) as [->|NE]; [vm_compute; discriminate|]. rewrite (Z.div_small (a + 1) 146096) by lia. lia.
Qed.
Lemma count_mono : forall a b, 0 <= a -> a <= b -> b <= 146096 -> count a <= count b.
Proof.
  intros a b A L B. replace b with (a + Z.of_nat (Z.to_nat (b - a))) by lia. assert (M : a + Z.of_nat (Z.to_nat (b - a)) <= 146096) by lia. revert M. generalize (Z.to_nat (b - a)) as n. induction n as [|n IH]; intro M.
  - rewrite Z.add_0_r. lia.
  - etransitivity; [apply IH; lia|]. replace (a + Z.of_nat (S n)) with (a + Z.of_nat n + 1) by lia. apply count_step. lia.
Qed.
Lemma year_facts : forall y, 0 <= y < 400 -> 0 <= start y /\ start y + year_len y <= 146097 /\ (y = 399 \/ start (y + 1) = start y + year_len y) /\
  forall q, 0 <= q < year_len y -> count (start y + q) / 365 = y.
Proof.
  intros y H. pose proof year_sweep as S. rewrite forallb_forall in S. specialize (S y ltac:(apply idx_in; lia)). unfold year_check in S. rewrite !andb_true_iff, orb_true_iff, !Z.leb_le, !Z.eqb_eq in S.
  destruct S as [[[[A B] C] D] E]. split; [exact C|]. split; [exact D|]. split; [exact E|]. intros q Q.
  assert (L : count (start y) / 365 <= count (start y + q) / 365) by (apply Z.div_le_mono; [lia|apply count_mono; lia]).
  assert (U : count (start y + q) / 365 <= count (start y + year_len y - 1) / 365) by (apply Z.div_le_mono; [lia|apply count_mono; lia]). lia.
Qed.
Lemma year_of : forall doe, 0 <= doe < 146097 -> exists y q, 0 <= y < 400 /\ 0 <= q < year_len y /\ doe = start y + q.
Proof.
  intros doe H. assert (P : forall n, (n < 400)%nat -> doe < start (Z.of_nat n) + year_len (Z.of_nat n) -> exists y q, 0 <= y < 400 /\ 0 <= q < year_len y /\ doe = start y + q).
  { induction n as [|n IH]; intros L B.
    - exists 0, doe. change (start (Z.of_nat 0)) with 0 in B. change (Z.of_nat 0) with 0 in B. split; [lia|]. split; [lia|]. reflexivity.
    - destruct (Z.lt_ge_cases doe (start (Z.of_nat (S n)))) as [C|C].
      + destruct (year_facts (Z.of_nat n) ltac:(lia)) as (_ & _ & [E|E] & _); [lia|]. apply IH; [lia|]. rewrite <- E. replace (Z.of_nat n + 1) with (Z.of_nat (S n)) by lia. exact C.
      + exists (Z.of_nat (S n)), (doe - start (Z.of_nat (S n))). split; [lia|]. split; lia. }
  apply (P 399%nat); [lia|]. change (start (Z.of_nat 399) + year_len (Z.of_nat 399)) with 146097. lia.
Qed.
Lemma q_facts : forall q, 0 <= q < 366 -> 1 <= month_in q <= 12 /\ 1 <= day_in q <= len_in q (month_in q) /\ (153 * shift_month (month_in q) + 2) / 5 + day_in q - 1 = q /\
  (q = 365 \/ shift_month (month_in q) < shift_month (month_in (q + 1)) \/ (month_in q = month_in (q + 1) /\ day_in q < day_in (q + 1))) /\ (q < 364 \/ month_in q = 2).
Proof.
  intros q H. pose proof q_sweep as S. rewrite forallb_forall in S. specialize (S q ltac:(apply idx_in; lia)). unfold q_check in S. rewrite !andb_true_iff, !orb_true_iff, !andb_true_iff, !Z.leb_le, !Z.eqb_eq, !Z.ltb_lt in S. tauto.
Qed.
Lemma civil_at : forall y q, 0 <= y < 400 -> 0 <= q < year_len y -> civil_in_era (start y + q) = mk (if month_in q <=? 2 then y + 1 else y) (month_in q) (day_in q).
Proof.
  intros y q Y Q. destruct (year_facts y Y) as (_ & _ & _ & C). specialize (C q Q). unfold civil_in_era. fold (count (start y + q)). rewrite C. fold (start y). cbv zeta. replace (start y + q - start y) with q by lia. reflexivity.
Qed.
Lemma month_len_other : forall y m, m <> 2 -> month_len y m = month_len 1 m.
Proof. intros y m H. unfold month_len. destruct (m =? 2) eqn:E; [apply Z.eqb_eq in E; contradiction|reflexivity]. Qed.
Lemma len_at : forall y q, 0 <= q < year_len y -> month_in q <> 2 \/ len_in q 2 <= month_len (y + 1) 2.
Proof.
  intros y q Q. destruct (Z.eq_dec (month_in q) 2) as [E|E]; [right|now left]. unfold len_in. change (2 =? 2) with true. cbn iota. unfold month_len, year_len in *. cbn. destruct (leap (y + 1)); destruct (Z.eqb_spec q 365); lia.
Qed.
Lemma day_ok : forall doe, 0 <= doe < 146097 -> day_check doe = true.
Proof.
  intros doe H. destruct (year_of doe H) as (y & q & Y & Q & ->). assert (Q' : q < 366) by (unfold year_len in Q; destruct (leap (y + 1)); lia).
  destruct (q_facts q ltac:(lia)) as (M & D & N & X & W). destruct (year_facts y Y) as (S0 & S1 & S2 & _). unfold day_check. rewrite (civil_at y q Y Q). cbv zeta. cbn [year month day mk].
  assert (YB : (if month_in q <=? 2 then (if month_in q <=? 2 then y + 1 else y) - 1 else (if month_in q <=? 2 then y + 1 else y)) = y) by (destruct (month_in q <=? 2); lia). rewrite YB.
  rewrite !andb_true_iff. repeat split.
  - apply realb_ok. split; cbn [month day year]; [exact M|]. split; [apply D|]. etransitivity; [apply D|]. unfold len_in. destruct (Z.eqb_spec (month_in q) 2) as [E|E].
    + rewrite E. change (2 <=? 2) with true. cbn iota. destruct (len_at y q Q) as [K|K]; [contradiction|]. exact K.
    + rewrite (month_len_other (if month_in q <=? 2 then y + 1 else y)) by exact E. apply Z.le_refl.
  - apply Z.eqb_eq. unfold days_in_era. unfold start. lia.
  - apply Z.leb_le. lia.
  - apply Z.ltb_lt. lia.
  - destruct (Z.eqb_spec (start y + q) 146096) as [|NE]; [reflexivity|].
    destruct (Z.lt_ge_cases (q + 1) (year_len y)) as [L|L].
    + replace (start y + q + 1) with (start y + (q + 1)) by lia. rewrite (civil_at y (q + 1) Y ltac:(lia)). unfold beforeb. cbn [year month day mk].
      destruct (q_facts (q + 1)) as (M' & _); [unfold year_len in L; destruct (leap (y + 1)); lia|].
      rewrite orb_true_iff, andb_true_iff, orb_true_iff, andb_true_iff, !Z.ltb_lt, !Z.eqb_eq. destruct X as [X|[X|X]]; [exfalso; unfold year_len in L; destruct (leap (y + 1)); lia| |].
      * unfold shift_month in X. revert X. destruct (Z.ltb_spec 2 (month_in q)), (Z.ltb_spec 2 (month_in (q + 1))), (Z.leb_spec (month_in q) 2), (Z.leb_spec (month_in (q + 1)) 2); lia.
      * destruct X as [-> X]. destruct (month_in (q + 1) <=? 2); lia.
    + assert (E : q + 1 = year_len y) by lia. destruct S2 as [->|S2].
      { change (start 399) with 145731 in *. change (year_len 399) with 366 in *. lia. }
      assert (Y1 : 0 <= y + 1 < 400). { split; [lia|]. destruct (Z.eq_dec y 399) as [->|]; [|lia]. change (start 399) with 145731 in *. change (year_len 399) with 366 in *. lia. }
      replace (start y + q + 1) with (start (y + 1) + 0) by lia. rewrite (civil_at (y + 1) 0 Y1) by (unfold year_len; destruct (leap (y + 1 + 1)); lia). change (month_in 0) with 3. change (day_in 0) with 1. cbn [Z.leb Z.compare Pos.compare Pos.compare_cont]. destruct W as [W|W]; [unfold year_len in E; destruct (leap (y + 1)); lia|]. rewrite W. cbn [Z.leb Z.compare Pos.compare Pos.compare_cont].
      unfold beforeb. cbn [year month day mk]. rewrite Z.eqb_refl. rewrite orb_true_iff. right. reflexivity.
Qed.
Definition date_check (yoe m d : Z) : bool :=
  let y := if m <=? 2 then yoe + 1 else yoe in
  (month_len y m <? d) || (let doe := days_in_era yoe m d in (0 <=? doe) && (doe <? 146097) && eqb_date (civil_in_era doe) (mk y m d)).
Definition md_check (m d : Z) : bool :=
  let q := (153 * shift_month m + 2) / 5 + d - 1 in
  (month_len 4 m <? d) || ((0 <=? q) && (q <? 366) && (month_in q =? m) && (day_in q =? d) && ((q <? 365) || ((m =? 2) && (d =? 29)))).
Lemma md_sweep : forallb (fun m => forallb (fun d => md_check (m + 1) (d + 1)) (idx 31)) (idx 12) = true.
Proof. vm_compute. reflexivity. Qed.
Lemma month_len_most : forall y m, month_len y m <= month_len 4 m.
Proof. intros y m. unfold month_len. change (leap 4) with true. destruct (leap y), (m =? 2); lia. Qed.
Lemma date_ok : forall yoe m d, 0 <= yoe < 400 -> 1 <= m <= 12 -> 1 <= d <= 31 -> date_check yoe m d = true.
Proof.
  intros yoe m d Hy Hm Hd. pose proof md_sweep as S. rewrite forallb_forall in S. specialize (S (m - 1) ltac:(apply idx_in; lia)). rewrite forallb_forall in S.
  specialize (S (d - 1) ltac:(apply idx_in; lia)). replace (m - 1 + 1) with m in S by lia. replace (d - 1 + 1) with d in S by lia. unfold md_check in S. cbv zeta in S.
  unfold date_check. cbv zeta. set (y := if m <=? 2 then yoe + 1 else yoe). destruct (Z.ltb_spec (month_len y m) d) as [|L]; [reflexivity|]. cbn [orb].
  pose proof (month_len_most y m). destruct (Z.ltb_spec (month_len 4 m) d); [lia|]. cbn [orb] in S. set (q := (153 * shift_month m + 2) / 5 + d - 1) in *.
  rewrite !andb_true_iff, orb_true_iff, andb_true_iff, !Z.leb_le, !Z.ltb_lt, !Z.eqb_eq in S. destruct S as [[[[A B] C] D] E].
  assert (Q : 0 <= q < year_len yoe). { split; [exact A|]. unfold year_len. destruct E as [E|[E1 E2]]; [destruct (leap (yoe + 1)); lia|]. assert (LP : leap (yoe + 1) = true). { subst y. rewrite E1 in L. change (2 <=? 2) with true in L. cbn iota in L. unfold month_len in L. cbn in L. destruct (leap (yoe + 1)); [reflexivity|lia]. } rewrite LP. exact B. }
  replace (days_in_era yoe m d) with (start yoe + q) by (unfold days_in_era, start, q; lia). destruct (year_facts yoe Hy) as (S0 & S1 & _ & _). rewrite (civil_at yoe q Hy Q), C, D. fold y.
  rewrite !andb_true_iff. repeat split; [apply Z.leb_le; lia|apply Z.ltb_lt; lia|]. unfold eqb_date. cbn [year month day mk]. now rewrite !Z.eqb_refl.
Qed.

Lemma leap_era : forall y k, leap (y + 400 * k) = leap y.
Proof.
  intros y k. unfold leap.
  replace ((y + 400 * k) mod 4) with (y mod 4) by (replace (y + 400 * k) with (y + (100 * k) * 4) by lia; now rewrite Z_mod_plus_full).
  replace ((y + 400 * k) mod 100) with (y mod 100) by (replace (y + 400 * k) with (y + (4 * k) * 100) by lia; now rewrite Z_mod_plus_full).
  replace ((y + 400 * k) mod 400) with (y mod 400) by (replace (y + 400 * k) with (y + k * 400) by lia; now rewrite Z_mod_plus_full).
  reflexivity.
Qed.
Lemma month_len_era : forall y m k, month_len (y + 400 * k) m = month_len y m.
Proof. intros. unfold month_len. now rewrite leap_era. Qed.
Lemma real_era : forall D k, real D -> real (add_years D (400 * k)).
Proof. intros D k [A B]. split; cbn [month day year add_years mk]; [exact A|now rewrite month_len_era]. Qed.

Lemma civil_real : forall z, real (civil z).
Proof.
  intro z. apply real_era. pose proof (day_ok (z mod 146097) ltac:(apply Z.mod_pos_bound; lia)) as C. unfold day_check in C.
  cbv zeta in C. do 4 (apply andb_prop in C; destruct C as [C _]). now apply realb_ok.
Qed.
Lemma days_civil : forall z, days_of (civil z) = z.
Proof.
  intro z. pose proof (day_ok (z mod 146097) ltac:(apply Z.mod_pos_bound; lia)) as C. unfold day_check in C. cbv zeta in C.
  apply andb_prop in C. destruct C as [C _]. apply andb_prop in C. destruct C as [C Y2]. apply andb_prop in C. destruct C as [C Y1].
  apply andb_prop in C. destruct C as [_ C]. apply Z.eqb_eq in C. apply Z.leb_le in Y1. apply Z.ltb_lt in Y2.
  unfold days_of, civil. cbn [month day year add_years mk]. set (D := civil_in_era (z mod 146097)) in *. set (k := z / 146097).
  replace (if month D <=? 2 then year D + 400 * k - 1 else year D + 400 * k) with ((if month D <=? 2 then year D - 1 else year D) + k * 400)
    by (destruct (month D <=? 2); lia).
  rewrite Z_div_plus_full, Z_mod_plus_full by lia. rewrite (Z.div_small _ 400), (Z.mod_small _ 400) by lia. rewrite C.
  pose proof (Z.div_mod z 146097). lia.
Qed.
Lemma civil_days : forall D, real D -> civil (days_of D) = D.
Proof.
  intros D [M R]. pose proof (month_len_bounds (year D) (month D)) as MB. unfold days_of. set (y := if month D <=? 2 then year D - 1 else year D).
  pose proof (Z.div_mod y 400 ltac:(lia)) as DM. pose proof (Z.mod_pos_bound y 400 ltac:(lia)) as MR.
  pose proof (date_ok (y mod 400) (month D) (day D) MR M ltac:(lia)) as C. unfold date_check in C. cbv zeta in C.
  set (y1 := if month D <=? 2 then y mod 400 + 1 else y mod 400) in C.
  assert (Y : year D = y1 + 400 * (y / 400)) by (unfold y1, y in *; destruct (month D <=? 2); lia).
  assert (ML : month_len y1 (month D) = month_len (year D) (month D)) by (rewrite Y; symmetry; apply month_len_era).
  rewrite ML in C. apply orb_prop in C. destruct C as [C|C]; [apply Z.ltb_lt in C; lia|].
  apply andb_prop in C. destruct C as [C E]. apply andb_prop in C. destruct C as [C1 C2]. apply Z.leb_le in C1. apply Z.ltb_lt in C2. apply eqb_date_ok in E.
  unfold civil. set (doe := days_in_era (y mod 400) (month D) (day D)) in *.
  replace ((y / 400 * 146097 + doe) mod 146097) with doe by (apply Z.mod_unique with (y / 400); lia).
  replace ((y / 400 * 146097 + doe) / 146097) with (y / 400) by (apply Z.div_unique with doe; lia).
  rewrite E. unfold add_years, mk. cbn [year month day]. rewrite <- Y. now destruct D.
Qed.
Lemma era_end : civil_in_era 0 = mk 0 3 1 /\ civil_in_era 146096 = mk 400 2 29.
Proof. split; vm_compute; reflexivity. Qed.
Lemma before_shift : forall a b k, before a b -> before (add_years a k) (add_years b k).
Proof. intros [y m d] [y' m' d'] k [U N]. unfold before, upto, add_years in *. cbn [year month day mk] in *. split; [lia|]. intro E. injection E as E1 E2 E3. apply N. f_equal; lia. Qed.
Lemma civil_next : forall z, before (civil z) (civil (z + 1)).
Proof.
  intro z. pose proof (Z.mod_pos_bound z 146097 ltac:(lia)) as R. pose proof (Z.div_mod z 146097 ltac:(lia)) as DM.
  assert (E : z mod 146097 = 146096 \/ z mod 146097 < 146096) by lia. destruct E as [E|E].
  - assert (Z1 : (z + 1) mod 146097 = 0) by (symmetry; apply Z.mod_unique with (z / 146097 + 1); lia).
    assert (Z2 : (z + 1) / 146097 = z / 146097 + 1) by (symmetry; apply Z.div_unique with 0; lia).
    unfold civil. rewrite E, Z1, Z2. destruct era_end as [-> ->]. unfold add_years, before, upto. cbn [year month day mk]. split; [lia|]. intro X. discriminate X.
  - assert (Z1 : (z + 1) mod 146097 = z mod 146097 + 1) by (symmetry; apply Z.mod_unique with (z / 146097); lia).
    assert (Z2 : (z + 1) / 146097 = z / 146097) by (symmetry; apply Z.div_unique with (z mod 146097 + 1); lia).
    unfold civil. rewrite Z1, Z2. apply before_shift. pose proof (day_ok (z mod 146097) R) as C. unfold day_check in C. cbv zeta in C.
    apply andb_prop in C. destruct C as [_ C]. destruct (Z.eqb_spec (z mod 146097) 146096); [lia|]. now apply beforeb_ok.
Qed.
Lemma civil_mono : forall z z', z <= z' -> upto (civil z) (civil z').
Proof.
  intros z z' H. replace z' with (z + Z.of_nat (Z.to_nat (z' - z))) by lia. induction (Z.to_nat (z' - z)) as [|n IH].
  - rewrite Z.add_0_r. apply upto_refl.
  - eapply upto_trans; [exact IH|]. replace (z + Z.of_nat (S n)) with (z + Z.of_nat n + 1) by lia. apply civil_next.
Qed.

