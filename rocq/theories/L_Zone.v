(* Coordinated universal time: a localtime and mktime that do what S_Zone asks for. *)
From Coq Require Import Lia.
From Verif Require Import Base M_Dates S_Dates S_Zone L_Dates4 L_Calendar.
Local Open Scope Z_scope.

(* The number of 1970-01-01, counted as in L_Calendar. *)
Definition epoch : Z := 719468.
Definition utc_time (t : Z) : tm := let s := t mod 86400 in at_ (civil (t / 86400 + epoch)) (s / 3600) (s mod 3600 / 60) (s mod 60) 0.
Definition utc_mk (x : tm) : tm * Z :=
  let t := (days_of (mk (1900 + tm_year x + tm_mon x / 12) (tm_mon x mod 12 + 1) 1) + tm_mday x - 1 - epoch) * 86400 +
           tm_hour x * 3600 + tm_min x * 60 + tm_sec x in
  (utc_time t, t).
Lemma utc_date : forall t, date_of utc_time t = civil (t / 86400 + epoch).
Proof. intro t. unfold date_of, utc_time. cbv zeta. unfold at_. cbn [tm_year tm_mon tm_mday]. destruct (civil (t / 86400 + epoch)) as [yy mm dd]. unfold mk. cbn [year month day]. f_equal; lia. Qed.
Lemma days_day : forall y m d, days_of (mk y m 1) + d - 1 = days_of (mk y m d).
Proof. intros. unfold days_of, days_in_era. cbn [year month day mk]. lia. Qed.
Lemma utc_mk_at : forall D h m s dst, real D -> snd (utc_mk (at_ D h m s dst)) = (days_of D - epoch) * 86400 + h * 3600 + m * 60 + s.
Proof.
  intros D h m s dst [M R]. unfold utc_mk. cbn [snd tm_year tm_mon tm_mday tm_hour tm_min tm_sec at_].
  rewrite (Z.div_small (month D - 1) 12), (Z.mod_small (month D - 1) 12) by lia. rewrite days_day.
  replace (mk (1900 + (year D - 1900) + 0) (month D - 1 + 1) (day D)) with D by (destruct D as [yy mm dd]; unfold mk; cbn [year month day]; f_equal; lia). reflexivity.
Qed.
Lemma utc_fst : forall x, fst (utc_mk x) = utc_time (snd (utc_mk x)).
Proof. reflexivity. Qed.
Lemma clock_sum : forall s, s / 3600 * 3600 + s mod 3600 / 60 * 60 + s mod 60 = s.
Proof.
  intro s. pose proof (Z.div_mod s 3600 ltac:(lia)) as E2. pose proof (Z.div_mod (s mod 3600) 60 ltac:(lia)) as E3.
  assert (E4 : s mod 3600 mod 60 = s mod 60).
  { symmetry. apply Z.mod_unique with (s / 60 - s / 3600 * 60); [left; apply Z.mod_pos_bound; lia|]. pose proof (Z.div_mod s 60 ltac:(lia)). lia. }
  lia.
Qed.
Lemma utc_back : forall t, utc_mk (utc_time t) = (utc_time t, t).
Proof.
  intro t. assert (S : snd (utc_mk (utc_time t)) = t).
  { unfold utc_time. cbv zeta. rewrite utc_mk_at by apply civil_real. rewrite days_civil. pose proof (clock_sum (t mod 86400)).
    pose proof (Z.div_mod t 86400 ltac:(lia)) as E1. lia. }
  rewrite (surjective_pairing (utc_mk (utc_time t))), utc_fst, S. reflexivity.
Qed.
Lemma utc_ok : zone_ok utc_time utc_mk.
Proof.
  constructor.
  - intro t. rewrite utc_date. apply civil_real.
  - intros t t' H. rewrite !utc_date. apply civil_mono. apply Z.add_le_mono_r. apply Z.div_le_mono; lia.
  - exact utc_back.
  - exact utc_fst.
  - intros D R. rewrite utc_mk_at by exact R. set (t := (days_of D - epoch) * 86400 + 0 * 3600 + 0 * 60 + 0).
    assert (E1 : t / 86400 + epoch = days_of D) by (rewrite <- (Z.div_unique _ 86400 (days_of D - epoch) 0); [lia|lia|unfold t; lia]).
    assert (E2 : (t - 1) / 86400 + epoch = days_of D - 1) by (rewrite <- (Z.div_unique _ 86400 (days_of D - 1 - epoch) 86399); [lia|lia|unfold t; lia]).
    split; rewrite utc_date; [rewrite E1; now apply civil_days|]. rewrite E2. intro X.
    destruct (civil_next (days_of D - 1)) as [_ N]. apply N. rewrite X. replace (days_of D - 1 + 1) with (days_of D) by lia. now rewrite civil_days.
  - intros D R. rewrite utc_mk_at by exact R. set (t := (days_of D - epoch) * 86400 + 23 * 3600 + 59 * 60 + 59).
    assert (E1 : t / 86400 + epoch = days_of D) by (rewrite <- (Z.div_unique _ 86400 (days_of D - epoch) 86399); [lia|lia|unfold t; lia]).
    assert (E2 : (t + 1) / 86400 + epoch = days_of D + 1) by (rewrite <- (Z.div_unique _ 86400 (days_of D + 1 - epoch) 0); [lia|lia|unfold t; lia]).
    split; rewrite utc_date; [rewrite E1; now apply civil_days|]. rewrite E2. intro X.
    destruct (civil_next (days_of D)) as [_ N]. apply N. rewrite X. now apply civil_days.
Qed.
Lemma utc_steady : steady utc_time utc_mk.
Proof.
  intros t D R. exists 0. unfold same_time. set (s := t mod 86400). pose proof (Z.mod_pos_bound t 86400 ltac:(lia)) as B. fold s in B.
  assert (E : tm_hour (utc_time t) = s / 3600 /\ tm_min (utc_time t) = s mod 3600 / 60 /\ tm_sec (utc_time t) = s mod 60) by (repeat split).
  destruct E as (-> & -> & ->). rewrite utc_mk_at by exact R. pose proof (clock_sum s) as C.
  set (u := (days_of D - epoch) * 86400 + s / 3600 * 3600 + s mod 3600 / 60 * 60 + s mod 60).
  assert (E1 : u / 86400 + epoch = days_of D) by (rewrite <- (Z.div_unique _ 86400 (days_of D - epoch) s); [lia|lia|unfold u; lia]).
  assert (E2 : u mod 86400 = s) by (symmetry; apply Z.mod_unique with (days_of D - epoch); unfold u; lia).
  unfold utc_time at 1. cbv zeta. rewrite E1, E2, civil_days by exact R. reflexivity.
Qed.
