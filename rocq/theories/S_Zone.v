(* What the C library's localtime and mktime do, as far as the theorems about dates need it. *)
From Verif Require Import Base M_Dates S_Dates.
Local Open Scope Z_scope.

Definition at_ (D : date) (h m s dst : Z) : tm :=
  {| tm_year := year D - 1900; tm_mon := month D - 1; tm_mday := day D; tm_hour := h; tm_min := m; tm_sec := s;
     tm_isdst := dst |}.
(* The date of a moment on the local calendar. *)
Definition date_of (localtime : Z -> tm) (t : Z) : date :=
  mk (1900 + tm_year (localtime t)) (tm_mon (localtime t) + 1) (tm_mday (localtime t)).
Definition first_second (localtime : Z -> tm) (D : date) (t : Z) : Prop :=
  date_of localtime t = D /\ date_of localtime (t - 1) <> D.
Definition last_second (localtime : Z -> tm) (D : date) (t : Z) : Prop :=
  date_of localtime t = D /\ date_of localtime (t + 1) <> D.
(* The same time of day as the moment t, on the date D. *)
Definition same_time (localtime : Z -> tm) (t : Z) (D : date) (dst : Z) : tm :=
  at_ D (tm_hour (localtime t)) (tm_min (localtime t)) (tm_sec (localtime t)) dst.
(* Local time shows real dates and moves forwards; mktime undoes localtime, leaves in its argument what
   localtime says of its result, and finds the first and the last second of a day when it is left to
   find out about daylight saving time (tm_isdst = -1). *)
Record zone_ok (localtime : Z -> tm) (mktime : tm -> tm * Z) : Prop := {
  z_real : forall t, real (date_of localtime t);
  z_mono : forall t t', t <= t' -> upto (date_of localtime t) (date_of localtime t');
  z_back : forall t, mktime (localtime t) = (localtime t, t);
  z_norm : forall x, fst (mktime x) = localtime (snd (mktime x));
  z_first : forall D, real D -> first_second localtime D (snd (mktime (at_ D 0 0 0 (-1))));
  z_last : forall D, real D -> last_second localtime D (snd (mktime (at_ D 23 59 59 (-1)))) }.
(* A zone without daylight saving time: mktime finds the same time of day on any other date. *)
Definition steady (localtime : Z -> tm) (mktime : tm -> tm * Z) : Prop :=
  forall t D, real D -> exists dst,
    localtime (snd (mktime (same_time localtime t D (tm_isdst (localtime t))))) = same_time localtime t D dst.
(* The end of a range: the last second of the last day, or so many seconds ago. *)
Definition ends (localtime : Z -> tm) (now : Z) (e : dexpr) (b : Z) : Prop :=
  (exists B, last_day_of e (date_of localtime now) B /\ last_second localtime B b) \/
  (exists n u, e = X_ago n u /\ b = now - n * unit_seconds u).
