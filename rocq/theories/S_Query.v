(* What a search says about a mail, apart from the index: S_Search says it about the entries of an index. *)
From Verif Require Import Base M_TokTable M_Tokens S_Tokens M_DbFile S_Words S_Rfc822 S_Mime M_Program S_Program M_Dates S_Dates S_Zone S_Search.
Local Open Scope N_scope.

(* The mail bears a word of one of the parts that the key selects, and the term fits it. *)
Definition fits (alnum : N -> bool) (lines : list bytes) (ns : list node) (key : option bytes) (t : sterm) : Prop :=
  exists p w, selects key p /\ bears alnum lines ns p w /\ word_like t (lower w).
(* w is a message-id of the mail or of a mail in it. *)
Inductive identified : list bytes -> list node -> bytes -> Prop :=
| Id_own lines ns v vs r ws w : values "message-id" lines = v :: vs -> reads v r -> ~ In 0 r -> angled r ws -> In w ws -> identified lines ns w
| Id_mail lines ns name lines' ns' w : In (Mail name lines' ns') ns -> identified lines' ns' w -> identified lines ns w.
(* Message-ids can be read. *)
Inductive ids_legible : list bytes -> list node -> Prop :=
| Ids_legible lines ns : (forall v, In v (values "message-id" lines) -> exists r, reads v r /\ ~ In 0 r) ->
    (forall name lines' ns', In (Mail name lines' ns') ns -> ids_legible lines' ns') -> ids_legible lines ns.
(* The day that the only Date field names; months are counted from 0. *)
Definition day_named (isspc : N -> bool) (lines : list bytes) (y m d : Z) : Prop :=
  exists v r, values "date" lines = [v] /\ reads v r /\ ~ In 0 r /\ dated isspc r y m d.
(* The moment a mail is dated at: midnight of that day, as the machine reckons; it fits the index. *)
Definition dated_at (M : machine) (lines : list bytes) (t : Z) : Prop :=
  values "date" lines = [] /\ t = 0%Z \/
  exists y m d, day_named (m_isspc M) lines y m d /\ t = m_mktime M (y - 1900) m d /\ (0 < t < 2 ^ 32)%Z.
(* What an argument of a search says about a mail that is dated at the moment [at_]. *)
Definition says_of (M : machine) (sd : bytes -> option (option Z * option Z)) (lines : list bytes) (ns : list node) (at_ : Z) (a : sarg) : Prop :=
  match a with
  | A_words key al => exists ts, In ts al /\ forall t, In t ts -> if s_not t then ~ fits (m_alnum M) lines ns key t else fits (m_alnum M) lines ns key t
  | A_id id => exists w, identified lines ns w /\ lower w = lower id
  | A_date e => exists lo hi, sd e = Some (lo, hi) /\ between lo hi at_
  | A_size _ _ | A_flags _ => False
  end.
(* Arguments about what a mail says: not about its size, its flags, or its path. *)
Definition about_text (a : sarg) : Prop :=
  match a with A_words key _ => ~ selects_path key | A_id _ | A_date _ => True | A_size _ _ | A_flags _ => False end.
(* The machine reckons midnight with its own mktime, without summer time (rfc822.c 978-982). *)
Definition same_clock (M : machine) (mktime : tm -> tm * Z) : Prop :=
  forall y m d, m_mktime M y m d = snd (mktime {| tm_year := y; tm_mon := m; tm_mday := d; tm_hour := 0; tm_min := 0; tm_sec := 0; tm_isdst := 0 |}).
(* There is no summer time: midnight is midnight, and the last second of a day comes 86399 seconds after the first. *)
Definition no_summer_time (mktime : tm -> tm * Z) : Prop :=
  forall D, real D -> snd (mktime (S_Zone.at_ D 0 0 0 0)) = snd (mktime (S_Zone.at_ D 0 0 0 (-1))) /\ snd (mktime (S_Zone.at_ D 23 59 59 (-1))) = (snd (mktime (S_Zone.at_ D 0 0 0 0)) + 86399)%Z.
