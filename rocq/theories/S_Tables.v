(* The names of the kinds of dates in datescan.nfa. *)
From Verif Require Import Base M_Dates.

Definition kind_name (k : option ds) : bytes :=
  match k with
  | None => bs "DS_FAILURE"
  | Some DS_D => bs "DS_D" | Some DS_Y => bs "DS_Y" | Some DS_YYMMDD => bs "DS_YYMMDD" | Some DS_SCALED => bs "DS_SCALED" | Some DS_M => bs "DS_M" | Some DS_DM => bs "DS_DM"
  | Some DS_MD => bs "DS_MD" | Some DS_YM => bs "DS_YM" | Some DS_MY => bs "DS_MY" | Some DS_YMD => bs "DS_YMD" | Some DS_DMY => bs "DS_DMY"
  end.
(* What is taken to be what: words for days and years as in S_Dates, three letters for months. *)
From Verif Require Import S_Dates.
Definition digit (c : N) : Prop := (48 <= c <= 57)%N.
Definition a_letter (c : N) : Prop := (97 <= c <= 122)%N \/ (65 <= c <= 90)%N.
Definition day_text (s : bytes) : Prop := exists d, day_word d s.
Definition year_text (s : bytes) : Prop := exists y, year_word y s.
Definition month_text (s : bytes) : Prop := length s = 3 /\ Forall a_letter s.
Inductive reads_as : bytes -> ds -> Prop :=
| as_d s : day_text s -> reads_as s DS_D
| as_y s : year_text s -> reads_as s DS_Y
| as_yymmdd s : Forall digit s -> length s = 6 \/ length s = 8 -> reads_as s DS_YYMMDD
| as_scaled s c : s <> [] -> Forall digit s -> a_letter c -> reads_as (s ++ [c]) DS_SCALED
| as_m s : month_text s -> reads_as s DS_M
| as_dm d m : day_text d -> month_text m -> reads_as (d ++ m) DS_DM
| as_md d m : day_text d -> month_text m -> reads_as (m ++ d) DS_MD
| as_ym y m : year_text y -> month_text m -> reads_as (y ++ m) DS_YM
| as_my y m : year_text y -> month_text m -> reads_as (m ++ y) DS_MY
| as_ymd y m d : year_text y -> month_text m -> day_text d -> reads_as (y ++ m ++ d) DS_YMD
| as_dmy y m d : year_text y -> month_text m -> day_text d -> reads_as (d ++ m ++ y) DS_DMY.
