(* What a search says about a mail, apart from the index: its text, its path, its size and its flags. *)
From Verif Require Import Base M_TokTable M_Tokens S_Tokens M_DbFile S_Words S_Rfc822 S_Mime M_Update S_Update M_Session S_Session M_Program S_Program M_Dates S_Dates S_Zone S_Search S_Query.
From Verif Require M_Paths.
Local Open Scope N_scope.

(* The mail of an entry lies at a path: alone, or in a mailbox with others. *)
Inductive lies (db : database) (m : msg) : bytes -> bool -> Prop :=
| Li_file p mt sz : src m = S_file p mt sz -> lies db m p true
| Li_server p : src m = S_imap p -> lies db m p true
| Li_mbox fi mi mb p : src m = S_mbox fi mi -> nth_error (mboxen db) (N.to_nat fi) = Some mb -> mb_path mb = Some p -> lies db m p false.
(* Seen, replied to, flagged: for a mail that lies alone the end of its name tells (maildirs), in a mailbox the Status and X-Status
   fields do. *)
Definition has_flag (p : bytes) (alone : bool) (lines : list bytes) (c : N) : Prop :=
  let told in_name in_field := if alone then marked p in_name else In in_field (concat (values "status" lines ++ values "x-status" lines)) in
  if (c =? ch "s") || (c =? ch "S") then told (ch "S") (ch "R") else if (c =? ch "r") || (c =? ch "R") then told (ch "R") (ch "A") else told (ch "F") (ch "F").
(* The mail bears a word that fits, or its path does. *)
Definition fits_all (alnum : N -> bool) (p : bytes) (lines : list bytes) (ns : list node) (key : option bytes) (t : sterm) : Prop :=
  fits alnum lines ns key t \/ selects_path key /\ path_like t p.
(* What any argument says about a mail of text t at path p, dated at [at_]. *)
Definition says_all (M : machine) (sd : bytes -> option (option Z * option Z)) (p : bytes) (alone : bool) (t : bytes) (lines : list bytes) (ns : list node) (at_ : Z) (a : sarg) : Prop :=
  match a with
  | A_words key al => exists ts, In ts al /\ forall tm, In tm ts -> if s_not tm then ~ fits_all (m_alnum M) p lines ns key tm else fits_all (m_alnum M) p lines ns key tm
  | A_id id => exists w, identified lines ns w /\ lower w = lower id
  | A_date e => exists lo hi, sd e = Some (lo, hi) /\ between lo hi at_
  | A_size lo hi => between (zopt lo) (zopt hi) (Z.of_nat (length t))
  | A_flags fs => forall ng c, In (ng, c) fs -> if ng then ~ has_flag p alone lines c else has_flag p alone lines c
  end.
(* At every session files were as long as the system said. *)
Definition true_sizes (h : list (session * option bytes)) : Prop :=
  Forall (fun x => forall p mt sz va, w_stat (s_world (fst x)) p = Some (M_Paths.K_reg, mt, sz) -> w_map (s_world (fst x)) p = Mapped va -> sz = N.of_nat (length va)) h.
