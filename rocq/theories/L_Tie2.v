(* A scanner made from a description whose attributes are plain tags, in terms of what is written in the description. *)
From Verif Require Import Base M_Charclass M_Dfasyn M_Compdfa M_Parse M_Blocks S_Dfasyn S_Blocks L_Dfasyn2 L_Blocks6 L_Blocks8 L_Charclass L_Tie.

(* ---- classes ---- *)
Definition of_charsb (s : simple_class) : bool := forallb (fun i => match i with Cc_char d => d <? 256 | Cc_range a b => (a <? 256) && (b <? 256) end) (body s).
Lemma of_charsb_ok s : of_charsb s = true -> of_chars s.
Proof.
  unfold of_charsb, of_chars. intros H. apply Forall_forall. intros i I. rewrite forallb_forall in H. specialize (H i I). destruct i.
  - now apply Nat.ltb_lt.
  - apply andb_prop in H as [A B]. split; now apply Nat.ltb_lt.
Qed.
Definition edges : list nat := [31; 63; 95; 127; 159; 191; 223; 255].
Definition class_okb (k : char_class) : bool :=
  match k with Cc_simple s => of_charsb s | Cc_negated s => of_charsb s | Cc_diff s t => of_charsb s && of_charsb t end && forallb (fun c => negb (misread c k)) edges.
Lemma class_okb_ok k : class_okb k = true -> class_ok k.
Proof.
  unfold class_okb. intros H. apply andb_prop in H as [A B]. split.
  - destruct k; cbn [class_chars]; try (apply of_charsb_ok; exact A). apply andb_prop in A as [A C]. split; apply of_charsb_ok; assumption.
  - intros c L. rewrite forallb_forall in B. destruct (c mod 32 =? 31) eqn:E.
    + apply Nat.eqb_eq in E. assert (I : In c edges).
      { unfold edges. cbn [In]. lia. }
      specialize (B c I). now destruct (misread c k).
    + unfold misread. rewrite E. reflexivity.
Qed.
Definition classes_of (alts : list stimulus) : list char_class := flat_map (fun x => match x with X_class k => [k] | _ => [] end) alts.
Definition all_classes (ds : list decl) : list char_class :=
  flat_map (fun d => match d with
    | D_abbrev _ alts => classes_of alts
    | D_block b => flat_map (fun s => flat_map (fun l => flat_map classes_of (l_stims l)) (s_lines s)) (b_states b)
    | _ => [] end) ds.
Lemma classes_of_in k alts : In (X_class k) alts -> In k (classes_of alts).
Proof. intros I. apply in_flat_map. exists (X_class k). split; [exact I|left; reflexivity]. Qed.
Lemma class_in_all ds k : class_in ds k -> In k (all_classes ds).
Proof.
  intros (d & I & H). apply in_flat_map. exists d. split; [exact I|]. destruct d; try contradiction.
  - destruct H as (p & l & alts & (s & S & _ & L) & A & K). apply in_flat_map. exists s. split; [exact S|]. apply in_flat_map. exists l. split; [exact L|].
    apply in_flat_map. exists alts. split; [exact A|now apply classes_of_in].
  - now apply classes_of_in.
Qed.

(* ---- what a scanner shows ---- *)
Definition names (ds : list decl) (g : option bytes) : list bytes := map (fun x => fst (fst x)) (attrs (attribute ds g)).
Definition default_of (ds : list decl) (g : option bytes) : option bytes := default_in (written ds g).
(* every value is the tag of its name, and none is early *)
Definition simple_line (x : bytes * expr * bool) : bool := match x with (n, E_TAG m, false) => bytes_eqb n m | _ => false end.
Lemma simple_line_ok x : simple_line x = true -> x = (fst (fst x), E_TAG (fst (fst x)), false).
Proof. destruct x as [[n []] []]; cbn; try discriminate. intros H. apply L_Mbox.bytes_eqb_iff in H. now subst. Qed.

Section Made.
Variables (stack fuel : nat) (qsort : sorter) (ds : list decl) (F : nfa_file) (sc : scanner) (next : Z -> Z -> res Z) (gs : list (option bytes)).
Variables (before : list decl) (b : block_decl) (p : bytes).
Hypothesis Pl : plain ds.
Hypothesis Co : compile stack ds = Ok F.
Hypothesis Sq : sorts qsort.
Hypothesis Dy : dfasyn fuel qsort false F = Ok sc.
Hypothesis Nx : next_state sc next.
Hypothesis Cl : forallb class_okb (all_classes ds) = true.
Hypothesis Rl : f_rules F = Rules (map (attribute ds) gs) [] stack.
Hypothesis Si : forall g, In g gs -> forallb simple_line (attrs (attribute ds g)) = true.
Hypothesis St : starts ds 0 before b p.

Definition knownw (w : list symbol) : Prop := Forall (fun s => match s with Tok t => t < length (tokens_in ds) | Chr c => c < 256 end) w.
Lemma known_w w : known F w <-> knownw w.
Proof. unfold known, knownw. destruct (references_of_description _ _ _ Pl Co) as (_ & -> & _). reflexivity. Qed.
Lemma classes_fine : Forall class_ok (f_classes F).
Proof.
  destruct (references_of_description _ _ _ Pl Co) as (_ & _ & K). apply Forall_forall. intros k I. apply class_okb_ok.
  rewrite forallb_forall in Cl. apply Cl, class_in_all, K, I.
Qed.
Definition shows (g : option bytes) (w : list symbol) (v : bytes) : Prop :=
  (In v (names ds g) /\ sees before b p w v) \/ ((forall n, In n (names ds g) -> ~ sees before b p w n) /\ default_of ds g = Some v).
Definition hopeful (w : list symbol) : Prop := exists u g v, knownw u /\ In g gs /\ In v (names ds g) /\ sees before b p (w ++ u) v /\ default_of ds g <> Some v.

Section Entry.
Variable e : nat.
Hypothesis En : nth_error (f_entries F) 0 = Some e.
Hypothesis Mn : forall w tag, tagged F e w tag <-> sees before b p w tag.
Lemma applies_simple g x w : In g gs -> In x (attrs (attribute ds g)) -> (applies F e w x <-> sees before b p w (fst (fst x))) /\ snd x = false.
Proof.
  intros I X. specialize (Si g I). rewrite forallb_forall in Si. specialize (Si x X). apply simple_line_ok in Si. rewrite Si. cbn [fst snd]. split; [|reflexivity].
  unfold applies. cbn [fst snd]. rewrite Rl. cbn [r_defs]. rewrite <- Mn. split.
  - intros T. inversion T; subst; [assumption|discriminate].
  - intros T. apply T_set; [reflexivity|exact T].
Qed.
Lemma never_stops w : ~ stops F e w.
Proof.
  intros (x & line & I & L & _ & E). rewrite Rl in I. cbn [r_evs] in I. apply in_map_iff in I as (g & <- & I).
  destruct (applies_simple g line w I L) as [_ E']. congruence.
Qed.
Lemma shows_ok g w v : In g gs -> has_value F e w (attribute ds g) v <-> shows g w v.
Proof.
  intros I. unfold has_value, shows, names, default_of. split.
  - intros [(x & X & A & ->)|[A D]]; [left|right].
    + split; [apply in_map_iff; eauto|]. now apply (applies_simple g x w I X).
    + split; [|exact D]. intros n N. apply in_map_iff in N as (x & <- & X). intros Z. apply (A x X). now apply (applies_simple g x w I X).
  - intros [[N Z]|[A D]]; [left|right].
    + apply in_map_iff in N as (x & <- & X). exists x. split; [exact X|]. split; [|reflexivity]. now apply (applies_simple g x w I X).
    + split; [|exact D]. intros x X Z. apply (A (fst (fst x))); [apply in_map_iff; eauto|]. now apply (applies_simple g x w I X).
Qed.
Lemma hopeful_ok w : promising F e w <-> hopeful w.
Proof.
  unfold promising, hopeful. split.
  - intros (u & x & v & K & _ & I & H & D). rewrite Rl in I. cbn [r_evs] in I. apply in_map_iff in I as (g & <- & I). apply (shows_ok g (w ++ u) v I) in H.
    exists u, g, v. apply known_w in K. destruct H as [[N Z]|[_ Z]]; [auto|]. exfalso. apply D. exact Z.
  - intros (u & g & v & K & I & N & Z & D). exists u, (attribute ds g), v. split; [now apply known_w|]. split.
    + split; [|intros (x & y & _ & _ & Q); exact (never_stops _ Q)]. apply Mn in Z as (q & st & P & _). eauto.
    + split; [rewrite Rl; cbn [r_evs]; now apply in_map|]. split; [|exact D]. apply (shows_ok g _ _ I). left. auto.
Qed.
End Entry.

Lemma after_reading w : knownw w -> exists e0 s, nth_error (sc_entries sc) 0 = Some e0 /\ scan next sc e0 w = Ok s /\
  (((0 <= s)%Z /\ (forall i g v, nth_error gs i = Some g -> attr_of sc i s = Some v <-> shows g w v) /\ hopeful w) \/ (s = (-1)%Z /\ ~ hopeful w)).
Proof.
  intros K. destruct (scanner_for_each _ _ _ Pl Co _ _ _ _ St) as (e & En & Mn).
  destruct (compressed_scanner_ok fuel qsort F sc next 0 e w Sq Dy classes_fine Nx En (proj2 (known_w w) K)) as (e0 & s & E0 & S & H).
  exists e0, s. split; [exact E0|]. split; [exact S|]. destruct H as [(L & [_ T] & P)|[L P]].
  - left. split; [exact L|]. split; [|now apply (hopeful_ok e Mn)]. intros i g v G. rewrite <- (shows_ok e Mn g w v (nth_error_In _ _ G)). apply T.
    rewrite Rl. cbn [r_evs]. now apply map_nth_error.
  - right. split; [exact L|]. intros Q. apply P. now apply (hopeful_ok e Mn).
Qed.
(* without entries, or with one, the scanner starts in state 0, if something can be found at all *)
Lemma starts_at_zero : length (entries_from [] ds) <= 1 -> hopeful [] -> nth_error (sc_entries sc) 0 = Some 0%Z.
Proof.
  intros L H. destruct (scanner_for_each _ _ _ Pl Co _ _ _ _ St) as (e & En & _).
  assert (E1 : f_entries F = [e]).
  { destruct (f_entries F) as [|e1 [|e2 r]] eqn:E; [discriminate|cbn in En; congruence|]. exfalso.
    destruct (meaning_of_description stack ds F Pl Co 1 e2) as (x & y & z & S & _); [rewrite E; reflexivity|].
    unfold starts in S. destruct (entries_from [] ds) as [|a [|c l]] eqn:Q; [destruct S; discriminate|discriminate|cbn in L; lia]. }
  destruct (entry_first fuel qsort false F sc e Dy E1) as (z & Z & [->| ->]); [now rewrite Z|].
  destruct (after_reading [] (Forall_nil _)) as (e0 & s & E0 & S & K). rewrite Z in E0. injection E0 as <-. cbn [scan] in S. injection S as <-.
  destruct K as [(X & _)|[_ X]]; [lia|contradiction].
Qed.
End Made.

(* ---- reading on ---- *)
Lemma scan_app next sc w : forall cur v, scan next sc cur (w ++ v) = let! s := scan next sc cur w in if (s <? 0)%Z then match v with [] => Ok s | _ => Ok (-1)%Z end else scan next sc s v.
Proof.
  induction w as [|x w IH]; intros cur v; cbn [app scan].
  - cbn [bind]. destruct v; cbn [scan]; destruct (cur <? 0)%Z; reflexivity.
  - destruct (cur <? 0)%Z eqn:E; [cbn [bind]; destruct v; reflexivity|]. destruct (next cur (token_of sc x)) as [z|]; cbn [bind]; [apply IH|reflexivity].
Qed.
Lemma scan_step next sc cur w x s : scan next sc cur w = Ok s -> (0 <= s)%Z -> scan next sc cur (w ++ [x]) = next s (token_of sc x).
Proof.
  intros H L. rewrite scan_app, H. cbn [bind]. destruct (s <? 0)%Z eqn:E; [lia|]. cbn [scan]. rewrite E. destruct (next s _); reflexivity.
Qed.
