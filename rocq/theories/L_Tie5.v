(* looks_like_from_separator, on the tables made from fromcheck.nfa. *)
From Verif Require Import Base M_Charclass M_Dfasyn M_Compdfa M_Parse M_Blocks M_Files M_Tables S_Dfasyn S_Blocks S_From L_Charclass2 L_Dfasyn L_Dfasyn2 L_Blocks6 L_Blocks7 L_Blocks8 L_Outcome L_Tie L_Tie2 L_Tie3 L_Tie4 L_Room.
From Verif Require M_From L_From L_From4 L_Mbox.
Import M_From(main).

Lemma text_inv fuel stack qsort ud text sc : dfasyn_text fuel stack qsort ud text = Ok sc -> exists ds F, read_description text = Ok ds /\ compile stack ds = Ok F /\ dfasyn fuel qsort ud F = Ok sc.
Proof. unfold dfasyn_text. destruct (read_description text) as [ds|]; [|discriminate]. cbn [bind]. destruct (compile stack ds) as [F|] eqn:C; [|discriminate]. cbn [bind]. eauto. Qed.
Lemma text_made fuel stack qsort ud text ds F sc : read_description text = Ok ds -> compile stack ds = Ok F -> dfasyn fuel qsort ud F = Ok sc -> dfasyn_text fuel stack qsort ud text = Ok sc.
Proof. unfold dfasyn_text. intros -> C D. cbn [bind]. now rewrite C. Qed.
Lemma fc_plain : plain fc.
Proof. apply plainb_ok. vm_compute. reflexivity. Qed.
Lemma fc_classes : forallb class_okb (all_classes fc) = true.
Proof. vm_compute. reflexivity. Qed.
Lemma fc_attrs : names fc None = [PASS; bs "FROMCHECK_FAIL"] /\ forallb simple_line (attrs (attribute fc None)) = true /\ default_of fc None = Some (bs "FROMCHECK_FAIL") /\ tokens_in fc = [] /\ entries_from [] fc = [] /\ tag_lines fc = [] /\ PASS = bs "FROMCHECK_PASS".
Proof. vm_compute. repeat split; reflexivity. Qed.
Lemma fc_starts : starts fc 0 (bef 33) (blk main) (bs "in").
Proof.
  unfold starts. destruct fc_attrs as (_ & _ & _ & _ & -> & _). split; [reflexivity|]. exists (skipn 34 fc), (removelast (b_states (blk main))), (last (b_states (blk main)) (Sdecl [] None [])).
  split; [vm_compute; reflexivity|]. split; [|split; vm_compute; reflexivity].
  intros c I. assert (E : forallb (fun d => match d with D_block _ => false | _ => true end) (skipn 34 fc) = true) by (vm_compute; reflexivity).
  rewrite forallb_forall in E. specialize (E _ I). discriminate.
Qed.
Lemma fc_rules stack F : compile stack fc = Ok F -> f_rules F = Rules (map (attribute fc) [None]) [] stack.
Proof.
  intros H. destruct (rules_of_description _ _ _ H) as (gs & -> & _ & G). destruct fc_attrs as (_ & _ & _ & _ & _ & -> & _). destruct gs as [|g gs]; [reflexivity|].
  exfalso. destruct (proj1 (G g) (or_introl eq_refl)) as (l & I). assert (E : forallb (fun d => match d with D_group _ _ => false | _ => true end) fc = true) by (vm_compute; reflexivity).
  rewrite forallb_forall in E. specialize (E _ I). discriminate.
Qed.
Lemma fc_simple : forall g, In g [None] -> forallb simple_line (attrs (attribute fc g)) = true.
Proof. intros g [<-|[]]. apply fc_attrs. Qed.
Lemma known_syms u : small u -> knownw fc (syms u).
Proof. intros H. unfold knownw, syms. apply Forall_forall. intros s I. apply in_map_iff in I as (c & <- & I). unfold small in H. rewrite Forall_forall in H. specialize (H c I). cbn. lia. Qed.
Lemma syms_known w : knownw fc w -> exists u, w = syms u /\ small u.
Proof.
  induction 1 as [|s w H _ (u & -> & S)]; [exists []; split; [reflexivity|constructor]|]. destruct s as [t|c].
  - exfalso. replace (length (tokens_in fc)) with 0 in H; [lia|]. now destruct fc_attrs as (_ & _ & _ & -> & _).
  - exists (N.of_nat c :: u). split; [cbn; unfold sym; now rewrite Nnat.Nat2N.id|]. constructor; [lia|exact S].
Qed.
Notation passes u := (L_From.rb main "pass" "in" u).
Notation hope := (hopeful fc [None] (bef 33) (blk main) (bs "in")).
Lemma hope_ok u : small u -> hope (syms u) <-> exists v, small v /\ passes (u ++ v).
Proof.
  intros S. split.
  - intros (w & g & x & K & [<-|[]] & I & H & _). apply syms_known in K as (v & -> & V). rewrite <- syms_app in H.
    apply fromcheck_language in H as [_ H]; [eauto|]. apply small_app. auto.
  - intros (v & V & H). exists (syms v), None, PASS. destruct fc_attrs as (A1 & _ & A3 & _). split; [now apply known_syms|]. split; [now left|]. rewrite A1. split; [now left|].
    split; [|rewrite A3; discriminate]. rewrite <- syms_app. apply fromcheck_language; [apply small_app; auto|auto].
Qed.
Lemma hope_first : hope [].
Proof.
  change (@nil symbol) with (syms []). apply hope_ok; [constructor|]. destruct L_From4.ex_sep as [E _]. apply L_From.looks_ok in E as (x & y & E & _ & H). exists x. split; [|exact H].
  assert (Z : small L_From4.ex_sep1) by (repeat constructor). rewrite E in Z. now apply small_app in Z.
Qed.

Section Fc.
Variables (fuel stack : nat) (qsort : sorter) (sc : scanner) (next : Z -> Z -> res Z).
Hypothesis Sq : sorts qsort.
Hypothesis Tx : dfasyn_text fuel stack qsort false fromcheck_text = Ok sc.
Hypothesis Nx : next_state sc next.
Lemma fc_made : exists F, compile stack fc = Ok F /\ dfasyn fuel qsort false F = Ok sc.
Proof. destruct (text_inv _ _ _ _ _ _ Tx) as (ds & F & R & C & D). rewrite fc_read in R. assert (ds = fc) by congruence. subst ds. eauto. Qed.
Lemma fc_after u : small u -> exists s, scan next sc 0 (syms u) = Ok s /\
  (((0 <= s)%Z /\ (exists v, attr_at sc 0 s = Ok v /\ (v = PASS <-> passes u))) \/ (s = (-1)%Z /\ forall v, small v -> ~ passes (u ++ v))).
Proof.
  intros S. destruct fc_made as (F & Co & Dy). pose proof (fc_rules _ _ Co) as Rl. destruct fc_attrs as (A1 & A2 & A3 & A4 & A5 & _).
  assert (E : nth_error (sc_entries sc) 0 = Some 0%Z).
  { apply (starts_at_zero stack fuel qsort fc F sc next [None] (bef 33) (blk main) (bs "in") fc_plain Co Sq Dy Nx fc_classes Rl fc_simple fc_starts); [rewrite A5; cbn; lia|apply hope_first]. }
  destruct (after_reading stack fuel qsort fc F sc next [None] (bef 33) (blk main) (bs "in") fc_plain Co Sq Dy Nx fc_classes Rl fc_simple fc_starts (syms u) (known_syms u S)) as (e0 & s & E0 & Sc & H).
  rewrite E in E0. injection E0 as <-. exists s. split; [exact Sc|]. destruct H as [(L & V & _)|[L H]].
  - left. split; [exact L|]. destruct (some_value fc (bef 33) (blk main) (bs "in") sc 0 s None (syms u)) as (v & Av & Sv); [rewrite A3; discriminate|intros v; now apply V|].
    exists v. split; [exact Av|]. destruct Sv as [[I Sv]|[N D]].
    + destruct (proj1 (fromcheck_language u v S) Sv) as [-> Pu]. tauto.
    + rewrite A3 in D. injection D as <-. split; [discriminate|]. intros P. exfalso. apply (N PASS); [rewrite A1; now left|]. exact (proj2 (fromcheck_language u PASS S) (conj eq_refl P)).
  - right. split; [exact L|]. intros v V P. apply H. apply (proj2 (hope_ok u S)). eauto.
Qed.
Lemma char_tok c : (c < 256)%N -> char_token sc c = Ok (token_of sc (sym c)).
Proof. destruct fc_made as (F & Co & Dy). apply (char_table _ _ _ _ _ _ Dy). apply (classes_fine stack fc F fc_plain Co fc_classes). Qed.
Lemma loop_ok : forall text u s, small u -> small text -> scan next sc 0 (syms u) = Ok s -> (0 <= s)%Z ->
  exists b, separator_loop next sc s text = Ok b /\ (b = true <-> exists x y, text = x ++ y /\ x <> [] /\ passes (u ++ x)).
Proof.
  induction text as [|c text IH]; intros u s Su St Sc L; cbn [separator_loop].
  - exists false. split; [reflexivity|]. split; [discriminate|]. intros (x & y & E & N & _). destruct x; [now destruct N|discriminate].
  - inversion St as [|? ? Sc0 St']; subst. rewrite (char_tok c Sc0). cbn [bind]. pose proof (scan_step next sc 0 (syms u) (sym c) s Sc L) as K.
    change [sym c] with (syms [c]) in K. rewrite <- syms_app in K. rewrite <- K.
    assert (S1 : small (u ++ [c])) by (apply small_app; split; [exact Su|constructor; [exact Sc0|constructor]]).
    destruct (fc_after _ S1) as (s' & Z & H). rewrite Z. cbn [bind]. destruct H as [(L' & v & Av & P)|[-> P]].
    + replace (s' <? 0)%Z with false by lia. rewrite Av. cbn [bind]. destruct fc_attrs as (_ & _ & _ & _ & _ & _ & <-).
      destruct (bytes_eqb v PASS) eqn:E.
      * exists true. split; [reflexivity|]. split; [intros _|reflexivity]. exists [c], text. split; [reflexivity|]. split; [discriminate|]. apply P. now apply L_Mbox.bytes_eqb_iff.
      * destruct (IH (u ++ [c]) s' S1 St' Z L') as (b & Sb & B). exists b. split; [exact Sb|]. rewrite B. split.
        -- intros (x & y & -> & N & Q). exists (c :: x), y. split; [reflexivity|]. split; [discriminate|]. now rewrite <- app_assoc in Q.
        -- intros (x & y & E' & N & Q). destruct x as [|c' x]; [now destruct N|]. injection E' as <- ->. destruct x as [|c' x].
           ++ exfalso. apply P in Q. subst v. assert (bytes_eqb PASS PASS = true) by (now apply L_Mbox.bytes_eqb_iff). congruence.
           ++ exists (c' :: x), y. split; [reflexivity|]. split; [discriminate|]. now rewrite <- app_assoc.
    + exists false. split; [reflexivity|]. split; [discriminate|]. intros (x & y & E' & N & Q). destruct x as [|c' x]; [now destruct N|]. injection E' as <- ->. exfalso.
      refine (P x (proj1 (proj1 (small_app x y) St')) _). rewrite <- app_assoc. exact Q.
Qed.
Theorem separator_ok text : small text -> looks_like_from_separator next sc text = Ok (M_From.looks_like_from_separator text).
Proof.
  intros S. destruct (fc_after [] (Forall_nil _)) as (s & Z & H). cbn in Z. injection Z as <-.
  destruct (loop_ok text [] 0%Z (Forall_nil _) S eq_refl) as (b & B & I); [lia|]. unfold looks_like_from_separator. rewrite B. f_equal.
  pose proof (L_From.looks_ok text) as K. cbn [app] in I. destruct b, (M_From.looks_like_from_separator text); intuition congruence.
Qed.
End Fc.
Lemma fc_chars : forallb (fun k => existsb (fun c => in_class c k) (seq 0 256)) (all_classes fc) = true.
Proof. vm_compute. reflexivity. Qed.
Definition fc_rows : list (list N) := Eval vm_compute in match compile 5 fc with Ok F => row_list 2000 F | Err _ => [] end.
Lemma fc_room : match compile 5 fc with Ok F => roomb F fc_rows | Err _ => false end = true.
Proof. vm_compute. reflexivity. Qed.
Lemma room_inv ds L : match compile 5 ds with Ok F => roomb F L | Err _ => false end = true -> exists F, compile 5 ds = Ok F /\ forall stack, compile stack ds = Ok (with_stack stack F) /\ roomb (with_stack stack F) L = true.
Proof. destruct (compile 5 ds) as [F|] eqn:E; [|discriminate]. intros R. exists F. split; [reflexivity|]. intros stack. split; [exact (compile_stack ds 5 F stack E)|]. rewrite roomb_stack. exact R. Qed.
Lemma fc_compiles : exists F, compile 5 fc = Ok F /\ forall stack, compile stack fc = Ok (with_stack stack F) /\ roomb (with_stack stack F) fc_rows = true.
Proof. exact (room_inv fc fc_rows fc_room). Qed.
(* dfasyn makes tables from fromcheck.nfa. *)
Theorem fromcheck_tables : exists d0 f0, forall stack fuel qsort, d0 <= stack -> f0 <= fuel -> sorts qsort -> exists sc, dfasyn_text fuel stack qsort false fromcheck_text = Ok sc.
Proof.
  destruct fc_compiles as (F0 & Co & _). destruct fc_attrs as (A1 & A2 & A3 & A4 & A5 & _).
  destruct (scanner_made fc 5 F0 [None] (bef 33) (blk main) (bs "in") fc_plain Co fc_classes fc_chars (fc_rules _ _ Co) fc_simple) as (d0 & f0 & H).
  - intros g [<-|[]]. rewrite A3. discriminate.
  - intros g [<-|[]]. rewrite A1. constructor; [intros [X|[]]; discriminate X|]. constructor; [intros []|constructor].
  - apply fc_starts.
  - rewrite A5. cbn. lia.
  - intros g w m n _ K _ _ M N. apply syms_known in K as (u & -> & Su). apply (proj1 (fromcheck_language u m Su)) in M. apply (proj1 (fromcheck_language u n Su)) in N. destruct M, N. congruence.
  - exists d0, f0. intros stack fuel qsort D Fu Sq. destruct (H stack fuel qsort false D Fu Sq) as (F & sc & C & E). exists sc. exact (text_made _ _ _ _ _ _ _ _ fc_read C E).
Qed.

(* With the tables of fromcheck.c the function finds what is described. *)
Theorem separators fuel stack qsort sc text : sorts qsort -> dfasyn_text fuel stack qsort false fromcheck_text = Ok sc -> Forall (fun c => (c < 256)%N) text ->
  exists b, looks_like_from_separator (next_state_uncompressed (sc_nt sc) (sc_trans sc)) sc text = Ok b /\ (b = true <-> begins_message text).
Proof.
  intros Sq H S. exists (M_From.looks_like_from_separator text). split; [|apply L_From4.from_main]. apply (separator_ok fuel stack qsort sc _ Sq H); [|exact S].
  destruct (text_inv _ _ _ _ _ _ H) as (ds & F & R & C & D). rewrite fc_read in R. assert (ds = fc) by congruence. subst ds. destruct fc_compiles as (F0 & _ & K). destruct (K stack) as [K1 K2].
  assert (F = with_stack stack F0) by congruence. subst F. exact (next_uncompressed _ _ _ _ _ _ K2 D).
Qed.
Lemma ex_tables : exists fuel stack sc, sorts isort /\ dfasyn_text fuel stack isort false fromcheck_text = Ok sc /\
  looks_like_from_separator (next_state_uncompressed (sc_nt sc) (sc_trans sc)) sc L_From4.ex_sep1 = Ok true /\
  looks_like_from_separator (next_state_uncompressed (sc_nt sc) (sc_trans sc)) sc (bs "now on we meet on Mon Mar 15") = Ok false.
Proof.
  destruct fromcheck_tables as (d0 & f0 & H). destruct (H d0 f0 isort (le_n _) (le_n _) isort_sorts) as (sc & E). exists f0, d0, sc. split; [exact isort_sorts|]. split; [exact E|].
  destruct L_From4.ex_sep as (E1 & _ & E2).
  assert (G : forall text, Forall (fun c => (c < 256)%N) text -> looks_like_from_separator (next_state_uncompressed (sc_nt sc) (sc_trans sc)) sc text = Ok (M_From.looks_like_from_separator text)).
  { intros text S. destruct (separators _ _ _ _ text isort_sorts E S) as (b & -> & B). f_equal. pose proof (L_From4.from_main text) as K. destruct b, (M_From.looks_like_from_separator text); intuition congruence. }
  rewrite <- E1 at 1. rewrite <- E2. split; apply G; repeat constructor.
Qed.
