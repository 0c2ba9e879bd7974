(* discover_type, on the tables made from datescan.nfa. *)
From Verif Require Import Base M_Charclass M_Dfasyn M_Compdfa M_Parse M_Blocks M_Files M_Tables S_Dfasyn S_Blocks L_Charclass2 L_Dfasyn L_Dfasyn2 L_Blocks6 L_Blocks7 L_Blocks8 L_Outcome L_Tie L_Tie2 L_Tie3 L_Tie4 L_Tie5 L_Tie6 L_Tie7 L_Room.
From Verif Require M_Dates S_Tables L_Dates3 L_Mbox.
Import S_Tables(kind_name).

Lemma dn_plain : plain dn.
Proof. apply plainb_ok. vm_compute. reflexivity. Qed.
Lemma dn_classes : forallb class_okb (all_classes dn) = true.
Proof. vm_compute. reflexivity. Qed.
Definition all_kinds : list M_Dates.ds := [M_Dates.DS_D; M_Dates.DS_Y; M_Dates.DS_YYMMDD; M_Dates.DS_SCALED; M_Dates.DS_M; M_Dates.DS_DM; M_Dates.DS_MD; M_Dates.DS_YM; M_Dates.DS_MY; M_Dates.DS_YMD; M_Dates.DS_DMY].
Lemma all_kinds_ok t : In t all_kinds.
Proof. destruct t; cbn [In all_kinds]; auto 20. Qed.
Lemma dn_attrs : names dn None = map (fun t => kind_name (Some t)) all_kinds /\ forallb simple_line (attrs (attribute dn None)) = true /\ default_of dn None = Some (kind_name None) /\ tokens_in dn = [] /\ entries_from [] dn = [] /\ tag_lines dn = [].
Proof. vm_compute. repeat split; reflexivity. Qed.
Lemma kind_inj a b : kind_name a = kind_name b -> a = b.
Proof. destruct a as [[]|], b as [[]|]; intros H; try reflexivity; discriminate H. Qed.
Lemma dn_starts : starts dn 0 (dbef 6) dmain (bs "in").
Proof.
  unfold starts. destruct dn_attrs as (_ & _ & _ & _ & -> & _). split; [reflexivity|]. exists (skipn 7 dn), (removelast (b_states dmain)), (last (b_states dmain) (Sdecl [] None [])).
  split; [vm_compute; reflexivity|]. split; [|split; vm_compute; reflexivity].
  intros c I. assert (E : forallb (fun d => match d with D_block _ => false | _ => true end) (skipn 7 dn) = true) by (vm_compute; reflexivity).
  rewrite forallb_forall in E. specialize (E _ I). discriminate.
Qed.
Lemma dn_rules stack F : compile stack dn = Ok F -> f_rules F = Rules (map (attribute dn) [None]) [] stack.
Proof.
  intros H. destruct (rules_of_description _ _ _ H) as (gs & -> & _ & G). destruct dn_attrs as (_ & _ & _ & _ & _ & ->). destruct gs as [|g gs]; [reflexivity|].
  exfalso. destruct (proj1 (G g) (or_introl eq_refl)) as (l & I). assert (E : forallb (fun d => match d with D_group _ _ => false | _ => true end) dn = true) by (vm_compute; reflexivity).
  rewrite forallb_forall in E. specialize (E _ I). discriminate.
Qed.
Lemma dn_simple : forall g, In g [None] -> forallb simple_line (attrs (attribute dn g)) = true.
Proof. intros g [<-|[]]. apply dn_attrs. Qed.
Lemma dn_known u : small u -> knownw dn (syms u).
Proof. intros H. unfold knownw, syms. apply Forall_forall. intros s I. apply in_map_iff in I as (c & <- & I). unfold small in H. rewrite Forall_forall in H. specialize (H c I). cbn. lia. Qed.
Lemma dn_syms w : knownw dn w -> exists u, w = syms u /\ small u.
Proof.
  induction 1 as [|s w H _ (u & -> & S)]; [exists []; split; [reflexivity|constructor]|]. destruct s as [t|c].
  - exfalso. replace (length (tokens_in dn)) with 0 in H; [lia|]. now destruct dn_attrs as (_ & _ & _ & -> & _).
  - exists (N.of_nat c :: u). split; [cbn; unfold sym; now rewrite Nnat.Nat2N.id|]. constructor; [lia|exact S].
Qed.
Lemma dn_hope u : small u -> hopeful dn [None] (dbef 6) dmain (bs "in") (syms u) <-> exists v, small v /\ M_Dates.discover_type (u ++ v) <> None.
Proof.
  intros S. destruct dn_attrs as (A1 & _ & A3 & _). split.
  - intros (w & g & x & K & [<-|[]] & I & H & _). apply dn_syms in K as (v & -> & V). rewrite <- syms_app in H.
    apply (proj1 (datescan_language (u ++ v) x (proj2 (small_app u v) (conj S V)))) in H as (t & _ & H). exists v. split; [exact V|]. rewrite H. discriminate.
  - intros (v & V & H). destruct (M_Dates.discover_type (u ++ v)) as [t|] eqn:E; [|congruence]. exists (syms v), None, (kind_name (Some t)). split; [now apply dn_known|]. split; [now left|].
    split; [rewrite A1; apply (in_map (fun t => kind_name (Some t))), all_kinds_ok|]. split; [|rewrite A3; intros X; assert (Y : kind_name None = kind_name (Some t)) by congruence; apply kind_inj in Y; discriminate Y].
    rewrite <- syms_app. apply (proj2 (datescan_language (u ++ v) _ (proj2 (small_app u v) (conj S V)))). eauto.
Qed.
Lemma dn_hope_first : hopeful dn [None] (dbef 6) dmain (bs "in") [].
Proof. change (@nil symbol) with (syms []). apply dn_hope; [constructor|]. exists (bs "1"). split; [repeat constructor|]. discriminate. Qed.

Section Dn.
Variables (fuel stack : nat) (qsort : sorter) (sc : scanner) (next : Z -> Z -> res Z).
Hypothesis Sq : sorts qsort.
Hypothesis Tx : dfasyn_text fuel stack qsort false datescan_text = Ok sc.
Hypothesis Nx : next_state sc next.
Lemma dn_made : exists F, compile stack dn = Ok F /\ dfasyn fuel qsort false F = Ok sc.
Proof. destruct (text_inv _ _ _ _ _ _ Tx) as (ds & F & R & C & D). rewrite dn_read in R. assert (ds = dn) by congruence. subst ds. eauto. Qed.
Lemma dn_after u : small u -> exists s, scan next sc 0 (syms u) = Ok s /\
  (((0 <= s)%Z /\ attr_at sc 0 s = Ok (kind_name (M_Dates.discover_type u))) \/ (s = (-1)%Z /\ forall v, small v -> M_Dates.discover_type (u ++ v) = None)).
Proof.
  intros S. destruct dn_made as (F & Co & Dy). pose proof (dn_rules _ _ Co) as Rl. destruct dn_attrs as (A1 & A2 & A3 & A4 & A5 & _).
  assert (E : nth_error (sc_entries sc) 0 = Some 0%Z).
  { apply (starts_at_zero stack fuel qsort dn F sc next [None] (dbef 6) dmain (bs "in") dn_plain Co Sq Dy Nx dn_classes Rl dn_simple dn_starts); [rewrite A5; cbn; lia|apply dn_hope_first]. }
  destruct (after_reading stack fuel qsort dn F sc next [None] (dbef 6) dmain (bs "in") dn_plain Co Sq Dy Nx dn_classes Rl dn_simple dn_starts (syms u) (dn_known u S)) as (e0 & s & E0 & Sc & H).
  rewrite E in E0. injection E0 as <-. exists s. split; [exact Sc|]. destruct H as [(L & V & _)|[L H]].
  - left. split; [exact L|]. destruct (some_value dn (dbef 6) dmain (bs "in") sc 0 s None (syms u)) as (v & Av & Sv); [rewrite A3; discriminate|intros v; now apply V|].
    rewrite Av. f_equal. destruct Sv as [[I Sv]|[Nn D]].
    + destruct (proj1 (datescan_language u v S) Sv) as (t & -> & T). now rewrite T.
    + assert (X : v = kind_name None) by congruence. rewrite X. f_equal. destruct (M_Dates.discover_type u) as [t|] eqn:T; [|reflexivity]. exfalso. apply (Nn (kind_name (Some t))); [rewrite A1; apply (in_map (fun t => kind_name (Some t))), all_kinds_ok|].
      apply (proj2 (datescan_language u _ S)). eauto.
  - right. split; [exact L|]. intros v V. destruct (M_Dates.discover_type (u ++ v)) as [t|] eqn:T; [|reflexivity]. exfalso. apply H. apply (proj2 (dn_hope u S)). exists v. split; [exact V|]. rewrite T. discriminate.
Qed.
Lemma dn_char_tok c : (c < 256)%N -> char_token sc c = Ok (token_of sc (sym c)).
Proof. destruct dn_made as (F & Co & Dy). apply (char_table _ _ _ _ _ _ Dy). apply (classes_fine stack dn F dn_plain Co dn_classes). Qed.
Lemma discover_ok : forall s u z, small u -> small s -> scan next sc 0 (syms u) = Ok z -> (0 <= z)%Z ->
  (let! z := discover_loop next sc z s in if (z <? 0)%Z then Ok (bs "DS_FAILURE") else attr_at sc 0 z) = Ok (kind_name (M_Dates.discover_type (u ++ s))).
Proof.
  induction s as [|c s IH]; intros u z Su Ss Sc L; cbn [discover_loop].
  - cbn [bind]. replace (z <? 0)%Z with false by lia. rewrite app_nil_r. destruct (dn_after u Su) as (z' & Z & [[_ A]|[-> _]]); [|rewrite Sc in Z; injection Z as ->; lia]. rewrite Sc in Z. injection Z as ->. exact A.
  - inversion Ss as [|? ? Sc0 Ss']; subst. rewrite (dn_char_tok c Sc0). cbn [bind]. pose proof (scan_step next sc 0 (syms u) (sym c) z Sc L) as K.
    change [sym c] with (syms [c]) in K. rewrite <- syms_app in K. rewrite <- K.
    assert (S1 : small (u ++ [c])) by (apply small_app; split; [exact Su|constructor; [exact Sc0|constructor]]).
    destruct (dn_after _ S1) as (z' & Z & H). rewrite Z. cbn [bind]. destruct H as [[L' _]|[-> P]].
    + replace (z' <? 0)%Z with false by lia. rewrite (IH (u ++ [c]) z' S1 Ss' Z L'), <- app_assoc. reflexivity.
    + cbn [bind]. specialize (P s Ss'). rewrite <- app_assoc in P. change ([c] ++ s) with (c :: s) in P. rewrite P. reflexivity.
Qed.
Theorem discover_tables s : small s -> discover_type next sc s = Ok (kind_name (M_Dates.discover_type s)).
Proof. intros S. unfold discover_type. apply (discover_ok s [] 0%Z (Forall_nil _) S eq_refl). lia. Qed.
End Dn.
Lemma dn_chars : forallb (fun k => existsb (fun c => in_class c k) (seq 0 256)) (all_classes dn) = true.
Proof. vm_compute. reflexivity. Qed.
Definition dn_rows : list (list N) := Eval vm_compute in match compile 5 dn with Ok F => row_list 2000 F | Err _ => [] end.
Lemma dn_room : match compile 5 dn with Ok F => roomb F dn_rows | Err _ => false end = true.
Proof. vm_compute. reflexivity. Qed.
Lemma dn_compiles : exists F, compile 5 dn = Ok F /\ forall stack, compile stack dn = Ok (with_stack stack F) /\ roomb (with_stack stack F) dn_rows = true.
Proof. exact (room_inv dn dn_rows dn_room). Qed.
Theorem datescan_tables : exists d0 f0, forall stack fuel qsort, d0 <= stack -> f0 <= fuel -> sorts qsort -> exists sc, dfasyn_text fuel stack qsort false datescan_text = Ok sc.
Proof.
  destruct dn_compiles as (F0 & Co & _). destruct dn_attrs as (A1 & A2 & A3 & A4 & A5 & _).
  destruct (scanner_made dn 5 F0 [None] (dbef 6) dmain (bs "in") dn_plain Co dn_classes dn_chars (dn_rules _ _ Co) dn_simple) as (d0 & f0 & H).
  - intros g [<-|[]]. rewrite A3. discriminate.
  - intros g [<-|[]]. rewrite A1. clear. assert (N : NoDup all_kinds) by (repeat constructor; cbn; intuition discriminate). induction N as [|t l I N IH]; cbn [map]; constructor; [|exact IH]. intros J. apply in_map_iff in J as (t' & E & J). apply kind_inj in E. congruence.
  - apply dn_starts.
  - rewrite A5. cbn. lia.
  - intros g w m n _ K _ _ M N. apply dn_syms in K as (u & -> & Su). apply (proj1 (datescan_language u m Su)) in M as (t1 & -> & T1). apply (proj1 (datescan_language u n Su)) in N as (t2 & -> & T2). congruence.
  - exists d0, f0. intros stack fuel qsort D Fu Sq. destruct (H stack fuel qsort false D Fu Sq) as (F & sc & C & E). exists sc. exact (text_made _ _ _ _ _ _ _ _ dn_read C E).
Qed.
Theorem date_kinds fuel stack qsort sc s : sorts qsort -> dfasyn_text fuel stack qsort false datescan_text = Ok sc -> Forall (fun c => (c < 256)%N) s ->
  discover_type (next_state_uncompressed (sc_nt sc) (sc_trans sc)) sc s = Ok (kind_name (M_Dates.discover_type s)).
Proof.
  intros Sq H S. apply (discover_tables fuel stack qsort sc _ Sq H); [|exact S].
  destruct (text_inv _ _ _ _ _ _ H) as (ds & F & R & C & D). rewrite dn_read in R. assert (ds = dn) by congruence. subst ds. destruct dn_compiles as (F0 & _ & K). destruct (K stack) as [K1 K2].
  assert (F = with_stack stack F0) by congruence. subst F. exact (next_uncompressed _ _ _ _ _ _ K2 D).
Qed.
