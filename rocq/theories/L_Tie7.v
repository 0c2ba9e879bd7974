(* datescan.nfa and M_Dates: the same words. *)
From Verif Require Import Base M_Charclass M_Dfasyn M_Compdfa M_Scan M_Parse M_Files M_Blocks S_Dfasyn S_Blocks L_Tie L_Tie2 L_Tie3 L_Tie6 L_Blocks7.
From Verif Require M_Dates S_Tables L_Dates3 L_Mbox.
Import S_Tables(kind_name).

Definition dmain : block_decl := dblk 6.
Lemma dmain_at : nth_error dn 6 = Some (D_block dmain) /\ b_name dmain = bs "main".
Proof. split; reflexivity. Qed.
(* every line of main ends in a tag *)
Lemma main_marked : forallb (fun s => bytes_eqb (s_name s) (bs "in") && forallb (fun l => match l_target l with Marked [_] => true | _ => false end) (s_lines s)) (b_states dmain) = true.
Proof. vm_compute. reflexivity. Qed.
Lemma main_lines p l : has_line dmain p l -> p = bs "in" /\ exists tag, l_target l = Marked [tag].
Proof.
  intros (s & S & <- & L). pose proof main_marked as M. rewrite forallb_forall in M. specialize (M s S). apply andb_prop in M as [A B]. apply L_Mbox.bytes_eqb_iff in A. split; [exact A|].
  rewrite forallb_forall in B. specialize (B l L). destruct (l_target l) as [d|[|g [|? ?]]]; try discriminate B. eauto.
Qed.
Lemma dn_marks : forallb (fun d => match d with D_block b => forallb (fun s => forallb (fun l => match l_target l with To _ => true | Marked _ => false end) (s_lines s)) (b_states b) | _ => true end) (dbef 6) = true.
Proof. vm_compute. reflexivity. Qed.
Lemma dn_no_marks c : In (D_block c) (dbef 6) -> no_marks c.
Proof.
  intros I p l tags (s & S & _ & L) T. pose proof dn_marks as M. rewrite forallb_forall in M. specialize (M _ I). cbn beta iota in M. rewrite forallb_forall in M. specialize (M s S). rewrite forallb_forall in M. specialize (M l L). now rewrite T in M.
Qed.
Lemma main_sees w tag : sees (dbef 6) dmain (bs "in") w tag <-> exists l, has_line dmain (bs "in") l /\ l_target l = Marked [tag] /\ reads_all (dbef 6) (l_stims l) w.
Proof.
  assert (St : forall u q, goes (dbef 6) dmain (bs "in") u q -> u = [] /\ q = bs "in").
  { intros u q G. inversion G as [|? ? ? l dests d ? ? ? HL T ? ? ?]; subst; [auto|]. destruct (main_lines _ _ HL) as (_ & tag' & T'). congruence. }
  split.
  - intros H. remember (dbef 6) as ds eqn:D. remember dmain as B eqn:EB. remember (bs "in") as p eqn:Ep.
    destruct H as [ds B p u' q l tags tag v G HL T I R|ds B p u' q l pre alts post v x t i o before c y tag G HL E R I Sf BA Sc]; subst.
    + destruct (St _ _ G) as [-> ->]. destruct (main_lines _ _ HL) as (_ & tag' & T'). rewrite T in T'. injection T' as ->. destruct I as [<-|[]]. eauto.
    + exfalso. apply block_at_nth in BA as (j & L & J & -> & _). apply (sees_nowhere _ _ _ _ _ Sc).
      * apply dn_no_marks. apply (in_firstn_nth 6 dn j); assumption.
      * intros c' I'. apply dn_no_marks. apply (in_firstn_le j); [lia|exact I'].
  - intros (l & HL & T & R). change w with ([] ++ w). apply sees_here with (q := bs "in") (l := l) (tags := [tag]); [constructor|exact HL|exact T|now left|exact R].
Qed.
(* ---- the block scaled ---- *)
Definition dscaled : block_decl := dblk 4.
Definition spans_are (ds : list decl) (l : list (list stimulus)) (p : N -> bool) : bool :=
  match simple ds l with Some [sp] => forallb (fun c => Bool.eqb (p c) (within sp c)) chars | _ => false end.
Lemma spans_are_ok ds l p u : small u -> spans_are ds l p = true -> (reads_all ds l (syms u) <-> exists c, u = [c] /\ p c = true).
Proof.
  intros Sm. unfold spans_are. destruct (simple ds l) as [[|sp [|? ?]]|] eqn:E; try discriminate. intros H. rewrite (simple_ok ds l [sp] u E). rewrite forallb_forall in H.
  unfold word_of. cbn [map M_Dates.fits]. destruct u as [|c [|? ?]].
  - split; [discriminate|]. intros (c & X & _). discriminate X.
  - inversion Sm as [|? ? Sc _]; subst. specialize (H c (small_in c Sc)). apply Bool.eqb_prop in H. rewrite <- H. cbn [M_Dates.fits]. rewrite andb_true_r. split; [eauto|]. intros (c' & X & P). injection X as ->. exact P.
  - cbn [M_Dates.fits]. rewrite andb_false_r. split; [discriminate|]. intros (c' & X & _). discriminate X.
Qed.
Lemma scaled_states : forallb (fun s =>
  (bytes_eqb (s_name s) (bs "in") && forallb (fun l => match l_target l with To d => names_eqb d [bs "in"; bs "after_value"] && spans_are (dbef 4) (l_stims l) M_Dates.any_digit | _ => false end) (s_lines s)) ||
  (bytes_eqb (s_name s) (bs "after_value") && forallb (fun l => match l_target l with To d => names_eqb d [bs "out"] && spans_are (dbef 4) (l_stims l) M_Dates.letter | _ => false end) (s_lines s))) (b_states dscaled) = true.
Proof. vm_compute. reflexivity. Qed.
Lemma scaled_line p l : has_line dscaled p l ->
  (p = bs "in" /\ l_target l = To [bs "in"; bs "after_value"] /\ spans_are (dbef 4) (l_stims l) M_Dates.any_digit = true) \/
  (p = bs "after_value" /\ l_target l = To [bs "out"] /\ spans_are (dbef 4) (l_stims l) M_Dates.letter = true).
Proof.
  intros (s & S & <- & L). pose proof scaled_states as M. rewrite forallb_forall in M. specialize (M s S). apply orb_prop in M as [M|M]; apply andb_prop in M as [A B]; apply L_Mbox.bytes_eqb_iff in A; rewrite forallb_forall in B; specialize (B l L); destruct (l_target l) as [d|g]; try discriminate B;
    apply andb_prop in B as [B C]; apply names_eqb_ok in B; subst d; auto.
Qed.
Lemma scaled_has : (exists l, has_line dscaled (bs "in") l) /\ (exists l, has_line dscaled (bs "after_value") l).
Proof.
  split.
  - destruct (lines_of dscaled (bs "in")) as [|l r] eqn:E; [discriminate E|]. exists l. apply lines_of_ok. rewrite E. now left.
  - destruct (lines_of dscaled (bs "after_value")) as [|l r] eqn:E; [discriminate E|]. exists l. apply lines_of_ok. rewrite E. now left.
Qed.
Lemma scaled_goes1 : forall ds b p w q, goes ds b p w q -> ds = dbef 4 -> b = dscaled -> q = bs "out" -> forall u, w = syms u -> small u ->
  (p = bs "in" -> M_Dates.scaled u = true) /\ (p = bs "after_value" -> exists c, u = [c] /\ M_Dates.letter c = true) /\ (p = bs "out" -> u = []).
Proof.
  intros ds b p w q G. induction G as [ds b p|ds b p l dests d x y q HL T I R G IH] using goes_ind; intros -> -> -> u E S.
  - destruct u; [|discriminate E]. split; [intros X; discriminate X|]. split; [intros X; discriminate X|reflexivity].
  - apply eq_sym in E. apply syms_split in E as (u1 & u2 & -> & -> & ->). apply small_app in S as [S1 S2]. specialize (IH eq_refl eq_refl eq_refl u2 eq_refl S2) as (I1 & I2 & I3).
    apply scaled_line in HL as [(-> & T' & Sp)|(-> & T' & Sp)]; rewrite T in T'; injection T' as ->; apply (spans_are_ok _ _ _ _ S1 Sp) in R as (c & -> & P).
    + split; [intros _|split; intros X; discriminate X]. cbn [app M_Dates.scaled]. rewrite P. cbn [andb]. destruct I as [<-|[<-|[]]].
      * rewrite (I1 eq_refl). apply orb_true_r.
      * destruct (I2 eq_refl) as (a & -> & A). now rewrite A.
    + split; [intros X; discriminate X|]. split; [|intros X; discriminate X]. intros _. destruct I as [<-|[]]. rewrite (I3 eq_refl). exists c. auto.
Qed.
Lemma scaled_goes2 : forall u, small u -> M_Dates.scaled u = true -> goes (dbef 4) dscaled (bs "in") (syms u) (bs "out").
Proof.
  destruct scaled_has as [(l1 & H1) (l2 & H2)].
  destruct (scaled_line _ _ H1) as [(_ & T1 & P1)|(X & _)]; [|discriminate X]. destruct (scaled_line _ _ H2) as [(X & _)|(_ & T2 & P2)]; [discriminate X|].
  induction u as [|c u IH]; intros S H; [discriminate H|]. inversion S as [|? ? Sc S']; subst. cbn [M_Dates.scaled] in H. apply andb_prop in H as [D H]. assert (S1 : small [c]) by (constructor; [exact Sc|constructor]).
  change (syms (c :: u)) with (syms [c] ++ syms u). apply orb_prop in H as [H|H].
  - destruct u as [|a [|? ?]]; try discriminate H. apply goes_on with (l := l1) (dests := [bs "in"; bs "after_value"]) (d := bs "after_value"); [exact H1|exact T1|right; now left|apply (spans_are_ok _ _ _ _ S1 P1); eauto|].
    rewrite <- (app_nil_r (syms [a])). apply goes_on with (l := l2) (dests := [bs "out"]) (d := bs "out"); [exact H2|exact T2|now left|apply (spans_are_ok _ _ _ _ S' P2); eauto|constructor].
  - apply goes_on with (l := l1) (dests := [bs "in"; bs "after_value"]) (d := bs "in"); [exact H1|exact T1|now left|apply (spans_are_ok _ _ _ _ S1 P1); eauto|]. now apply IH.
Qed.
Lemma scaled_reads u : small u -> reads (dbef 6) (O_block (bs "scaled") (bs "in") (bs "out")) (syms u) <-> M_Dates.scaled u = true.
Proof.
  intros S. assert (U : blocks_named (bs "scaled") 0 (dbef 6) = [(4, dscaled)]) by (vm_compute; reflexivity). split.
  - intros R. inversion R as [| | |? ? ? ? before b ? Ba G]; subst. apply block_at_nth in Ba as (i & L & N & -> & M).
    assert (X : In (i, b) (blocks_named (bs "scaled") 0 (dbef 6))). { apply blocks_named_in. rewrite Nat.sub_0_r. split; [lia|]. split; [|exact M]. unfold dbef. rewrite <- N. clear - L. revert L. generalize dn as l. generalize 6 as n. intros n l. revert n i. induction l as [|x l IH]; intros [|n] [|i] L; cbn; try lia; try reflexivity. apply IH. lia. }
    rewrite U in X. destruct X as [X|[]]. injection X as <- <-. exact (proj1 (scaled_goes1 _ _ _ _ _ G eq_refl eq_refl eq_refl u eq_refl S) eq_refl).
  - intros H. apply r_block with (before := dbef 4) (b := dscaled); [|now apply scaled_goes2]. apply block_at_nth. exists 4. split; [lia|]. split; [reflexivity|]. split; reflexivity.
Qed.
(* ---- the lines of main, one by one ---- *)
Fixpoint same_seq (sq : list (list (N * N))) (l : list M_Dates.cls) : bool :=
  match sq, l with
  | [], [] => true
  | sp :: sq', p :: l' => forallb (fun c => Bool.eqb (p c) (within sp c)) chars && same_seq sq' l'
  | _, _ => false
  end.
Lemma same_seq_ok : forall sq l u, small u -> same_seq sq l = true -> word_of sq u = M_Dates.fits l u.
Proof.
  induction sq as [|sp sq IH]; intros [|p l] u S H; try discriminate; unfold word_of in *; cbn [map M_Dates.fits]; [reflexivity|]. apply andb_prop in H as [A B]. destruct u as [|c u]; [reflexivity|]. inversion S as [|? ? Sc S']; subst.
  rewrite forallb_forall in A. specialize (A c (small_in c Sc)). apply Bool.eqb_prop in A. rewrite <- A. f_equal. now apply IH.
Qed.
Definition scaled_stims (l : list (list stimulus)) : bool :=
  match l with [a] => match choices (dbef 6) a with [O_block t i o] => bytes_eqb t (bs "scaled") && bytes_eqb i (bs "in") && bytes_eqb o (bs "out") | _ => false end | _ => false end.
(* the ways through a line are alternatives of M_Dates of this kind *)
Fixpoint take_ways (W : list (list (list (N * N)))) (tag : bytes) (al : list (list M_Dates.cls * M_Dates.ds)) : option (list (list M_Dates.cls * M_Dates.ds)) :=
  match W, al with
  | [], _ => Some al
  | sq :: W', (l, t) :: al' => if same_seq sq l && bytes_eqb tag (kind_name (Some t)) then take_ways W' tag al' else None
  | _, [] => None
  end.
Fixpoint same_lines (ls : list line) (al : list (list M_Dates.cls * M_Dates.ds)) : bool :=
  match ls with
  | [] => match al with [] => true | _ => false end
  | l :: r =>
    match l_target l with
    | Marked [tag] =>
      if scaled_stims (l_stims l) then bytes_eqb tag (kind_name (Some M_Dates.DS_SCALED)) && same_lines r al else
      match ways (dbef 6) (l_stims l) with
      | Some W => match take_ways W tag al with Some al' => same_lines r al' | None => false end
      | None => false
      end
    | _ => false
    end
  end.
Lemma main_same : same_lines (lines_of dmain (bs "in")) L_Dates3.alts = true.
Proof. vm_compute. reflexivity. Qed.
Lemma scaled_stims_ok l u : small u -> scaled_stims l = true -> (reads_all (dbef 6) l (syms u) <-> M_Dates.scaled u = true).
Proof.
  intros S. unfold scaled_stims. destruct l as [|a [|? ?]]; try discriminate. destruct (choices (dbef 6) a) as [|[|t|k|t i o] [|? ?]] eqn:C; try discriminate. intros H. apply andb_prop in H as [H E3]. apply andb_prop in H as [E1 E2].
  apply L_Mbox.bytes_eqb_iff in E1, E2, E3. subst t i o. rewrite all_cons, C. rewrite <- (scaled_reads u S). split.
  - intros (x & w1 & w2 & E & [<-|[]] & R & Q). apply all_nil in Q. subst w2. rewrite app_nil_r in E. rewrite E. exact R.
  - intros R. exists (O_block (bs "scaled") (bs "in") (bs "out")), (syms u), []. split; [now rewrite app_nil_r|]. split; [now left|]. split; [exact R|constructor].
Qed.
Lemma take_ways_ok tag : forall W al al', take_ways W tag al = Some al' -> exists pre, al = pre ++ al' /\ Forall (fun x => tag = kind_name (Some (snd x))) pre /\ Forall2 (fun sq x => same_seq sq (fst x) = true) W pre.
Proof.
  induction W as [|sq W IH]; intros al al' H; cbn [take_ways] in H; [injection H as <-; exists []; auto|]. destruct al as [|[l t] al]; [discriminate|]. destruct (same_seq sq l && _) eqn:E; [|discriminate]. apply andb_prop in E as [A B]. apply L_Mbox.bytes_eqb_iff in B.
  destruct (IH _ _ H) as (pre & -> & P & Q). exists ((l, t) :: pre). split; [reflexivity|]. split; constructor; auto.
Qed.
Lemma F2_left {A B} (R : A -> B -> Prop) : forall l m x, Forall2 R l m -> In x l -> exists y, In y m /\ R x y.
Proof. induction 1 as [|a b l m H _ IH]; [intros []|]. intros [<-|I]; [exists b; split; [now left|exact H]|]. destruct (IH I) as (y & Y & Z). exists y. split; [now right|exact Z]. Qed.
Lemma F2_right {A B} (R : A -> B -> Prop) : forall l m y, Forall2 R l m -> In y m -> exists x, In x l /\ R x y.
Proof. induction 1 as [|a b l m H _ IH]; [intros []|]. intros [<-|I]; [exists a; split; [now left|exact H]|]. destruct (IH I) as (x & Y & Z). exists x. split; [now right|exact Z]. Qed.
Lemma lines_to_alts u : small u -> forall ls al, same_lines ls al = true -> forall l tag, In l ls -> l_target l = Marked [tag] -> reads_all (dbef 6) (l_stims l) (syms u) ->
  (tag = kind_name (Some M_Dates.DS_SCALED) /\ M_Dates.scaled u = true) \/ exists x, In x al /\ tag = kind_name (Some (snd x)) /\ M_Dates.fits (fst x) u = true.
Proof.
  intros S. induction ls as [|l0 ls IH]; intros al H l tag I T R; [destruct I|]. cbn [same_lines] in H. destruct (l_target l0) as [d|[|tag0 [|? ?]]] eqn:T0; try discriminate H. destruct (scaled_stims (l_stims l0)) eqn:E.
  - apply andb_prop in H as [H1 H2]. apply L_Mbox.bytes_eqb_iff in H1. destruct I as [<-|I]; [|apply (IH al H2 l tag I T R)]. left. rewrite T0 in T. injection T as ->. split; [exact H1|]. now apply (scaled_stims_ok _ _ S E).
  - destruct (ways (dbef 6) (l_stims l0)) as [W|] eqn:Ew; [|discriminate H]. destruct (take_ways W tag0 al) as [al'|] eqn:Et; [|discriminate H]. destruct (take_ways_ok _ _ _ _ Et) as (pre & -> & P & Q). destruct I as [<-|I].
    + right. rewrite T0 in T. injection T as ->. apply (ways_ok _ _ _ _ Ew) in R as (sq & Is & Wd). destruct (F2_left _ _ _ _ Q Is) as (x & Ix & Sx). exists x. split; [apply in_or_app; now left|]. rewrite Forall_forall in P. split; [exact (P x Ix)|].
      now rewrite <- (same_seq_ok sq (fst x) u S Sx).
    + destruct (IH al' H l tag I T R) as [X|(x & Ix & X)]; [now left|]. right. exists x. split; [apply in_or_app; now right|exact X].
Qed.
Lemma alts_to_lines u : small u -> forall ls al, same_lines ls al = true -> forall x, In x al -> M_Dates.fits (fst x) u = true ->
  exists l, In l ls /\ l_target l = Marked [kind_name (Some (snd x))] /\ reads_all (dbef 6) (l_stims l) (syms u).
Proof.
  intros S. induction ls as [|l0 ls IH]; intros al H x I Ft; cbn [same_lines] in H; [destruct al; [destruct I|discriminate]|]. destruct (l_target l0) as [d|[|tag0 [|? ?]]] eqn:T0; try discriminate H. destruct (scaled_stims (l_stims l0)) eqn:E.
  - apply andb_prop in H as [_ H]. destruct (IH al H x I Ft) as (l & L & X). exists l. split; [now right|exact X].
  - destruct (ways (dbef 6) (l_stims l0)) as [W|] eqn:Ew; [|discriminate H]. destruct (take_ways W tag0 al) as [al'|] eqn:Et; [|discriminate H]. destruct (take_ways_ok _ _ _ _ Et) as (pre & -> & P & Q). apply in_app_or in I as [I|I].
    + exists l0. split; [now left|]. rewrite Forall_forall in P. rewrite <- (P x I). split; [exact T0|]. apply (ways_ok _ _ _ _ Ew). destruct (F2_right _ _ _ _ Q I) as (sq & Is & Sx). exists sq. split; [exact Is|]. now rewrite (same_seq_ok sq (fst x) u S Sx).
    + destruct (IH al' H x I Ft) as (l & L & X). exists l. split; [now right|exact X].
Qed.
Lemma scaled_is_there : existsb (fun l => match l_target l with Marked [tag] => bytes_eqb tag (kind_name (Some M_Dates.DS_SCALED)) && scaled_stims (l_stims l) | _ => false end) (lines_of dmain (bs "in")) = true.
Proof. vm_compute. reflexivity. Qed.
Theorem datescan_language u tag : small u -> sees (dbef 6) dmain (bs "in") (syms u) tag <-> exists t, tag = kind_name (Some t) /\ M_Dates.discover_type u = Some t.
Proof.
  intros S. rewrite main_sees. split.
  - intros (l & HL & T & R). apply lines_of_ok in HL. destruct (lines_to_alts u S _ _ main_same l tag HL T R) as [[E Sc]|([ll t] & I & E & Ft)].
    + exists M_Dates.DS_SCALED. split; [exact E|]. unfold M_Dates.discover_type. now rewrite Sc.
    + exists t. split; [exact E|]. exact (L_Dates3.type_rule u ll t I Ft).
  - intros (t & -> & H). apply L_Dates3.type_some in H as [[-> Sc]|(a & I & l & J & Ft)].
    + pose proof scaled_is_there as X. apply existsb_exists in X as (l & L & X). destruct (l_target l) as [d|[|tag0 [|? ?]]] eqn:T0; try discriminate X. apply andb_prop in X as [X Y]. apply L_Mbox.bytes_eqb_iff in X. subst tag0. exists l. split; [now apply lines_of_ok|]. split; [exact T0|].
      now apply (scaled_stims_ok _ _ S Y).
    + destruct (alts_to_lines u S _ _ main_same (l, t)) as (l' & L & T & R); [apply L_Dates3.alts_in; eauto|exact Ft|]. exists l'. split; [now apply lines_of_ok|]. auto.
Qed.
