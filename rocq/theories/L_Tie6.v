(* The scanner made of datescan.nfa: what is written in the file, and M_Dates. *)
From Verif Require Import Base M_Charclass M_Dfasyn M_Compdfa M_Scan M_Parse M_Files M_Blocks S_Dfasyn S_Blocks L_Tie L_Tie2 L_Tie3 L_Blocks7.
From Verif Require M_Dates L_Dates3 L_Mbox.

Definition dn : list decl := Eval vm_compute in match read_description datescan_text with Ok ds => ds | Err _ => [] end.
Lemma dn_read : read_description datescan_text = Ok dn.
Proof. vm_compute. reflexivity. Qed.
Definition dblk (i : nat) : block_decl := match nth_error dn i with Some (D_block x) => x | _ => Bdecl [] [] [] end.
Definition dbef (n : nat) : list decl := firstn n dn.

(* ---- sequences of classes ---- *)
Definition word_of (sq : list (list (N * N))) (u : bytes) : bool := M_Dates.fits (map within sq) u.
Fixpoint simple (ds : list decl) (l : list (list stimulus)) : option (list (list (N * N))) :=
  match l with
  | [] => Some []
  | a :: r => match spans (choices ds a), simple ds r with Some sp, Some sq => Some (sp :: sq) | _, _ => None end
  end.
Lemma span_reads ds alts sp l u : spans (choices ds alts) = Some sp ->
  (reads_all ds (alts :: l) (syms u) <-> exists c v, u = c :: v /\ within sp c = true /\ reads_all ds l (syms v)).
Proof.
  intros S. apply spans_ok in S as [A B]. rewrite all_cons. split.
  - intros (a & x & y & E & I & R & Q). destruct (A a I) as (k & ->). apply syms_split in E as (x' & y' & -> & -> & ->).
    destruct x' as [|c' [|? ?]]; [inversion R| |inversion R]. cbn in R. inversion R as [| |? ? c K|]; subst. exists c', y'. split; [reflexivity|]. split; [|exact Q]. apply B. exists k. split; [exact I|]. exact K.
  - intros (c & v & -> & W & Q). apply B in W as (k & I & K). exists (O_char k), [sym c], (syms v). split; [reflexivity|]. split; [exact I|]. split; [|exact Q]. apply r_char. exact K.
Qed.
Lemma simple_ok ds : forall l sq u, simple ds l = Some sq -> (reads_all ds l (syms u) <-> word_of sq u = true).
Proof.
  induction l as [|a r IH]; intros sq u H; cbn [simple] in H.
  - injection H as <-. rewrite all_nil. unfold word_of. cbn. destruct u; cbn; split; intros; auto; discriminate.
  - destruct (spans (choices ds a)) as [sp|] eqn:S; [|discriminate]. destruct (simple ds r) as [sq'|]; [|discriminate]. injection H as <-.
    rewrite (span_reads ds a sp r u S). unfold word_of. cbn [map M_Dates.fits]. split.
    + intros (c & v & -> & W & Q). rewrite W. cbn [andb]. now apply (IH sq' v eq_refl).
    + destruct u as [|c v]; [discriminate|]. intros W. apply andb_prop in W as [W Q]. exists c, v. split; [reflexivity|]. split; [exact W|]. now apply (IH sq' v eq_refl).
Qed.
(* blocks that are left after one line *)
Definition flat (b : block_decl) : bool :=
  forallb (fun s => bytes_eqb (s_name s) (bs "in") && forallb (fun l => match l_target l with To ds => names_eqb ds [bs "out"] | Marked _ => false end) (s_lines s)) (b_states b).
Lemma flat_goes ds b w : flat b = true -> goes ds b (bs "in") w (bs "out") <-> exists l, has_line b (bs "in") l /\ reads_all ds (l_stims l) w.
Proof.
  intros Fl. unfold flat in Fl. rewrite forallb_forall in Fl.
  assert (K : forall p l, has_line b p l -> p = bs "in" /\ l_target l = To [bs "out"]).
  { intros p l (s & S & <- & L). specialize (Fl s S). apply andb_prop in Fl as [A B]. apply L_Mbox.bytes_eqb_iff in A. split; [exact A|]. rewrite forallb_forall in B. specialize (B l L). destruct (l_target l) as [d|g]; [|discriminate B]. apply names_eqb_ok in B. now subst d. }
  split.
  - intros G. inversion G as [|? ? ? l dests d u v q HL T I R G']; subst. exists l. split; [exact HL|]. destruct (K _ _ HL) as [_ T']. rewrite T in T'. injection T' as ->. destruct I as [<-|[]].
    inversion G' as [|? ? ? l' ? ? ? ? ? HL' ? ? ? ?]; subst; [now rewrite app_nil_r|]. destruct (K _ _ HL') as [X _]. discriminate X.
  - intros (l & HL & R). destruct (K _ _ HL) as [_ T]. rewrite <- (app_nil_r w). apply goes_on with (l := l) (dests := [bs "out"]) (d := bs "out"); [exact HL|exact T|now left|exact R|constructor].
Qed.
Definition all_some {A B} (f : A -> option B) : list A -> option (list B) :=
  fix go l := match l with [] => Some [] | x :: r => match f x, go r with Some y, Some ys => Some (y :: ys) | _, _ => None end end.
Lemma all_some_in {A B} (f : A -> option B) : forall l ys, all_some f l = Some ys -> (forall x, In x l -> exists y, f x = Some y /\ In y ys) /\ (forall y, In y ys -> exists x, In x l /\ f x = Some y).
Proof.
  induction l as [|x l IH]; intros ys H; cbn in H; [injection H as <-; split; intros ? []|]. destruct (f x) as [y|] eqn:E; [|discriminate]. fold (all_some f l) in H. destruct (all_some f l) as [zs|]; [|discriminate]. injection H as <-.
  destruct (IH zs eq_refl) as [P Q]. split.
  - intros z [<-|I]; [exists y; split; [exact E|now left]|]. destruct (P z I) as (v & V & J). exists v. split; [exact V|now right].
  - intros z [<-|I]; [exists x; split; [now left|exact E]|]. destruct (Q z I) as (v & V & J). exists v. split; [now right|exact J].
Qed.
(* the one block of this name *)
Fixpoint blocks_named (t : bytes) (i : nat) (ds : list decl) : list (nat * block_decl) :=
  match ds with
  | [] => []
  | D_block b :: r => (if bytes_eqb (b_name b) t then [(i, b)] else []) ++ blocks_named t (S i) r
  | _ :: r => blocks_named t (S i) r
  end.
Lemma blocks_named_in t b : forall ds i j, In (j, b) (blocks_named t i ds) <-> i <= j /\ nth_error ds (j - i) = Some (D_block b) /\ b_name b = t.
Proof.
  induction ds as [|d ds IH]; intros i j; cbn [blocks_named].
  - split; [intros []|]. intros (_ & H & _). destruct (j - i); discriminate.
  - assert (K : In (j, b) (blocks_named t (S i) ds) <-> i < j /\ nth_error (d :: ds) (j - i) = Some (D_block b) /\ b_name b = t).
    { rewrite IH. split; intros (L & E & M); (split; [lia|]); (split; [|exact M]); [replace (j - i) with (S (j - S i)) by lia; exact E|replace (j - i) with (S (j - S i)) in E by lia; exact E]. }
    assert (Z : (forall b', d <> D_block b') -> In (j, b) (blocks_named t (S i) ds) <-> i <= j /\ nth_error (d :: ds) (j - i) = Some (D_block b) /\ b_name b = t).
    { intros D. rewrite K. split; intros (L & E & M); (split; [|auto]); [lia|]. destruct (Nat.eq_dec i j) as [->|]; [|lia]. rewrite Nat.sub_diag in E. cbn in E. exfalso. apply (D b). congruence. }
    destruct d as [b'| | | | | | |]; try (apply Z; intros; discriminate). rewrite in_app_iff, K. split.
    + intros [H|(L & E & M)]; [|split; [lia|auto]]. destruct (bytes_eqb (b_name b') t) eqn:E; [|destruct H]. destruct H as [H|[]]. injection H as <- <-. rewrite Nat.sub_diag. apply L_Mbox.bytes_eqb_iff in E. auto.
    + intros (L & E & M). destruct (Nat.eq_dec i j) as [->|]; [|right; split; [lia|auto]]. left. rewrite Nat.sub_diag in E. cbn in E. injection E as ->. rewrite (proj2 (L_Mbox.bytes_eqb_iff _ _) M). now left.
Qed.
Fixpoint ways (ds : list decl) (l : list (list stimulus)) : option (list (list (list (N * N)))) :=
  match l with
  | [] => Some [[]]
  | a :: r =>
    match ways ds r with
    | None => None
    | Some W =>
      match spans (choices ds a) with
      | Some sp => Some (map (cons sp) W)
      | None =>
        match choices ds a with
        | [O_block t i o] =>
          if bytes_eqb i (bs "in") && bytes_eqb o (bs "out") then
            match blocks_named t 0 ds with
            | [(j, b)] => if flat b then option_map (fun A => flat_map (fun x => map (fun y => x ++ y) W) A) (all_some (fun l => simple (firstn j ds) (l_stims l)) (flat_map s_lines (b_states b))) else None
            | _ => None
            end
          else None
        | _ => None
        end
      end
    end
  end.
Lemma fits_app2 : forall a b u v, M_Dates.fits a u = true -> M_Dates.fits b v = true -> M_Dates.fits (a ++ b) (u ++ v) = true.
Proof. induction a as [|p a IH]; intros b [|c u] v A B; try discriminate; [exact B|]. cbn in *. apply andb_prop in A as [-> A]. cbn. now apply IH. Qed.
Lemma ways_ok ds : forall l W u, ways ds l = Some W -> (reads_all ds l (syms u) <-> exists sq, In sq W /\ word_of sq u = true).
Proof.
  induction l as [|a r IH]; intros W u H; cbn [ways] in H.
  - injection H as <-. rewrite all_nil. unfold word_of. split.
    + intros E. exists []. split; [now left|]. destruct u; [reflexivity|discriminate].
    + intros (sq & [<-|[]] & E). destruct u; [reflexivity|discriminate].
  - destruct (ways ds r) as [W'|]; [|discriminate]. specialize (fun u => IH W' u eq_refl). destruct (spans (choices ds a)) as [sp|] eqn:S.
    + injection H as <-. rewrite (span_reads ds a sp r u S). split.
      * intros (c & v & -> & K & Q). apply IH in Q as (sq & I & Q). exists (sp :: sq). split; [now apply in_map|]. unfold word_of. cbn [map M_Dates.fits]. now rewrite K.
      * intros (sq & I & Q). apply in_map_iff in I as (sq' & <- & I). unfold word_of in Q. cbn [map M_Dates.fits] in Q. destruct u as [|c v]; [discriminate|]. apply andb_prop in Q as [K Q]. exists c, v. split; [reflexivity|]. split; [exact K|]. apply IH. eauto.
    + destruct (choices ds a) as [|[|t|k|t i o] [|? ?]] eqn:C; try discriminate. destruct (bytes_eqb i (bs "in") && bytes_eqb o (bs "out")) eqn:E; [|discriminate]. apply andb_prop in E as [E1 E2]. apply L_Mbox.bytes_eqb_iff in E1, E2. subst i o.
      destruct (blocks_named t 0 ds) as [|[j b] [|? ?]] eqn:Bn; try discriminate. destruct (flat b) eqn:Fl; [|discriminate]. destruct (all_some _ _) as [A|] eqn:As; [|discriminate]. injection H as <-. apply all_some_in in As as [As1 As2].
      assert (Bj : forall before b', block_at ds t before b' <-> before = firstn j ds /\ b' = b).
      { intros before b'. assert (U : forall j' b'', In (j', b'') (blocks_named t 0 ds) <-> j' = j /\ b'' = b) by (intros; rewrite Bn; cbn; split; [intros [X|[]]; injection X as <- <-; auto|intros [-> ->]; auto]).
        rewrite <- (firstn_all ds) at 1. rewrite block_at_nth. split.
        - intros (i & Li & N & -> & M). destruct (proj1 (U i b')) as [-> ->]; [|auto]. apply blocks_named_in. rewrite Nat.sub_0_r. split; [lia|auto].
        - intros [-> ->]. destruct (proj1 (blocks_named_in t b ds 0 j)) as (_ & N & M); [apply U; auto|]. rewrite Nat.sub_0_r in N. exists j. split; [apply nth_error_Some; congruence|auto]. }
      rewrite all_cons, C. split.
      * intros (x & w1 & w2 & Ew & [<-|[]] & R & Q). apply syms_split in Ew as (u1 & u2 & -> & -> & ->). inversion R as [| | |? ? ? ? before b' ? Ba G]; subst. apply Bj in Ba as [-> ->]. apply (flat_goes _ _ _ Fl) in G as (l & (s & Ss & _ & Sl) & G).
        destruct (As1 l) as (sq1 & E1 & I1); [apply in_flat_map; eauto|]. apply (simple_ok _ _ _ _ E1) in G. apply IH in Q as (sq2 & I2 & Q). exists (sq1 ++ sq2). split; [apply in_flat_map; exists sq1; split; [exact I1|now apply in_map]|].
        unfold word_of. rewrite map_app. now apply fits_app2.
      * intros (sq & I & Q). apply in_flat_map in I as (sq1 & I1 & I). apply in_map_iff in I as (sq2 & <- & I2). unfold word_of in Q. rewrite map_app in Q. apply L_Dates3.fits_app in Q as (u1 & u2 & -> & Q1 & Q2).
        destruct (As2 sq1 I1) as (l & L1 & E1). exists (O_block t (bs "in") (bs "out")), (syms u1), (syms u2). split; [apply syms_app|]. split; [now left|]. split; [|apply IH; eauto].
        apply r_block with (before := firstn j ds) (b := b); [apply Bj; auto|]. apply (flat_goes _ _ _ Fl). apply in_flat_map in L1 as (s & Ss & Sl). exists l. split; [|now apply (simple_ok _ _ _ _ E1)].
        exists s. split; [exact Ss|]. split; [|exact Sl]. unfold flat in Fl. rewrite forallb_forall in Fl. specialize (Fl s Ss). apply andb_prop in Fl as [Fl _]. now apply L_Mbox.bytes_eqb_iff.
Qed.
