(* The scanner made of fromcheck.nfa: what is written in the file, and M_From. *)
From Verif Require Import Base M_Charclass M_Dfasyn M_Compdfa M_Scan M_Parse M_Files M_Blocks S_Dfasyn S_Blocks L_Tie L_Tie2 L_Blocks7.
From Verif Require M_From L_From.
Import M_From(email, angled_email, zone, date, date_old, remote, main).

Definition fc : list decl := Eval vm_compute in match read_description fromcheck_text with Ok ds => ds | Err _ => [] end.
Lemma fc_read : read_description fromcheck_text = Ok fc.
Proof. vm_compute. reflexivity. Qed.
Definition fc_names : list (M_From.block * bytes) :=
  [(email, bs "email"); (angled_email, bs "angled_email"); (zone, bs "zone"); (date, bs "date"); (date_old, bs "date_old"); (remote, bs "remote"); (main, bs "main")].
Definition name (b : M_From.block) : bytes := match find (fun x => M_From.block_beq (fst x) b) fc_names with Some x => snd x | None => [] end.
Definition idx (b : M_From.block) : nat :=
  match b with email => 27 | angled_email => 28 | zone => 29 | date => 30 | date_old => 31 | remote => 32 | main => 33 end.
Definition blk (b : M_From.block) : block_decl := match nth_error fc (idx b) with Some (D_block x) => x | _ => Bdecl [] [] [] end.
Definition bef (n : nat) : list decl := firstn n fc.
Lemma blk_ok b : nth_error fc (idx b) = Some (D_block (blk b)) /\ b_name (blk b) = name b.
Proof. destruct b; split; reflexivity. Qed.
Definition all_blocks : list M_From.block := [email; angled_email; zone; date; date_old; remote; main].
Lemma all_blocks_ok b : In b all_blocks.
Proof. destruct b; cbn [In all_blocks]; auto 10. Qed.
Lemma idx_inj a b : idx a = idx b -> a = b.
Proof. destruct a, b; intros H; try reflexivity; discriminate H. Qed.
(* the only blocks *)
Lemma blk_only i x : nth_error fc i = Some (D_block x) -> exists b, i = idx b /\ x = blk b.
Proof.
  intros H. assert (L : i < length fc) by (apply nth_error_Some; congruence). change (length fc) with 39 in L.
  do 39 (destruct i as [|i]; [first [discriminate H|cbn in H; injection H as <-; match goal with |- exists b, ?n = _ /\ _ =>
    first [exists email; split; reflexivity|exists angled_email; split; reflexivity|exists zone; split; reflexivity|exists date; split; reflexivity|exists date_old; split; reflexivity
          |exists remote; split; reflexivity|exists main; split; reflexivity] end]|]). lia.
Qed.

(* ---- lines, compared ---- *)
Definition PASS : bytes := bs "FROMCHECK_PASS".
Fixpoint names_eqb (a b : list bytes) : bool :=
  match a, b with [], [] => true | x :: a', y :: b' => bytes_eqb x y && names_eqb a' b' | _, _ => false end.
Lemma names_eqb_ok : forall a b, names_eqb a b = true -> a = b.
Proof.
  induction a as [|x a IH]; intros [|y b] H; try discriminate; [reflexivity|]. cbn in H. apply andb_prop in H as [A B]. apply L_Mbox.bytes_eqb_iff in A. apply IH in B. congruence.
Qed.
Definition dests (l : line) : list bytes := match l_target l with To ds => ds | Marked gs => if names_eqb gs [PASS] then [bs "pass"] else [] end.
(* classes of characters as ranges *)
Definition span (i : cc_item) : N * N := match i with Cc_char d => (N.of_nat d, N.of_nat d) | Cc_range a b => (N.of_nat (Nat.min a b), N.of_nat (Nat.max a b)) end.
Fixpoint spans (cs : list one) : option (list (N * N)) :=
  match cs with
  | [] => Some []
  | O_char (Cc_simple {| caret := false; body := l |}) :: r => option_map (app (map span l)) (spans r)
  | _ => None
  end.
Definition within (sp : list (N * N)) (c : N) : bool := existsb (fun ab => (fst ab <=? c)%N && (c <=? snd ab)%N) sp.
Lemma span_listed c l car : within (map span l) c = listed (N.to_nat c) {| caret := car; body := l |}.
Proof.
  unfold within, listed. cbn [body]. induction l as [|i l IH]; [reflexivity|]. cbn [map existsb]. rewrite IH. f_equal. destruct i as [d|a b]; cbn [span fst snd]; lia.
Qed.
Lemma spans_ok : forall cs sp, spans cs = Some sp -> (forall a, In a cs -> exists k, a = O_char k) /\
  forall c, within sp c = true <-> exists k, In (O_char k) cs /\ in_class (N.to_nat c) k = true.
Proof.
  induction cs as [|a r IH]; intros sp H; cbn [spans] in H.
  - injection H as <-. split; [intros ? []|]. intros c. cbn. split; [discriminate|]. intros (k & [] & _).
  - destruct a as [|t|[[[] l]|s|s t]|t i o]; try discriminate. destruct (spans r) as [sp'|]; [|discriminate]. injection H as <-. destruct (IH sp' eq_refl) as [A B]. split.
    + intros a [<-|I]; eauto.
    + intros c. unfold within. rewrite existsb_app, orb_true_iff. fold (within (map span l) c). fold (within sp' c). rewrite B, (span_listed c l false). split.
      * intros [L|(k & I & L)]; [|exists k; split; [now right|exact L]]. eexists. split; [left; reflexivity|]. cbn [in_class]. unfold in_simple. cbn [caret]. now rewrite L.
      * intros (k & [E|I] & L); [|right; eauto]. left. injection E as <-. cbn [in_class] in L. unfold in_simple in L. cbn [caret] in L. now destruct (listed _ _).
Qed.
Definition chars : list N := Eval vm_compute in map N.of_nat (seq 0 256).
Definition one_match (n : nat) (cs : list one) (s : M_From.stim) : bool :=
  match s with
  | M_From.Cl p => match spans cs with Some sp => forallb (fun c => Bool.eqb (p c) (within sp c)) chars | None => false end
  | M_From.Inst b => match cs with [O_block t i o] => bytes_eqb t (name b) && bytes_eqb i (bs "in") && bytes_eqb o (bs "out") && (idx b <? n) | _ => false end
  end.
Fixpoint stims_match (n : nat) (als : list (list stimulus)) (ss : list M_From.stim) : bool :=
  match als with
  | [] => match ss with [] => true | _ => false end
  | a :: r =>
    match choices (bef n) a with
    | [O_nothing] => stims_match n r ss
    | cs => match ss with s :: ss' => one_match n cs s && stims_match n r ss' | [] => false end
    end
  end.
Definition line_match (n : nat) (l : line) (t : M_From.trans) : bool := names_eqb (dests l) (map bs (snd t)) && stims_match n (l_stims l) (fst t).
Fixpoint lines_match (n : nat) (ls : list line) (ts : list M_From.trans) : bool :=
  match ls, ts with
  | [], [] => true
  | l :: ls', t :: ts' => line_match n l t && lines_match n ls' ts'
  | _, _ => false
  end.
(* the lines of a state, and those in M_From, are the same *)
Definition lines_of (b : block_decl) (p : bytes) : list line := flat_map (fun s => if bytes_eqb (s_name s) p then s_lines s else []) (b_states b).
Definition same_block (b : M_From.block) : bool :=
  forallb (fun st => lines_match (idx b) (lines_of (blk b) (bs (fst st))) (M_From.trans_of b (fst st))) (M_From.states_of b).
(* no other state has lines *)
Definition no_more (b : M_From.block) : bool :=
  forallb (fun s => existsb (fun st => bytes_eqb (bs (fst st)) (s_name s)) (M_From.states_of b) || match s_lines s with [] => true | _ => false end) (b_states (blk b)).
Lemma same_ok : forallb same_block all_blocks = true.
Proof. vm_compute. reflexivity. Qed.
Lemma no_more_ok : forallb no_more all_blocks = true.
Proof. vm_compute. reflexivity. Qed.

Lemma lines_match_1 n : forall ls ts l, lines_match n ls ts = true -> In l ls -> exists t, In t ts /\ line_match n l t = true.
Proof.
  induction ls as [|x ls IH]; intros [|t ts] l H; try discriminate; [intros []|]. cbn in H. apply andb_prop in H as [A B]. intros [->|I]; [exists t; split; [now left|exact A]|].
  destruct (IH ts l B I) as (y & Y & M). exists y. split; [now right|exact M].
Qed.
Lemma lines_match_2 n : forall ls ts t, lines_match n ls ts = true -> In t ts -> exists l, In l ls /\ line_match n l t = true.
Proof.
  induction ls as [|x ls IH]; intros [|y ts] t H; try discriminate; [intros []|]. cbn in H. apply andb_prop in H as [A B]. intros [->|I]; [exists x; split; [now left|exact A]|].
  destruct (IH ts t B I) as (z & Y & M). exists z. split; [now right|exact M].
Qed.
Lemma lines_of_ok b p l : In l (lines_of b p) <-> has_line b p l.
Proof.
  unfold lines_of, has_line. rewrite in_flat_map. split.
  - intros (s & S & I). destruct (bytes_eqb (s_name s) p) eqn:E; [|destruct I]. apply L_Mbox.bytes_eqb_iff in E. eauto.
  - intros (s & S & E & I). exists s. split; [exact S|]. now rewrite (proj2 (L_Mbox.bytes_eqb_iff _ _) E).
Qed.
Lemma bs_inj : forall a b, bs a = bs b -> a = b.
Proof.
  induction a as [|x a IH]; intros [|y b] H; try discriminate; [reflexivity|]. cbn in H. injection H as E H. f_equal; [|now apply IH].
  rewrite <- (ascii_N_embedding x), <- (ascii_N_embedding y). now rewrite E.
Qed.
Lemma trans_states b p t : In t (M_From.trans_of b p) -> exists st, In st (M_From.states_of b) /\ fst st = p.
Proof.
  unfold M_From.trans_of. destruct (find _ _) as [st|] eqn:E; [|intros []]. intros _. apply find_some in E as [I E]. exists st. split; [exact I|]. now apply String.eqb_eq.
Qed.
Lemma state_lines b st : In st (M_From.states_of b) -> lines_match (idx b) (lines_of (blk b) (bs (fst st))) (M_From.trans_of b (fst st)) = true.
Proof.
  intros I. pose proof same_ok as S. rewrite forallb_forall in S. specialize (S b (all_blocks_ok b)). unfold same_block in S. rewrite forallb_forall in S. exact (S st I).
Qed.
(* A line of the file is a transition of M_From, and the other way round. *)
Lemma line_trans b p l : has_line (blk b) p l -> exists lp t, p = bs lp /\ In t (M_From.trans_of b lp) /\ line_match (idx b) l t = true.
Proof.
  intros H. assert (K : exists st, In st (M_From.states_of b) /\ bs (fst st) = p).
  { destruct H as (s & S & <- & L). pose proof no_more_ok as M. rewrite forallb_forall in M. specialize (M b (all_blocks_ok b)). unfold no_more in M. rewrite forallb_forall in M.
    specialize (M s S). destruct (s_lines s) as [|x r]; [destruct L|]. rewrite orb_false_r in M. apply existsb_exists in M as (st & I & E). exists st. split; [exact I|]. now apply L_Mbox.bytes_eqb_iff. }
  destruct K as (st & I & <-). apply lines_of_ok in H. destruct (lines_match_1 _ _ _ _ (state_lines b st I) H) as (t & T & M). eauto.
Qed.
Lemma trans_line b lp t : In t (M_From.trans_of b lp) -> exists l, has_line (blk b) (bs lp) l /\ line_match (idx b) l t = true.
Proof.
  intros T. destruct (trans_states b lp t T) as (st & I & <-). destruct (lines_match_2 _ _ _ _ (state_lines b st I) T) as (l & L & M). exists l. split; [now apply lines_of_ok|exact M].
Qed.

(* ---- words ---- *)
Definition sym (c : N) : symbol := Chr (N.to_nat c).
Definition syms (u : bytes) : list symbol := map sym u.
Lemma syms_app u v : syms (u ++ v) = syms u ++ syms v.
Proof. apply map_app. Qed.
Lemma syms_split : forall u x y, syms u = x ++ y -> exists a b, u = a ++ b /\ x = syms a /\ y = syms b.
Proof. intros u x y H. apply map_eq_app in H as (a & b & -> & <- & <-). eauto. Qed.
Lemma syms_inj : forall u v, syms u = syms v -> u = v.
Proof.
  induction u as [|x u IH]; intros [|y v] H; try discriminate; [reflexivity|]. cbn in H. injection H as E H. f_equal; [now apply N2Nat.inj|now apply IH].
Qed.
Definition small (u : bytes) : Prop := Forall (fun c => (c < 256)%N) u.
Lemma small_in c : (c < 256)%N -> In c chars.
Proof.
  intros L. replace chars with (map N.of_nat (seq 0 256)) by reflexivity. apply in_map_iff. exists (N.to_nat c). split; [lia|]. apply in_seq. lia.
Qed.
Lemma small_app u v : small (u ++ v) <-> small u /\ small v.
Proof. apply Forall_app. Qed.

Lemma one_nothing n cs s : one_match n cs s = true -> ~ In O_nothing cs.
Proof.
  destruct s as [p|b]; cbn [one_match].
  - destruct (spans cs) as [sp|] eqn:E; [|discriminate]. intros _ I. destruct (spans_ok _ _ E) as [A _]. destruct (A _ I) as [k K]. discriminate.
  - destruct cs as [|[] [|]]; try discriminate. intros _ [X|[]]. discriminate.
Qed.
(* a choice against a stimulus of M_From *)
Lemma one_class n cs p : one_match n cs (M_From.Cl p) = true -> (forall a, In a cs -> exists k, a = O_char k) /\
  forall c, (c < 256)%N -> p c = true <-> exists k, In (O_char k) cs /\ in_class (N.to_nat c) k = true.
Proof.
  cbn [one_match]. destruct (spans cs) as [sp|] eqn:E; [|discriminate]. intros H. destruct (spans_ok _ _ E) as [A B]. split; [exact A|]. intros c L.
  rewrite forallb_forall in H. specialize (H c (small_in c L)). apply eqb_prop in H. rewrite H. apply B.
Qed.
Lemma one_inst n cs b : one_match n cs (M_From.Inst b) = true -> cs = [O_block (name b) (bs "in") (bs "out")] /\ idx b < n.
Proof.
  cbn [one_match]. destruct cs as [|[|t|k|t i o] [|x r]]; try discriminate. intros H. apply andb_prop in H as [H L]. apply andb_prop in H as [H O]. apply andb_prop in H as [H I].
  apply L_Mbox.bytes_eqb_iff in H, O, I. apply Nat.ltb_lt in L. subst. auto.
Qed.
Definition is_nothing (cs : list one) : bool := match cs with [O_nothing] => true | _ => false end.
Lemma stims_cons n a r ss : stims_match n (a :: r) ss = true ->
  (choices (bef n) a = [O_nothing] /\ stims_match n r ss = true) \/ exists s ss', ss = s :: ss' /\ one_match n (choices (bef n) a) s = true /\ stims_match n r ss' = true.
Proof.
  cbn [stims_match]. set (cs := choices (bef n) a). destruct (is_nothing cs) eqn:E.
  - destruct cs as [|[] [|]]; try discriminate. auto.
  - intros H. right. assert (K : match ss with s :: ss' => one_match n cs s && stims_match n r ss' | [] => false end = true).
    { destruct cs as [|[] [|]]; try discriminate E; exact H. }
    destruct ss as [|s ss']; [discriminate|]. apply andb_prop in K as [K1 K2]. eauto.
Qed.
Lemma bef_le i n : i < n -> firstn i (bef n) = bef i.
Proof. intros L. unfold bef. rewrite firstn_firstn. now rewrite Nat.min_l by lia. Qed.

Lemma names_nodup a b : name a = name b -> a = b.
Proof. destruct a, b; intros H; try reflexivity; discriminate H. Qed.

(* From the file to M_From. *)
Lemma file_model :
  (forall ds B p w q, goes ds B p w q -> forall b lp u, ds = bef (idx b) -> B = blk b -> p = bs lp -> w = syms u -> small u ->
     exists lq, q = bs lq /\ forall fin v, L_From.rb b fin lq v -> L_From.rb b fin lp (u ++ v)) /\
  (forall ds als w, reads_all ds als w -> forall n ss u, ds = bef n -> stims_match n als ss = true -> w = syms u -> small u -> L_From.rs ss u) /\
  (forall ds a w, reads ds a w -> forall n u, ds = bef n -> w = syms u -> small u ->
     match a with
     | O_nothing => u = []
     | O_char k => exists c, u = [c] /\ in_class (N.to_nat c) k = true
     | O_block t i o => forall b, t = name b -> i = bs "in" -> o = bs "out" -> L_From.rb b "out" "in" u
     | O_token _ => True
     end).
Proof.
  set (P1 := fun ds B p w q => forall b lp u, ds = bef (idx b) -> B = blk b -> p = bs lp -> w = syms u -> small u ->
     exists lq, q = bs lq /\ forall fin v, L_From.rb b fin lq v -> L_From.rb b fin lp (u ++ v)).
  set (P2 := fun ds als w => forall n ss u, ds = bef n -> stims_match n als ss = true -> w = syms u -> small u -> L_From.rs ss u).
  set (P3 := fun ds a w => forall n u, ds = bef n -> w = syms u -> small u ->
     match a with
     | O_nothing => u = []
     | O_char k => exists c, u = [c] /\ in_class (N.to_nat c) k = true
     | O_block t i o => forall b, t = name b -> i = bs "in" -> o = bs "out" -> L_From.rb b "out" "in" u
     | O_token _ => True
     end).
  assert (C1 : forall ds b p, P1 ds b p [] p).
  { intros ds B p b lp u _ _ -> E _. destruct u; [|discriminate]. exists lp. auto. }
  assert (C2 : forall ds b p l dests0 d u v q, has_line b p l -> l_target l = To dests0 -> In d dests0 -> reads_all ds (l_stims l) u -> P2 ds (l_stims l) u -> goes ds b d v q -> P1 ds b d v q -> P1 ds b p (u ++ v) q).
  { intros ds B p l dl d u v q HL T D _ IHa _ IHg b lp w -> -> -> E Sm. apply eq_sym in E. apply syms_split in E as (w1 & w2 & -> & -> & ->). apply small_app in Sm as [S1 S2].
    destruct (line_trans b (bs lp) l HL) as (lp' & t & E1 & I & M). apply bs_inj in E1. subst lp'. unfold line_match in M. apply andb_prop in M as [Md Ms].
    apply names_eqb_ok in Md. unfold dests in Md. rewrite T in Md. subst dl. apply in_map_iff in D as (g & <- & G).
    destruct (IHg b g w2 eq_refl eq_refl eq_refl eq_refl S2) as (lq & -> & Q). exists lq. split; [reflexivity|]. intros fin v R. rewrite <- app_assoc.
    destruct t as [ss ts]. apply L_From.rb_go with (ss := ss) (ts := ts) (t := g); [exact I|exact G| |now apply Q]. apply (IHa (idx b) ss w1); auto. }
  assert (C3 : forall ds, P2 ds [] []).
  { intros ds n ss u _ M E _. destruct u; [|discriminate]. destruct ss; [constructor|discriminate]. }
  assert (C4 : forall ds alts l x a u v, In x alts -> stands_for ds x a -> reads ds a u -> P3 ds a u -> reads_all ds l v -> P2 ds l v -> P2 ds (alts :: l) (u ++ v)).
  { intros ds alts l x a u v I Sf _ IHr _ IHa n ss w -> M E Sm. apply eq_sym in E. apply syms_split in E as (w1 & w2 & -> & -> & ->). apply small_app in Sm as [S1 S2].
    assert (A : In a (choices (bef n) alts)) by (apply choices_ok; eauto). specialize (IHr n w1 eq_refl eq_refl S1).
    apply stims_cons in M as [[N M]|(s & ss' & -> & O & M)].
    - rewrite N in A. destruct A as [<-|[]]. subst w1. cbn [app]. apply (IHa n ss w2); auto.
    - specialize (IHa n ss' w2 eq_refl M eq_refl S2). destruct s as [p|b].
      + apply one_class in O as [O1 O2]. destruct (O1 a A) as [k ->]. destruct IHr as (c & -> & K'). cbn [app]. constructor; [|exact IHa]. apply O2; [now inversion S1|]. eauto.
      + apply one_inst in O as [O L]. rewrite O in A. destruct A as [<-|[]]. constructor; [|exact IHa]. now apply IHr. }
  assert (C5 : forall ds, P3 ds O_nothing []) by (intros ds n u _ E _; destruct u; [reflexivity|discriminate]).
  assert (C6 : forall ds t, P3 ds (O_token t) [Tok t]) by (intros ds t n u _ _ _; exact Logic.I).
  assert (C7 : forall ds k c, in_class c k = true -> P3 ds (O_char k) [Chr c]).
  { intros ds k c H n u _ E _. destruct u as [|x [|y u]]; try discriminate. cbn in E. injection E as ->. eauto. }
  assert (C8 : forall ds t i o before b w, block_at ds t before b -> goes before b i w o -> P1 before b i w o -> P3 ds (O_block t i o) w).
  { intros ds t i o before B w BA _ IH n u -> -> Sm b -> -> ->. apply block_at_nth in BA as (j & L & J & -> & N). destruct (blk_only j B J) as (b' & -> & ->).
    destruct (blk_ok b') as [_ N']. rewrite N' in N. apply names_nodup in N. subst b'. destruct (IH b "in"%string u eq_refl eq_refl eq_refl eq_refl Sm) as (lq & E & H).
    apply bs_inj in E. subst lq. rewrite <- (app_nil_r u). apply H. constructor. }
  split; [|split].
  - exact (goes_mut P1 P2 P3 C1 C2 C3 C4 C5 C6 C7 C8).
  - exact (all_mut P1 P2 P3 C1 C2 C3 C4 C5 C6 C7 C8).
  - exact (reads_mut P1 P2 P3 C1 C2 C3 C4 C5 C6 C7 C8).
Qed.

Lemma sees_before ds b p u q v tag : goes ds b p u q -> sees ds b q v tag -> sees ds b p (u ++ v) tag.
Proof.
  intros G S. inversion S as [ds' b' p' u' q' l tags tag' v' G' HL T I R|ds' b' p' u' q' l pre alts post v' x t i o before c y tag' G' HL E R I Sf BA Sc]; subst.
  - rewrite app_assoc. eapply sees_here; eauto. eapply L_Blocks4.goes_trans; eauto.
  - rewrite app_assoc. eapply sees_within; eauto. eapply L_Blocks4.goes_trans; eauto.
Qed.
Lemma no_pass : forallb (fun b => forallb (fun s => forallb (fun l => match l_target l with To ds => negb (existsb (bytes_eqb (bs "pass")) ds) | Marked _ => true end) (s_lines s)) (b_states (blk b))) all_blocks = true.
Proof. vm_compute. reflexivity. Qed.
Lemma not_to_pass b p l ds : has_line (blk b) p l -> l_target l = To ds -> ~ In (bs "pass") ds.
Proof.
  intros (s & S & _ & L) T I. pose proof no_pass as N. rewrite forallb_forall in N. specialize (N b (all_blocks_ok b)). rewrite forallb_forall in N. specialize (N s S).
  rewrite forallb_forall in N. specialize (N l L). rewrite T in N. apply negb_true_iff in N. assert (existsb (bytes_eqb (bs "pass")) ds = true); [|congruence].
  apply existsb_exists. exists (bs "pass"). split; [exact I|now apply L_Mbox.bytes_eqb_iff].
Qed.
Lemma pass_end b fin v : L_From.rb b fin "pass" v -> fin = "pass"%string /\ v = [].
Proof. intros H. inversion H as [|? ? ? ss ts t u v' I]; subst; [auto|]. exfalso. destruct b; exact I. Qed.

Lemma model_file :
  (forall b fin l u, L_From.rb b fin l u -> small u -> (fin <> "pass"%string -> goes (bef (idx b)) (blk b) (bs l) (syms u) (bs fin)) /\
     (fin = "pass"%string -> l <> "pass"%string -> sees (bef (idx b)) (blk b) (bs l) (syms u) PASS)) /\
  (forall ss u, L_From.rs ss u -> small u -> forall n als, stims_match n als ss = true -> reads_all (bef n) als (syms u)).
Proof.
  set (P1 := fun b fin l u => small u -> (fin <> "pass"%string -> goes (bef (idx b)) (blk b) (bs l) (syms u) (bs fin)) /\
     (fin = "pass"%string -> l <> "pass"%string -> sees (bef (idx b)) (blk b) (bs l) (syms u) PASS)).
  set (P2 := fun ss u => small u -> forall n als, stims_match n als ss = true -> reads_all (bef n) als (syms u)).
  assert (C1 : forall b fin, P1 b fin fin []).
  { intros b fin _. split; [constructor|congruence]. }
  assert (C2 : forall b fin l ss ts t u v, In (ss, ts) (M_From.trans_of b l) -> In t ts -> L_From.rs ss u -> P2 ss u -> L_From.rb b fin t v -> P1 b fin t v -> P1 b fin l (u ++ v)).
  { intros b fin l ss ts t u v I T _ IHs R IHb Sm. apply small_app in Sm as [S1 S2]. specialize (IHb S2). rewrite syms_app.
    destruct (trans_line b l (ss, ts) I) as (ln & HL & M). unfold line_match in M. apply andb_prop in M as [Md Ms]. apply names_eqb_ok in Md. cbn [fst snd] in Md, Ms.
    specialize (IHs S1 (idx b) (l_stims ln) Ms). assert (D : In (bs t) (dests ln)) by (rewrite Md; now apply in_map). unfold dests in D.
    destruct (l_target ln) as [dl|gs] eqn:Tg.
    - assert (Nt : t <> "pass"%string) by (intros ->; exact (not_to_pass b _ ln dl HL Tg D)). split.
      + intros Nf. eapply goes_on; eauto. now apply IHb.
      + intros -> Nl. apply (sees_before _ _ _ _ (bs t)); [|now apply IHb]. rewrite <- (app_nil_r (syms u)). eapply goes_on; eauto. constructor.
    - destruct (names_eqb gs [PASS]) eqn:G; [|destruct D]. apply names_eqb_ok in G. subst gs. destruct D as [D|[]]. change (bs "pass" = bs t) in D. apply bs_inj in D. subst t.
      apply pass_end in R as [-> ->]. split; [congruence|]. intros _ Nl. cbn [syms map]. rewrite app_nil_r. rewrite <- (app_nil_l (syms u)).
      eapply sees_here; [constructor|exact HL|exact Tg|now left|exact IHs]. }
  assert (Sk : forall n a w als, choices (bef n) a = [O_nothing] -> reads_all (bef n) als w -> reads_all (bef n) (a :: als) w).
  { intros n a w als N H. apply all_cons. exists O_nothing, [], w. split; [reflexivity|]. rewrite N. split; [now left|]. split; [constructor|exact H]. }
  assert (C3 : P2 [] []).
  { intros _ n. induction als as [|a als IH]; intros M; [constructor|]. apply stims_cons in M as [[N M]|(s & ss' & E & _)]; [|discriminate]. apply Sk; auto. }
  assert (C4 : forall p ss c u, p c = true -> L_From.rs ss u -> P2 ss u -> P2 (M_From.Cl p :: ss) (c :: u)).
  { intros p ss c u Pc _ IHs Sm n. induction als as [|a als IH]; intros M; [discriminate|]. apply stims_cons in M as [[N M]|(s & ss' & E & O & M)]; [apply Sk; auto|].
    injection E as <- <-. apply one_class in O as [_ O]. inversion Sm as [|? ? Sc Su]; subst. destruct (proj1 (O c Sc) Pc) as (k & K & Kc).
    apply all_cons. exists (O_char k), [sym c], (syms u). split; [reflexivity|]. split; [exact K|]. split; [now constructor|]. now apply IHs. }
  assert (C5 : forall b ss u v, L_From.rb b "out" "in" u -> P1 b "out"%string "in"%string u -> L_From.rs ss v -> P2 ss v -> P2 (M_From.Inst b :: ss) (u ++ v)).
  { intros b ss u v _ IHb _ IHs Sm n. apply small_app in Sm as [S1 S2]. induction als as [|a als IH]; intros M; [discriminate|].
    apply stims_cons in M as [[N M]|(s & ss' & E & O & M)]; [apply Sk; auto|]. injection E as <- <-. apply one_inst in O as [O L].
    apply all_cons. exists (O_block (name b) (bs "in") (bs "out")), (syms u), (syms v). split; [apply syms_app|]. rewrite O. split; [now left|]. split; [|now apply IHs].
    destruct (blk_ok b) as [B1 B2]. apply r_block with (before := bef (idx b)) (b := blk b).
    - apply block_at_nth. exists (idx b). auto.
    - refine (proj1 (IHb S1) _). discriminate. }
  split; [exact (L_From.rb_mut P1 P2 C1 C2 C3 C4 C5)|exact (L_From.rs_mut P1 P2 C1 C2 C3 C4 C5)].
Qed.

(* the tag is on no other block *)
Lemma marks_only : forallb (fun d => match d with D_block b => bytes_eqb (b_name b) (bs "main") ||
    forallb (fun s => forallb (fun l => match l_target l with To _ => true | Marked _ => false end) (s_lines s)) (b_states b) | _ => true end) fc = true.
Proof. vm_compute. reflexivity. Qed.
Lemma before_main : forallb (fun d => match d with D_block b => negb (bytes_eqb (b_name b) (bs "main")) | _ => true end) (bef 33) = true.
Proof. vm_compute. reflexivity. Qed.
Lemma no_marks_before c : In (D_block c) (bef 33) -> no_marks c.
Proof.
  intros I p l tags (s & S & _ & L) T. pose proof marks_only as M. pose proof before_main as B. rewrite forallb_forall in M, B. specialize (B _ I). cbn beta iota in B.
  assert (I' : In (D_block c) fc) by (rewrite <- (firstn_skipn 33 fc); apply in_or_app; left; exact I). specialize (M _ I'). cbn beta iota in M.
  destruct (bytes_eqb (b_name c) (bs "main")); [discriminate B|]. cbn [orb] in M. rewrite forallb_forall in M. specialize (M s S). rewrite forallb_forall in M. specialize (M l L). now rewrite T in M.
Qed.
Lemma in_firstn_nth {A} : forall n (l : list A) i x, i < n -> nth_error l i = Some x -> In x (firstn n l).
Proof. induction n as [|n IH]; intros l i x L H; [lia|]. destruct l as [|y l], i as [|i]; try discriminate; cbn in *; [left; congruence|right; apply (IH l i); [lia|exact H]]. Qed.
Lemma in_firstn_le {A} : forall m n (l : list A) x, m <= n -> In x (firstn m l) -> In x (firstn n l).
Proof. induction m as [|m IH]; intros n l x L H; [destruct H|]. destruct n as [|n]; [lia|]. destruct l as [|y l]; [destruct H|]. cbn in *. destruct H as [->|H]; [now left|right; apply IH; [lia|exact H]]. Qed.
Theorem fromcheck_language u tag : small u -> sees (bef 33) (blk main) (bs "in") (syms u) tag <-> tag = PASS /\ L_From.rb main "pass" "in" u.
Proof.
  intros Sm. split.
  - intros H. remember (syms u) as w eqn:W. remember (bef 33) as ds eqn:D. remember (blk main) as B eqn:EB. remember (bs "in") as p eqn:Ep.
    destruct H as [ds B p u' q l tags tag v G HL T I R|ds B p u' q l pre alts post v x t i o before c y tag G HL E R I Sf BA Sc]; subst.
    + apply eq_sym in W. apply syms_split in W as (w1 & w2 & -> & -> & ->). apply small_app in Sm as [S1 S2].
      destruct (proj1 file_model _ _ _ _ _ G main "in"%string w1 eq_refl eq_refl eq_refl eq_refl S1) as (lq & -> & Q).
      destruct (line_trans main (bs lq) l HL) as (lq' & [ss ts] & E & J & M). apply bs_inj in E. subst lq'. unfold line_match in M. apply andb_prop in M as [Md Ms]. apply names_eqb_ok in Md.
      cbn [fst snd] in Md, Ms. unfold dests in Md. rewrite T in Md. destruct (names_eqb tags [PASS]) eqn:Et.
      * apply names_eqb_ok in Et. subst tags. destruct I as [<-|[]]. split; [reflexivity|]. apply Q. destruct ts as [|t [|t' ts]]; try discriminate. cbn [map] in Md.
        assert (X : bs "pass" = bs t) by congruence. apply bs_inj in X. subst t. rewrite <- (app_nil_r w2).
        apply L_From.rb_go with (ss := ss) (ts := ["pass"%string]) (t := "pass"%string); [exact J|now left| |constructor].
        apply (proj1 (proj2 file_model) _ _ _ R 33 ss w2); auto.
      * exfalso. destruct ts; [|discriminate]. clear - J. revert J. 
        assert (Z : forallb (fun st => forallb (fun t => match snd t with [] => false | _ => true end) (snd st)) (M_From.states_of main) = true) by reflexivity.
        intros J. unfold M_From.trans_of in J. destruct (find _ _) as [st|] eqn:E; [|destruct J]. apply find_some in E as [E _]. rewrite forallb_forall in Z. specialize (Z st E).
        rewrite forallb_forall in Z. specialize (Z _ J). discriminate.
    + exfalso. apply block_at_nth in BA as (j & L & J & -> & _). apply (sees_nowhere _ _ _ _ _ Sc).
      * apply no_marks_before. unfold bef. apply (in_firstn_nth 33 fc j); assumption.
      * intros c' I'. apply no_marks_before. apply (in_firstn_le j); [lia|exact I'].
  - intros [-> R]. apply (proj1 model_file main "pass"%string "in"%string u R Sm); [reflexivity|discriminate].
Qed.
