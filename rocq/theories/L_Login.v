(* What is read from a server has come from it. *)
From Verif Require Import Base M_Imap S_Imap M_Login S_Login L_Mbox L_Imap L_Imap2 L_Imap3.
Local Open Scope N_scope.
Local Opaque bs.

Lemma within_refl a : within a a.
Proof. induction a; constructor; assumption. Qed.
Lemma within_nil b : within [] b.
Proof. induction b; constructor; assumption. Qed.
Lemma within_app a b c d : within a b -> within c d -> within (a ++ c) (b ++ d).
Proof. induction 1; intros X; cbn [app]; [assumption| |]; constructor; auto. Qed.
Lemma within_trans a b c : within a b -> within b c -> within a c.
Proof. intros H1 H2. revert a H1. induction H2 as [|x u v H IH|x u v H IH]; intros a H1; [assumption| |constructor; auto]. inversion H1; subst; constructor; auto. Qed.
Lemma within_left a b c : within a b -> within a (b ++ c).
Proof. intros H. rewrite <- (app_nil_r a). apply within_app; [assumption|apply within_nil]. Qed.
Lemma within_right a b c : within a c -> within a (b ++ c).
Proof. intros H. rewrite <- (app_nil_l a). apply within_app; [apply within_nil|assumption]. Qed.
Lemma within_cstr s : within (c_str s) s.
Proof. induction s as [|c s IH]; cbn [c_str]; [constructor|]. destruct (c =? 0); [apply within_nil|constructor; assumption]. Qed.

Section Heard.
Variable R : bytes.
Inductive heard : tok -> Prop := Heard ty leaf ks : (forall l, leaf = Some l -> within l R) -> Forall heard ks -> heard (Tok ty leaf ks).
Definition heard_open (o : list (tltype * list tok)) : Prop := Forall (fun p => Forall heard (snd p)) o.
Definition sound (past : bytes) (r : reader) : Prop := heard_open (r_open r) /\ (forall s m, r_cur r = Some (s, m) -> within s past).
Lemma kids_heard t : heard t -> Forall heard (t_kids t).
Proof. intros H. inversion H; assumption. Qed.
Lemma leaf_heard t l : heard t -> t_leaf t = Some l -> within l R.
Proof. intros H. inversion H; subst. cbn [t_leaf]. auto. Qed.
Lemma finish_sound ty past r r' : within past R -> finish ty r = Ok r' -> sound past r -> sound past r'.
Proof.
  intros W E [O C]. unfold finish in E. destruct (r_cur r) as [[s m]|] eqn:EC; [|injection E as <-; split; [assumption|rewrite EC; discriminate]].
  unfold mktoken in E. destruct (_ <=? m); cbn [bind] in E; [|discriminate]. unfold grow_leaf in E. destruct (r_open r) as [|[ty' ks] o]; cbn [bind] in E; [discriminate|]. injection E as <-.
  split; [|discriminate]. cbn [with_cur with_open r_open]. inversion O as [|? ? O1 O2]; subst. constructor; [|assumption]. cbn [snd] in *. apply Forall_app. split; [assumption|]. repeat constructor. intros l [= <-]. eapply within_trans; [apply (C s m); reflexivity|exact W].
Qed.
Lemma open_heard o ty o' : grow_list o ty = Ok o' -> heard_open o -> heard_open o'.
Proof. destruct o as [|p o]; [discriminate|]. cbn [grow_list]. intros [= <-] H. constructor; [constructor|exact H]. Qed.
Lemma close_heard o o' : close_node o = Ok o' -> heard_open o -> heard_open o'.
Proof.
  destruct o as [|[ty ks] [|[ty' ks'] o]]; try discriminate. cbn [close_node]. intros [= <-] H. inversion H as [|? ? H1 H2]; subst. inversion H2 as [|? ? H3 H4]; subst.
  constructor; [|assumption]. cbn [snd] in *. apply Forall_app. split; [assumption|]. constructor; [|constructor]. constructor; [discriminate|assumption].
Qed.
Lemma whole_heard : forall o t l, whole_line t o = Some l -> (forall u, t = Some u -> heard u) -> heard_open o -> heard l.
Proof.
  induction o as [|[ty ks] o IH]; intros t l E T H; cbn [whole_line] in E; [auto|]. inversion H as [|? ? H1 H2]; subst. cbn [snd] in H1. refine (IH _ _ E _ H2). intros u [= <-]. constructor; [discriminate|].
  destruct t as [u|]; [apply Forall_app; split; [assumption|constructor; [auto|constructor]]|assumption].
Qed.
Lemma line_heard past r l : sound past r -> the_line r = Some l -> heard l.
Proof.
  intros [O _] E. unfold the_line in E. destruct (r_plus r); [injection E as <-; constructor; [discriminate|constructor]|]. eapply whole_heard; [exact E|discriminate|exact O].
Qed.
Lemma sound_more past c r : sound past r -> sound (past ++ [c]) r.
Proof. intros [A B]. split; [assumption|]. intros s m E. apply within_left. eauto. Qed.
Lemma extend_sound past x c y : (forall s m, x = (s, m) -> within s past) -> token_extend x c = Ok y -> forall s m, y = (s, m) -> within s (past ++ [c]).
Proof.
  destruct x as [s m]. intros H E. unfold token_extend in E. destruct (_ <? _); [|discriminate]. injection E as <-. intros s' m' [= <- <-]. apply within_app; [eauto|apply within_refl].
Qed.
Ltac go :=
  repeat match goal with
  | H : bind ?e _ = Ok _ |- _ => let E := fresh "E" in destruct e eqn:E; cbn [bind] in H; [|discriminate H]
  | H : Ok _ = Ok _ |- _ => injection H as <-
  | H : Err _ = Ok _ |- _ => discriminate H
  | H : context [if ?b then _ else _] |- _ => destruct b eqn:?
  | H : context [match r_open ?r with _ => _ end] |- _ => destruct (r_open r) as [|[? ?] ?] eqn:?
  | H : context [match r_cur ?r with _ => _ end] |- _ => destruct (r_cur r) as [[? ?]|] eqn:?
  end.
Definition sound_out (past : bytes) (o : outcome) : Prop := match o with More r => sound past r | Done l => forall t, l = Some t -> heard t end.
Lemma set_state past r s : sound past r -> sound past (with_state r s).
Proof. intros [A B]. split; assumption. Qed.
Lemma set_num past r s : sound past r -> sound past (with_num r s).
Proof. intros [A B]. split; assumption. Qed.
Lemma set_open past r o : sound past r -> heard_open o -> sound past (with_open r o).
Proof. intros [A B] H. split; assumption. Qed.
Lemma set_cur past r c : sound past r -> (forall s m, c = Some (s, m) -> within s past) -> sound past (with_cur r c).
Proof. intros [A B] H. split; assumption. Qed.
Lemma step_sound tag past r c o : within (past ++ [c]) R -> sound past r -> step tag r c = Ok o -> sound_out (past ++ [c]) o.
Proof.
  intros W S E. apply (sound_more _ c) in S as S'. pose proof (proj1 S) as SO. unfold step in E.
  assert (FIN : forall ty x x', sound (past ++ [c]) x -> finish ty x = Ok x' -> sound (past ++ [c]) x') by (intros ty x x' H1 H2; exact (finish_sound ty _ _ _ W H2 H1)).
  assert (EMPTY : forall (m : N) s m', Some ([] : bytes, m) = Some (s, m') -> within s (past ++ [c])) by (intros m s m' [= <- <-]; apply within_nil).
  assert (EXT : forall x c', (r_cur r = Some x \/ x = ([], 25)) -> token_extend x c = Ok c' -> forall s m, Some c' = Some (s, m) -> within s (past ++ [c])).
  { intros x c' H1 H2 s m [= H3]. refine (extend_sound past x c c' _ H2 s m H3). intros s0 m0 ->. destruct H1 as [H1|[= -> ->]]; [exact (proj2 S _ _ H1)|apply within_nil]. }
  assert (NEW : forall ty, heard_open [(ty, [])]) by (intros ty; repeat constructor).
  destruct ((c =? 10) && (r_state r <? 7)).
  { destruct (r_state r =? 4); [|injection E as <-; intros t T; exact (line_heard _ _ _ S' T)]. destruct (finish T_atom r) as [r'|] eqn:F; cbn [bind] in E; [|discriminate]. injection E as <-. intros t T. exact (line_heard _ _ _ (FIN _ _ _ S' F) T). }
  assert (LAST : forall s m, r_cur r = Some (s, m) -> forall s' m', Some (s ++ [c], m) = Some (s', m') -> within s' (past ++ [c])) by (intros s m H s' m' [= <- <-]; apply within_app; [exact (proj2 S _ _ H)|apply within_refl]).
  destruct (r_state r) as [|p]; [|do 3 (try destruct p as [p|p|])]; cbn iota in E; go; cbn [sound_out];
    repeat match goal with
    | |- sound _ (with_state _ _) => apply set_state
    | |- sound _ (with_num _ _) => apply set_num
    | H : finish _ _ = Ok ?x |- sound _ ?x => eapply FIN; [|exact H]
    | H : finish _ _ = Ok ?x |- sound _ (with_open ?x _) => apply set_open; [eapply FIN; [|exact H]|]
    | |- sound _ (with_open _ _) => apply set_open
    | |- sound _ (with_cur _ _) => apply set_cur
    | H : grow_list _ _ = Ok ?x |- heard_open ?x => eapply open_heard; [exact H|]
    | H : close_node _ = Ok ?x |- heard_open ?x => eapply close_heard; [exact H|]
    | _ => assumption
    end; eauto.
  all: try match goal with H : finish _ ?x = Ok ?a, S0 : sound _ ?x |- heard_open (r_open ?a) => first [exact (proj1 (FIN _ _ _ S0 H)) | idtac] end.
  - destruct (c =? 42); [now apply set_state|]. destruct (c =? 116); [now apply set_num, set_state|]. destruct (c =? 43); [split; apply S'|now apply set_state].
  - destruct (r_num r =? tag)%Z; apply set_state; [apply set_open; [assumption|apply NEW]|assumption].
  - destruct (c =? 32); apply set_state; [apply set_open; [assumption|apply NEW]|assumption].
Qed.
Lemma eat_sound tag : forall buf past r x, within (past ++ buf) R -> sound past r -> eat tag r buf = Ok x ->
  match x with inl r' => sound (past ++ buf) r' | inr (l, b) => (forall t, l = Some t -> heard t) /\ exists a, buf = a ++ b end.
Proof.
  induction buf as [|c buf IH]; intros past r x W S E; cbn [eat] in E; [injection E as <-; now rewrite app_nil_r|].
  assert (W' : within (past ++ [c]) R). { eapply within_trans; [|exact W]. replace (past ++ c :: buf) with ((past ++ [c]) ++ buf) by (now rewrite <- app_assoc). apply within_left, within_refl. }
  destruct (step tag r c) as [o|] eqn:ES; cbn [bind] in E; [|discriminate]. pose proof (step_sound tag past r c o W' S ES) as SS. destruct o as [r'|l]; cbn [sound_out] in SS.
  - replace (past ++ c :: buf) with ((past ++ [c]) ++ buf) in * by (now rewrite <- app_assoc). specialize (IH _ _ _ W SS E). destruct x as [r''|[l b]]; [assumption|]. destruct IH as [I1 [a ->]]. split; [assumption|]. now exists (c :: a).
  - injection E as <-. split; [assumption|]. now exists [c].
Qed.
Lemma wait_sound tag : forall net past r buf l b n, within (past ++ buf ++ concat net) R -> sound past r -> waitline tag r buf net = Ok (l, b, n) ->
  (forall t, l = Some t -> heard t) /\ within (b ++ concat n) (buf ++ concat net).
Proof.
  induction net as [|ch net IH]; intros past r buf l b n W S E; cbn [waitline] in E; (destruct (eat tag r buf) as [x|] eqn:EE; cbn [bind] in E; [|discriminate]);
    (assert (WB : within (past ++ buf) R) by (eapply within_trans; [|exact W]; apply within_app; [apply within_refl|apply within_left, within_refl])); pose proof (eat_sound tag buf past r x WB S EE) as SE; (destruct x as [r'|[l' b']]; [|injection E as <- <- <-; destruct SE as [S1 [a ->]]; split; [assumption|rewrite <- app_assoc; apply within_right, within_refl]]).
  - injection E as <- <- <-. split; [discriminate|apply within_nil].
  - cbn [concat] in W. destruct (IH (past ++ buf) r' ch l b n) as [I1 I2]; [now rewrite <- app_assoc|exact SE|exact E|]. split; [assumption|]. cbn [concat]. apply within_right. exact I2.
Qed.
Lemma start_sound : sound [] reader0.
Proof. split; [constructor|discriminate]. Qed.
Lemma line_sound tag buf net l b n : within (buf ++ concat net) R -> waitline tag reader0 buf net = Ok (l, b, n) -> (forall t, l = Some t -> heard t) /\ within (b ++ concat n) (buf ++ concat net).
Proof. intros W E. exact (wait_sound tag net [] reader0 buf l b n W start_sound E). Qed.
Lemma collect_sound tag : forall fuel buf net sofar r b n, within (buf ++ concat net) R -> Forall heard sofar -> collect fuel tag buf net sofar = Ok (r, b, n) ->
  (forall ls, r = Some ls -> Forall heard ls /\ ls <> []) /\ within (b ++ concat n) (buf ++ concat net).
Proof.
  induction fuel as [|fuel IH]; intros buf net sofar r b n W F E; cbn [collect] in E; [discriminate|]. destruct (waitline tag reader0 buf net) as [[[l b'] n']|] eqn:EW; cbn [bind] in E; [|discriminate].
  destruct (line_sound tag buf net l b' n' W EW) as [L1 L2]. destruct l as [t|]; [|injection E as <- <- <-; split; [discriminate|assumption]].
  assert (F' : Forall heard (sofar ++ [t])) by (apply Forall_app; split; [assumption|constructor; [auto|constructor]]).
  destruct (same_type (t_type t) T_tagged); [injection E as <- <- <-; split; [intros ls [= <-]; split; [assumption|now destruct sofar]|assumption]|].
  destruct (IH _ _ _ _ _ _ (within_trans _ _ _ L2 W) F' E) as [I1 I2]. split; [assumption|]. eapply within_trans; eassumption.
Qed.
Lemma cap_heard c cap : Forall heard c -> has_cap c cap = true -> within (bs cap) R.
Proof.
  intros F H. unfold has_cap in H. apply existsb_exists in H as (t & I & L). rewrite Forall_forall in F. unfold leaf_is in L. destruct (t_leaf t) as [l|] eqn:EL; [|discriminate]. apply bytes_eqb_iff in L. rewrite <- L.
  eapply within_trans; [apply within_cstr|]. exact (leaf_heard _ _ (F t I) EL).
Qed.
Lemma untagged_heard : forall ls c, Forall heard ls -> caps_untagged ls = Ok c -> Forall heard c.
Proof.
  induction ls as [|l ls IH]; intros c F E; cbn [caps_untagged] in E; [injection E as <-; constructor|]. inversion F as [|? ? F1 F2]; subst. destruct (same_type (t_type l) T_untagged); [|auto].
  apply kids_heard in F1. destruct (t_kids l) as [|a rest]; [discriminate|]. destruct (_ && _); [|auto]. injection E as <-. now inversion F1.
Qed.
Lemma bracket_heard l c : heard l -> caps_bracket l = Some c -> Forall heard c.
Proof.
  intros H E. unfold caps_bracket in E. apply kids_heard in H. destruct (t_kids l) as [|a [|b rest]]; try discriminate. inversion H as [|? ? _ H2]; subst. inversion H2 as [|? ? H3 _]; subst. apply kids_heard in H3.
  destruct (same_type (t_type b) T_sqlist); [|discriminate]. destruct (t_kids b) as [|d r]; [discriminate|]. destruct (leaf_is d "CAPABILITY"); [|discriminate]. injection E as <-. now inversion H3.
Qed.
End Heard.

Lemma suits_trusted server full : name_suits server full = true -> forall s, server = Some s -> exists name, short_name full name /\ bears name s.
Proof.
  intros H s ->. unfold name_suits in H. exists (c_str (firstn 255 full)). split.
  { unfold short_name. generalize (firstn 255 full). intros t. induction t as [|c t IH]; cbn [c_str]; [exists []; cbn; auto|]. destruct (N.eqb_spec c 0) as [->|NZ]; [exists (0 :: t); cbn; split; [reflexivity|split; [auto|right; eauto]]|].
    destruct IH as (r & I1 & I2 & I3). exists r. split; [cbn [app]; now rewrite <- I1|]. split; [|assumption]. intros [E|E]; [now apply NZ|auto]. }
  apply orb_true_iff in H as [H|H]; [left; now apply bytes_eqb_iff in H|]. right. destruct (c_str (firstn 255 full)) as [|c rest]; [discriminate|]. apply andb_true_iff in H as [H H3]. apply andb_true_iff in H as [H1 H2].
  apply N.eqb_eq in H1 as ->. apply bytes_eqb_iff in H3. exists rest, (firstn (length s - length rest) s), (skipn (length s - length rest) s). split; [reflexivity|]. split; [now rewrite firstn_skipn|exact H3].
Qed.
Lemma short_fun full n1 n2 : short_name full n1 -> short_name full n2 -> n1 = n2.
Proof.
  intros (r1 & A1 & B1 & C1) (r2 & A2 & B2 & C2). rewrite A1 in A2. clear A1. revert n2 A2 B2. induction n1 as [|c n1 IH]; intros [|d n2] E B2; cbn [app] in E.
  - reflexivity.
  - exfalso. destruct C1 as [->|(r & ->)]; [discriminate|]. injection E as <- _. apply B2. now left.
  - exfalso. destruct C2 as [->|(r & ->)]; [discriminate|]. injection E as -> _. apply B1. now left.
  - injection E as <- E. f_equal. apply IH; [intros I; apply B1; now right|exact E|intros I; apply B2; now right].
Qed.
Lemma trusted_suits server full : (forall s, server = Some s -> exists name, short_name full name /\ bears name s) -> name_suits server full = true.
Proof.
  intros H. destruct server as [s|]; [|reflexivity]. destruct (H s eq_refl) as (name & SN & B). unfold name_suits.
  assert (EN : c_str (firstn 255 full) = name).
  { clear H B. destruct SN as (r & -> & NI & T). induction name as [|c name IH]; cbn [app c_str]; [destruct T as [->|(r' & ->)]; reflexivity|]. destruct (N.eqb_spec c 0) as [->|_]; [exfalso; apply NI; now left|]. rewrite IH; [reflexivity|]. intros I. apply NI. now right. }
  rewrite EN. unfold same_letters. destruct B as [B|(r & a & b & -> & -> & B)]; [apply orb_true_iff; left; now apply bytes_eqb_iff|]. apply orb_true_iff. right. change (42 =? 42) with true. cbn [andb].
  assert (LB : length r = length b) by (apply (f_equal (@length N)) in B; now rewrite !map_length in B). rewrite app_length, LB. replace (length b <=? length a + length b)%nat with true by (symmetry; apply Nat.leb_le; lia). cbn [andb].
  replace (length a + length b - length b)%nat with (length a) by lia. rewrite skipn_app, skipn_all, Nat.sub_diag. cbn [skipn app]. now apply bytes_eqb_iff.
Qed.
