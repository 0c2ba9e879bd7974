(* Lemmas about the attributes of a description *)
From Verif Require Import Base M_Charclass M_Dfasyn M_Compdfa M_Parse M_Blocks S_Dfasyn S_Blocks L_Blocks L_Blocks2 L_Blocks3 L_Blocks4 L_Blocks5 L_Blocks6.
From Verif Require L_Mbox.

Definition with_one (a : attr_decl) (x : evaluator) : evaluator := Evaluator (attrs x ++ values a) (match a with A_default n => Some n | _ => defattr x end).
Lemma same_group_ok : forall a b, same_group a b = true <-> a = b.
Proof.
  intros [a|] [b|]; cbn [same_group]; try (split; congruence). rewrite L_Mbox.bytes_eqb_iff. split; congruence.
Qed.
Definition eval_all (gs : list (option bytes)) (f : option bytes -> evaluator) : evaluators := map (fun g => (g, f g)) gs.
Definition upd (f : option bytes -> evaluator) (name : option bytes) (h : evaluator -> evaluator) : option bytes -> evaluator := fun g => if same_group g name then h (f g) else f g.
Lemma change_all : forall gs f name h, change_evaluator (eval_all gs f) name h = eval_all gs (upd f name h).
Proof. intros gs f name h. unfold change_evaluator, eval_all. rewrite map_map. apply map_ext. intros g. cbn [fst snd]. unfold upd. now destruct (same_group g name). Qed.
Lemma eval_ext : forall gs f h, (forall g, In g gs -> f g = h g) -> eval_all gs f = eval_all gs h.
Proof. intros gs f h H. unfold eval_all. apply map_ext_in. intros g J. now rewrite (H g J). Qed.
Lemma add_all : forall a gs f name, add_attr (eval_all gs f) name a = eval_all gs (upd f name (with_one a)).
Proof.
  intros [early ns|early n e|n|n] gs f name; cbn [add_attr].
  - revert f. induction ns as [|n ns IH]; intros f; cbn [fold_left].
    + apply eval_ext. intros g _. unfold upd, with_one. cbn [values map]. destruct (same_group g name); [|reflexivity]. rewrite app_nil_r. now destruct (f g).
    + rewrite change_all, IH. apply eval_ext. intros g _. unfold upd, with_one, define_attr. destruct (same_group g name); [|reflexivity]. cbn [attrs defattr values map]. now rewrite <- app_assoc.
  - rewrite change_all. reflexivity.
  - rewrite change_all. apply eval_ext. intros g _. unfold upd, with_one. cbn [values]. now rewrite app_nil_r.
  - apply eval_ext. intros g _. unfold upd, with_one. cbn [values]. destruct (same_group g name); [|reflexivity]. rewrite app_nil_r. now destruct (f g).
Qed.
Definition with_list (l : list attr_decl) (x : evaluator) : evaluator := fold_left (fun x a => with_one a x) l x.
Lemma with_list_ok : forall l x, with_list l x = Evaluator (attrs x ++ flat_map values l) (match default_in l with Some n => Some n | None => defattr x end).
Proof.
  induction l as [|a l IH]; intros x; unfold with_list in *; cbn [fold_left flat_map default_in]; [rewrite app_nil_r; now destruct x|].
  rewrite IH. unfold with_one. cbn [attrs defattr]. rewrite <- app_assoc. f_equal. destruct (default_in l); [reflexivity|]. now destruct a.
Qed.
Lemma fold_all : forall l gs f name, fold_left (fun evs a => add_attr evs name a) l (eval_all gs f) = eval_all gs (upd f name (with_list l)).
Proof.
  induction l as [|a l IH]; intros gs f name; cbn [fold_left]; [apply eval_ext; intros g _; unfold upd, with_list; now destruct (same_group g name)|].
  rewrite add_all, IH. apply eval_ext. intros g _. unfold upd, with_list. now destruct (same_group g name).
Qed.
Lemma default_app : forall l m, default_in (l ++ m) = match default_in m with Some n => Some n | None => default_in l end.
Proof. induction l as [|a l IH]; intros m; cbn [app default_in]; [now destruct (default_in m)|]. rewrite IH. now destruct (default_in m). Qed.
Lemma attribute_more : forall ds d g, attribute (ds ++ [d]) g = with_list (written [d] g) (attribute ds g).
Proof.
  intros ds d g. rewrite with_list_ok. unfold attribute. cbn [attrs defattr]. unfold written at 1 2. rewrite flat_map_app. fold (written ds g) (written [d] g). rewrite flat_map_app, default_app. reflexivity.
Qed.
Definition listed_groups (ds : list decl) (gs : list bytes) : Prop := NoDup gs /\ forall n, In n gs <-> exists l, In (D_group n l) ds.
Definition evs_ok (E : env) (ds : list decl) : Prop := (exists gs, n_evs E = eval_all (map Some gs ++ [None]) (attribute ds) /\ listed_groups ds gs) /\ n_defs E = tag_lines ds.
Lemma attribute_same : forall ds d, (forall g, written [d] g = []) -> forall g, attribute (ds ++ [d]) g = attribute ds g.
Proof. intros ds d H g. rewrite attribute_more, H. reflexivity. Qed.
Lemma listed_same : forall ds d gs, (forall n l, d <> D_group n l) -> listed_groups ds gs -> listed_groups (ds ++ [d]) gs.
Proof.
  intros ds d gs H [N I]. split; [exact N|]. intros n. rewrite I. split; intros (l & J); exists l; [apply in_or_app; now left|]. apply in_app_or in J as [J|[J|[]]]; [exact J|]. now apply H in J.
Qed.
Lemma evs_same : forall E E' ds d, evs_ok E ds -> n_evs E' = n_evs E -> n_defs E' = n_defs E -> (forall g, written [d] g = []) -> tag_lines [d] = [] -> (forall n l, d <> D_group n l) -> evs_ok E' (ds ++ [d]).
Proof.
  intros E E' ds d [(gs & A & B) D] H1 H2 W T G. split.
  - exists gs. rewrite H1, A. split; [|now apply listed_same]. apply eval_ext. intros g _. now rewrite attribute_same.
  - rewrite H2, D. unfold tag_lines. rewrite flat_map_app. fold (tag_lines [d]). now rewrite T, app_nil_r.
Qed.
Lemma add_states_evs : forall ss E b b' E', add_states E b ss = Ok (b', E') -> n_evs E' = n_evs E /\ n_defs E' = n_defs E.
Proof.
  induction ss as [|s ss IH]; intros E b b' E' H; cbn [add_states] in H; [injection H as <- <-; auto|].
  destruct (lookup_state b (s_name s)) as [b1 i]. destruct (add_lines _ _ _ _) as [[b2 E2]|] eqn:A; cbn [bind] in H; [|discriminate].
  apply add_lines_quiet in A as (_ & _ & A1 & A2). apply IH in H as [H1 H2]. cbn [set_cur n_evs n_defs] in *. split; congruence.
Qed.
Lemma add_tokens_evs : forall l E E', add_tokens E l = Ok E' -> n_evs E' = n_evs E /\ n_defs E' = n_defs E.
Proof.
  induction l as [|s l IH]; intros E E' H; cbn [add_tokens] in H; [injection H as <-; auto|]. destruct (lookup_token E s); [discriminate|]. apply IH in H. exact H.
Qed.
Lemma decl_evs : forall E ds d E', evs_ok E ds -> add_decl E d = Ok E' -> evs_ok E' (ds ++ [d]).
Proof.
  intros E ds d E' O H. destruct d as [b|l|n alts|a|n l|n e|n|s v]; cbn [add_decl] in H.
  - unfold add_block in H. destruct (existsb _ _); [discriminate|]. destruct (add_instances _ _ _) as [b1|]; cbn [bind] in H; [|discriminate].
    destruct (add_states _ _ _) as [[b2 E2]|] eqn:A; cbn [bind] in H; [|discriminate]. injection H as <-. apply add_states_evs in A as [A1 A2]. cbn [n_evs n_defs] in *.
    now apply evs_same with E.
  - apply add_tokens_evs in H as [H1 H2]. now apply evs_same with E.
  - destruct (stimuli_of E alts []) as [[l E1]|] eqn:A; cbn [bind] in H; [|discriminate]. injection H as <-. apply stimuli_quiet in A as (_ & _ & A1 & A2). now apply evs_same with E.
  - injection H as <-. destruct O as [(gs & A & B) D]. split.
    + exists gs. split; [|now apply listed_same]. cbn [with_evs n_evs]. rewrite A, add_all. apply eval_ext. intros g _. rewrite attribute_more. unfold upd. destruct g as [m|]; cbn [same_group written flat_map app]; reflexivity.
    + cbn [with_evs n_defs]. rewrite D. unfold tag_lines. rewrite flat_map_app. cbn [flat_map]. now rewrite !app_nil_r.
  - injection H as <-. destruct O as [(gs & A & [Nd B]) D]. split.
    + assert (X : exists gs', start_evaluator (n_evs E) (Some n) = eval_all (map Some gs' ++ [None]) (attribute ds) /\ listed_groups (ds ++ [D_group n l]) gs').
      { unfold start_evaluator. destruct (existsb _ _) eqn:Ex.
        - exists gs. split; [exact A|]. split; [exact Nd|]. intros m. split; [intros J; apply B in J as (l' & J); exists l'; apply in_or_app; now left|].
          intros (l' & J). apply in_app_or in J as [J|[J|[]]]; [apply B; eauto|]. injection J as -> ->. rewrite A in Ex. apply existsb_exists in Ex as ([g x] & J & K). cbn [fst] in K. apply same_group_ok in K as ->.
          unfold eval_all in J. apply in_map_iff in J as (g & X & J). injection X as -> _. apply in_app_or in J as [J|[J|[]]]; [|discriminate]. apply in_map_iff in J as (m' & Y & J). congruence.
        - exists (n :: gs). assert (Nn : ~ In n gs).
          { intros J. assert (T : existsb (fun x => same_group (fst x) (Some n)) (n_evs E) = true); [|congruence]. apply existsb_exists. exists (Some n, attribute ds (Some n)). split; [|now apply same_group_ok].
            rewrite A. unfold eval_all. apply in_map_iff. exists (Some n). split; [reflexivity|]. apply in_or_app. left. now apply in_map. }
          assert (W : written ds (Some n) = []).
          { assert (Z : forall l', ~ In (D_group n l') ds) by (intros l' J; apply Nn, B; eauto). clear - Z. induction ds as [|d ds IH]; [reflexivity|]. cbn [written flat_map]. fold (written ds (Some n)).
            rewrite IH by (intros l' J; apply (Z l'); now right). rewrite app_nil_r. destruct d as [b|l|x alts|a|x l|x e|x|s v]; try reflexivity. destruct (bytes_eqb x n) eqn:Y; [|reflexivity].
            apply L_Mbox.bytes_eqb_iff in Y as ->. exfalso. apply (Z l). now left. }
          split.
          + rewrite A. cbn [map app eval_all]. unfold attribute at 2. rewrite W. reflexivity.
          + split; [now constructor|]. intros m. split.
            * intros [<-|J]; [exists l; apply in_or_app; right; now left|]. apply B in J as (l' & J). exists l'. apply in_or_app. now left.
            * intros (l' & J). apply in_app_or in J as [J|[J|[]]]; [right; apply B; eauto|]. injection J as -> _. now left. }
      destruct X as (gs' & X & L). exists gs'. split; [|exact L]. cbn [with_evs n_evs]. rewrite X, fold_all. apply eval_ext. intros g _. rewrite attribute_more. unfold upd.
      destruct g as [m|]; cbn [same_group written flat_map app]; [|reflexivity]. rewrite app_nil_r. destruct (bytes_eqb n m) eqn:Y.
      * apply L_Mbox.bytes_eqb_iff in Y as ->. now rewrite (proj2 (L_Mbox.bytes_eqb_iff m m) eq_refl).
      * destruct (bytes_eqb m n) eqn:Z; [|reflexivity]. apply L_Mbox.bytes_eqb_iff in Z as ->. now rewrite (proj2 (L_Mbox.bytes_eqb_iff n n) eq_refl) in Y.
    + cbn [with_evs n_defs]. rewrite D. unfold tag_lines. rewrite flat_map_app. cbn [flat_map]. now rewrite !app_nil_r.
  - injection H as <-. destruct O as [(gs & A & B) D]. split.
    + exists gs. split; [|now apply listed_same]. cbn [n_evs]. rewrite A. apply eval_ext. intros g _. rewrite attribute_same; [reflexivity|]. now intros [m|].
    + cbn [n_defs]. rewrite D. unfold tag_lines. rewrite flat_map_app. reflexivity.
  - injection H as <-. apply evs_same with E; auto; intros; discriminate || reflexivity.
  - injection H as <-. apply evs_same with E; auto; intros; discriminate || reflexivity.
Qed.
Lemma decls_evs : forall ds' E ds E', evs_ok E ds -> add_decls E ds' = Ok E' -> evs_ok E' (ds ++ ds').
Proof.
  induction ds' as [|d ds' IH]; intros E ds E' O H; cbn [add_decls] in H; [injection H as <-; now rewrite app_nil_r|].
  destruct (add_decl E d) as [E1|] eqn:A; cbn [bind] in H; [|discriminate]. change (d :: ds') with ([d] ++ ds'). rewrite app_assoc. apply IH with E1; [|exact H]. now apply decl_evs with E.
Qed.
Lemma nfa_rules : forall stack E F, nfa_of stack E = Ok F -> f_rules F = Rules (map snd (n_evs E)) (n_defs E) stack.
Proof. intros stack E F H. unfold nfa_of in H. destruct (n_entries E); [destruct (n_cur E) as [[x i]|]; [|discriminate]|]; injection H as <-; reflexivity. Qed.
Theorem rules_of_description : forall stack ds F, compile stack ds = Ok F ->
  exists groups, f_rules F = Rules (map (attribute ds) (map Some groups ++ [None])) (tag_lines ds) stack /\ NoDup groups /\ forall n, In n groups <-> exists l, In (D_group n l) ds.
Proof.
  intros stack ds F H. unfold compile in H. destruct (add_decls empty_env ds) as [E|] eqn:A; cbn [bind] in H; [|discriminate]. apply nfa_rules in H.
  assert (O : evs_ok E ds). { change ds with ([] ++ ds). apply decls_evs with empty_env; [|exact A]. split; [|reflexivity]. exists []. split; [reflexivity|]. split; [constructor|]. intros n. split; [intros []|intros (l & [])]. }
  destruct O as [(gs & G & L1 & L2) D]. exists gs. rewrite H, G, D. unfold eval_all. rewrite map_map. cbn [snd]. auto.
Qed.
