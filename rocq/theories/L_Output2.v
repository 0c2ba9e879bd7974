(* The file system, and what preparing and filling the match folder leaves alone. *)
From Coq Require Import Permutation Sorted.
From Verif Require Import Base M_DbFile M_Search M_Paths M_Output S_Search S_Output L_TokTable L_Output.
Local Open Scope N_scope.

Global Opaque max_links.
Lemma name_set d p n q : name (set_name d p n) q = if bytes_eqb q p then n else name d q.
Proof. reflexivity. Qed.
Lemma name_set_same d p n : name (set_name d p n) p = n.
Proof. rewrite name_set, bytes_eqb_refl. reflexivity. Qed.
Lemma name_set_other d p n q : q <> p -> name (set_name d p n) q = name d q.
Proof. intros H. rewrite name_set. apply bytes_eqb_neq in H. now rewrite H. Qed.

Definition target (p t : bytes) : bytes := match t with 47 :: _ => t | _ => dir_part p ++ t end.
Lemma resolve_eq k d p : resolve k d p =
  match name d p with Some (Link t) => match k with O => None | S k' => resolve k' d (target p t) end | _ => Some p end.
Proof. destruct k; reflexivity. Qed.
Lemma resolve_reaches : forall k d p q, resolve k d p = Some q -> reaches d p q.
Proof.
  induction k as [|k IH]; intros d p q; rewrite resolve_eq; destruct (name d p) as [[i|t|]|] eqn:E; try discriminate; intros H;
    try (injection H as <-; constructor).
  econstructor; [exact E|]. now apply IH.
Qed.
Lemma resolve_not_link : forall k d p q t, resolve k d p = Some q -> name d q <> Some (Link t).
Proof.
  induction k as [|k IH]; intros d p q u; rewrite resolve_eq; destruct (name d p) as [[i|t|]|] eqn:E; try discriminate; intros H;
    try (injection H as <-; congruence). eapply IH. exact H.
Qed.
Lemma resolve_plain k d p : (forall t, name d p <> Some (Link t)) -> resolve k d p = Some p.
Proof. intros H. rewrite resolve_eq. destruct (name d p) as [[| |]|]; try reflexivity. exfalso. eapply H. reflexivity. Qed.
Lemma resolve_more : forall k k' d p q, resolve k d p = Some q -> (k <= k')%nat -> resolve k' d p = Some q.
Proof.
  induction k as [|k IH]; intros k' d p q; rewrite (resolve_eq _ _ p), (resolve_eq k'); destruct (name d p) as [[i|t|]|]; auto; try discriminate.
  destruct k' as [|k']; [lia|]. intros H L. apply IH; [assumption|lia].
Qed.
(* A disc that agrees along the chain of links resolves to the same place. *)
Lemma resolve_same : forall k d e p, (forall q, reaches d p q -> name e q = name d q) -> resolve k e p = resolve k d p.
Proof.
  induction k as [|k IH]; intros d e p H; rewrite !(resolve_eq _ _ p), (H p (R_here _ _));
    destruct (name d p) as [[i|t|]|] eqn:E; try reflexivity.
  apply IH. intros q Hq. apply H. econstructor; eassumption.
Qed.
Lemma stat_same d e p : (forall q, reaches d p q -> name e q = name d q) -> stat_node e p = stat_node d p.
Proof.
  intros H. unfold stat_node. rewrite (resolve_same _ d e p H). destruct (resolve max_links d p) as [q|] eqn:E; [|reflexivity].
  apply H. eapply resolve_reaches. exact E.
Qed.
Lemma map_file_same expand d e p : (forall q, reaches d p q -> name e q = name d q) ->
  (forall i, i < fresh d -> data e i = data d i) -> disc_ok d -> map_file expand e p = map_file expand d p.
Proof.
  intros H1 H2 OK. unfold map_file. rewrite (stat_same d e p H1). destruct (stat_node d p) as [[i|t|]|] eqn:E; try reflexivity.
  rewrite H2; [reflexivity|]. unfold stat_node in E. destruct (resolve max_links d p) as [q|]; [|discriminate]. eapply OK. exact E.
Qed.

(* Changes outside P leave everything outside P alone; contents that existed stay. *)
Definition kept (P : bytes -> Prop) (d e : disc) : Prop :=
  (forall p, ~ P p -> name e p = name d p) /\ (forall i, i < fresh d -> data e i = data d i) /\ fresh d <= fresh e.
Lemma kept_refl P d : kept P d d.
Proof. split; [auto|]. split; [auto|lia]. Qed.
Lemma kept_trans P a b c : kept P a b -> kept P b c -> kept P a c.
Proof.
  intros (A1 & A2 & A3) (B1 & B2 & B3). split; [intros p H; now rewrite B1, A1|]. split; [|lia].
  intros i H. rewrite B2 by lia. now apply A2.
Qed.
Lemma kept_weaken (P Q : bytes -> Prop) d e : (forall p, P p -> Q p) -> kept P d e -> kept Q d e.
Proof. intros H (A & B & C). split; [|now split]. intros p Hp. apply A. intros X. apply Hp, H, X. Qed.
Lemma kept_set (P : bytes -> Prop) d p n : P p -> kept P d (set_name d p n).
Proof. intros H. split; [|split; [auto|cbn; lia]]. intros q Hq. apply name_set_other. congruence. Qed.
Lemma kept_unlink (P : bytes -> Prop) d p : P p -> kept P d (unlink d p).
Proof. intros H. unfold unlink. destruct (name d p) as [[i|t|]|]; try apply kept_refl; now apply kept_set. Qed.
Lemma disc_ok_set d p n : disc_ok d -> (forall i, n = Some (File i) -> i < fresh d) -> disc_ok (set_name d p n).
Proof.
  intros H Hn q i. rewrite name_set. change (fresh (set_name d p n)) with (fresh d). destruct (bytes_eqb q p); [apply Hn|apply H].
Qed.
Lemma disc_ok_unlink d p : disc_ok d -> disc_ok (unlink d p).
Proof. intros H. unfold unlink. destruct (name d p) as [[i|t|]|]; try assumption; (apply disc_ok_set; [assumption|discriminate]). Qed.
Lemma disc_ok_data d i b : disc_ok d -> disc_ok (set_data d i b).
Proof. intros H p j X. exact (H p j X). Qed.

(* ---- directories ---- *)
Lemma ensure_dir_kept (P : bytes -> Prop) d p e : P p -> disc_ok d -> ensure_dir d p = Ok e -> kept P d e /\ disc_ok e.
Proof.
  intros HP OK. unfold ensure_dir. destruct (stat_node d p) as [n|].
  - assert (G : match name (unlink d p) p with None => Ok (set_name (unlink d p) p (Some Dir)) | Some _ => Err (E_exit 2) end = Ok e ->
      kept P d e /\ disc_ok e).
    { destruct (name (unlink d p) p); [discriminate|]. intros H. injection H as <-. split.
      - eapply kept_trans; [apply kept_unlink; exact HP|]. now apply kept_set.
      - apply disc_ok_set; [now apply disc_ok_unlink|discriminate]. }
    destruct n as [i|t|]; try exact G. intros H. injection H as <-. split; [apply kept_refl|assumption].
  - destruct (name d p); [discriminate|]. intros H. injection H as <-. split; [now apply kept_set|]. apply disc_ok_set; [assumption|discriminate].
Qed.
(* What stood for a directory still does. *)
Lemma chain_dir : forall k d p q, resolve k d p = Some q -> name d q = Some Dir -> (k <= max_links)%nat ->
  forall x, reaches d p x -> stat_node d x = Some Dir.
Proof.
  induction k as [|k IH]; intros d p q R D L x X; pose proof R as R0; rewrite resolve_eq in R.
  - destruct (name d p) as [[i|t|]|] eqn:E; try discriminate; injection R as <-; try congruence.
    inversion X; subst; [|congruence]. unfold stat_node. rewrite resolve_plain; [assumption|]. intros t. congruence.
  - inversion X as [p0|p0 t q0 E X']; subst.
    + unfold stat_node. rewrite (resolve_more _ max_links _ _ _ R0 L). exact D.
    + rewrite E in R. eapply IH; [exact R|exact D|lia|exact X'].
Qed.
Lemma stat_dir_chain d p : stat_node d p = Some Dir -> forall x, reaches d p x -> stat_node d x = Some Dir.
Proof.
  intros H. unfold stat_node in H. destruct (resolve max_links d p) as [q|] eqn:R; [|discriminate]. eapply chain_dir; eauto.
Qed.
Lemma stat_dir_present d x : stat_node d x = Some Dir -> name d x <> None.
Proof.
  unfold stat_node. intros H X. rewrite resolve_plain in H by (intros t; congruence). congruence.
Qed.
Lemma ensure_dir_keeps d p e x : ensure_dir d p = Ok e -> stat_node d x = Some Dir -> stat_node e x = Some Dir.
Proof.
  intros H S. unfold ensure_dir in H.
  assert (G : forall q, q <> p -> forall n, name (set_name (unlink d p) p n) q = name d q).
  { intros q Hq n. rewrite name_set_other by assumption. unfold unlink. destruct (name d p) as [[i|t|]|]; try reflexivity; now apply name_set_other. }
  destruct (stat_node d p) as [n|] eqn:SP.
  - assert (K : forall e', e' = set_name (unlink d p) p (Some Dir) -> n <> Dir -> stat_node e' x = Some Dir).
    { intros e' -> NE. rewrite <- S. apply stat_same. intros q Hq. apply G. intros ->. apply (stat_dir_chain _ _ S) in Hq. congruence. }
    destruct n as [i|t|]; [..|injection H as <-; exact S];
      (destruct (name (unlink d p) p); [discriminate|]; injection H as <-; apply K; [reflexivity|discriminate]).
  - destruct (name d p) eqn:NP; [discriminate|]. injection H as <-. rewrite <- S. apply stat_same. intros q Hq. apply name_set_other. intros ->.
    apply (stat_dir_chain _ _ S) in Hq. congruence.
Qed.
Lemma ensure_dir_makes d p e : ensure_dir d p = Ok e -> stat_node e p = Some Dir.
Proof.
  unfold ensure_dir. destruct (stat_node d p) as [n|] eqn:SP.
  - assert (K : forall d', stat_node (set_name d' p (Some Dir)) p = Some Dir).
    { intros d'. unfold stat_node. rewrite resolve_plain; [apply name_set_same|]. intros t. rewrite name_set_same. discriminate. }
    destruct n as [i|t|]; [..|intros H; injection H as <-; exact SP]; (destruct (name (unlink d p) p); [discriminate|]; intros H; injection H as <-; apply K).
  - destruct (name d p); [discriminate|]. intros H; injection H as <-.
    unfold stat_node. rewrite resolve_plain; [apply name_set_same|]. intros t. rewrite name_set_same. discriminate.
Qed.

(* ---- clearing ---- *)
Lemma name_in_ok dir p n : name_in dir p = Some n <-> n <> [] /\ ~ In 47 n /\ p = dir ++ bs "/" ++ n.
Proof.
  unfold name_in. change (bs "/") with [47]. split.
  - destruct (bytes_eqb _ _) eqn:E; [|discriminate]. apply bytes_eqb_eq in E. destruct (existsb (N.eqb 47) _) eqn:X; [discriminate|].
    destruct (skipn (length dir + 1) p) as [|c q] eqn:S; [discriminate|]. intros H. injection H as <-. split; [discriminate|]. split.
    + intros IN. assert (existsb (N.eqb 47) (c :: q) = true) by (apply existsb_exists; exists 47; split; [exact IN|apply N.eqb_refl]). congruence.
    + rewrite <- (firstn_skipn (length dir + 1) p), E, S, <- app_assoc. reflexivity.
  - intros (A & B & ->). rewrite app_assoc, firstn_app, skipn_app.
    replace (length dir + 1 - length (dir ++ [47%N]))%nat with 0%nat by (rewrite app_length; cbn [length]; lia).
    rewrite firstn_all2, skipn_all2 by (rewrite app_length; cbn [length]; lia). cbn [firstn skipn app]. rewrite app_nil_r, bytes_eqb_refl.
    destruct (existsb (N.eqb 47) n) eqn:X.
    + apply existsb_exists in X as (y & Y1 & Y2). apply N.eqb_eq in Y2. subst y. contradiction.
    + destruct n; [congruence|reflexivity].
Qed.
Lemma clear_name which d dir p : stat_node d dir = Some Dir -> name (clear_dir which d dir) p =
  match name_in dir p with Some n => if which n then match name d p with Some Dir => Some Dir | _ => None end else name d p | None => name d p end.
Proof. intros H. unfold clear_dir. rewrite H. reflexivity. Qed.
Lemma clear_kept (P : bytes -> Prop) which d dir : (forall n, n <> [] -> ~ In 47 n -> which n = true -> P (dir ++ bs "/" ++ n)) -> kept P d (clear_dir which d dir).
Proof.
  intros H. unfold clear_dir. destruct (stat_node d dir) as [[i|t|]|]; try apply kept_refl. split; [|split; [auto|cbn; lia]].
  intros p HP. cbn [name]. destruct (name_in dir p) as [n|] eqn:E; [|reflexivity]. apply name_in_ok in E as (A & B & ->).
  destruct (which n) eqn:W; [|reflexivity]. exfalso. apply HP. now apply H.
Qed.
Lemma disc_ok_clear which d dir : disc_ok d -> disc_ok (clear_dir which d dir).
Proof.
  intros H. unfold clear_dir. destruct (stat_node d dir) as [[i|t|]|]; try exact H. intros p j. cbn [name fresh].
  destruct (name_in dir p) as [n|]; [|apply H]. destruct (which n); [|apply H]. pose proof (H p) as Hp. destruct (name d p) as [[i|t|]|]; discriminate.
Qed.
Lemma clear_keeps_dir which d dir x : stat_node d x = Some Dir -> (forall q, reaches d x q -> name d q = Some Dir \/ ~ (exists n, name_in dir q = Some n)) -> stat_node (clear_dir which d dir) x = Some Dir.
Proof.
  intros S H. rewrite <- S. apply stat_same. intros q Hq. unfold clear_dir. destruct (stat_node d dir) as [[i|t|]|]; try reflexivity.
  cbn [name]. destruct (name_in dir q) as [n|] eqn:E; [|reflexivity]. destruct (which n); [|reflexivity].
  destruct (H q Hq) as [H1|H1]; [now rewrite H1|]. exfalso. apply H1. eauto.
Qed.

(* ---- writing results ---- *)
(* After preparation a result name is free, or a directory. *)
Definition free_name (d : disc) (p : bytes) : Prop := name d p = None \/ name d p = Some Dir.
Lemma open_w_free d p : free_name d p ->
  open_w d p = match name d p with
    | None => Some (fresh d, {| name := name (set_name d p (Some (File (fresh d)))); data := data (set_data d (fresh d) []); fresh := fresh d + 1 |})
    | _ => None end.
Proof.
  intros H. unfold open_w. rewrite resolve_plain by (intros t; destruct H; congruence). destruct H as [-> | ->]; reflexivity.
Qed.
Lemma write_file_free d p b : free_name d p -> write_file d p b =
  match name d p with
  | None => set_data {| name := name (set_name d p (Some (File (fresh d)))); data := data (set_data d (fresh d) []); fresh := fresh d + 1 |} (fresh d) b
  | _ => d end.
Proof. intros H. unfold write_file. rewrite open_w_free by assumption. destruct H as [-> | ->]; reflexivity. Qed.
(* One step changes the name p only. *)
Definition only (p : bytes) : bytes -> Prop := fun q => q = p.
Lemma write_file_kept d p b : free_name d p -> disc_ok d -> kept (only p) d (write_file d p b) /\ disc_ok (write_file d p b).
Proof.
  intros H OK. rewrite write_file_free by assumption. destruct H as [E|E]; rewrite E; [|split; [apply kept_refl|assumption]].
  split.
  - split; [|split].
    + intros q Hq. cbn. apply bytes_eqb_neq in Hq. now rewrite Hq.
    + intros i Hi. cbn. destruct (i =? fresh d) eqn:X; [apply N.eqb_eq in X; lia|reflexivity].
    + cbn. lia.
  - intros q i. cbn. destruct (bytes_eqb q p); [intros X; injection X as <-; lia|]. intros X. apply OK in X. lia.
Qed.
Lemma create_symlink_kept hard d t p : disc_ok d -> kept (only p) d (create_symlink hard d t p) /\ disc_ok (create_symlink hard d t p).
Proof.
  intros OK. assert (L : forall e, disc_ok e -> kept (only p) e (snd (link e t p)) /\ disc_ok (snd (link e t p))).
  { intros e OE. unfold link. destruct (name e p) as [n|]; [split; [apply kept_refl|assumption]|]. destruct (name e t) as [[i|u|]|] eqn:E; cbn [snd].
    - split; [now apply kept_set|]. apply disc_ok_set; [assumption|]. intros j X. injection X as <-. eapply OE. exact E.
    - split; [now apply kept_set|]. apply disc_ok_set; [assumption|discriminate].
    - split; [apply kept_refl|assumption].
    - split; [apply kept_refl|assumption]. }
  unfold create_symlink. destruct hard; [now apply L|]. unfold symlink. destruct (name d p) as [n|]; [split; [apply kept_refl|assumption]|].
  destruct (L (set_name d p (Some (Link t)))) as [A B]; [apply disc_ok_set; [assumption|discriminate]|]. split; [|exact B].
  eapply kept_trans; [|exact A]. now apply kept_set.
Qed.
