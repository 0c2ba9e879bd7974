(* The rc file: keywords, values and lines. *)
From Verif Require Import Base M_Config S_Config L_TokTable L_Config.
Local Open Scope N_scope.

(* ---- keywords ---- *)
Fixpoint compat (k key : bytes) : bool :=
  match k, key with x :: k1, y :: key1 => (x =? y) && compat k1 key1 | _, _ => true end.
Fixpoint prefixb (key k : bytes) : bool :=
  match key, k with [], _ => true | x :: key1, y :: k1 => (y =? x) && prefixb key1 k1 | _, _ => false end.
Lemma is_key_no k' : forall v key, compat (map tolower k') key = false -> is_key (k' ++ v) key = false.
Proof.
  unfold is_key. induction k' as [|x k' IH]; intros v [|y key] H; try discriminate.
  cbn [map compat length app firstn bytes_eqb] in *. apply andb_false_iff in H as [H|H]; [now rewrite H|]. rewrite (IH v key H). apply andb_false_r.
Qed.
Lemma is_key_yes key : forall k' v, prefixb key (map tolower k') = true -> is_key (k' ++ v) key = true.
Proof.
  unfold is_key. induction key as [|y key IH]; intros [|x k'] v H; try discriminate; try reflexivity.
  cbn [map prefixb length app firstn bytes_eqb] in *. apply andb_true_iff in H as [-> H]. now apply IH.
Qed.
Lemma is_key_begins key : forall p, is_key p key = true <-> begins key p.
Proof.
  unfold is_key, begins. intros p. rewrite bytes_eqb_eq. split.
  - intros E. exists (firstn (length key) p), (skipn (length key) p). split; [now rewrite firstn_skipn|exact E].
  - intros (k & s & -> & <-). rewrite map_length, firstn_app, firstn_all, Nat.sub_diag. cbn [firstn]. now rewrite app_nil_r.
Qed.
Lemma is_key_not key p : ~ begins key p -> is_key p key = false.
Proof. rewrite <- is_key_begins. destruct (is_key p key); intuition congruence. Qed.

Lemma tolower_eq x : tolower x = ch "=" -> x = ch "=".
Proof. unfold tolower, isupper. intros H. change (ch "=") with 61 in *. destruct ((65 <=? x) && (x <=? 90)) eqn:E; lia. Qed.
Lemma eq_tolower : tolower (ch "=") = ch "=".
Proof. reflexivity. Qed.

Section Rc.
Variable env : bytes -> option bytes.
Variable pw_dir : bytes.
Variable alnum : N -> bool.
Notation home := (home_dir env pw_dir).
Notation ex := (expands env home alnum true).
Notation exs := (expand_string env pw_dir alnum).

Definition one_equals (k : bytes) : bool := match rev k with e :: k0 => (e =? ch "=") && forallb (fun x => negb (x =? ch "=")) k0 | [] => false end.
Lemma copy_value_ok k' v : one_equals (map tolower k') = true -> copy_value env pw_dir alnum (k' ++ v) = let! r := exs v in Ok (Some r).
Proof.
  unfold one_equals. rewrite <- map_rev. destruct (rev k') as [|e k0] eqn:R; cbn [map]; [discriminate|]. intros H. apply andb_true_iff in H as [H1 H2].
  apply N.eqb_eq in H1. apply tolower_eq in H1. subst e. assert (E : k' = rev k0 ++ [ch "="]) by (rewrite <- (rev_involutive k'), R; reflexivity). subst k'.
  unfold copy_value. rewrite <- app_assoc. cbn [app]. rewrite span_app; [reflexivity| |].
  - unfold all_good. apply Forall_forall. intros x I. apply in_rev in I. rewrite forallb_forall in H2. specialize (H2 (tolower x) (in_map _ _ _ I)).
    destruct (N.eqb_spec x (ch "=")) as [->|]; [|reflexivity]. rewrite eq_tolower, N.eqb_refl in H2. discriminate.
  - intros c s [= <- _]. now rewrite N.eqb_refl.
Qed.

(* ---- options ---- *)
Definition add_text (c : config) (v : var) (t : bytes) : config :=
  set_text c v (Some match text_of c v with Some old => old ++ bs ":" ++ t | None => t end).
Definition with_format (c : config) (t : bytes) : config :=
  match find (fun x => is_key t (fst x)) formats with Some (_, f) => set_output c f | None => c end.
Definition with_effect (c : config) (e : effect) (t : bytes) : config :=
  match e with
  | Assign v => set_text c v (Some t)
  | Append v => add_text c v t
  | Symlinks => {| text_of := text_of c; symlinks := true; nochecks := nochecks c; by_date := by_date c; output := output c |}
  | Nochecks => {| text_of := text_of c; symlinks := symlinks c; nochecks := true; by_date := by_date c; output := output c |}
  | By_date => {| text_of := text_of c; symlinks := symlinks c; nochecks := nochecks c; by_date := true; output := output c |}
  | Format => with_format c t
  end.
Lemma add_folders_ok c v t : add_folders c v (Some t) = Ok (add_text c v t).
Proof. unfold add_folders, add_text. now destruct (text_of c v). Qed.
Lemma parse_output_ok c p t : copy_value env pw_dir alnum p = Ok (Some t) -> parse_output_folder env pw_dir alnum c p = Ok (with_format c t).
Proof.
  intros E. unfold parse_output_folder. rewrite E. cbn [bind]. unfold with_format, formats. cbn [find fst].
  repeat match goal with |- context [is_key t ?k] => destruct (is_key t k); [reflexivity|] end. reflexivity.
Qed.
Ltac keys := repeat match goal with
  | |- context [is_key (?a ++ ?b) ?k] =>
    first [rewrite (is_key_no a b k) by (match goal with H : map tolower a = _ |- _ => rewrite H; reflexivity end)
          |rewrite (is_key_yes k a b) by (match goal with H : map tolower a = _ |- _ => rewrite H; reflexivity end)]
  end.
Lemma option_line_ok c k e k' v t : In (k, e) keywords -> map tolower k' = k -> ex v t ->
  option_line env pw_dir alnum c (k' ++ v) = Ok (with_effect c e t).
Proof.
  intros I E X. apply expand_ok in X. unfold keywords in I. cbn [In] in I.
  repeat (destruct I as [I|I]; [injection I as <- <-; unfold option_line; keys; cbn [with_effect];
    first [reflexivity
          |rewrite copy_value_ok by (rewrite E; reflexivity); rewrite X; cbn [bind]; first [reflexivity|apply add_folders_ok]
          |apply parse_output_ok; rewrite copy_value_ok by (rewrite E; reflexivity); rewrite X; reflexivity]|]).
  contradiction.
Qed.
Lemma unknown_line_ok c p : ~ begins (bs "base") p -> ~ begins (bs "folders") p -> (forall k e, In (k, e) keywords -> ~ begins k p) ->
  option_line env pw_dir alnum c p = Ok c.
Proof.
  intros B F K. unfold option_line. rewrite (is_key_not _ _ B), (is_key_not _ _ F).
  repeat match goal with |- context [is_key p ?k] => rewrite (is_key_not k p) by (eapply K; unfold keywords; cbn [In]; intuition reflexivity) end. reflexivity.
Qed.
End Rc.
