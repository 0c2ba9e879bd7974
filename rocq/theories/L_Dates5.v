(* Lemmas about dates.c: which strings are accepted. *)
From Coq Require Import Lia.
From Verif Require Import Base M_Dates S_Dates L_TokTable L_Dates L_Dates2 L_Dates3.
Local Open Scope Z_scope.

Lemma digs_hyphen : forall w, digs w -> ~ In 45%N w.
Proof. intros w D H. unfold digs in D. rewrite Forall_forall in D. specialize (D _ H). cbn beta in D. lia. Qed.
Lemma months_hyphen : Forall (fun w : bytes => ~ In 45%N w) months.
Proof. apply Forall_forall. intros w H X. assert (C : forallb (fun w => negb (existsb (N.eqb 45) w)) months = true) by (vm_compute; reflexivity).
  rewrite forallb_forall in C. specialize (C _ H). apply Bool.negb_true_iff in C. rewrite <- Bool.not_true_iff_false in C. apply C.
  apply existsb_exists. exists 45%N. split; [exact X|reflexivity]. Qed.
Lemma month_hyphen : forall m w, month_word m w -> ~ In 45%N w.
Proof.
  intros m w [_ H] X. apply nth_error_In in H. pose proof months_hyphen as C. rewrite Forall_forall in C. apply (C _ H).
  apply in_map_iff. exists 45%N. split; [reflexivity|exact X].
Qed.
Lemma unit_hyphen : forall u, unit_letter u <> 45%N.
Proof. intros []; discriminate. Qed.
Lemma spells_hyphen : forall e w, spells e w -> ~ In 45%N w /\ w <> [].
Proof.
  intros e w SP.
  assert (D : forall d w, day_word d w -> ~ In 45%N w /\ w <> []) by (intros d w' H; destruct (day_ok d w' H) as (A & _ & _ & B); split; [now apply digs_hyphen|exact B]).
  assert (Y : forall d w, year_word d w -> ~ In 45%N w /\ w <> []) by (intros d w' H; destruct (year_ok d w' H) as (A & _ & _ & B & _); split; [now apply digs_hyphen|exact B]).
  assert (M : forall d w, month_word d w -> ~ In 45%N w /\ w <> []).
  { intros d w' H. split; [now apply (month_hyphen d)|]. destruct (month_word_ok d w' H) as (A & _). intros ->. discriminate. }
  assert (A : forall a b : bytes, ~ In 45%N a /\ a <> [] -> ~ In 45%N b /\ b <> [] -> ~ In 45%N (a ++ b) /\ a ++ b <> []).
  { intros a b [A1 A2] [B1 B2]. split; [intro X; apply in_app_or in X; tauto|]. destruct a; [congruence|discriminate]. }
  assert (T : forall n, 0 <= n <= 99 -> ~ In 45%N (two n) /\ two n <> []) by (intros n H; destruct (two_ok n H); split; [now apply digs_hyphen|discriminate]).
  assert (F : forall n, 0 <= n <= 9999 -> ~ In 45%N (four n) /\ four n <> []) by (intros n H; destruct (four_ok n H); split; [now apply digs_hyphen|discriminate]).
  destruct SP; eauto 6.
  apply A; [split; [now apply digs_hyphen|assumption]|]. split; [|discriminate]. intros [X|[]]. now apply (unit_hyphen u).
Qed.

Lemma split_none : forall s, ~ In 45%N s -> split_hyphen s = None.
Proof.
  induction s as [|c s IH]; intro H; [reflexivity|]. cbn [split_hyphen]. destruct (N.eqb_spec c 45); [subst; destruct H; now left|].
  rewrite IH; [reflexivity|]. intro X. apply H. now right.
Qed.
Lemma split_some : forall a b, ~ In 45%N a -> split_hyphen (a ++ 45%N :: b) = Some (a, b).
Proof.
  induction a as [|c a IH]; intros b H; [reflexivity|]. cbn [split_hyphen app]. destruct (N.eqb_spec c 45); [subst; destruct H; now left|].
  rewrite IH; [reflexivity|]. intro X. apply H. now right.
Qed.
Lemma split_inv : forall s a b, split_hyphen s = Some (a, b) -> s = a ++ 45%N :: b.
Proof.
  induction s as [|c s IH]; intros a b H; [discriminate|]. cbn [split_hyphen] in H. destruct (N.eqb_spec c 45).
  - injection H as <- <-. subst. reflexivity.
  - destruct (split_hyphen s) as [[a' b']|]; [|discriminate]. injection H as <- <-. cbn [app]. f_equal. now apply IH.
Qed.

Lemma letter_unit : forall c v, scale v c <> Ok None -> exists u, c = unit_letter u /\
  scale v c = if 2 ^ 31 <=? v * unit_seconds u then Err E_ub else Ok (Some (v * unit_seconds u)).
Proof.
  intros c v H. unfold scale in *. destruct (N.eqb_spec c 100); [exists Days; subst; split; reflexivity|].
  destruct (N.eqb_spec c 119); [exists Weeks; subst; split; reflexivity|]. destruct (N.eqb_spec c 109); [exists Months; subst; split; reflexivity|].
  destruct (N.eqb_spec c 121); [exists Years; subst; split; reflexivity|]. now destruct H.
Qed.
Lemma unit_letter_ok : forall u v, letter (unit_letter u) = true /\ isdigit (unit_letter u) = false /\
  scale v (unit_letter u) = if 2 ^ 31 <=? v * unit_seconds u then Err E_ub else Ok (Some (v * unit_seconds u)).
Proof. intros [] v; repeat split. Qed.

(* A run of digits too long for an int. *)
Lemma digits_cases : forall w rest v, 0 <= v < 2 ^ 31 -> digs w -> no_digit_first rest ->
  fold_left (fun v c => v * 10 + (Z.of_N c - 48)) w v < 2 ^ 31 \/ digits_val v (w ++ rest) = Err E_ub.
Proof.
  induction w as [|c w IH]; intros rest v V D N.
  - left. apply V.
  - cbn [fold_left app digits_val]. pose proof (Forall_inv D) as C. cbn beta in C. rewrite (proj2 (isdigit_ok c) C). cbv zeta.
    destruct (Z.leb_spec (2 ^ 31) (v * 10 + (Z.of_N c - 48))); [now right|]. apply IH; [lia|exact (Forall_inv_tail D)|exact N].
Qed.
Lemma number_cases : forall w rest, digs w -> no_digit_first rest -> number w < 2 ^ 31 \/ digits_val 0 (w ++ rest) = Err E_ub.
Proof. intros. apply digits_cases; [split; [lia|reflexivity]|assumption|assumption]. Qed.

Lemma digits_back : forall n s, accepts (blk_digits n) s -> digs s /\ length s = n.
Proof.
  intros n s (l & [<-|[]] & F). revert s F. induction n as [|n IH]; intros [|c s] F; try discriminate; [split; [constructor|reflexivity]|].
  cbn [repeat fits] in F. apply andb_prop in F. destruct F as [C F]. destruct (IH s F) as [D <-]. split; [|reflexivity].
  apply rng_in in C. constructor; [lia|exact D].
Qed.
Lemma six_back : forall s, accepts (blk_digits 6) s -> exists e, spells e s /\ in_range e.
Proof.
  intros s A. destruct (digits_back 6 s A) as [D L]. destruct s as [|a [|b [|c [|d [|e [|f [|? ?]]]]]]]; try discriminate.
  unfold digs in D. rewrite !Forall_cons_iff in D. destruct D as (Da & Db & Dc & Dd & De & Df & _).
  change [a; b; c; d; e; f] with ([a; b] ++ [c; d] ++ [e; f]). rewrite (two_back a b), (two_back c d), (two_back e f) by assumption.
  eexists. split; [apply sp_date6; lia|exact Logic.I].
Qed.
Lemma eight_back : forall s, accepts (blk_digits 8) s -> exists e, spells e s /\ in_range e.
Proof.
  intros s A. destruct (digits_back 8 s A) as [D L]. destruct s as [|a [|b [|c [|d [|e [|f [|g [|h [|? ?]]]]]]]]]; try discriminate.
  unfold digs in D. rewrite !Forall_cons_iff in D. destruct D as (Da & Db & Dc & Dd & De & Df & Dg & Dh & _).
  change [a; b; c; d; e; f; g; h] with ([a; b; c; d] ++ [e; f] ++ [g; h]). rewrite (four_back a b c d), (two_back e f), (two_back g h) by assumption.
  eexists. split; [apply sp_date8; lia|exact Logic.I].
Qed.
Lemma short_number : forall s, digs s -> (length s <= 8)%nat -> number s < 2 ^ 31.
Proof.
  assert (G : forall s v, digs s -> 0 <= v -> fold_left (fun v c => v * 10 + (Z.of_N c - 48)) s v < (v + 1) * 10 ^ Z.of_nat (length s)).
  { induction s as [|c s IH]; intros v D V; cbn [fold_left length]; [cbn; lia|]. pose proof (Forall_inv D) as C. cbn beta in C.
    specialize (IH (v * 10 + (Z.of_N c - 48)) (Forall_inv_tail D) ltac:(lia)). rewrite Nat2Z.inj_succ, Z.pow_succ_r by lia.
    assert (0 < 10 ^ Z.of_nat (length s)) by (apply Z.pow_pos_nonneg; lia). nia. }
  intros s D L. specialize (G s 0 D ltac:(lia)). unfold number. eapply Z.lt_le_trans; [exact G|]. apply Z.le_trans with (10 ^ 8); [|now vm_compute].
  rewrite Z.mul_1_l. apply Z.pow_le_mono_r; lia.
Qed.
Lemma day_small : forall d w, day_word d w -> digs w /\ number w < 2 ^ 31.
Proof. intros d w H. destruct (day_ok d w H) as (A & B & C & _). split; [exact A|]. rewrite B. change (2 ^ 31) with 2147483648. lia. Qed.
Lemma year_small : forall d w, year_word d w -> digs w /\ number w < 2 ^ 31.
Proof. intros d w H. destruct (year_ok d w H) as (A & _ & C & _). split; [exact A|]. change (2 ^ 31) with 2147483648. lia. Qed.
Definition day_blk (a : list (list cls)) : Prop := a = blk_one \/ a = blk_day.
Definition year_blk (a : list (list cls)) : Prop := a = blk_year \/ a = blk_ccyy.
Lemma day_blk_ok : forall a s, day_blk a -> accepts a s -> exists d, day_word d s.
Proof. intros a s [-> | ->]; [apply one_back|apply day_back]. Qed.
Lemma year_blk_ok : forall a s, year_blk a -> accepts a s -> exists d, year_word d s.
Proof. intros a s [-> | ->]; [apply year_back|apply ccyy_back]. Qed.
Lemma nil_small : digs [] /\ number [] < 2 ^ 31.
Proof. split; [constructor|reflexivity]. Qed.
Lemma day_blk_small : forall a w, day_blk a -> accepts a w -> digs w /\ number w < 2 ^ 31.
Proof. intros a w B H. destruct (day_blk_ok a w B H) as [d H']. now apply (day_small d). Qed.
Lemma year_blk_small : forall a w, year_blk a -> accepts a w -> digs w /\ number w < 2 ^ 31.
Proof. intros a w B H. destruct (year_blk_ok a w B H) as [d H']. now apply (year_small d). Qed.
Lemma kind_cases : forall a t, In (a, t) rules ->
  day_blk a /\ t <> DS_SCALED \/ year_blk a /\ t <> DS_SCALED \/ (a = blk_digits 6 \/ a = blk_digits 8) /\ t <> DS_SCALED \/ a = blk_month /\ t <> DS_SCALED \/
  (exists b, a = seq b blk_month /\ (day_blk b \/ year_blk b)) /\ t <> DS_SCALED \/ (exists b, a = seq blk_month b /\ (day_blk b \/ year_blk b)) /\ t <> DS_SCALED \/
  (exists b c, a = seq (seq b blk_month) c /\ (day_blk b /\ year_blk c \/ year_blk b /\ day_blk c)) /\ t <> DS_SCALED.
Proof.
  intros a t H. unfold rules in H. cbn [In] in H.
  assert (O : forall a, a = blk_one -> day_blk a) by (now left). assert (D : forall a, a = blk_day -> day_blk a) by (now right).
  assert (Y : forall a, a = blk_year -> year_blk a) by (now left). assert (C : forall a, a = blk_ccyy -> year_blk a) by (now right).
  pose proof (O _ eq_refl) as O'. pose proof (D _ eq_refl) as D'. pose proof (Y _ eq_refl) as Y'. pose proof (C _ eq_refl) as C'. clear O D Y C.
  assert (N1 : DS_D <> DS_SCALED) by discriminate. assert (N2 : DS_Y <> DS_SCALED) by discriminate. assert (N3 : DS_YYMMDD <> DS_SCALED) by discriminate.
  assert (N4 : DS_M <> DS_SCALED) by discriminate. assert (N5 : DS_DM <> DS_SCALED) by discriminate. assert (N6 : DS_MD <> DS_SCALED) by discriminate.
  assert (N7 : DS_YM <> DS_SCALED) by discriminate. assert (N8 : DS_MY <> DS_SCALED) by discriminate. assert (N9 : DS_YMD <> DS_SCALED) by discriminate.
  assert (N10 : DS_DMY <> DS_SCALED) by discriminate.
  Ltac eqs H := apply pair_equal_spec in H; destruct H as [<- <-].
  destruct H as [H|H]; [eqs H; left; auto|]. destruct H as [H|H]; [eqs H; left; auto|].
  destruct H as [H|H]; [eqs H; right; left; auto|]. destruct H as [H|H]; [eqs H; right; left; auto|].
  destruct H as [H|H]; [eqs H; do 2 right; left; auto|]. destruct H as [H|H]; [eqs H; do 2 right; left; auto|].
  destruct H as [H|H]; [eqs H; do 3 right; left; auto|].
  Ltac fr N := do 4 right; left; split; [eexists; split; [reflexivity|auto]|exact N].
  Ltac bk N := do 5 right; left; split; [eexists; split; [reflexivity|auto]|exact N].
  Ltac bo N := do 6 right; split; [eexists; eexists; split; [reflexivity|auto]|exact N].
  destruct H as [H|H]; [eqs H; fr N5|]. destruct H as [H|H]; [eqs H; fr N5|].
  destruct H as [H|H]; [eqs H; bk N6|]. destruct H as [H|H]; [eqs H; bk N6|].
  destruct H as [H|H]; [eqs H; fr N7|]. destruct H as [H|H]; [eqs H; bk N8|].
  destruct H as [H|H]; [eqs H; fr N7|]. destruct H as [H|H]; [eqs H; bk N8|].
  destruct H as [H|H]; [eqs H; bo N9|]. destruct H as [H|H]; [eqs H; bo N9|].
  destruct H as [H|H]; [eqs H; bo N10|]. destruct H as [H|H]; [eqs H; bo N10|].
  destruct H as [H|H]; [eqs H; bo N9|]. destruct H as [H|H]; [eqs H; bo N9|].
  destruct H as [H|H]; [eqs H; bo N10|]. destruct H as [H|H]; [eqs H; bo N10|].
  destruct H.
Qed.

Section Expr.
Context (localtime : Z -> tm) (now : Z) (first : bool) (x : tm).
Let scan := scan_date_expr localtime now first.
Lemma expr_ago : forall w u, w <> [] -> digs w -> number w * unit_seconds u < 2 ^ 31 ->
  scan (w ++ [unit_letter u]) x = Ok (Some (localtime (now - number w * unit_seconds u))).
Proof.
  intros w u NE D R. destruct (unit_letter_ok u (number w)) as (L & ND & S). unfold scan, scan_date_expr, discover_type.
  rewrite (scaled_ok w _ NE D L). assert (N0 : 0 <= number w) by (apply (val_from w 0); [lia|exact D]).
  rewrite digits_val_number; [|exact D|exact ND|]. 2: { assert (86400 <= unit_seconds u) by (destruct u; cbn; lia). revert R. generalize (2 ^ 31). intros. nia. }
  cbn [bind]. rewrite S. destruct (Z.leb_spec (2 ^ 31) (number w * unit_seconds u)); [lia|]. reflexivity.
Qed.
Lemma expr_ago_over : forall w u, w <> [] -> digs w -> 2 ^ 31 <= number w * unit_seconds u -> scan (w ++ [unit_letter u]) x = Err E_ub.
Proof.
  intros w u NE D R. destruct (unit_letter_ok u (number w)) as (L & ND & S). unfold scan, scan_date_expr, discover_type.
  rewrite (scaled_ok w _ NE D L). destruct (number_cases w [unit_letter u] D ND) as [C|C]; [|rewrite C; reflexivity].
  rewrite digits_val_number; [|exact D|exact ND|exact C]. cbn [bind]. rewrite S. destruct (Z.leb_spec (2 ^ 31) (number w * unit_seconds u)); [reflexivity|lia].
Qed.

(* What can come of any string. *)
Definition settled (s : bytes) : Prop :=
  scan s x = Ok None \/ scan s x = Err E_ub \/ exists y e, scan s x = Ok (Some y) /\ spells e s /\ in_range e.
Lemma month_form : forall t a m b, discover_type (a ++ m ++ b) = Some t -> t <> DS_SCALED -> digs a -> number a < 2 ^ 31 -> digs b -> number b < 2 ^ 31 ->
  accepts blk_month m -> (forall k, month_word k m -> exists e, spells e (a ++ m ++ b) /\ in_range e) -> settled (a ++ m ++ b).
Proof.
  intros t a m b T NS Da Na Db Nb Lm SP. destruct (letters_back m Lm) as [L ND]. unfold settled, scan.
  destruct (Z.eq_dec (match_month (m ++ b)) 0) as [Z0|Z0].
  - left. unfold scan_date_expr. rewrite T. rewrite digits_val_number; [|exact Da|apply ND|exact Na]. cbn [bind].
    destruct (m ++ b) as [|c r] eqn:E; [destruct m; [discriminate|discriminate]|]. rewrite Z0. destruct t; try reflexivity. congruence.
  - right. right. pose proof (month_back m b L Z0) as MW. destruct (SP _ MW) as (e & E1 & E2).
    eexists. exists e. split; [|split; assumption]. eapply expr_month; eassumption.
Qed.
Lemma digit_form : forall t w e, discover_type w = Some t -> t <> DS_SCALED -> digs w -> number w < 2 ^ 31 -> spells e w -> in_range e -> settled w.
Proof. intros t w e T NS D N S R. right. right. eexists. exists e. split; [eapply expr_digits; eassumption|]. auto. Qed.
Lemma front_form : forall t a s, discover_type s = Some t -> t <> DS_SCALED -> accepts (seq a blk_month) s ->
  (forall w, accepts a w -> digs w /\ number w < 2 ^ 31) ->
  (forall w k m, accepts a w -> month_word k m -> exists e, spells e (w ++ m) /\ in_range e) -> settled s.
Proof.
  intros t a s T NS A D SP. destruct (accepts_seq _ _ _ A) as (u & v & -> & Au & Av). destruct (D u Au) as [D1 D2].
  rewrite <- (app_nil_r v) in *. apply (month_form t); try assumption; try apply nil_small; rewrite app_nil_r in *; [exact Av|].
  intros k M. apply (SP u k v); assumption.
Qed.
Lemma back_form : forall t a s, discover_type s = Some t -> t <> DS_SCALED -> accepts (seq blk_month a) s ->
  (forall w, accepts a w -> digs w /\ number w < 2 ^ 31) ->
  (forall w k m, accepts a w -> month_word k m -> exists e, spells e (m ++ w) /\ in_range e) -> settled s.
Proof.
  intros t a s T NS A D SP. destruct (accepts_seq _ _ _ A) as (u & v & -> & Au & Av). destruct (D v Av) as [D1 D2].
  apply (month_form t [] u v); try assumption; try apply nil_small.
  intros k M. apply (SP v k u); assumption.
Qed.
Lemma both_form : forall t a b s, discover_type s = Some t -> t <> DS_SCALED -> accepts (seq (seq a blk_month) b) s ->
  (forall w, accepts a w -> digs w /\ number w < 2 ^ 31) -> (forall w, accepts b w -> digs w /\ number w < 2 ^ 31) ->
  (forall w k m w', accepts a w -> month_word k m -> accepts b w' -> exists e, spells e (w ++ m ++ w') /\ in_range e) -> settled s.
Proof.
  intros t a b s T NS A D D' SP. destruct (accepts_seq _ _ _ A) as (u & v & -> & Au & Av). destruct (accepts_seq _ _ _ Au) as (u' & m & -> & Au' & Am).
  destruct (D u' Au') as [D1 D2], (D' v Av) as [D3 D4]. rewrite <- app_assoc in *.
  apply (month_form t u' m v); try assumption. intros k M. apply (SP u' k m v); assumption.
Qed.
Lemma expr_settled : forall s, settled s.
Proof.
  intro s. destruct (discover_type s) as [t|] eqn:T; [|left; unfold scan, scan_date_expr; now rewrite T].
  destruct (type_some s t T) as [[-> SC]|(a & Ha & ACC)].
  - destruct (scaled_inv s SC) as (w & c & -> & NE & D & L). unfold settled, scan, scan_date_expr. rewrite T.
    assert (ND : isdigit c = false) by (unfold letter, rng, isdigit in *; apply Bool.not_true_is_false; intro X; rewrite orb_true_iff, !andb_true_iff, !N.leb_le in *; lia).
    destruct (number_cases w [c] D ND) as [N|N]; [|right; left; now rewrite N]. rewrite digits_val_number; [|exact D|exact ND|exact N]. cbn [bind].
    destruct (scale (number w) c) as [[v|]|er] eqn:E.
    + destruct (letter_unit c (number w) ltac:(congruence)) as (u & -> & S). rewrite E in S. destruct (Z.leb_spec (2 ^ 31) (number w * unit_seconds u)) as [R|R]; [discriminate|].
      right. right. eexists. exists (X_ago (number w) u). split; [reflexivity|]. split; [now constructor|exact R].
    + left. reflexivity.
    + destruct (letter_unit c (number w) ltac:(congruence)) as (u & -> & S). rewrite E in S. destruct (Z.leb_spec (2 ^ 31) (number w * unit_seconds u)) as [R|R]; [|discriminate].
      right. left. now injection S as ->.
  - destruct (kind_cases a t Ha) as [[B NS]|[[B NS]|[[B NS]|[[-> NS]|[[(b & -> & B) NS]|[[(b & -> & B) NS]|[(b & c & -> & B) NS]]]]]]].
    + destruct (day_blk_ok a s B ACC) as [d W]. destruct (day_small d s W). apply (digit_form t s (X_day d)); try assumption; [now constructor|exact Logic.I].
    + destruct (year_blk_ok a s B ACC) as [d W]. destruct (year_small d s W). apply (digit_form t s (X_year d)); try assumption; [now constructor|exact Logic.I].
    + assert (X : digs s /\ (length s <= 8)%nat /\ exists e, spells e s /\ in_range e)
        by (destruct B as [-> | ->]; destruct (digits_back _ s ACC) as [D L]; (split; [exact D|split; [lia|]]); [now apply six_back|now apply eight_back]).
      destruct X as (D & L & e & E1 & E2). apply (digit_form t s e); try assumption. now apply short_number.
    + assert (X : settled ([] ++ s ++ [])).
      { apply (month_form t); try apply nil_small; try assumption; cbn [app]; rewrite ?app_nil_r; try assumption. intros k M. exists (X_month k). split; [now constructor|exact Logic.I]. }
      cbn [app] in X. now rewrite app_nil_r in X.
    + apply (front_form t b); try assumption.
      * intros w Aw. destruct B as [B|B]; [now apply (day_blk_small b)|now apply (year_blk_small b)].
      * intros w k m Aw M. destruct B as [B|B].
        -- destruct (day_blk_ok b w B Aw) as [d W]. exists (X_month_day k d). split; [now constructor|exact Logic.I].
        -- destruct (year_blk_ok b w B Aw) as [d W]. exists (X_month_year k d). split; [now constructor|exact Logic.I].
    + apply (back_form t b); try assumption.
      * intros w Aw. destruct B as [B|B]; [now apply (day_blk_small b)|now apply (year_blk_small b)].
      * intros w k m Aw M. destruct B as [B|B].
        -- destruct (day_blk_ok b w B Aw) as [d W]. exists (X_month_day k d). split; [now constructor|exact Logic.I].
        -- destruct (year_blk_ok b w B Aw) as [d W]. exists (X_month_year k d). split; [now constructor|exact Logic.I].
    + apply (both_form t b c); try assumption.
      * intros w Aw. destruct B as [[B _]|[B _]]; [now apply (day_blk_small b)|now apply (year_blk_small b)].
      * intros w Aw. destruct B as [[_ B]|[_ B]]; [now apply (year_blk_small c)|now apply (day_blk_small c)].
      * intros w k m w' Aw M Aw'. destruct B as [[B C]|[B C]].
        -- destruct (day_blk_ok b w B Aw) as [d W], (year_blk_ok c w' C Aw') as [y W']. exists (X_date y k d). split; [now constructor|exact Logic.I].
        -- destruct (year_blk_ok b w B Aw) as [y W], (day_blk_ok c w' C Aw') as [d W']. exists (X_date y k d). split; [now constructor|exact Logic.I].
Qed.
End Expr.
