(* Sets of states as rows of bits, and the closure under epsilon transitions. *)
From Coq Require Import Permutation Sorted.
From Verif Require Import Base M_Charclass M_Dfasyn M_Compdfa S_Dfasyn L_Charclass L_Charclass2.
From Verif Require L_Glob.
Local Open Scope nat_scope.

Definition has (x : list N) (m : nat) : bool := N.testbit (nth (m / 32) x 0%N) (N.of_nat (m mod 32)).
Lemma is_set_has x m : is_set x m = has x m.
Proof. unfold is_set, has. rewrite N.shiftl_1_l. apply L_Glob.land_pow2. Qed.
Definition row_ok (n : nat) (x : list N) : Prop := length x = round_up n /\ forall i k, N.testbit (nth i x 0%N) k = true -> (k < 32)%N /\ i * 32 + N.to_nat k < n.
Lemma has_lt n x m : row_ok n x -> has x m = true -> m < n.
Proof. intros [L H] T. apply H in T. lia. Qed.
Lemma has_at x i j : j < 32 -> has x (i * 32 + j) = N.testbit (nth i x 0%N) (N.of_nat j).
Proof. intros J. unfold has. replace ((i * 32 + j) / 32) with i by lia. replace ((i * 32 + j) mod 32) with j by lia. reflexivity. Qed.
Lemma row_ext n x y : row_ok n x -> row_ok n y -> (forall m, has x m = has y m) -> x = y.
Proof.
  intros [L H] [L' H'] E. apply nth_ext with (d := 0%N) (d' := 0%N); [lia|]. intros i I. apply N.bits_inj. intros k.
  destruct (N.lt_ge_cases k 32) as [K|K].
  - specialize (E (i * 32 + N.to_nat k)). rewrite !has_at in E by lia. rewrite N2Nat.id in E. exact E.
  - destruct (N.testbit (nth i x 0%N) k) eqn:A; [apply H in A; lia|]. destruct (N.testbit (nth i y 0%N) k) eqn:B; [apply H' in B; lia|]. reflexivity.
Qed.
Lemma zero_bits n i : nth i (repeat 0%N n) 0%N = 0%N.
Proof. revert i. induction n; intros [|i]; cbn; auto. Qed.
Lemma zero_ok n : row_ok n (repeat 0%N (round_up n)).
Proof. split; [apply repeat_length|]. intros i k H. rewrite zero_bits, N.bits_0 in H. discriminate. Qed.
Lemma zero_has r m : has (repeat 0%N r) m = false.
Proof. unfold has. rewrite zero_bits. apply N.bits_0. Qed.
Lemma or_has x y m : length x = length y -> has (or_row x y) m = has x m || has y m.
Proof. intros L. unfold has, or_row. rewrite nth_words by (exact L || reflexivity). apply N.lor_spec. Qed.
Lemma or_ok n x y : row_ok n x -> row_ok n y -> row_ok n (or_row x y).
Proof.
  intros [L H] [L' H']. split; [unfold or_row; rewrite len_words; lia|]. intros i k. unfold or_row. rewrite nth_words by (lia || reflexivity). rewrite N.lor_spec, orb_true_iff.
  intros [A|A]; [apply H|apply H']; exact A.
Qed.
Lemma diff_has x y m : length x = length y -> has (words N.ldiff x y) m = has x m && negb (has y m).
Proof. intros L. unfold has. rewrite nth_words by (exact L || reflexivity). apply N.ldiff_spec. Qed.
Lemma diff_ok n x y : row_ok n x -> row_ok n y -> row_ok n (words N.ldiff x y).
Proof.
  intros [L H] [L' H']. split; [rewrite len_words; lia|]. intros i k. rewrite nth_words by (lia || reflexivity). rewrite N.ldiff_spec, andb_true_iff. intros [A _]. apply H. exact A.
Qed.
Lemma set_row_has x d m : d / 32 < length x -> has (row_set x d) m = has x m || (m =? d).
Proof.
  intros L. unfold has, row_set. rewrite cc_set_nth by exact L. destruct (d / 32 =? m / 32) eqn:E.
  - rewrite N.lor_spec, N.shiftl_1_l, N.pow2_bits_eqb. apply Nat.eqb_eq in E. rewrite E. f_equal. lia.
  - replace (m =? d) with false by lia. rewrite orb_false_r. reflexivity.
Qed.
Lemma set_row_ok n x d : d < n -> row_ok n x -> row_ok n (row_set x d).
Proof.
  intros D [L H]. split; [unfold row_set; rewrite cc_set_len; exact L|]. assert (d / 32 < length x) by (rewrite L; unfold round_up; lia).
  intros i k. unfold row_set. rewrite cc_set_nth by assumption. destruct (d / 32 =? i) eqn:E; [|apply H].
  rewrite N.lor_spec, N.shiftl_1_l, N.pow2_bits_eqb, orb_true_iff. intros [A|A]; [apply Nat.eqb_eq in E; rewrite E in A; apply H; exact A|]. lia.
Qed.
Lemma any_has n x : row_ok n x -> existsb (fun w => negb (w =? 0)%N) x = true <-> exists m, has x m = true.
Proof.
  intros [L H]. rewrite existsb_exists. split.
  - intros (w & I & Hw). apply (In_nth _ _ 0%N) in I. destruct I as (i & I & E). apply neqb_bit in Hw. destruct Hw as [k K]. rewrite <- E in K.
    exists (i * 32 + N.to_nat k). pose proof (H _ _ K). rewrite has_at by lia. rewrite N2Nat.id. exact K.
  - intros (m & T). exists (nth (m / 32) x 0%N). split.
    + apply nth_In. destruct (Nat.lt_ge_cases (m / 32) (length x)) as [A|A]; [exact A|]. unfold has in T. rewrite nth_overflow in T by exact A. rewrite N.bits_0 in T. discriminate.
    + apply neqb_bit. eexists. exact T.
Qed.
Lemma zero_word_ok n x i : row_ok n x -> row_ok n (set_nth x i 0%N).
Proof.
  intros [L H]. split; [rewrite cc_set_len; exact L|]. intros j k. destruct (Nat.lt_ge_cases i (length x)) as [A|A].
  - rewrite cc_set_nth by exact A. destruct (i =? j); [rewrite N.bits_0; discriminate|apply H].
  - replace (set_nth x i 0%N) with x; [apply H|]. clear - A. revert i A. induction x as [|w x IH]; intros [|i] A; cbn in *; try lia; auto. f_equal. apply IH. lia.
Qed.
Lemma zero_word_has x i m : i < length x -> has (set_nth x i 0%N) m = has x m && negb (m / 32 =? i).
Proof.
  intros A. unfold has. rewrite cc_set_nth by exact A. rewrite (Nat.eqb_sym (m / 32)). destruct (i =? m / 32); cbn [negb]; [rewrite andb_false_r; apply N.bits_0|rewrite andb_true_r; reflexivity].
Qed.
Definition sub (x y : list N) : Prop := forall m, has x m = true -> has y m = true.
Definition card (n : nat) (x : list N) : nat := length (filter (has x) (seq 0 n)).
Lemma card_le n x : card n x <= n.
Proof. unfold card. etransitivity; [apply filter_le|]. rewrite seq_length. lia. Qed.
Lemma card_more n x y m : row_ok n y -> sub x y -> has y m = true -> has x m = false -> card n x < card n y.
Proof. intros O H T F. unfold card. apply (filter_less (has y) (has x) (seq 0 n) m); auto. apply in_seq. pose proof (has_lt _ _ _ O T). lia. Qed.

(* One row: what can be reached from a state. *)
Section Row.
Variables (eclo : list (list N)) (from n : nat) (P : nat -> Prop).
Hypothesis rows : forall m, m < n -> row_ok n (nth m eclo []).
Hypothesis closed : forall m q, P m -> m < n -> has (nth m eclo []) q = true -> P q.
Record inv (row0 : list N) (lo : nat) (pend : nat -> Prop) (row todo : list N) (any : bool) : Prop := {
  iv_row : row_ok n row;
  iv_todo : row_ok n todo;
  iv_sub : sub row0 row;
  iv_P : forall m, has row m = true -> P m;
  iv_todo_sub : sub todo row;
  iv_pend : forall m, pend m -> has row m = true;
  iv_cover : forall m, has row m = true -> has todo m = true \/ pend m \/ m = from \/ sub (nth m eclo []) row;
  iv_same : any = false -> row = row0 /\ forall m, has todo m = true -> lo <= m / 32;
  iv_more : any = true -> exists m, has row m = true /\ has row0 m = false }.
Lemma inv_merge row0 lo (pend pend' : nat -> Prop) row todo any m : inv row0 lo pend row todo any -> pend m -> (forall q, pend q -> q = m \/ pend' q) -> (forall q, pend' q -> pend q) ->
  let s := merge row todo (if m =? from then row else nth m eclo []) any in inv row0 lo pend' (fst (fst s)) (snd (fst s)) (snd s).
Proof.
  intros V Pm Q Q'. pose proof (iv_pend _ _ _ _ _ _ V m Pm) as Rm. pose proof (has_lt _ _ _ (iv_row _ _ _ _ _ _ V) Rm) as Lm.
  set (M := if m =? from then row else nth m eclo []).
  assert (OM : row_ok n M) by (unfold M; destruct (m =? from); [apply V|apply rows; exact Lm]).
  assert (PM : forall q, has M q = true -> P q).
  { unfold M. destruct (m =? from); [apply V|]. intros q. apply closed; [eapply iv_P; eassumption|exact Lm]. }
  pose proof (iv_row _ _ _ _ _ _ V) as OR. pose proof (iv_todo _ _ _ _ _ _ V) as OT.
  assert (L1 : length M = length row) by (destruct OM, OR; lia). assert (L2 : length todo = length (words N.ldiff M row)) by (rewrite len_words by exact L1; destruct OT, OM; lia).
  pose proof (diff_ok _ _ _ OM OR) as OD.
  unfold merge. cbn [fst snd]. fold M. constructor.
  - apply or_ok; assumption.
  - apply or_ok; assumption.
  - intros q T. rewrite or_has by lia. rewrite (iv_sub _ _ _ _ _ _ V q T). reflexivity.
  - intros q. rewrite or_has by lia. rewrite orb_true_iff. intros [T|T]; [eapply iv_P; eassumption|apply PM; exact T].
  - intros q. rewrite !or_has, diff_has by lia. rewrite !orb_true_iff, andb_true_iff. intros [T|[T _]]; [left; eapply iv_todo_sub; eassumption|right; exact T].
  - intros q T. rewrite or_has by lia. rewrite (iv_pend _ _ _ _ _ _ V q (Q' q T)). reflexivity.
  - intros q. rewrite !or_has, diff_has by lia. rewrite !orb_true_iff, andb_true_iff. intros T. destruct (has row q) eqn:Rq.
    + destruct (iv_cover _ _ _ _ _ _ V q Rq) as [C|[C|[C|C]]]; [auto| |auto|].
      * destruct (Q q C) as [->|C']; [|auto]. destruct (Nat.eq_dec m from) as [->|Nf]; [auto|]. right. right. right.
        intros r Tr. rewrite or_has by lia. unfold M. replace (m =? from) with false by lia. rewrite Tr. apply orb_true_r.
      * right. right. right. intros r Tr. rewrite or_has by lia. rewrite (C r Tr). reflexivity.
    + destruct T as [T|T]; [discriminate|]. left. right. auto.
  - intros E. apply orb_false_iff in E. destruct E as [E1 E2]. destruct (iv_same _ _ _ _ _ _ V E1) as [-> Lo].
    assert (D : forall q, has M q && negb (has row0 q) = false).
    { intros q. destruct (has M q && negb (has row0 q)) eqn:X; [|reflexivity]. exfalso. rewrite <- diff_has in X by exact L1.
      assert (Y : existsb (fun d => negb (d =? 0)%N) (words N.ldiff M row0) = true) by (apply (any_has n); eauto). congruence. }
    split.
    + eapply row_ext; [apply or_ok; eassumption|exact OR|]. intros q. rewrite or_has by lia. specialize (D q). destruct (has M q), (has row0 q); auto.
    + intros q. rewrite or_has by lia. rewrite diff_has, D, orb_false_r by lia. apply Lo.
  - intros E. apply orb_true_iff in E. destruct E as [E|E].
    + destruct (iv_more _ _ _ _ _ _ V E) as (q & T & F). exists q. split; [|exact F]. rewrite or_has by lia. rewrite T. reflexivity.
    + apply (any_has n) in E; [|exact OD]. destruct E as [q T]. rewrite diff_has in T by exact L1. apply andb_true_iff in T. destruct T as [T F]. apply negb_true_iff in F.
      exists q. split; [rewrite or_has by lia; rewrite T; apply orb_true_r|]. destruct (has row0 q) eqn:X; [|reflexivity]. apply (iv_sub _ _ _ _ _ _ V) in X. congruence.
Qed.
Lemma inv_word row0 i row todo any : i < round_up n -> inv row0 i (fun _ => False) row todo any ->
  let s := close_word eclo from n i (row, todo, any) in inv row0 (S i) (fun _ => False) (fst (fst s)) (snd (fst s)) (snd s).
Proof.
  intros I V. unfold close_word. pose proof (iv_todo _ _ _ _ _ _ V) as OT. assert (Lt : i < length todo) by (destruct OT; lia).
  set (tt := nth i todo 0%N).
  assert (B : forall j, N.testbit tt (N.of_nat j) = true -> j < 32 /\ i * 32 + j < n) by (intros j T; apply OT in T; lia).
  assert (G : forall k a row todo any, a + k = Nat.min 32 (n - i * 32) -> inv row0 (S i) (fun q => exists j, a <= j /\ q = i * 32 + j /\ N.testbit tt (N.of_nat j) = true) row todo any ->
    let s := fold_left (fun (s : list N * list N * bool) j => let '(row, todo, any) := s in
      if N.testbit tt (N.of_nat j) then let m := (i * 32 + j)%nat in merge row todo (if (m =? from)%nat then row else nth m eclo []) any else s) (seq a k) (row, todo, any) in
    inv row0 (S i) (fun _ => False) (fst (fst s)) (snd (fst s)) (snd s)).
  { clearbody tt. clear - rows closed B. induction k as [|k IH]; intros a row todo any L V; cbn [seq fold_left].
    - cbn [fst snd]. destruct V. constructor; auto. intros m T. destruct (iv_cover0 m T) as [C|[(j & J & -> & C)|C]]; auto. pose proof (B j C). lia.
    - destruct (N.testbit tt (N.of_nat a)) eqn:E.
      + cbv zeta. set (m := i * 32 + a). pose proof (inv_merge _ _ _ (fun q => exists j, S a <= j /\ q = i * 32 + j /\ N.testbit tt (N.of_nat j) = true) _ _ _ m V) as M.
        cbv zeta in M. destruct (merge row todo (if m =? from then row else nth m eclo []) any) as [[row' todo'] any']. cbn [fst snd] in M. apply IH; [lia|]. apply M.
        * exists a. auto.
        * intros q (j & J & Eq & T). destruct (Nat.eq_dec j a) as [->|N]; [left; exact Eq|right; exists j; repeat split; try assumption; lia].
        * intros q (j & J & Eq & T). exists j. repeat split; try assumption; lia.
      + apply IH; [lia|]. destruct V. constructor; auto.
        * intros q (j & J & Eq & T). apply iv_pend0. exists j. repeat split; try assumption. lia.
        * intros q T. destruct (iv_cover0 q T) as [C|[(j & J & Eq & C)|C]]; auto. right. left. exists j. repeat split; try assumption. destruct (Nat.eq_dec j a) as [->|N]; [congruence|lia]. }
  apply G; [lia|]. destruct V. constructor; auto.
  - apply zero_word_ok. exact iv_todo0.
  - intros q. rewrite zero_word_has by exact Lt. rewrite andb_true_iff. intros [T _]. auto.
  - intros q (j & J & -> & T). apply iv_todo_sub0. pose proof (B j T). rewrite has_at by lia. exact T.
  - intros q T. rewrite zero_word_has by exact Lt. destruct (iv_cover0 q T) as [C|[C|C]]; [|contradiction|auto]. destruct (q / 32 =? i) eqn:E.
    + right. left. apply Nat.eqb_eq in E. exists (q mod 32). split; [lia|]. split; [lia|]. unfold has in C. rewrite E in C. exact C.
    + left. rewrite C. reflexivity.
  - intros E. destruct (iv_same0 E) as [-> Lo]. split; [reflexivity|]. intros q. rewrite zero_word_has by exact Lt. rewrite andb_true_iff. intros [T F]. apply Lo in T. lia.
Qed.
Lemma inv_pass row0 : forall k i row todo any, i + k = round_up n -> inv row0 i (fun _ => False) row todo any ->
  let s := fold_left (fun s i => close_word eclo from n i s) (seq i k) (row, todo, any) in inv row0 (round_up n) (fun _ => False) (fst (fst s)) (snd (fst s)) (snd s).
Proof.
  induction k as [|k IH]; intros i row todo any L V; cbn [seq fold_left].
  - cbn [fst snd]. replace (round_up n) with i by lia. exact V.
  - pose proof (inv_word _ i _ _ _ ltac:(lia) V) as W. cbv zeta in W. destruct (close_word eclo from n i (row, todo, any)) as [[row' todo'] any']. cbn [fst snd] in W. apply IH; [lia|exact W].
Qed.
Lemma close_row_ok : forall fuel row todo, n - card n row < fuel -> row_ok n row -> row_ok n todo -> (forall m, has row m = true -> P m) -> sub todo row ->
  (forall m, has row m = true -> has todo m = true \/ m = from \/ sub (nth m eclo []) row) ->
  exists row', close_row fuel eclo from n row todo = Ok row' /\ row_ok n row' /\ sub row row' /\ (forall m, has row' m = true -> P m) /\ (forall m, has row' m = true -> m = from \/ sub (nth m eclo []) row').
Proof.
  induction fuel as [|f IH]; intros row todo F Or Ot Pr Ts Cv; [lia|]. cbn [close_row].
  assert (V : inv row 0 (fun _ => False) row todo false).
  { constructor; auto; [intros m T; exact T| |intros _; split; [reflexivity|intros; lia]|discriminate]. intros m T. destruct (Cv m T) as [C|C]; auto. }
  pose proof (inv_pass row (round_up n) 0 row todo false eq_refl V) as W. cbv zeta in W.
  destruct (fold_left _ (seq 0 (round_up n)) (row, todo, false)) as [[row' todo'] any]. cbn [fst snd] in W. destruct any.
  - destruct (iv_more _ _ _ _ _ _ W eq_refl) as (q & T & Fq).
    pose proof (card_more n row row' q (iv_row _ _ _ _ _ _ W) (iv_sub _ _ _ _ _ _ W) T Fq) as Cm. pose proof (card_le n row').
    destruct (IH row' todo') as (row'' & E & A & B & C & D); [lia|apply W|apply W|apply W|apply W| |].
    + intros m Tm. destruct (iv_cover _ _ _ _ _ _ W m Tm) as [X|[X|X]]; auto.
    + exists row''. split; [exact E|]. split; [exact A|]. split; [|split; [exact C|exact D]]. intros m Tm. apply B. eapply iv_sub; eassumption.
  - exists row'. split; [reflexivity|]. split; [apply W|]. split; [apply W|]. split; [apply W|].
    intros m Tm. destruct (iv_cover _ _ _ _ _ _ W m Tm) as [X|[X|X]]; [exfalso|contradiction|exact X].
    pose proof (proj2 (iv_same _ _ _ _ _ _ W eq_refl) m X) as Lo. pose proof (has_lt _ _ _ (iv_todo _ _ _ _ _ _ W) X). unfold round_up in Lo. lia.
Qed.
End Row.

Inductive eps (b : block) : nat -> nat -> Prop :=
| eps_refl p : eps b p p
| eps_step p q r : edge b p TT_EPSILON q -> eps b q r -> eps b p r.
Lemma eps_trans b p q r : eps b p q -> eps b q r -> eps b p r.
Proof. induction 1; auto. intros H'. econstructor; eauto. Qed.

Lemma immediate_ok n : forall ts row row', (forall t, In t ts -> snd t < n) -> row_ok n row -> immediate row ts = Ok row' ->
  row_ok n row' /\ (forall m, has row' m = true <-> has row m = true \/ In (TT_EPSILON, m) ts) /\ (forall k d, ~ In (TT_CHARCLASS k, d) ts).
Proof.
  induction ts as [|[y d] ts IH]; intros row row' D O E; cbn [immediate] in E.
  - injection E as <-. split; [exact O|]. split; [intros m; cbn; tauto|intros k d []].
  - assert (Dd : d < n) by (apply (D (y, d)); left; reflexivity). assert (D' : forall t, In t ts -> snd t < n) by (intros; apply D; right; assumption).
    destruct y as [|t|k]; [| |discriminate].
    + apply IH in E; [|exact D'|apply set_row_ok; assumption]. destruct E as (A & B & C). split; [exact A|]. split.
      * intros m. rewrite B. rewrite set_row_has by (destruct O; unfold round_up in *; lia). rewrite orb_true_iff, Nat.eqb_eq. cbn. split; intros [X|X]; auto.
        -- destruct X as [X|X]; [auto|]. subst. auto.
        -- destruct X as [X|X]; [|auto]. injection X as ->. auto.
      * intros k e [X|X]; [discriminate|]. eapply C. exact X.
    + apply IH in E; [|exact D'|exact O]. destruct E as (A & B & C). split; [exact A|]. split.
      * intros m. rewrite B. cbn. split; intros [X|X]; auto. destruct X as [X|X]; [discriminate|auto].
      * intros k e [X|X]; [discriminate|]. eapply C. exact X.
Qed.
Lemma immediates_ok n : forall b i rows, (forall st t, In st b -> In t (transitions st) -> snd t < n) -> i + length b <= n -> immediates i n b = Ok rows ->
  length rows = length b /\ (forall k st, nth_error b k = Some st -> row_ok n (nth k rows []) /\ (forall m, has (nth k rows []) m = true <-> m = i + k \/ In (TT_EPSILON, m) (transitions st)) /\ (forall c d, ~ In (TT_CHARCLASS c, d) (transitions st))).
Proof.
  induction b as [|s b IH]; intros i rows D L E; cbn [immediates] in E.
  - injection E as <-. split; [reflexivity|]. intros [|k] st H; discriminate.
  - destruct (immediate (row_set (repeat 0%N (round_up n)) i) (transitions s)) as [row|] eqn:E1; [|discriminate]. cbn [bind] in E.
    destruct (immediates (S i) n b) as [rs|] eqn:E2; [|discriminate]. cbn [bind] in E. injection E as <-. cbn in L.
    apply IH in E2; [|intros; eapply D; [right; eassumption|eassumption]|lia]. destruct E2 as [Lr H].
    apply (immediate_ok n) in E1; [|intros; eapply D; [left; reflexivity|assumption]|apply set_row_ok; [lia|apply zero_ok]]. destruct E1 as (A & B & C).
    split; [cbn; lia|]. intros [|k] st Hk; cbn in Hk.
    + injection Hk as <-. cbn [nth]. split; [exact A|]. split; [|exact C]. intros m. rewrite B. rewrite set_row_has by (rewrite repeat_length; unfold round_up; lia). rewrite zero_has. cbn [orb]. rewrite Nat.eqb_eq, Nat.add_0_r. tauto.
    + cbn [nth]. destruct (H k st Hk) as (X & Y & Z). split; [exact X|]. split; [|exact Z]. intros m. rewrite Y. replace (S i + k) with (i + S k) by lia. tauto.
Qed.
Lemma close_rows_ok b n : n = length b -> forall k eclo from, from + k = n -> length eclo = n ->
  (forall p, p < n -> row_ok n (nth p eclo []) /\ (forall q, has (nth p eclo []) q = true -> eps b p q) /\ has (nth p eclo []) p = true /\ (forall q, edge b p TT_EPSILON q -> has (nth p eclo []) q = true)) ->
  (forall p, p < from -> forall q, eps b p q -> has (nth p eclo []) q = true) ->
  exists eclo', close_rows k eclo from n = Ok eclo' /\ length eclo' = n /\ forall p, p < n -> row_ok n (nth p eclo' []) /\ forall q, has (nth p eclo' []) q = true <-> eps b p q.
Proof.
  intros N. induction k as [|k IH]; intros eclo from L Le H Hd; cbn [close_rows].
  - exists eclo. split; [reflexivity|]. split; [exact Le|]. intros p Hp. destruct (H p Hp) as (A & B & _). split; [exact A|]. intros q. split; [apply B|apply Hd; lia].
  - destruct (H from ltac:(lia)) as (A & B & C & D).
    destruct (close_row_ok eclo from n (eps b from)) with (fuel := S (S n)) (row := nth from eclo []) (todo := nth from eclo []) as (row' & E & A' & B' & C' & D'); auto.
    + intros m Hm. apply H. exact Hm.
    + intros m q Pm Hm T. eapply eps_trans; [exact Pm|]. destruct (H m Hm) as (_ & X & _). auto.
    + lia.
    + intros m T. exact T.
    + rewrite E. cbn [bind].
      assert (CL : forall q, eps b from q -> has row' q = true).
      { assert (St : forall p q, has row' p = true -> edge b p TT_EPSILON q -> has row' q = true).
        { intros p q T Eg. destruct (D' p T) as [->|S']; [apply B', D, Eg|]. apply S'. pose proof (has_lt _ _ _ A' T) as Lp. destruct (H p Lp) as (_ & _ & _ & X). auto. }
        intros q Q. assert (G : forall p q, eps b p q -> has row' p = true -> has row' q = true) by (clear - St; induction 1; eauto). eapply G; [exact Q|]. apply B', C. }
      apply IH; [lia|rewrite cc_set_len; exact Le| |].
      * intros p Hp. rewrite cc_set_nth by lia. destruct (Nat.eqb_spec from p) as [<-|Np]; [|apply H; exact Hp].
        split; [exact A'|]. split; [exact C'|]. split; [apply B'; exact C|]. intros q Eg. apply B', D, Eg.
      * intros p Hp q Q. rewrite cc_set_nth by lia. destruct (Nat.eqb_spec from p) as [<-|Np]; [apply CL; exact Q|]. apply Hd; [lia|exact Q].
Qed.
Lemma closure_ok b eclo : (forall p y q, edge b p y q -> q < length b) -> generate_epsilon_closure b = Ok eclo ->
  length eclo = length b /\ (forall p, p < length b -> row_ok (length b) (nth p eclo []) /\ forall q, has (nth p eclo []) q = true <-> eps b p q) /\ (forall p k q, ~ edge b p (TT_CHARCLASS k) q).
Proof.
  intros D E. unfold generate_epsilon_closure in E. destruct (immediates 0 (length b) b) as [rows|] eqn:E1; [|discriminate]. cbn [bind] in E.
  apply immediates_ok in E1; [| |lia].
  2:{ intros st t I J. destruct t as [y q]. cbn. apply In_nth_error in I. destruct I as [p I]. apply (D p y q). exists st. auto. }
  destruct E1 as [L H]. destruct (close_rows_ok b (length b) eq_refl (length b) rows 0 eq_refl L) as (eclo' & E2 & L' & H').
  - intros p Hp. destruct (nth_error b p) as [st|] eqn:Ep; [|apply nth_error_None in Ep; lia]. destruct (H p st Ep) as (A & B & C). split; [exact A|]. split; [|split].
    + intros q T. apply B in T. destruct T as [->|T]; [constructor|]. econstructor; [|constructor]. exists st. auto.
    + apply B. left. reflexivity.
    + intros q (st' & X & Y). rewrite Ep in X. injection X as <-. apply B. auto.
  - intros p Hp. lia.
  - rewrite E2 in E. injection E as <-. split; [exact L'|]. split; [exact H'|]. intros p k q (st & X & Y). destruct (H p st X) as (_ & _ & C). exact (C k q Y).
Qed.
