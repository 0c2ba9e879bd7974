(* Lemmas about blocks of a scanner description while they are being read: names, states, copies of blocks *)
From Verif Require Import Base M_Charclass M_Dfasyn M_Compdfa M_Parse M_Blocks S_Dfasyn S_Blocks.
From Verif Require L_Mbox.

(* names *)
Definition value (l : bytes) : nat := fold_left (fun v d => 10 * v + N.to_nat (d - 48)) l 0.
Definition digit (d : N) : Prop := (48 <= d <= 57)%N.
Lemma value_acc : forall l v, fold_left (fun v d => 10 * v + N.to_nat (d - 48)) l v = v * 10 ^ length l + value l.
Proof.
  unfold value. induction l as [|d l IH]; intros v; cbn [fold_left length]; [rewrite Nat.pow_0_r; lia|].
  rewrite IH, (IH (10 * 0 + _)). rewrite Nat.pow_succ_r'. ring.
Qed.
Lemma digits_ok : forall f n acc, n < f -> exists l, digits f n acc = l ++ acc /\ Forall digit l /\ value l = n.
Proof.
  induction f as [|f IH]; intros n acc H; [lia|]. cbn [digits]. destruct (n <? 10) eqn:E.
  - apply Nat.ltb_lt in E. exists [(48 + N.of_nat (n mod 10))%N]. cbn [app]. rewrite Nat.mod_small by exact E.
    repeat split; [constructor; [unfold digit; lia|constructor]|]. unfold value. cbn [fold_left]. lia.
  - apply Nat.ltb_ge in E. destruct (IH (n / 10) ((48 + N.of_nat (n mod 10))%N :: acc)) as (l & E1 & D & V); [lia|].
    exists (l ++ [(48 + N.of_nat (n mod 10))%N]). rewrite E1, <- app_assoc. cbn [app]. split; [reflexivity|]. split.
    + apply Forall_app. split; [exact D|]. constructor; [unfold digit; lia|constructor].
    + unfold value. rewrite fold_left_app. fold (value l). rewrite V. cbn [fold_left]. lia.
Qed.
Lemma decimal_ok : forall n, Forall digit (decimal n) /\ value (decimal n) = n.
Proof. intros n. unfold decimal. destruct (digits_ok (S n) n []) as (l & E & D & V); [lia|]. rewrite app_nil_r in E. now rewrite E. Qed.
Lemma decimal_inj : forall m n, decimal m = decimal n -> m = n.
Proof. intros m n E. destruct (decimal_ok m) as [_ <-], (decimal_ok n) as [_ <-]. now rewrite E. Qed.
Lemma decimal_not : forall n c, ~ digit c -> ~ In c (decimal n).
Proof. intros n c H J. destruct (decimal_ok n) as [D _]. rewrite Forall_forall in D. exact (H (D _ J)). Qed.

Lemma split_at_inj : forall (c : N) a b u v, ~ In c a -> ~ In c b -> a ++ c :: u = b ++ c :: v -> a = b /\ u = v.
Proof.
  intros c. induction a as [|x a IH]; intros [|y b] u v A B E; cbn [app] in E.
  - injection E as <-. auto.
  - injection E as <- _. destruct B. now left.
  - injection E as -> _. destruct A. now left.
  - injection E as <- E. destruct (IH b u v) as [-> ->]; auto; intros J; [apply A|apply B]; now right.
Qed.
Definition internal (m : nat) : bytes := HASH :: decimal (S m).
Definition instname (T : bytes) (k : nat) : bytes := T ++ HASH :: decimal (S k).
Definition within (inst x : bytes) : bytes := inst ++ DOT :: x.
Definition sub (T : bytes) (k : nat) (x : bytes) : bytes := within (instname T k) x.
Lemma internal_inj : forall m n, internal m = internal n -> m = n.
Proof. intros m n E. injection E as E. apply decimal_inj in E. lia. Qed.
Lemma internal_hash : forall m, ~ no_hash (internal m).
Proof. intros m H. apply H. now left. Qed.
Lemma sub_hash : forall T k x, ~ no_hash (sub T k x).
Proof. intros T k x H. apply H. unfold sub, within, instname. rewrite <- app_assoc. apply in_or_app. right. now left. Qed.
Lemma within_inj : forall i x y, within i x = within i y -> x = y.
Proof. intros i x y E. unfold within in E. apply app_inv_head in E. now injection E. Qed.
Lemma sub_inj : forall T k x T' k' x', no_hash T -> no_hash T' -> sub T k x = sub T' k' x' -> T = T' /\ k = k' /\ x = x'.
Proof.
  intros T k x T' k' x' A B E. unfold sub, within, instname in E. rewrite <- !app_assoc in E. cbn [app] in E.
  destruct (split_at_inj _ _ _ _ _ A B E) as [-> E1]. apply split_at_inj in E1; try (apply decimal_not; unfold digit, DOT; lia).
  destruct E1 as [E1 ->]. apply decimal_inj in E1. split; [reflexivity|]. split; [lia|reflexivity].
Qed.
Lemma internal_sub : forall m T k x, no_hash T -> internal m <> sub T k x.
Proof.
  intros m T k x A E. unfold sub, within, instname, internal in E. rewrite <- !app_assoc in E.
  destruct (split_at_inj HASH [] T (decimal (S m)) (decimal (S k) ++ DOT :: x)) as [_ E1]; [intros []|exact A|exact E|].
  apply (decimal_not (S m) DOT); [unfold digit, DOT; lia|]. rewrite E1. apply in_or_app. right. now left.
Qed.

(* looking for names *)
Lemma find_name_some : forall (A : Type) (f : A -> bytes) n l i j, find_name f i l n = Some j -> i <= j /\ exists x, nth_error l (j - i) = Some x /\ f x = n.
Proof.
  intros A f n. induction l as [|x l IH]; intros i j; cbn [find_name]; [discriminate|]. destruct (bytes_eqb (f x) n) eqn:E; intros H.
  - injection H as <-. split; [lia|]. rewrite Nat.sub_diag. exists x. split; [reflexivity|]. now apply L_Mbox.bytes_eqb_iff.
  - apply IH in H as (H & y & E1 & E2). split; [lia|]. exists y. replace (j - i) with (S (j - S i)) by lia. auto.
Qed.
Lemma find_name_none : forall (A : Type) (f : A -> bytes) n l i, find_name f i l n = None <-> forall x, In x l -> f x <> n.
Proof.
  intros A f n. induction l as [|x l IH]; intros i; cbn [find_name]; [split; [intros _ x []|reflexivity]|].
  destruct (bytes_eqb (f x) n) eqn:E.
  - split; [discriminate|]. intros H. apply L_Mbox.bytes_eqb_iff in E. destruct (H x (or_introl eq_refl) E).
  - rewrite IH. split; intros H y; [intros [<-|J]; [|now apply H]|intros J; apply H; now right].
    intros E1. apply L_Mbox.bytes_eqb_iff in E1. congruence.
Qed.
Lemma find_name_unique : forall (A : Type) (f : A -> bytes) n l j x, NoDup (map f l) -> nth_error l j = Some x -> f x = n -> find_name f 0 l n = Some j.
Proof.
  intros A f n l j x D E F. destruct (find_name f 0 l n) as [i|] eqn:H.
  - apply find_name_some in H as (_ & y & E1 & E2). rewrite Nat.sub_0_r in E1. f_equal.
    apply (proj1 (NoDup_nth_error (map f l)) D).
    + rewrite map_length. apply nth_error_Some. congruence.
    + rewrite (map_nth_error f _ _ E1), (map_nth_error f _ _ E). congruence.
  - rewrite find_name_none in H. destruct (H x); [|exact F]. exact (nth_error_In _ _ E).
Qed.

(* states *)
Definition has (l : list cstate) (p : bytes) (t : trans_type) (q : bytes) : Prop := exists s, In s l /\ c_name s = p /\ In (t, q) (c_trans s).
Definition tagn (l : list cstate) (p g : bytes) : Prop := exists s, In s l /\ c_name s = p /\ In g (c_tags s).
Definition names (l : list cstate) : list bytes := map c_name l.
Definition prefix_of {A : Type} (a b : list A) : Prop := exists c, b = a ++ c.
Lemma prefix_refl : forall (A : Type) (a : list A), prefix_of a a. Proof. intros A a. exists []. now rewrite app_nil_r. Qed.
Lemma prefix_trans : forall (A : Type) (a b c : list A), prefix_of a b -> prefix_of b c -> prefix_of a c.
Proof. intros A a b c [x ->] [y ->]. exists (x ++ y). now rewrite app_assoc. Qed.
Lemma prefix_nth : forall (A : Type) (a b : list A) i x, prefix_of a b -> nth_error a i = Some x -> nth_error b i = Some x.
Proof. intros A a b i x [c ->] H. rewrite nth_error_app1; [exact H|]. apply nth_error_Some. congruence. Qed.
Lemma prefix_in : forall (A : Type) (a b : list A) x, prefix_of a b -> In x a -> In x b.
Proof. intros A a b x [c ->] H. apply in_or_app. now left. Qed.

Lemma set_nth_split : forall (A : Type) (l : list A) i s, nth_error l i = Some s -> exists l1 l2, l = l1 ++ s :: l2 /\ length l1 = i /\ forall x, set_nth l i x = l1 ++ x :: l2.
Proof.
  intros A. induction l as [|y l IH]; intros [|i] s H; cbn [nth_error] in H; try discriminate.
  - injection H as ->. exists [], l. now split.
  - destruct (IH i s H) as (l1 & l2 & -> & <- & E). exists (y :: l1), l2. split; [reflexivity|]. split; [reflexivity|].
    intros x. cbn [set_nth app]. now rewrite E.
Qed.
Lemma same_name : forall l s s', NoDup (names l) -> In s l -> In s' l -> c_name s = c_name s' -> s = s'.
Proof.
  intros l s s' D A B E. apply In_nth_error in A as [i A]. apply In_nth_error in B as [j B].
  assert (i = j); [|subst j; congruence]. apply (proj1 (NoDup_nth_error (names l)) D).
  - unfold names. rewrite map_length. apply nth_error_Some. congruence.
  - unfold names. rewrite (map_nth_error _ _ _ A), (map_nth_error _ _ _ B). now rewrite E.
Qed.
(* one state is changed *)
Section Change.
Context (b : cblock) (i : nat) (s : cstate) (f : cstate -> cstate).
Hypothesis (E : nth_error (k_states b) i = Some s) (Nf : c_name (f s) = c_name s) (D : NoDup (names (k_states b))).
Lemma change_names : names (k_states (change_state b i f)) = names (k_states b).
Proof.
  unfold change_state, with_states, names. cbn [k_states]. rewrite E. destruct (set_nth_split _ _ _ _ E) as (l1 & l2 & E1 & _ & E2).
  rewrite E2, E1, !map_app. cbn [map]. now rewrite Nf.
Qed.
Lemma change_in : forall x, In x (k_states (change_state b i f)) <-> x = f s \/ (c_name x <> c_name s /\ In x (k_states b)).
Proof.
  intros x. unfold change_state, with_states. cbn [k_states]. rewrite E. destruct (set_nth_split _ _ _ _ E) as (l1 & l2 & E1 & _ & E2).
  rewrite E2. unfold names in D. rewrite E1 in D |- *. rewrite map_app in D. cbn [map] in D. apply NoDup_remove_2 in D.
  rewrite !in_app_iff. cbn [In]. split.
  - intros [J|[<-|J]]; [right|now left|right]; (split; [|auto]); intros X; apply D; rewrite <- X; apply in_or_app; [left|right]; now apply in_map.
  - intros [->|[N [J|[->|J]]]]; auto. now destruct N.
Qed.
Lemma change_has : forall p t q, has (k_states (change_state b i f)) p t q <-> (p = c_name s /\ In (t, q) (c_trans (f s))) \/ (p <> c_name s /\ has (k_states b) p t q).
Proof.
  intros p t q. unfold has. split.
  - intros (x & J & <- & K). apply change_in in J as [->|[N J]]; [left; now rewrite Nf|right]. split; [exact N|]. exists x. auto.
  - intros [[-> K]|[N (x & J & <- & K)]]; [exists (f s)|exists x]; (split; [apply change_in; auto|auto]).
Qed.
Lemma change_tag : forall p g, tagn (k_states (change_state b i f)) p g <-> (p = c_name s /\ In g (c_tags (f s))) \/ (p <> c_name s /\ tagn (k_states b) p g).
Proof.
  intros p g. unfold tagn. split.
  - intros (x & J & <- & K). apply change_in in J as [->|[N J]]; [left; now rewrite Nf|right]. split; [exact N|]. exists x. auto.
  - intros [[-> K]|[N (x & J & <- & K)]]; [exists (f s)|exists x]; (split; [apply change_in; auto|auto]).
Qed.
Lemma has_at : forall t q, has (k_states b) (c_name s) t q <-> In (t, q) (c_trans s).
Proof.
  intros t q. split; [|intros K; exists s; repeat split; auto; exact (nth_error_In _ _ E)].
  intros (x & J & Nx & K). rewrite (same_name _ _ _ D J (nth_error_In _ _ E) Nx) in K. exact K.
Qed.
Lemma tag_at : forall g, tagn (k_states b) (c_name s) g <-> In g (c_tags s).
Proof.
  intros g. split; [|intros K; exists s; repeat split; auto; exact (nth_error_In _ _ E)].
  intros (x & J & Nx & K). rewrite (same_name _ _ _ D J (nth_error_In _ _ E) Nx) in K. exact K.
Qed.
End Change.
Definition bytes_dec (a b : bytes) : {a = b} + {a <> b} := list_eq_dec N.eq_dec a b.
(* The number i is that of the state named n. *)
Definition name_at (b : cblock) (i : nat) (n : bytes) : Prop := nth_error (names (k_states b)) i = Some n.
Lemma name_at_state : forall b i n, name_at b i n -> exists s, nth_error (k_states b) i = Some s /\ c_name s = n.
Proof.
  unfold name_at, names. intros b i n H. destruct (nth_error (k_states b) i) as [s|] eqn:E.
  - rewrite (map_nth_error _ _ _ E) in H. injection H as <-. eauto.
  - apply nth_error_None in E. rewrite <- (map_length c_name) in E. apply nth_error_None in E. congruence.
Qed.
Lemma name_at_mono : forall b b' i n, prefix_of (names (k_states b)) (names (k_states b')) -> name_at b i n -> name_at b' i n.
Proof. intros b b' i n P. unfold name_at. now apply prefix_nth. Qed.
(* a state is looked up *)
Lemma lookup_spec : forall b n b' i, NoDup (names (k_states b)) -> lookup_state b n = (b', i) ->
  NoDup (names (k_states b')) /\ name_at b' i n /\ prefix_of (names (k_states b)) (names (k_states b')) /\ (forall x, In x (names (k_states b')) <-> In x (names (k_states b)) \/ x = n) /\
  (forall p t q, has (k_states b') p t q <-> has (k_states b) p t q) /\ (forall p g, tagn (k_states b') p g <-> tagn (k_states b) p g) /\
  k_name b' = k_name b /\ k_subcount b' = k_subcount b /\ k_subblocks b' = k_subblocks b.
Proof.
  intros b n b' i D H. unfold lookup_state in H. destruct (find_name c_name 0 (k_states b) n) as [j|] eqn:E; injection H as <- <-.
  - apply find_name_some in E as (_ & s & E & Ns). rewrite Nat.sub_0_r in E. split; [exact D|]. split; [|split; [apply prefix_refl|split]].
    + unfold name_at, names. rewrite (map_nth_error _ _ _ E). now rewrite Ns.
    + intros x. split; [now left|]. intros [J| ->]; [exact J|]. rewrite <- Ns. apply in_map. exact (nth_error_In _ _ E).
    + repeat split; auto.
  - rewrite find_name_none in E. cbn [with_states k_states]. unfold names. rewrite map_app. cbn [map c_name].
    split; [|split; [|split; [|split; [|split; [|split; [|repeat split]]]]]].
    + apply (NoDup_Add (a := n) (l := map c_name (k_states b))).
      * rewrite <- (app_nil_r (map c_name (k_states b))) at 1. apply Add_app.
      * split; [exact D|]. intros J. apply in_map_iff in J as (s & Ns & J). exact (E s J Ns).
    + unfold name_at, names, with_states. cbn [k_states]. rewrite map_app, nth_error_app2 by (now rewrite map_length). rewrite map_length, Nat.sub_diag. reflexivity.
    + now exists [n].
    + intros x. rewrite in_app_iff. cbn [In]. intuition congruence.
    + intros p t q. unfold has. split; intros (s & J & K & L).
      * apply in_app_or in J as [J|[<-|[]]]; [exists s; auto|]. destruct L.
      * exists s. split; [apply in_or_app; now left|auto].
    + intros p g. unfold tagn. split; intros (s & J & K & L).
      * apply in_app_or in J as [J|[<-|[]]]; [exists s; auto|]. destruct L.
      * exists s. split; [apply in_or_app; now left|auto].
Qed.
Lemma push_spec : forall b i n t0 d b', NoDup (names (k_states b)) -> name_at b i n -> b' = change_state b i (push_trans t0 d) ->
  names (k_states b') = names (k_states b) /\ (forall p t q, has (k_states b') p t q <-> has (k_states b) p t q \/ (p, t, q) = (n, t0, d)) /\ (forall p g, tagn (k_states b') p g <-> tagn (k_states b) p g) /\
  k_name b' = k_name b /\ k_subcount b' = k_subcount b /\ k_subblocks b' = k_subblocks b.
Proof.
  intros b i n t0 d b' D A ->. apply name_at_state in A as (s & E & <-). split; [now apply change_names with s|].
  split; [|split; [|repeat split]].
  - intros p t q. rewrite (change_has b i s (push_trans t0 d) E eq_refl D). destruct (bytes_dec p (c_name s)) as [->|N].
    + rewrite (has_at b i s E D). cbn [push_trans c_trans In]. split.
      * intros [[_ [X|X]]|[X _]]; [injection X as <- <-; now right|now left|now destruct X].
      * intros [X|X]; left; (split; [reflexivity|]); [now right|left]. now injection X as <- <-.
    + split; [intros [[X _]|[_ X]]; [now destruct N|now left]|]. intros [X|X]; [now right|]. injection X as -> _ _. now destruct N.
  - intros p g. rewrite (change_tag b i s (push_trans t0 d) E eq_refl D). destruct (bytes_dec p (c_name s)) as [->|N].
    + rewrite (tag_at b i s E D). cbn [push_trans c_tags]. tauto.
    + tauto.
Qed.
Lemma pushtags_spec : forall b i n l b', NoDup (names (k_states b)) -> name_at b i n -> b' = change_state b i (push_tags l) ->
  names (k_states b') = names (k_states b) /\ (forall p t q, has (k_states b') p t q <-> has (k_states b) p t q) /\ (forall p g, tagn (k_states b') p g <-> tagn (k_states b) p g \/ (p = n /\ In g l)) /\
  k_name b' = k_name b /\ k_subcount b' = k_subcount b /\ k_subblocks b' = k_subblocks b.
Proof.
  intros b i n l b' D A ->. apply name_at_state in A as (s & E & <-). split; [now apply change_names with s|].
  split; [|split; [|repeat split]].
  - intros p t q. rewrite (change_has b i s (push_tags l) E eq_refl D). destruct (bytes_dec p (c_name s)) as [->|N].
    + rewrite (has_at b i s E D). cbn [push_tags c_trans]. tauto.
    + tauto.
  - intros p g. rewrite (change_tag b i s (push_tags l) E eq_refl D). destruct (bytes_dec p (c_name s)) as [->|N].
    + rewrite (tag_at b i s E D). cbn [push_tags c_tags]. rewrite in_app_iff. tauto.
    + tauto.
Qed.

(* copies *)
Lemma in_instance_ok : forall inst n x, in_instance inst n = Ok x -> x = within inst n.
Proof. unfold in_instance. intros inst n x H. destruct (_ <? _); [|discriminate]. now injection H. Qed.
Lemma copy_trans_spec : forall inst l acc r, copy_trans inst l acc = Ok r -> forall t q, In (t, q) r <-> In (t, q) acc \/ exists d, q = within inst d /\ In (t, d) l.
Proof.
  intros inst. induction l as [|[t d] l IH]; intros acc r H t0 q; cbn [copy_trans] in H.
  - injection H as <-. split; [now left|]. intros [J|(d & _ & [])]. exact J.
  - destruct (in_instance inst d) as [d'|] eqn:E; cbn [bind] in H; [|discriminate]. apply in_instance_ok in E as ->.
    rewrite (IH _ _ H). cbn [In]. split.
    + intros [[J|J]|(d0 & -> & J)]; [injection J as <- <-; right; exists d; auto|now left|right; exists d0; auto].
    + intros [J|(d0 & -> & [J|J])]; [left; now right|injection J as <- <-; left; now left|right; exists d0; auto].
Qed.
Lemma copy_state_spec : forall inst s b b', NoDup (names (k_states b)) -> copy_state inst s b = Ok b' ->
  NoDup (names (k_states b')) /\ prefix_of (names (k_states b)) (names (k_states b')) /\ In (within inst (c_name s)) (names (k_states b')) /\
  (forall p t q, has (k_states b') p t q <-> has (k_states b) p t q \/ (p = within inst (c_name s) /\ exists d, q = within inst d /\ In (t, d) (c_trans s))) /\
  (forall p g, tagn (k_states b') p g <-> (p <> within inst (c_name s) /\ tagn (k_states b) p g) \/ (p = within inst (c_name s) /\ In g (c_tags s))) /\
  k_name b' = k_name b /\ k_subcount b' = k_subcount b /\ k_subblocks b' = k_subblocks b.
Proof.
  intros inst s b b' D H. unfold copy_state in H. destruct (in_instance inst (c_name s)) as [n|] eqn:E; cbn [bind] in H; [|discriminate].
  apply in_instance_ok in E. subst n. set (n := within inst (c_name s)) in *. destruct (lookup_state b n) as [b1 i] eqn:L.
  destruct (lookup_spec _ _ _ _ D L) as (D1 & A1 & P1 & I1 & H1 & T1 & K1 & K2 & K3).
  destruct (nth_error (k_states b1) i) as [s1|] eqn:E1; [|discriminate].
  destruct (copy_trans inst (c_trans s) (c_trans s1)) as [ts|] eqn:C; cbn [bind] in H; [|discriminate]. injection H as <-.
  pose proof (copy_trans_spec _ _ _ _ C) as CS.
  assert (N1 : c_name s1 = n). { destruct (name_at_state _ _ _ A1) as (s2 & E2 & N2). congruence. }
  set (f := fun s1 => Cstate (c_name s1) ts (rev (c_tags s))).
  pose proof (change_names b1 i s1 f E1 eq_refl) as CN. rewrite CN.
  split; [exact D1|]. split; [exact P1|]. split; [apply I1; now right|]. split; [|split; [|now cbn]].
  - intros p t q. rewrite (change_has b1 i s1 f E1 eq_refl D1), N1, H1. cbn [f c_trans]. rewrite CS, <- (has_at b1 i s1 E1 D1), N1, H1.
    destruct (bytes_dec p n) as [->|N]; [|tauto]. split.
    + intros [[_ [X|X]]|[X _]]; [now left|right; auto|now destruct X].
    + intros [X|[_ X]]; left; (split; [reflexivity|]); auto.
  - intros p g. rewrite (change_tag b1 i s1 f E1 eq_refl D1), N1, T1. cbn [f c_tags]. rewrite <- in_rev. tauto.
Qed.
Lemma skipn_nth : forall (A : Type) (l : list A) i s, nth_error l i = Some s -> skipn i l = s :: skipn (S i) l.
Proof. intros A. induction l as [|x l IH]; intros [|i] s H; cbn [nth_error] in H; try discriminate; [now injection H as ->|]. cbn [skipn]. rewrite (IH i s H). reflexivity. Qed.
Lemma copy_states_spec : forall fuel ms inst i b b', NoDup (names (k_states b)) -> NoDup (names ms) ->
  (forall x g j s, nth_error ms j = Some s -> i <= j -> x = within inst (c_name s) -> ~ tagn (k_states b) x g) ->
  copy_states fuel (Some ms) inst i b = Ok b' ->
  NoDup (names (k_states b')) /\ prefix_of (names (k_states b)) (names (k_states b')) /\
  (forall p t q, has (k_states b') p t q <-> has (k_states b) p t q \/ exists x y, p = within inst x /\ q = within inst y /\ has (skipn i ms) x t y) /\
  (forall p g, tagn (k_states b') p g <-> tagn (k_states b) p g \/ exists x, p = within inst x /\ tagn (skipn i ms) x g) /\
  k_name b' = k_name b /\ k_subcount b' = k_subcount b /\ k_subblocks b' = k_subblocks b.
Proof.
  induction fuel as [|f IH]; intros ms inst i b b' D Dm Fr H; cbn [copy_states] in H.
  - destruct (nth_error ms i) as [s|] eqn:E; [discriminate|]. injection H as <-. split; [exact D|]. split; [apply prefix_refl|].
    apply nth_error_None in E. rewrite skipn_all2 by exact E. split; [|split; [|auto]]; intros; (split; [now left|]).
    + intros [J|(x & y & _ & _ & (s & [] & _))]. exact J.
    + intros [J|(x & _ & (s & [] & _))]. exact J.
  - destruct (nth_error ms i) as [s|] eqn:E.
    2:{ injection H as <-. split; [exact D|]. split; [apply prefix_refl|].
        apply nth_error_None in E. rewrite skipn_all2 by exact E. split; [|split; [|auto]]; intros; (split; [now left|]).
        + intros [J|(x & y & _ & _ & (s & [] & _))]. exact J.
        + intros [J|(x & _ & (s & [] & _))]. exact J. }
    destruct (copy_state inst s b) as [b1|] eqn:C; cbn [bind] in H; [|discriminate].
    destruct (copy_state_spec _ _ _ _ D C) as (D1 & P1 & _ & H1 & T1 & K1 & K2 & K3).
    assert (SK : skipn i ms = s :: skipn (S i) ms).
    { now apply skipn_nth. }
    destruct (IH ms inst (S i) b1 b') as (D2 & P2 & H2 & T2 & K4 & K5 & K6); auto.
    { intros x g j s' Ej Lj -> T. apply T1 in T as [[_ T]|[T _]]; [exact (Fr _ _ j s' Ej ltac:(lia) eq_refl T)|].
      apply within_inj in T. assert (j = i); [|lia]. apply (proj1 (NoDup_nth_error (names ms)) Dm).
      - unfold names. rewrite map_length. apply nth_error_Some. congruence.
      - unfold names. rewrite (map_nth_error _ _ _ Ej), (map_nth_error _ _ _ E). now rewrite T. }
    split; [exact D2|]. split; [now apply prefix_trans with (names (k_states b1))|]. rewrite SK. split; [|split; [|intuition congruence]].
    + intros p t q. rewrite H2, H1. split.
      * intros [[J|(-> & d & -> & J)]|(x & y & -> & -> & (s' & J & K))]; [now left|right; exists (c_name s), d; split; [reflexivity|]; split; [reflexivity|]; exists s; repeat split; auto; now left|].
        right. exists x, y. split; [reflexivity|]. split; [reflexivity|]. exists s'. split; [now right|exact K].
      * intros [J|(x & y & -> & -> & (s' & [<-|J] & <- & K))]; [left; now left|left; right; eauto|right].
        exists (c_name s'), y. split; [reflexivity|]. split; [reflexivity|]. exists s'. auto.
    + intros p g. rewrite T2, T1. split.
      * intros [[[_ J]|[-> J]]|(x & -> & (s' & J & K))]; [now left|right; exists (c_name s); split; [reflexivity|]; exists s; repeat split; auto; now left|].
        right. exists x. split; [reflexivity|]. exists s'. split; [now right|exact K].
      * intros [J|(x & -> & (s' & [<-|J] & <- & K))]; [|left; right; auto|right; exists (c_name s'); split; [reflexivity|]; exists s'; auto].
        left. left. split; [|exact J]. intros ->. exact (Fr _ _ i s E (le_n _) eq_refl J).
Qed.
(* a block is never put into itself with success *)
Lemma copy_self : forall fuel inst i b b', NoDup (names (k_states b)) -> (forall j s, j < i -> nth_error (k_states b) j = Some s -> In (within inst (c_name s)) (names (k_states b))) ->
  k_states b <> [] -> copy_states fuel None inst i b = Ok b' -> False.
Proof.
  assert (M : forall l : list bytes, l <> [] -> exists n, In n l /\ forall m, In m l -> length m <= length n).
  { induction l as [|x l IH]; [congruence|]. intros _. destruct l as [|y l]; [exists x; split; [now left|intros m [<-|[]]; lia]|].
    destruct IH as (n & J & H); [congruence|]. destruct (le_dec (length n) (length x)) as [L|L].
    - exists x. split; [now left|]. intros m [<-|K]; [lia|]. specialize (H m K). lia.
    - exists n. split; [now right|]. intros m [<-|K]; [lia|]. now apply H. }
  induction fuel as [|f IH]; intros inst i b b' D C Ne H; cbn [copy_states] in H; destruct (nth_error (k_states b) i) as [s|] eqn:E; try discriminate.
  1, 3: destruct (M (names (k_states b))) as (n & J & L); [unfold names; destruct (k_states b); [congruence|discriminate]|];
    apply in_map_iff in J as (s & <- & J); apply In_nth_error in J as [j J]; apply nth_error_None in E;
    assert (X : j < i) by (apply Nat.lt_le_trans with (length (k_states b)); [apply nth_error_Some; congruence|exact E]);
    specialize (L _ (C j s X J)); unfold within in L; rewrite app_length in L; cbn [length] in L; lia.
  destruct (copy_state inst s b) as [b1|] eqn:Cs; cbn [bind] in H; [|discriminate].
  destruct (copy_state_spec _ _ _ _ D Cs) as (D1 & P1 & I1 & _). apply (IH inst (S i) b1 b' D1); auto.
  - intros j s' L Ej. assert (Ln : j < length (names (k_states b))). { assert (i < length (k_states b)) by (apply nth_error_Some; congruence). unfold names. rewrite map_length. lia. }
    assert (exists s0, nth_error (k_states b) j = Some s0 /\ c_name s0 = c_name s') as (s0 & E0 & N0).
    { apply name_at_state. unfold name_at. destruct (nth_error (names (k_states b)) j) as [n0|] eqn:En; [|apply nth_error_None in En; lia].
      pose proof (prefix_nth _ _ _ _ _ P1 En) as En'. unfold names in En'. rewrite (map_nth_error _ _ _ Ej) in En'. now injection En' as ->. }
    destruct (Nat.eq_dec j i) as [->|N]; [rewrite E in E0; injection E0 as ->; now rewrite <- N0|].
    rewrite <- N0. apply (prefix_in _ _ _ _ P1). apply (C j); [lia|exact E0].
  - intros X. rewrite X in I1. destruct I1.
Qed.
