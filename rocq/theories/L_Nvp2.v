(* What make_nvp makes of a list of components. *)
From Verif Require Import Base M_Decode M_Nvp S_Nvp L_Nvp.
Local Open Scope N_scope.

(* where the loop is *)
Record cfg := Cfg { c_i : nat; c_last : action; c_lc : copier; c_text : bytes; c_x : nvp_vars }.
Definition looped (isspc : N -> bool) (s : bytes) (k : cfg) := iloop isspc s (c_i k) (c_last k) (c_lc k) (c_text k) (c_x k).
Definition upd (last : action) (j : nat) : action := match act j with GOT_NOTHING => last | a => a end.
Definition to_cfg (c : N) (j : nat) (k : cfg) : cfg :=
  let same := copier_beq (cop j) (c_lc k) in
  Cfg j (upd (c_last k) j) (cop j) (c :: if same then c_text k else []) (if same then c_x k else flush (c_lc k) (rev (c_text k)) (c_x k)).
Definition plainb (j : nat) : bool := negb (j =? 60)%nat && negb (action_beq (act j) GOT_TERMINATOR).
Definition go1 (c : N) (k : cfg) : option cfg := let j := next (c_i k) (Some c) in if plainb j then Some (to_cfg c j k) else None.
Fixpoint go (s : bytes) (k : cfg) : option cfg :=
  match s with
  | [] => Some k
  | c :: s' => match go1 c k with Some k' => go s' k' | None => None end
  end.
Lemma go_app : forall a b k, go (a ++ b) k = match go a k with Some k' => go b k' | None => None end.
Proof. induction a as [|c a IH]; intros b k; [reflexivity|]. cbn [app go]. destruct (go1 c k); [apply IH|reflexivity]. Qed.
Lemma go_app_ok : forall a b k k1 k2, go a k = Some k1 -> go b k1 = Some k2 -> go (a ++ b) k = Some k2.
Proof. intros a b k k1 k2 H G. now rewrite go_app, H. Qed.
Lemma looped_go1 : forall isspc c s k k', go1 c k = Some k' -> looped isspc (c :: s) k = looped isspc s k'.
Proof.
  intros isspc c s k k' H. unfold go1 in H. destruct (plainb (next (c_i k) (Some c))) eqn:P; [|discriminate]. injection H as <-. unfold plainb in P. rewrite andb_true_iff, !negb_true_iff in P. destruct P as [P Q].
  unfold looped. cbn [iloop]. rewrite P. unfold to_cfg. cbn [c_i c_last c_lc c_text c_x]. unfold upd. destruct (act (next (c_i k) (Some c))); cbn [bind fst snd]; try reflexivity. discriminate Q.
Qed.
Lemma looped_go : forall isspc a s k k', go a k = Some k' -> looped isspc (a ++ s) k = looped isspc s k'.
Proof.
  induction a as [|c a IH]; intros s k k' H; [now injection H as <-|]. cbn [go] in H. destruct (go1 c k) as [k1|] eqn:G; [|discriminate]. cbn [app]. rewrite (looped_go1 _ _ _ _ _ G). now apply IH.
Qed.

(* classes of bytes *)
Definition to (P : N -> Prop) (i j : nat) : Prop := forall c, P c -> next i (Some c) = j.
Ltac bits := match goal with |- forall c, ?P c -> _ => intros c H end.
Lemma to_class : forall (P : N -> Prop) (k : N -> bool) i j, (forall c, P c -> c < 256 /\ k c = true) -> forallb (fun c => negb (k c) || (next i (Some c) =? j)%nat) all_bytes = true -> to P i j.
Proof.
  intros P k i j H S c Pc. destruct (H c Pc) as [L K]. pose proof (sweep_bytes _ S c L) as E. cbv beta in E. rewrite K in E. cbn [negb orb] in E. now apply Nat.eqb_eq.
Qed.
Lemma alnum_has : forall c, alnum_ascii c -> c < 256 /\ has NAME1 c = true.
Proof. intros c H. unfold alnum_ascii in H. cbn [has]. unfold letter, between. split; [lia|]. rewrite !orb_true_iff, !andb_true_iff, !N.leb_le, !N.eqb_eq. lia. Qed.
Lemma name_has : forall c, name_char c -> c < 256 /\ has NAME1 c = true.
Proof. intros c [H|H]; [now apply alnum_has|]. cbn in H. destruct H as [<-|[<-|[]]]; split; (lia || reflexivity). Qed.
Definition kminor (c : N) : bool := has NAME1 c || has MINOR_MORE c.
Lemma minor_has : forall c, minor_char c -> c < 256 /\ kminor c = true.
Proof. intros c [H|H]; unfold kminor; [destruct (name_has c H) as [L ->]; now split|]. cbn in H. destruct H as [<-|[<-|[]]]; split; (lia || reflexivity). Qed.
Lemma value_has : forall c, value_char c -> c < 256 /\ has VALUE c = true.
Proof.
  intros c [L H]. split; [lia|]. cbn [has]. unfold between. cbn [In] in H. rewrite andb_true_iff, negb_true_iff, !orb_false_iff, andb_true_iff, !N.leb_le, !N.eqb_neq. intuition lia.
Qed.
Definition kquoted (c : N) : bool := has VALUE c || has QVALUE_MORE c.
Lemma quoted_has : forall c, quoted_char c -> c < 256 /\ kquoted c = true.
Proof. intros c [H|H]; unfold kquoted; [destruct (value_has c H) as [L ->]; now split|]. cbn in H. destruct H as [<-|[<-|[<-|[]]]]; split; (lia || reflexivity). Qed.
Lemma blank_has : forall c, blank c -> c < 256 /\ has BLANK c = true.
Proof. intros c H. cbn in H. destruct H as [<-|[<-|[]]]; split; (lia || reflexivity). Qed.
Lemma white_has : forall c, white c -> c < 256 /\ has WHITE c = true.
Proof. intros c H. cbn in H. destruct H as [<-|[<-|[<-|[]]]]; split; (lia || reflexivity). Qed.
Lemma digit_has : forall c, is_digit c -> c < 256 /\ has DIGIT c = true.
Proof. intros c H. unfold is_digit in H. split; [lia|]. cbn [has]. unfold between. rewrite andb_true_iff, !N.leb_le. lia. Qed.
Ltac by_class := first
  [ refine (to_class _ _ _ _ name_has _); vm_compute; reflexivity
  | refine (to_class _ _ _ _ minor_has _); vm_compute; reflexivity
  | refine (to_class _ _ _ _ value_has _); vm_compute; reflexivity
  | refine (to_class _ _ _ _ quoted_has _); vm_compute; reflexivity
  | refine (to_class _ _ _ _ blank_has _); vm_compute; reflexivity
  | refine (to_class _ _ _ _ white_has _); vm_compute; reflexivity
  | refine (to_class _ _ _ _ digit_has _); vm_compute; reflexivity ].

(* runs of one class *)
Lemma go1_to : forall P i j c last lc text x, to P i j -> P c -> plainb j = true -> go1 c (Cfg i last lc text x) = Some (to_cfg c j (Cfg i last lc text x)).
Proof. intros. unfold go1. cbn [c_i]. rewrite (H c H0), H1. reflexivity. Qed.
Lemma copier_refl : forall k, copier_beq k k = true.
Proof. now intros []. Qed.
Lemma stay : forall P j s last text x, to P j j -> Forall P s -> plainb j = true -> upd last j = last ->
  go s (Cfg j last (cop j) text x) = Some (Cfg j last (cop j) (rev s ++ text) x).
Proof.
  intros P j s last text x T F B U. revert text. induction F as [|c s Pc F IH]; intro text; [reflexivity|]. cbn [go]. rewrite (go1_to P j j) by assumption. unfold to_cfg. cbn [c_i c_last c_lc c_text c_x]. rewrite copier_refl, U, IH. cbn [rev]. now rewrite <- app_assoc.
Qed.
Lemma upd_upd : forall last j, upd (upd last j) j = upd last j.
Proof. intros. unfold upd. now destruct (act j). Qed.
Definition settled (j : nat) (k : cfg) : nvp_vars := if copier_beq (cop j) (c_lc k) then c_x k else flush (c_lc k) (rev (c_text k)) (c_x k).
Definition kept (j : nat) (k : cfg) : bytes := if copier_beq (cop j) (c_lc k) then c_text k else [].
Lemma enter : forall P i j s last lc text x, to P i j -> to P j j -> some_of P s -> plainb j = true ->
  go s (Cfg i last lc text x) = Some (Cfg j (upd last j) (cop j) (rev s ++ kept j (Cfg i last lc text x)) (settled j (Cfg i last lc text x))).
Proof.
  intros P i j s last lc text x T T' [NE F] B. destruct s as [|c s]; [contradiction|]. cbn [go]. rewrite (go1_to P i j) by (assumption || exact (Forall_inv F)).
  unfold to_cfg. cbn [c_i c_last c_lc c_text c_x]. rewrite (stay P) by (assumption || exact (Forall_inv_tail F) || apply upd_upd). cbn [rev]. rewrite <- app_assoc. reflexivity.
Qed.
Lemma step1 : forall c i j last lc text x, next i (Some c) = j -> plainb j = true ->
  go [c] (Cfg i last lc text x) = Some (Cfg j (upd last j) (cop j) (c :: kept j (Cfg i last lc text x)) (settled j (Cfg i last lc text x))).
Proof. intros c i j last lc text x T B. cbn [go]. unfold go1. cbn [c_i]. rewrite T, B. reflexivity. Qed.

(* names *)
Definition named (n : bytes) (x : nvp_vars) : nvp_vars := {| x_name := Some n; x_minor := x_minor x; x_value := x_value x; x_result := x_result x |}.
Lemma name_rest : forall s i last text x, (i = 1 \/ i = 3 \/ i = 9)%nat -> Forall (fun c => name_char c \/ blank c) s ->
  exists j last', go s (Cfg i last COPY_TO_NAME text x) = Some (Cfg j last' COPY_TO_NAME (rev s ++ text) x) /\ (j = 1 \/ j = 3 \/ j = 9)%nat /\
    (s <> [] -> name_char (List.last s 0) -> last' = GOT_NAME /\ j <> 3%nat) /\ (s = [] -> last' = last /\ j = i) /\ (i = 1%nat -> Forall name_char s -> j = 1%nat).
Proof.
  induction s as [|c s IH]; intros i last text x I F.
  - exists i, last. cbn. split; [reflexivity|]. split; [exact I|]. split; [intro; contradiction|]. split; [auto|auto].
  - pose proof (Forall_inv F) as Fc. apply Forall_inv_tail in F. cbn [go].
    assert (N1 : to name_char 1 1) by by_class. assert (N3 : to name_char 3 9) by by_class. assert (N9 : to name_char 9 9) by by_class.
    assert (B1 : to blank 1 3) by by_class. assert (B3 : to blank 3 3) by by_class. assert (B9 : to blank 9 3) by by_class.
    assert (G : exists j l, go1 c (Cfg i last COPY_TO_NAME text x) = Some (Cfg j l COPY_TO_NAME (c :: text) x) /\ (j = 1 \/ j = 3 \/ j = 9)%nat /\ (name_char c -> l = GOT_NAME /\ j <> 3%nat /\ (i = 1%nat -> j = 1%nat))).
    { assert (NB : blank c -> name_char c -> False) by (intros [<-|[<-|[]]] [[H|[H|H]]|H]; cbn in H; try lia; intuition discriminate).
      destruct Fc as [Fc|Fc]; destruct I as [->|[->| ->]].
      - exists 1%nat, GOT_NAME. split; [exact (go1_to _ _ _ _ _ _ _ _ N1 Fc eq_refl)|]. split; [tauto|]. intros _. split; [reflexivity|split; [discriminate|auto]].
      - exists 9%nat, GOT_NAME. split; [exact (go1_to _ _ _ _ _ _ _ _ N3 Fc eq_refl)|]. split; [tauto|]. intros _. split; [reflexivity|split; discriminate].
      - exists 9%nat, GOT_NAME. split; [exact (go1_to _ _ _ _ _ _ _ _ N9 Fc eq_refl)|]. split; [tauto|]. intros _. split; [reflexivity|split; discriminate].
      - exists 3%nat, GOT_NAME_TRAILING_SPACE. split; [exact (go1_to _ _ _ _ _ _ _ _ B1 Fc eq_refl)|]. split; [tauto|]. intro A. destruct (NB Fc A).
      - exists 3%nat, GOT_NAME_TRAILING_SPACE. split; [exact (go1_to _ _ _ _ _ _ _ _ B3 Fc eq_refl)|]. split; [tauto|]. intro A. destruct (NB Fc A).
      - exists 3%nat, GOT_NAME_TRAILING_SPACE. split; [exact (go1_to _ _ _ _ _ _ _ _ B9 Fc eq_refl)|]. split; [tauto|]. intro A. destruct (NB Fc A). }
    destruct G as (j & l & G & J & GN). rewrite G. destruct (IH j l (c :: text) x J F) as (j' & l' & H & J' & L & E & O).
    exists j', l'. split; [rewrite H; cbn [rev]; now rewrite <- app_assoc|]. split; [exact J'|]. split; [|split; [discriminate|]].
    + intros _ LC. destruct s as [|d s].
      * destruct (E eq_refl) as [-> ->]. cbn in LC. destruct (GN LC) as (-> & NE & _). now split.
      * apply L; [discriminate|exact LC].
    + intros I1 A. apply O; [|exact (Forall_inv_tail A)]. destruct (GN (Forall_inv A)) as (_ & _ & K). auto.
Qed.
Lemma name_run : forall n i last text x, (i = 0 \/ i = 4 \/ i = 10)%nat -> name_ok n ->
  exists j, go n (Cfg i last COPY_NOWHERE text x) = Some (Cfg j GOT_NAME COPY_TO_NAME (rev n) x) /\ (j = 1 \/ j = 9)%nat /\ (Forall name_char n -> j = 1%nat).
Proof.
  intros n i last text x I (a & b & -> & Na & NL & F). assert (G : go1 a (Cfg i last COPY_NOWHERE text x) = Some (Cfg 1 GOT_NAME COPY_TO_NAME [a] x)).
  { assert (A0 : to name_char 0 1) by by_class. assert (A4 : to name_char 4 1) by by_class. assert (A10 : to name_char 10 1) by by_class.
    destruct I as [->|[->| ->]]; [exact (go1_to _ _ _ _ _ _ _ _ A0 Na eq_refl)|exact (go1_to _ _ _ _ _ _ _ _ A4 Na eq_refl)|exact (go1_to _ _ _ _ _ _ _ _ A10 Na eq_refl)]. }
  cbn [go]. rewrite G. destruct (name_rest b 1%nat GOT_NAME [a] x (or_introl eq_refl) F) as (j & l & H & J & L & E & O). exists j. rewrite H. cbn [rev].
  assert (Q : l = GOT_NAME /\ j <> 3%nat). { destruct b as [|d b]; [destruct (E eq_refl); subst; split; [reflexivity|discriminate]|]. apply L; [discriminate|]. exact NL. }
  destruct Q as [-> NE]. split; [reflexivity|]. split; [intuition congruence|]. intro A. apply O; [reflexivity|exact (Forall_inv_tail A)].
Qed.

Section Space.
Variable isspc : N -> bool.
Hypothesis space_blank : forall c, blank c -> isspc c = true.
Hypothesis space_name : forall c, name_char c -> isspc c = false.

(* ready k es: a terminator would now leave es *)
Definition ready (k : cfg) (es : list nvp_entry) : Prop :=
  next (c_i k) (Some 59) = 4%nat /\ next (c_i k) None = 2%nat /\
  exists x, terminator isspc (c_last k) (settled 4 k) = Ok (Some x) /\ x_result x = es.
Lemma ready_more : forall k es s, ready k es -> exists text x, looped isspc (59 :: s) k = looped isspc s (Cfg 4 GOT_NOTHING COPY_NOWHERE text x) /\ x_result x = es.
Proof.
  intros k es s (A & _ & x & T & R). exists (59 :: kept 4 k), x. split; [|exact R]. unfold looped. cbn [iloop]. rewrite A. change ((4 =? 60)%nat) with false. cbn iota.
  change (act 4) with GOT_TERMINATOR. cbn iota. unfold settled in T. rewrite T. cbn [bind fst snd c_i c_last c_lc c_text c_x]. reflexivity.
Qed.
Lemma ready_end : forall k es, ready k es -> looped isspc [] k = Ok (Some es).
Proof.
  intros k es (_ & A & x & T & R). unfold looped. cbn [iloop]. rewrite A. change ((2 =? 60)%nat) with false. cbn iota.
  change (act 2) with GOT_TERMINATOR. cbn iota. unfold settled in T. change (cop 4) with (cop 2) in T. rewrite T. cbn [bind fst]. now rewrite R.
Qed.
(* ends k es: and also after white space *)
Definition ends (k : cfg) (es : list nvp_entry) : Prop := forall w, Forall white w -> exists k', go w k = Some k' /\ ready k' es.

(* an ending state i with the white space after it in j *)
Lemma ends_by : forall i j last lc text x x' es, to white i j -> to white j j -> plainb j = true -> cop j = COPY_NOWHERE -> upd last j = last ->
  next i (Some 59) = 4%nat -> next i None = 2%nat -> next j (Some 59) = 4%nat -> next j None = 2%nat ->
  terminator isspc last (settled 4 (Cfg i last lc text x)) = Ok (Some x') -> x_result x' = es ->
  ends (Cfg i last lc text x) es.
Proof.
  intros i j last lc text x x' es T T' P C U A B A' B' TE R w W. destruct w as [|c w].
  - exists (Cfg i last lc text x). split; [reflexivity|]. split; [exact A|]. split; [exact B|]. exists x'. now split.
  - eexists. split; [apply (enter white i j); try assumption; split; [discriminate|exact W]|]. cbv [ready]. cbn [c_i c_last]. split; [exact A'|]. split; [exact B'|]. exists x'. split; [|exact R]. rewrite U, C. unfold settled at 1. cbn [c_lc c_x].
    change (cop 4) with COPY_NOWHERE. cbn [copier_beq]. unfold settled in *. rewrite C. exact TE.
Qed.

Lemma trim_ok : forall w n, Forall blank w -> (exists a b, n = a ++ [b] /\ name_char b) -> trim isspc (rev (n ++ w)) = Ok n.
Proof.
  intros w n W (a & b & E & B). rewrite rev_app_distr. apply Forall_rev in W. induction W as [|c v H W IH].
  - cbn [app]. rewrite E, rev_app_distr. cbn [rev app trim]. rewrite (space_name b B). cbn [rev]. rewrite rev_involutive. reflexivity.
  - cbn [app trim]. rewrite (space_blank c H). exact IH.
Qed.
Lemma name_last : forall n, name_ok n -> exists a b, n = a ++ [b] /\ name_char b.
Proof. intros n (a & b & E & _ & L & _). exists (removelast n), (List.last n 0). split; [|exact L]. apply app_removelast_last. now rewrite E. Qed.

(* a name alone *)
Lemma word_ends : forall n j x, name_ok n -> (j = 1 \/ j = 9)%nat -> ends (Cfg j GOT_NAME COPY_TO_NAME (rev n) x) (x_result x ++ [Entry NVP_NAME n []]).
Proof.
  intros n j x N J w W.
  assert (Split : exists b r, w = b ++ r /\ Forall blank b /\ (r = [] \/ exists r', r = 13 :: r' /\ Forall white r')).
  { clear -W. induction W as [|c w H W IH]; [exists [], []; split; [reflexivity|]; split; [constructor|now left]|].
    cbn in H. destruct H as [<-|[<-|[<-|[]]]].
    - destruct IH as (b & r & -> & B & R). exists (9 :: b), r. split; [reflexivity|]. split; [constructor; [now left|exact B]|exact R].
    - exists [], (13 :: w). split; [reflexivity|]. split; [constructor|]. right. now exists w.
    - destruct IH as (b & r & -> & B & R). exists (32 :: b), r. split; [reflexivity|]. split; [constructor; [right; now left|exact B]|exact R]. }
  destruct Split as (b & r & -> & B & R). clear W.
  assert (T18 : next 1 (Some 13) = 8%nat) by reflexivity. assert (T98 : next 9 (Some 13) = 8%nat) by reflexivity. assert (T38 : next 3 (Some 13) = 8%nat) by reflexivity.
  assert (T1 : to blank 1 3) by by_class. assert (T9 : to blank 9 3) by by_class. assert (T3 : to blank 3 3) by by_class. assert (T8 : to white 8 8) by by_class.
  (* after the blanks *)
  assert (G : exists j' l', go b (Cfg j GOT_NAME COPY_TO_NAME (rev n) x) = Some (Cfg j' l' COPY_TO_NAME (rev (n ++ b)) x) /\ (j' = 1 \/ j' = 3 \/ j' = 9)%nat /\
     forall y, x_name y = Some (n ++ b) -> x_result y = x_result x -> exists z, terminator isspc l' y = Ok (Some z) /\ x_result z = x_result x ++ [Entry NVP_NAME n []]).
  { destruct b as [|c b].
    - exists j, GOT_NAME. rewrite app_nil_r. split; [reflexivity|]. split; [tauto|]. intros y E F. cbn [terminator]. rewrite E. cbn [or_empty]. eexists. split; [reflexivity|]. cbn [x_result]. now rewrite F.
    - exists 3%nat, GOT_NAME_TRAILING_SPACE. split; [|split; [tauto|]].
      + rewrite rev_app_distr. destruct J as [-> | ->]; [rewrite (enter blank 1 3)|rewrite (enter blank 9 3)]; try assumption; try reflexivity; (split; [discriminate|exact B]).
      + intros y E F. cbn [terminator]. rewrite E, (trim_ok _ _ B (name_last n N)). cbn [bind]. eexists. split; [reflexivity|]. cbn [x_result]. now rewrite F. }
  destruct G as (j' & l' & G & J' & T). destruct R as [->|(r' & -> & R)].
  - rewrite app_nil_r. exists (Cfg j' l' COPY_TO_NAME (rev (n ++ b)) x). split; [exact G|]. destruct (T (named (n ++ b) x) eq_refl eq_refl) as (z & Z & ZR).
    split; [destruct J' as [->|[->| ->]]; reflexivity|]. split; [destruct J' as [->|[->| ->]]; reflexivity|]. exists z. split; [|exact ZR]. unfold settled. cbn [c_lc c_x c_text c_last]. change (copier_beq (cop 4) COPY_TO_NAME) with false. cbn iota. cbn [flush]. rewrite rev_involutive. exact Z.
  - assert (H8 : go (13 :: r') (Cfg j' l' COPY_TO_NAME (rev (n ++ b)) x) = Some (Cfg 8 l' COPY_NOWHERE (rev r' ++ [13]) (named (n ++ b) x))).
    { change (13 :: r') with ([13] ++ r'). eapply go_app_ok; [apply (step1 13 j' 8)|]; [destruct J' as [->|[->| ->]]; reflexivity|reflexivity|]. unfold kept, settled. cbn [c_lc c_x c_text]. change (upd l' 8) with l'. change (copier_beq (cop 8) COPY_TO_NAME) with false. cbn iota. rewrite rev_involutive.
      apply (stay white 8); try assumption; reflexivity. }
    eexists. split; [eapply go_app_ok; [exact G|exact H8]|]. destruct (T (named (n ++ b) x) eq_refl eq_refl) as (z & Z & ZR). split; [reflexivity|]. split; [reflexivity|]. exists z. split; [exact Z|exact ZR].
Qed.
End Space.
