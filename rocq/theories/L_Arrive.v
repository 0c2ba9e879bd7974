From Verif Require Import Base M_Imap S_Imap S_Server M_Write M_Read S_Read L_Imap L_Imap2 L_Imap3 L_Imap6 L_Imap7.
Local Open Scope N_scope.

Lemma eat_more tag : forall p r q, match eat tag r p with
  | Ok (inr (l, b)) => eat tag r (p ++ q) = Ok (inr (l, b ++ q))
  | Ok (inl r') => eat tag r (p ++ q) = eat tag r' q
  | Err e => eat tag r (p ++ q) = Err e
  end.
Proof.
  induction p as [|c p IH]; intros r q; [reflexivity|]. cbn [app eat]. destruct (step tag r c) as [[r'|l]|e]; cbn [bind]; [apply IH|reflexivity|reflexivity].
Qed.
(* all the bytes at once *)
Definition whole (tag : Z) (r : reader) (t : bytes) (l : option tok) (rest : bytes) : Prop := eat tag r t = Ok (inr (l, rest)).
Lemma wait_eat tag r t l b : waitline tag r t [] = Ok (Some l, b, []) -> eat tag r t = Ok (inr (Some l, b)).
Proof. cbn [waitline]. destruct (eat tag r t) as [[r'|[l' b']]|e]; cbn [bind]; intros H; try discriminate. injection H as -> ->. reflexivity. Qed.
Lemma line_whole tag l t rest : line_spelt tag l t -> tag < 2 ^ 31 -> eat (Z.of_N tag) reader0 (t ++ rest) = Ok (inr (Some (tok_of_line l), rest)).
Proof.
  intros L T. destruct (wait_reads tag l t rest (t ++ rest) [] L T) as (b & n & E & R); [cbn [concat]; apply app_nil_r|].
  assert (X : n = []). { cbn [waitline] in E. destruct (eat _ _ _) as [[r'|[l' b']]|e]; cbn [bind] in E; try discriminate. now injection E. }
  subst n. cbn [concat] in R. rewrite app_nil_r in R. subst b. now apply wait_eat.
Qed.

(* without TLS *)
Lemma plain_main tag l rest : forall rounds r buf, Forall goes_well rounds -> eat tag r (buf ++ concat (map bytes_of rounds)) = Ok (inr (l, rest)) ->
  exists b used left, wait_plain tag r buf rounds = Ok (l, b, left) /\ rounds = used ++ left /\ b ++ concat (map bytes_of left) = rest.
Proof.
  induction rounds as [|x rounds IH]; intros r buf F E; pose proof (eat_more tag buf r) as M; cbn [wait_plain].
  - cbn [map concat] in E. rewrite app_nil_r in E. rewrite E. cbn [bind]. exists rest, [], []. split; [reflexivity|]. split; [reflexivity|]. apply app_nil_r.
  - inversion F as [|? ? G F']; subst. specialize (M (concat (map bytes_of (x :: rounds)))). rewrite E in M. destruct (eat tag r buf) as [[r'|[l' b']]|e]; cbn [bind]; [|injection M as -> ->; exists b', [], (x :: rounds); auto|discriminate].
    symmetry in M. assert (K : forall b, goes_well x -> bytes_of x = b -> exists b0 used left, wait_plain tag r' b rounds = Ok (l, b0, left) /\ x :: rounds = used ++ left /\ b0 ++ concat (map bytes_of left) = rest).
    { intros b _ B. cbn [map concat] in M. rewrite B in M. destruct (IH r' b F' M) as (b0 & u & lf & W & -> & R). exists b0, (x :: u), lf. auto. }
    destruct x as [[| | |] [b| | |]]; cbn [goes_well bytes_of] in *; try contradiction; try (apply K; auto; fail).
    destruct b as [|c b]; [destruct G; contradiction|]. replace (N.of_nat (length (c :: b)) <=? buffer_size) with true by (unfold buffer_size; destruct G; lia). apply K; auto.
Qed.
Lemma plain_cut tag : forall rounds r buf x more, Forall goes_well rounds -> goes_wrong x -> (exists r', eat tag r (buf ++ concat (map bytes_of rounds)) = Ok (inl r')) ->
  wait_plain tag r buf (rounds ++ x :: more) = Ok (None, [], more).
Proof.
  induction rounds as [|y rounds IH]; intros r buf x more F W (q & E); pose proof (eat_more tag buf r) as M; cbn [wait_plain app].
  - cbn [map concat] in E. rewrite app_nil_r in E. rewrite E. cbn [bind]. destruct x as [[| | |] [[|? ?]| | |]]; cbn [goes_wrong] in W; try contradiction; reflexivity.
  - inversion F as [|? ? G F']; subst. specialize (M (concat (map bytes_of (y :: rounds)))). rewrite E in M. destruct (eat tag r buf) as [[r'|[l' b']]|e]; cbn [bind]; [|discriminate|discriminate].
    symmetry in M. assert (K : forall b, bytes_of y = b -> wait_plain tag r' b (rounds ++ x :: more) = Ok (None, [], more)).
    { intros b B. apply IH; auto. cbn [map concat] in M. rewrite B in M. eauto. }
    destruct y as [[| | |] [b| | |]]; cbn [goes_well bytes_of] in *; try contradiction; try (apply K; auto; fail).
    destruct b as [|c b]; [destruct G; contradiction|]. replace (N.of_nat (length (c :: b)) <=? buffer_size) with true by (unfold buffer_size; destruct G; lia). apply K; auto.
Qed.
(* with TLS: the same rounds by other names *)
Definition as_plain (y : ssl_got) : polled * got :=
  match y with Y_bytes b => (P_ready, G_bytes b) | Y_error => (P_ready, G_error) | Y_wants P_ready => (P_ready, G_again) | Y_wants p => (p, G_again) end.
Lemma tls_plain tag : forall rounds r buf, wait_plain tag r buf (map as_plain rounds) = match wait_tls tag r buf rounds with Ok (l, b, rs) => Ok (l, b, map as_plain rs) | Err e => Err e end.
Proof.
  induction rounds as [|y rounds IH]; intros r buf; cbn [map wait_plain wait_tls]; destruct (eat tag r buf) as [[r'|[l b]]|e]; cbn [bind]; try reflexivity.
  destruct y as [[|c b]|[| | |]|]; cbn [as_plain]; try reflexivity; try apply IH. destruct (_ <=? _); [apply IH|reflexivity].
Qed.
Lemma well_tls rounds : Forall goes_well_tls rounds -> Forall goes_well (map as_plain rounds).
Proof. induction 1 as [|y l G F IH]; [constructor|]. cbn [map]. constructor; [|exact IH]. destruct y as [b|[| | |]|]; exact G. Qed.
Lemma bytes_tls rounds : map bytes_of (map as_plain rounds) = map bytes_of_tls rounds.
Proof. induction rounds as [|y l IH]; [reflexivity|]. cbn [map]. rewrite IH. destruct y as [b|[| | |]|]; reflexivity. Qed.
Lemma suffix_tls tag : forall rounds r buf l b left, wait_tls tag r buf rounds = Ok (l, b, left) -> exists used, rounds = used ++ left.
Proof.
  induction rounds as [|y rounds IH]; intros r buf l b left; cbn [wait_tls]; destruct (eat tag r buf) as [[r'|[l' b']]|e]; cbn [bind]; intros H; try discriminate.
  - injection H as <- <- <-. exists []. reflexivity.
  - assert (K : forall b0, wait_tls tag r' b0 rounds = Ok (l, b, left) -> exists used, y :: rounds = used ++ left) by (intros b0 W; apply IH in W as (u & ->); exists (y :: u); reflexivity).
    assert (J : Ok (None, [], rounds) = Ok (l, b, left) -> exists used, y :: rounds = used ++ left) by (intros Z; injection Z as _ _ <-; exists [y]; reflexivity).
    destruct y as [[|c b0]|[| | |]|]; eauto. destruct (_ <=? _); [eauto|discriminate].
  - injection H as <- <- <-. exists []. reflexivity.
Qed.

Lemma read_main tag l t rest buf : line_spelt tag l t -> tag < 2 ^ 31 ->
  (forall rounds, Forall goes_well rounds -> buf ++ concat (map bytes_of rounds) = t ++ rest ->
    exists b used left, wait_plain (Z.of_N tag) reader0 buf rounds = Ok (Some (tok_of_line l), b, left) /\ rounds = used ++ left /\ b ++ concat (map bytes_of left) = rest) /\
  (forall rounds, Forall goes_well_tls rounds -> buf ++ concat (map bytes_of_tls rounds) = t ++ rest ->
    exists b used left, wait_tls (Z.of_N tag) reader0 buf rounds = Ok (Some (tok_of_line l), b, left) /\ rounds = used ++ left /\ b ++ concat (map bytes_of_tls left) = rest).
Proof.
  intros L T. pose proof (line_whole tag l t rest L T) as E. split; intros rounds F C.
  - apply plain_main; [exact F|]. rewrite C. exact E.
  - destruct (plain_main (Z.of_N tag) (Some (tok_of_line l)) rest (map as_plain rounds) reader0 buf (well_tls _ F)) as (b & u & lf & W & _ & R); [rewrite bytes_tls, C; exact E|].
    rewrite tls_plain in W. destruct (wait_tls _ _ _ _) as [[[l' b'] left]|e] eqn:WT; [|discriminate]. injection W as -> -> <-. destruct (suffix_tls _ _ _ _ _ _ _ WT) as (used & EU). rewrite bytes_tls in R. exists b, used, left. auto.
Qed.
Lemma cut_main tag l t buf : line_spelt tag l t -> tag < 2 ^ 31 ->
  (forall rounds x more missing, Forall goes_well rounds -> goes_wrong x -> missing <> [] -> t = buf ++ concat (map bytes_of rounds) ++ missing -> wait_plain (Z.of_N tag) reader0 buf (rounds ++ x :: more) = Ok (None, [], more)) /\
  (forall rounds x more missing, Forall goes_well_tls rounds -> goes_wrong_tls x -> missing <> [] -> t = buf ++ concat (map bytes_of_tls rounds) ++ missing -> wait_tls (Z.of_N tag) reader0 buf (rounds ++ x :: more) = Ok (None, [], more)).
Proof.
  intros L T. pose proof (line_whole tag l t [] L T) as E. rewrite app_nil_r in E.
  assert (P : forall p missing, missing <> [] -> t = p ++ missing -> exists r', eat (Z.of_N tag) reader0 p = Ok (inl r')).
  { intros p m NE ->. pose proof (eat_more (Z.of_N tag) p reader0 m) as M. rewrite E in M. destruct (eat _ _ p) as [[r'|[l' b']]|e]; [eauto| |discriminate]. injection M as _ M. symmetry in M. apply app_eq_nil in M as [_ M]. contradiction. }
  split; intros rounds x more m F W NE C.
  - apply plain_cut; [exact F|exact W|]. apply (P _ m NE). rewrite <- app_assoc. exact C.
  - assert (W' : goes_wrong (as_plain x)) by (destruct x as [[|? ?]|[| | |]|]; exact W).
    pose proof (plain_cut (Z.of_N tag) (map as_plain rounds) reader0 buf (as_plain x) (map as_plain more) (well_tls _ F) W') as K. rewrite bytes_tls in K. specialize (K (P _ m NE ltac:(rewrite <- app_assoc; exact C))).
    change (as_plain x :: map as_plain more) with (map as_plain (x :: more)) in K. rewrite <- map_app, tls_plain in K. destruct (wait_tls _ _ _ _) as [[[l' b'] left]|e] eqn:WT; [|discriminate]. injection K as -> -> K.
    destruct (suffix_tls _ _ _ _ _ _ _ WT) as (used & EU). assert (LL : length left = length more) by (apply (f_equal (@length _)) in K; now rewrite !map_length in K).
    replace left with more; [reflexivity|]. assert (Z : rounds ++ x :: more = (rounds ++ [x]) ++ more) by now rewrite <- app_assoc. rewrite Z in EU. clear -EU LL. revert used EU. generalize (rounds ++ [x]) as a. induction a as [|y a IH]; intros [|z used] EU; cbn [app] in EU.
    + exact EU.
    + exfalso. apply (f_equal (@length _)) in EU. cbn [length] in EU. rewrite app_length in EU. lia.
    + exfalso. apply (f_equal (@length _)) in EU. cbn [length] in EU. rewrite app_length in EU. lia.
    + injection EU as _ EU. now apply (IH used).
Qed.
Lemma plain_safe tag : forall rounds r buf y, Forall fits rounds -> eat tag r (buf ++ concat (map bytes_of rounds)) = Ok y ->
  (exists x, wait_plain tag r buf rounds = Ok x) \/ (wait_plain tag r buf rounds = Err E_fuel /\ ~ Exists goes_wrong rounds).
Proof.
  induction rounds as [|x rounds IH]; intros r buf y F E; pose proof (eat_more tag buf r) as M; cbn [wait_plain].
  - cbn [map concat] in E. rewrite app_nil_r in E. rewrite E. cbn [bind]. destruct y as [r'|[l b]]; [|left; eauto]. right. split; [reflexivity|]. intros X. inversion X.
  - inversion F as [|? ? G F']; subst. specialize (M (concat (map bytes_of (x :: rounds)))). rewrite E in M. destruct (eat tag r buf) as [[r'|[l' b']]|e]; cbn [bind]; [|left; eauto|discriminate].
    symmetry in M. assert (K : ~ goes_wrong x -> forall b, bytes_of x = b -> (exists z, wait_plain tag r' b rounds = Ok z) \/ (wait_plain tag r' b rounds = Err E_fuel /\ ~ Exists goes_wrong (x :: rounds))).
    { intros NW b B. cbn [map concat] in M. rewrite B in M. destruct (IH r' b y F' M) as [Z|[Z N]]; [left; exact Z|right]. split; [exact Z|]. intros X. inversion X; contradiction. }
    destruct x as [[| | |] [[|c b]| | |]]; cbn [goes_wrong bytes_of fits] in *; try (left; eauto; fail); try (apply K; auto; fail).
    unfold fits in G. cbn [bytes_of] in G. replace (N.of_nat (length (c :: b)) <=? buffer_size) with true by (unfold buffer_size; lia). apply K; auto.
Qed.
Lemma safe_main tag buf :
  (forall rounds, Forall fits rounds -> no_huge (buf ++ concat (map bytes_of rounds)) ->
    (exists x, wait_plain tag reader0 buf rounds = Ok x) \/ (wait_plain tag reader0 buf rounds = Err E_fuel /\ ~ Exists goes_wrong rounds)) /\
  (forall rounds, Forall fits_tls rounds -> no_huge (buf ++ concat (map bytes_of_tls rounds)) ->
    (exists x, wait_tls tag reader0 buf rounds = Ok x) \/ (wait_tls tag reader0 buf rounds = Err E_fuel /\ ~ Exists goes_wrong_tls rounds)).
Proof.
  assert (E : forall t, no_huge t -> exists y, eat tag reader0 t = Ok y).
  { intros t H. destruct (line_safe tag t []) as [x X]; [cbn [concat]; rewrite app_nil_r; exact H|]. cbn [waitline] in X. destruct (eat tag reader0 t) as [y|e]; [eauto|discriminate]. }
  split; intros rounds F H.
  - destruct (E _ H) as [y Y]. eapply plain_safe; eassumption.
  - rewrite <- bytes_tls in H. destruct (E _ H) as [y Y]. assert (F' : Forall fits (map as_plain rounds)).
    { clear -F. induction F as [|x l G F IH]; [constructor|]. cbn [map]. constructor; [|exact IH]. destruct x as [b|[| | |]|]; exact G. }
    destruct (plain_safe tag _ reader0 buf y F' Y) as [[x X]|[X NX]]; rewrite tls_plain in X; destruct (wait_tls tag reader0 buf rounds) as [[[l b] rs]|e]; try discriminate; [left; eauto|right].
    injection X as ->. split; [reflexivity|]. intros Z. apply NX. clear -Z. induction Z as [x l W|x l Z IH]; cbn [map]; [apply Exists_cons_hd|apply Exists_cons_tl; exact IH]. destruct x as [[|? ?]|[| | |]|]; exact W.
Qed.

Definition ex_text : bytes := bs "* 3 EXISTS" ++ [13; 10].
Definition ex_rounds : list (polled * got) := [(P_ready, G_again); (P_ready, G_bytes (bs "3 EXI")); (P_signal, G_again); (P_ready, G_bytes (bs "STS" ++ [13; 10] ++ bs "* B")); (P_ready, G_bytes (bs "YE"))].
Lemma read_example : line_spelt 7 (Says [Atom (bs "3"); Atom (bs "EXISTS")]) ex_text /\ Forall goes_well ex_rounds /\ bs "* " ++ concat (map bytes_of ex_rounds) = ex_text ++ bs "* BYE" /\
  wait_plain 7 reader0 (bs "* ") ex_rounds = Ok (Some (tok_of_line (Says [Atom (bs "3"); Atom (bs "EXISTS")])), bs "* B", [(P_ready, G_bytes (bs "YE"))]) /\
  wait_plain 7 reader0 (bs "* ") [(P_ready, G_bytes (bs "3 EXI")); (P_timeout, G_again)] = Ok (None, [], []) /\
  wait_tls 7 reader0 (bs "* ") [Y_wants P_ready; Y_bytes (bs "3 EXI"); Y_error] = Ok (None, [], []) /\ Forall fits ex_rounds /\ no_huge (bs "* " ++ concat (map bytes_of ex_rounds)).
Proof.
  split; [apply (line_says 7 [Atom (bs "3"); Atom (bs "EXISTS")]); cbn [legible_from next_place]; split; [apply digit_atom; split; [discriminate|apply Forall_forall; cbn; unfold digit; intuition lia]|split; [word|exact I]]|].
  split; [unfold ex_rounds; repeat (apply Forall_cons; [first [exact I | split; [discriminate|vm_compute; discriminate]]|]); apply Forall_nil|].
  split; [reflexivity|]. split; [vm_compute; reflexivity|]. split; [vm_compute; reflexivity|]. split; [vm_compute; reflexivity|]. split; [unfold ex_rounds; repeat (apply Forall_cons; [vm_compute; discriminate|]); apply Forall_nil|].
  apply few_digits. vm_compute. lia.
Qed.
