(* make_nvp is safe on any input; and what is found in the entries afterwards. *)
From Verif Require Import Base M_Decode M_Nvp S_Nvp L_Decode L_Nvp L_Nvp2 L_Nvp3.
From Verif Require M_Tokens.
Local Open Scope N_scope.

(* what is known where: state, last action, whether there is a name, whether there is a value *)
Definition abs : Type := nat * action * bool * bool.
Definition abs_ok (a : abs) : bool :=
  let '(_, last, hn, hv) := a in
  match last with
  | GOT_NAME_TRAILING_SPACE => hn
  | GOT_NAMEVALUE_CSET | GOT_NAMEVALUE_CCONT | GOT_NAMEVALUE_CONT => hn && hv
  | _ => true
  end.
Definition abs_next (a : abs) (r : nat) : option abs :=
  let '(i, last, hn, hv) := a in
  let j := nth r (nth i table []) 60%nat in
  if (j =? 60)%nat then None else
  match act j with
  | GOT_TERMINATOR => Some (j, GOT_NOTHING, false, false)
  | _ => Some (j, upd last j, hn || copier_beq (cop j) COPY_TO_NAME, hv || copier_beq (cop j) COPY_TO_VALUE)
  end.
Definition abs_eqb (a b : abs) : bool :=
  let '(i, l, n, v) := a in let '(i', l', n', v') := b in (i =? i')%nat && action_beq l l' && Bool.eqb n n' && Bool.eqb v v'.
Fixpoint abs_reach (fuel : nat) (todo seen : list abs) : list abs :=
  match fuel with
  | O => seen
  | S f =>
    match todo with
    | [] => seen
    | a :: todo' =>
      let '(seen, new) := fold_left (fun acc r => match abs_next a r with
         | Some b => if existsb (abs_eqb b) (fst acc) then acc else (fst acc ++ [b], snd acc ++ [b])
         | None => acc end) (seq 0 20) (seen, []) in
      abs_reach f (todo' ++ new) seen
    end
  end.
Definition abs0 : abs := (0%nat, GOT_NOTHING, false, false).
Definition reached : list abs := abs_reach 500 [abs0] [abs0].
Lemma abs_eqb_eq : forall a b, abs_eqb a b = true -> a = b.
Proof.
  intros [[[i l] n] v] [[[i' l'] n'] v'] H. cbn in H. rewrite !andb_true_iff in H. destruct H as [[[A B] C] D]. apply Nat.eqb_eq in A. apply internal_action_dec_bl in B. apply eqb_prop in C, D. now subst.
Qed.
Lemma reached_closed : existsb (abs_eqb abs0) reached && forallb (fun a => abs_ok a && forallb (fun r => match abs_next a r with Some b => existsb (abs_eqb b) reached | None => true end) (seq 0 20)) reached = true.
Proof. vm_compute. reflexivity. Qed.
Global Opaque reached.
Definition In_abs (a : abs) : Prop := existsb (abs_eqb a) reached = true.
Lemma abs_step : forall a, In_abs a -> abs_ok a = true /\ forall r, (r < 20)%nat -> match abs_next a r with Some b => In_abs b | None => True end.
Proof.
  intros a H. unfold In_abs in H. apply existsb_exists in H. destruct H as (b & I & E). apply abs_eqb_eq in E. subst b. pose proof reached_closed as C. rewrite andb_true_iff in C. destruct C as [_ C]. rewrite forallb_forall in C. specialize (C a I).
  rewrite andb_true_iff in C. destruct C as [C F]. split; [exact C|]. intros r L. rewrite forallb_forall in F. specialize (F r). rewrite in_seq in F. specialize (F ltac:(lia)). cbv beta in F. unfold In_abs. destruct (abs_next a r); [exact F|trivial].
Qed.
Lemma class_lt : forall c, (class_of c < 20)%nat.
Proof. intros [c|]; [|cbn; lia]. unfold class_of. repeat match goal with |- context [if ?b then _ else _] => destruct b end; lia. Qed.
(* a name is begun by a letter, a digit or the like *)
Lemma name_begins : forall i c, c < 256 -> (next i (Some c) < 52)%nat -> cop (next i (Some c)) = COPY_TO_NAME -> cop i <> COPY_TO_NAME -> has NAME1 c = true.
Proof.
  intros i c L R A B.
  assert (H : forallb (fun i => forallb (fun c => copier_beq (cop i) COPY_TO_NAME || negb (copier_beq (cop (next i (Some c))) COPY_TO_NAME) || has NAME1 c) all_bytes) (seq 0 52) = true) by (vm_compute; reflexivity).
  assert (I : (i < 52)%nat). { destruct (Nat.lt_ge_cases i 52) as [I|I]; [exact I|]. unfold next in R. rewrite (nth_overflow table) in R by (exact I). destruct (class_of (Some c)); cbn in R; lia. }
  rewrite forallb_forall in H. specialize (H i). rewrite in_seq in H. specialize (H ltac:(lia)). pose proof (sweep_bytes _ H c L) as K. cbv beta in K. rewrite A in K. cbn [copier_beq negb orb] in K. rewrite orb_false_r in K.
  apply orb_true_iff in K. destruct K as [K|K]; [|exact K]. apply internal_copier_dec_bl in K. contradiction.
Qed.
Lemma has_name : forall c, c < 256 -> has NAME1 c = true -> name_char c.
Proof.
  intros c L H. cbn [has] in H. unfold letter, between in H. rewrite !orb_true_iff, !andb_true_iff, !N.leb_le, !N.eqb_eq in H. unfold name_char, alnum_ascii. cbn. intuition lia.
Qed.
Section Safe.
Variable isspc : N -> bool.
Hypothesis space_name : forall c, name_char c -> isspc c = false.

Definition starts_named (o : option bytes) : Prop := match o with Some (c :: _) => name_char c | _ => False end.
Definition inv (k : cfg) (hn hv : bool) : Prop :=
  c_lc k = cop (c_i k) /\ (c_lc k = COPY_TO_NAME -> starts_named (Some (rev (c_text k)))) /\
  (hn = true -> starts_named (x_name (settled 4 k))) /\ (hv = true -> x_value (settled 4 k) <> None).
Lemma trim_safe : forall s, Exists name_char s -> exists t, trim isspc s = Ok t.
Proof.
  induction s as [|c s IH]; intro E; [inversion E|]. cbn [trim]. destruct (isspc c) eqn:S; [|eexists; reflexivity]. apply IH. inversion E; subst; [|assumption]. rewrite space_name in S by assumption. discriminate.
Qed.
Lemma terminator_safe : forall i last hn hv y, abs_ok (i, last, hn, hv) = true -> (hn = true -> starts_named (x_name y)) -> (hv = true -> x_value y <> None) -> exists z, terminator isspc last y = Ok z.
Proof.
  intros i last hn hv y A HN HV. unfold abs_ok in A.
  assert (C : forall v, hn = true -> exists z, (match x_name y with None => Err E_oob | Some n => match combine_into (x_result y) n v with
      | Some es => Ok (Some {| x_name := x_name y; x_minor := x_minor y; x_value := Some v; x_result := es |})
      | None => Ok (Some {| x_name := None; x_minor := x_minor y; x_value := None; x_result := x_result y ++ [Entry NVP_NAMEVALUE n v] |}) end end) = Ok z).
  { intros v H. specialize (HN H). destruct (x_name y) as [n|]; [|destruct HN]. destruct (combine_into (x_result y) n v); eexists; reflexivity. }
  destruct last; cbn [terminator]; try (eexists; reflexivity).
  - rewrite andb_true_iff in A. destruct A as [-> ->]. specialize (HV eq_refl). destruct (x_value y) as [v|]; [|contradiction]. destruct (C v eq_refl) as [z Z]. exists z. exact Z.
  - rewrite andb_true_iff in A. destruct A as [-> ->]. specialize (HV eq_refl). destruct (x_value y) as [v|]; [|contradiction]. destruct (percent v) as [u|]; [|eexists; reflexivity]. destruct (C (M_Tokens.cstr u) eq_refl) as [z Z]. exists z. exact Z.
  - rewrite andb_true_iff in A. destruct A as [-> ->]. specialize (HV eq_refl). destruct (x_value y) as [v|]; [|contradiction]. destruct (percent v) as [u|]; [|eexists; reflexivity]. destruct (C (M_Tokens.cstr u) eq_refl) as [z Z]. exists z. exact Z.
  - specialize (HN A). destruct (x_name y) as [[|c n]|]; [destruct HN| |destruct HN]. destruct (trim_safe (rev (c :: n))) as [t ->]; [|cbn [bind]; eexists; reflexivity]. cbn [rev]. apply Exists_app. right. now constructor.
Qed.
Definition settles (to from : copier) (text : bytes) (x : nvp_vars) : nvp_vars := if copier_beq to from then x else flush from (rev text) x.
Lemma keep : forall kj kl c text x (hn hv : bool), (kj = COPY_TO_NAME -> starts_named (Some (rev (c :: if copier_beq kj kl then text else [])))) ->
  (hn = true -> starts_named (x_name (settles COPY_NOWHERE kl text x))) -> (hv = true -> x_value (settles COPY_NOWHERE kl text x) <> None) ->
  (hn || copier_beq kj COPY_TO_NAME = true -> starts_named (x_name (settles COPY_NOWHERE kj (c :: if copier_beq kj kl then text else []) (settles kj kl text x)))) /\
  (hv || copier_beq kj COPY_TO_VALUE = true -> x_value (settles COPY_NOWHERE kj (c :: if copier_beq kj kl then text else []) (settles kj kl text x)) <> None).
Proof.
  intros kj kl c text x hn hv NM V3 V4. destruct kj, kl; cbn [settles copier_beq flush x_name x_value orb] in *; rewrite ?orb_false_r, ?orb_true_r; (split; intro H); auto; discriminate.
Qed.
Lemma safe_loop : forall s k hn hv, Forall (fun c => c < 256) s -> inv k hn hv -> In_abs (c_i k, c_last k, hn, hv) -> exists r, looped isspc s k = Ok r.
Proof.
  assert (Term : forall k hn hv j, In_abs (c_i k, c_last k, hn, hv) -> inv k hn hv -> cop j = COPY_NOWHERE -> exists z, terminator isspc (c_last k) (if copier_beq (cop j) (c_lc k) then c_x k else flush (c_lc k) (rev (c_text k)) (c_x k)) = Ok z).
  { intros k hn hv j A (_ & _ & HN & HV) C. change (if copier_beq (cop j) (c_lc k) then c_x k else flush (c_lc k) (rev (c_text k)) (c_x k)) with (settled j k). unfold settled in *. rewrite C. change (cop 4) with COPY_NOWHERE in *. eapply terminator_safe; [exact (proj1 (abs_step _ A))|exact HN|exact HV]. }
  assert (TC : forall j, (j < 52)%nat -> act j = GOT_TERMINATOR -> cop j = COPY_NOWHERE).
  { intros j L A. assert (H : forallb (fun j => negb (action_beq (act j) GOT_TERMINATOR) || copier_beq (cop j) COPY_NOWHERE) (seq 0 52) = true) by (vm_compute; reflexivity). rewrite forallb_forall in H. specialize (H j). rewrite in_seq in H. specialize (H ltac:(lia)). rewrite A in H. cbn [action_beq negb orb] in H. now apply internal_copier_dec_bl. }
  induction s as [|c s IH]; intros k hn hv O V A.
  - unfold looped. cbn [iloop]. destruct (next_range (c_i k) None) as [R|R]; [|rewrite R; eexists; reflexivity]. destruct (Nat.eqb_spec (next (c_i k) None) 60) as [E|_]; [eexists; reflexivity|].
    destruct (act (next (c_i k) None)) eqn:AC; cbn [bind fst]; try (eexists; reflexivity). destruct (Term k hn hv (next (c_i k) None) A V (TC _ R AC)) as [z ->]. cbn [bind fst]. destruct z; eexists; reflexivity.
  - pose proof (Forall_inv O) as L. apply Forall_inv_tail in O. destruct (next_range (c_i k) (Some c)) as [R|R].
    2:{ unfold looped. cbn [iloop]. rewrite R. eexists. reflexivity. }
    assert (NE : (next (c_i k) (Some c) =? 60)%nat = false) by (apply Nat.eqb_neq; lia).
    pose proof (proj2 (abs_step _ A) (class_of (Some c)) (class_lt _)) as B. cbn [abs_next] in B. fold (next (c_i k) (Some c)) in B. rewrite NE in B.
    destruct (act (next (c_i k) (Some c))) eqn:AC.
    8:{ (* a terminator *)
      destruct (Term k hn hv (next (c_i k) (Some c)) A V (TC _ R AC)) as [z Z]. unfold looped. cbn [iloop]. rewrite NE, AC, Z. cbn [bind fst snd]. destruct z as [x|]; [|eexists; reflexivity].
      apply (IH (Cfg (next (c_i k) (Some c)) GOT_NOTHING (cop (next (c_i k) (Some c))) (c :: (if copier_beq (cop (next (c_i k) (Some c))) (c_lc k) then c_text k else [])) x) false false O); [|exact B].
      rewrite (TC _ R AC). split; [cbn [c_i c_lc]; symmetry; exact (TC _ R AC)|]. split; [discriminate|]. split; discriminate. }
    all: rewrite (looped_go1 isspc c s k (to_cfg c (next (c_i k) (Some c)) k)) by (unfold go1, plainb; rewrite NE, AC; reflexivity).
    all: apply (IH _ (hn || copier_beq (cop (next (c_i k) (Some c))) COPY_TO_NAME) (hv || copier_beq (cop (next (c_i k) (Some c))) COPY_TO_VALUE) O); [|exact B].
    all: destruct V as (V1 & V2 & V3 & V4); set (j := next (c_i k) (Some c)) in *.
    all: assert (NM : cop j = COPY_TO_NAME -> starts_named (Some (rev (c :: if copier_beq (cop j) (c_lc k) then c_text k else [])))) by
      (intro J; rewrite J; destruct (c_lc k) eqn:LK; cbn [copier_beq rev app]; try (apply has_name; [exact L|]; apply (name_begins (c_i k) c L R J); rewrite <- V1; discriminate);
       specialize (V2 eq_refl); cbn [starts_named] in *; destruct (rev (c_text k)) as [|d u]; [destruct V2|exact V2]).
    all: split; [reflexivity|split; [exact NM|]]; unfold settled, to_cfg; cbn [c_lc c_x c_text]; change (cop 4) with COPY_NOWHERE.
    all: unfold settled in V3, V4; change (cop 4) with COPY_NOWHERE in V3, V4.
    all: exact (keep (cop j) (c_lc k) c (c_text k) (c_x k) hn hv NM V3 V4).
Qed.
Lemma make_safe : forall s pfx, Forall (fun c => c < 256) s -> exists r, make_nvp isspc s pfx = Ok r.
Proof.
  intros s pfx O. destruct (match_string pfx s) eqn:M; [|unfold make_nvp; rewrite M; eexists; reflexivity]. rewrite make_table by assumption.
  apply (safe_loop (skipn (length pfx) s) (Cfg 0 GOT_NOTHING COPY_NOWHERE [] {| x_name := None; x_minor := None; x_value := None; x_result := [] |}) false false).
  - clear M. revert O. generalize (length pfx) as n. induction s as [|c s IH]; intros [|n] O; cbn [skipn]; auto. apply IH. exact (Forall_inv_tail O).
  - split; [reflexivity|]. split; [discriminate|]. split; discriminate.
  - unfold In_abs. pose proof reached_closed as C. apply andb_prop in C. exact (proj1 C).
Qed.
End Safe.

(* bytes *)
Ltac small := match goal with H : Forall white ?w |- Forall (fun c => c < 256) ?w => eapply Forall_impl; [|exact H]; intros ? K; exact (proj1 (white_has _ K)) end.
Lemma some_bytes : forall (P : N -> Prop) s, (forall c, P c -> c < 256) -> some_of P s -> Forall (fun c => c < 256) s.
Proof. intros P s H [_ F]. eapply Forall_impl; [|exact F]. exact H. Qed.
Lemma name_bytes : forall n, name_ok n -> Forall (fun c => c < 256) n.
Proof.
  intros n (a & b & -> & A & _ & F). constructor; [exact (proj1 (name_has a A))|]. eapply Forall_impl; [|exact F]. intros c [H|H]; [exact (proj1 (name_has c H))|exact (proj1 (blank_has c H))].
Qed.
Lemma value_bytes : forall v t, value_spelled v t -> Forall (fun c => c < 256) t.
Proof.
  intros v t [u V|u V].
  - eapply some_bytes; [|exact V]. intros c H; exact (proj1 (value_has c H)).
  - cbn [app]. constructor; [lia|]. apply Forall_app. split; [|repeat constructor; lia]. eapply some_bytes; [|exact V]. intros c H; exact (proj1 (quoted_has c H)).
Qed.
Lemma spelled_bytes : forall c t, spelled c t -> Forall (fun c => c < 256) t.
Proof.
  assert (PV : forall v t, pct_spelled v t -> Forall (fun c => c < 256) t) by (intros v t P; eapply Forall_impl; [|exact (proj1 (proj2 (pct_ok v t P)))]; intros c H; exact (proj1 (value_has c H))).
  intros c t S. destruct S; rewrite ?Forall_app; repeat split; try small; try (now apply name_bytes); try (eapply value_bytes; eassumption); try (eapply PV; eassumption); try (repeat constructor; lia).
  - eapply some_bytes; [|eassumption]. intros c H1; exact (proj1 (name_has c H1)).
  - eapply some_bytes; [|eassumption]. intros c H1; exact (proj1 (minor_has c H1)).
  - eapply some_bytes; [|eassumption]. intros c H4; exact (proj1 (digit_has c H4)).
  - destruct H0 as [-> | ->]; repeat constructor; lia.
  - eapply Forall_impl; [|eassumption]. intros c H6; exact (proj1 (minor_has c H6)).
  - repeat constructor; try lia. exact (proj1 (alnum_has k H0)).
Qed.
Lemma listed_bytes : forall cs t, listed cs t -> Forall (fun c => c < 256) t.
Proof. induction 1; rewrite ?Forall_app; repeat split; try small; try (eapply spelled_bytes; eassumption); try assumption; repeat constructor; lia. Qed.
Lemma reads_ok : forall isspc pfx head cs t es, (forall c, blank c -> isspc c = true) -> (forall c, name_char c -> isspc c = false) ->
  Forall (fun c => c < 256) head -> map tolower head = pfx -> listed cs t -> stands cs [] es -> make_nvp isspc (head ++ t) pfx = Ok (Some es).
Proof.
  intros isspc pfx head cs t es SB SN HB E L ST. rewrite make_table.
  - subst pfx. rewrite map_length. rewrite skipn_app, skipn_all, Nat.sub_diag. cbn [skipn app].
    exact (list_ok isspc SB SN cs t L 0%nat GOT_NOTHING [] {| x_name := None; x_minor := None; x_value := None; x_result := [] |} es (or_introl eq_refl) ST).
  - apply Forall_app. split; [exact HB|now apply (listed_bytes cs)].
  - now apply match_string_lower.
Qed.

(* every list of components stands for some entries, and only for one list of them *)
Lemma joined_some : forall n v es, exists es', joined n v es es'.
Proof.
  intros n v. induction es as [|[ty l r] es [es' IH]]; [eexists; apply j_new|]. destruct ty; try (eexists; apply j_skip; [discriminate|exact IH]).
  destruct (list_eq_dec N.eq_dec l n) as [->|NE]; [eexists; apply j_here|]. eexists; apply j_skip; [intros _; exact NE|exact IH].
Qed.
Lemma stands_some : forall cs es, exists fs, stands cs es fs.
Proof.
  induction cs as [|c cs IH]; intro es; [eexists; constructor|]. destruct c as [n|a b|n v|n v].
  - destruct (IH (es ++ [Entry NVP_NAME n []])) as [fs H]. eexists. constructor. exact H.
  - destruct (IH (es ++ [Entry NVP_MAJORMINOR a b])) as [fs H]. eexists. constructor. exact H.
  - destruct (IH (es ++ [Entry NVP_NAMEVALUE n v])) as [fs H]. eexists. constructor. exact H.
  - destruct (joined_some n v es) as [es' J]. destruct (IH es') as [fs H]. eexists. econstructor; [exact J|exact H].
Qed.

(* looking things up *)
Lemma case_eqb_iff : forall a b, case_eqb a b = true <-> same_name a b.
Proof.
  unfold same_name. induction a as [|x a IH]; intros [|y b]; cbn; split; intro H; try discriminate; try reflexivity.
  - rewrite andb_true_iff, N.eqb_eq, IH in H. destruct H as [-> ->]. reflexivity.
  - injection H as E H. rewrite E, N.eqb_refl. cbn. now apply IH.
Qed.
Definition hit (n : bytes) (e : nvp_entry) : bool := match e_type e with NVP_NAMEVALUE => case_eqb (e_lhs e) n | _ => false end.
Lemma look_app_found : forall n es fs v, nvp_lookupcase es n = Some v -> nvp_lookupcase (es ++ fs) n = Some v.
Proof.
  intros n es fs v. unfold nvp_lookupcase. fold (hit n). induction es as [|e es IH]; [discriminate|]. cbn [app find]. fold (hit n e). destruct (hit n e); [auto|apply IH].
Qed.
Lemma look_app_none : forall n es fs, nvp_lookupcase es n = None -> nvp_lookupcase (es ++ fs) n = nvp_lookupcase fs n.
Proof.
  intros n es fs. unfold nvp_lookupcase. fold (hit n). induction es as [|e es IH]; [reflexivity|]. cbn [app find]. fold (hit n e). destruct (hit n e); [discriminate|apply IH].
Qed.
Lemma look_joined : forall n m v es es', joined m v es es' -> ~ same_name m n -> nvp_lookupcase es' n = nvp_lookupcase es n.
Proof.
  intros n m v es es' J NE. assert (C : case_eqb m n = false) by (destruct (case_eqb m n) eqn:C; [apply case_eqb_iff in C; contradiction|reflexivity]).
  induction J as [r es| |e es es' NT J IH]; unfold nvp_lookupcase in *; cbn [find e_type e_lhs]; rewrite ?C; [reflexivity|reflexivity|]. destruct (match e_type e with NVP_NAMEVALUE => case_eqb (e_lhs e) n | _ => false end); [reflexivity|exact IH].
Qed.
Lemma look_later : forall cs n v es fs, stands cs es fs -> nvp_lookupcase es n = Some v -> (forall m u, In (Piece m u) cs -> ~ same_name m n) -> nvp_lookupcase fs n = Some v.
Proof.
  induction cs as [|c cs IH]; intros n v es fs ST L NP; inversion ST; subst; [exact L| | | |]; try (eapply IH; [eassumption|now apply look_app_found|intros m u I; apply (NP m u); now right]).
  eapply IH; [eassumption| |intros m u I; apply (NP m u); now right]. match goal with J : joined _ ?u _ _ |- _ => rewrite (look_joined n _ _ _ _ J); [exact L|]; apply (NP _ u); now left end.
Qed.
Lemma look_before : forall cs n es fs, stands cs es fs -> nvp_lookupcase es n = None -> (forall c, In c cs -> ~ about n c) -> nvp_lookupcase fs n = None.
Proof.
  induction cs as [|c cs IH]; intros n es fs ST L NA; inversion ST; subst; [exact L| | | |]; (eapply IH; [eassumption| |intros c I; apply NA; now right]).
  - rewrite look_app_none by exact L. reflexivity.
  - rewrite look_app_none by exact L. reflexivity.
  - rewrite look_app_none by exact L. unfold nvp_lookupcase. cbn [find e_type e_lhs]. destruct (case_eqb n0 n) eqn:C; [|reflexivity]. apply case_eqb_iff in C. exfalso. apply (NA _ (or_introl eq_refl)). exists n0, v. split; [now left|exact C].
  - match goal with J : joined _ _ _ _ |- _ => rewrite (look_joined n _ _ _ _ J); [exact L|] end. intro S. apply (NA _ (or_introl eq_refl)). exists n0, v. split; [now right|exact S].
Qed.
Lemma stands_app : forall a b es gs, stands (a ++ b) es gs -> exists fs, stands a es fs /\ stands b fs gs.
Proof.
  induction a as [|c a IH]; intros b es gs H; [exists es; split; [constructor|exact H]|]. cbn [app] in H. inversion H; subst; match goal with K : stands (a ++ b) _ _ |- _ => destruct (IH _ _ _ K) as (fs & A & B) end; exists fs; (split; [|exact B]); try (constructor; exact A). econstructor; eassumption.
Qed.
Lemma found_ok : forall pre n v post es k, stands (pre ++ Param n v :: post) [] es -> same_name n k -> (forall c, In c pre -> ~ about k c) -> (forall m u, In (Piece m u) post -> ~ same_name m k) ->
  nvp_lookupcase es k = Some v.
Proof.
  intros pre n v post es k ST S NB NA. apply stands_app in ST. destruct ST as (fs & A & B). inversion B; subst. eapply look_later; [eassumption| |exact NA].
  rewrite look_app_none by (eapply look_before; [exact A|reflexivity|exact NB]). unfold nvp_lookupcase. cbn [find e_type e_lhs]. rewrite (proj2 (case_eqb_iff n k) S). reflexivity.
Qed.
(* only parts of one value, in order *)
Lemma joined_last : forall n v u es es', joined n v es es' -> nvp_lookup es n = Some u -> nvp_lookup es' n = Some (u ++ v).
Proof.
  assert (Rf : forall a, bytes_eqb a a = true). { induction a as [|c a IH]; [reflexivity|]. cbn. now rewrite N.eqb_refl. }
  assert (Eq : forall a b, bytes_eqb a b = true -> a = b). { induction a as [|c a IH]; intros [|d b] H; try discriminate; [reflexivity|]. cbn in H. rewrite andb_true_iff, N.eqb_eq in H. destruct H as [-> H]. now rewrite (IH b H). }
  intros n v u es es' J. unfold nvp_lookup. induction J as [r es| |e es es' NT J IH]; cbn [find e_type e_lhs]; intro H.
  - rewrite Rf in *. cbn in *. now injection H as <-.
  - discriminate.
  - destruct (e_type e) eqn:T; [apply IH; exact H|apply IH; exact H|]. destruct (bytes_eqb (e_lhs e) n) eqn:B; [apply Eq in B; destruct (NT eq_refl B)|apply IH; exact H].
Qed.
Lemma joined_first : forall n v es es', joined n v es es' -> nvp_lookup es n = None -> nvp_lookup es' n = Some v.
Proof.
  assert (Rf : forall a, bytes_eqb a a = true). { induction a as [|c a IH]; [reflexivity|]. cbn. now rewrite N.eqb_refl. }
  assert (Eq : forall a b, bytes_eqb a b = true -> a = b). { induction a as [|c a IH]; intros [|d b] H; try discriminate; [reflexivity|]. cbn in H. rewrite andb_true_iff, N.eqb_eq in H. destruct H as [-> H]. now rewrite (IH b H). }
  intros n v es es' J. unfold nvp_lookup. induction J as [r es| |e es es' NT J IH]; cbn [find e_type e_lhs]; intro H.
  - rewrite Rf in *. discriminate.
  - rewrite Rf. reflexivity.
  - destruct (e_type e) eqn:T; [apply IH; exact H|apply IH; exact H|]. destruct (bytes_eqb (e_lhs e) n) eqn:B; [apply Eq in B; destruct (NT eq_refl B)|apply IH; exact H].
Qed.
Lemma bytes_eqb_same : forall a, bytes_eqb a a = true.
Proof. induction a as [|c a IH]; [reflexivity|]. cbn. now rewrite N.eqb_refl. Qed.
Lemma bytes_eqb_true : forall a b, bytes_eqb a b = true -> a = b.
Proof. induction a as [|c a IH]; intros [|d b] H; try discriminate; [reflexivity|]. cbn in H. rewrite andb_true_iff, N.eqb_eq in H. destruct H as [-> H]. now rewrite (IH b H). Qed.
Lemma lookup_other : forall n m v es es', joined m v es es' -> bytes_eqb m n = false -> nvp_lookup es' n = nvp_lookup es n.
Proof.
  intros n m v es es' J C. induction J as [r es| |e es es' NT J IH]; unfold nvp_lookup in *; cbn [find e_type e_lhs]; rewrite ?C; [reflexivity|reflexivity|]. destruct (match e_type e with NVP_NAMEVALUE => bytes_eqb (e_lhs e) n | _ => false end); [reflexivity|exact IH].
Qed.
Lemma lookup_app : forall n es e, nvp_lookup (es ++ [e]) n = match nvp_lookup es n with Some v => Some v | None => nvp_lookup [e] n end.
Proof.
  intros n es e. unfold nvp_lookup. induction es as [|x es IH]; [reflexivity|]. cbn [app find]. destruct (match e_type x with NVP_NAMEVALUE => bytes_eqb (e_lhs x) n | _ => false end); [reflexivity|exact IH].
Qed.
Lemma pieces_ok : forall cs n es fs, stands cs es fs -> (forall v, ~ In (Param n v) cs) ->
  nvp_lookup fs n = match nvp_lookup es n, pieces n cs with Some u, vs => Some (u ++ concat vs) | None, [] => None | None, vs => Some (concat vs) end.
Proof.
  induction cs as [|c cs IH]; intros n es fs ST NP; inversion ST; subst.
  - unfold pieces. cbn. destruct (nvp_lookup fs n); [now rewrite app_nil_r|reflexivity].
  - match goal with K : stands cs _ fs |- _ => rewrite (IH n _ _ K) by (intros v I; apply (NP v); now right) end. rewrite lookup_app. unfold pieces. cbn [map concat app]. destruct (nvp_lookup es n); reflexivity.
  - match goal with K : stands cs _ fs |- _ => rewrite (IH n _ _ K) by (intros v I; apply (NP v); now right) end. rewrite lookup_app. unfold pieces. cbn [map concat app]. destruct (nvp_lookup es n); reflexivity.
  - match goal with K : stands cs _ fs |- _ => rewrite (IH n _ _ K) by (intros w I; apply (NP w); now right) end. rewrite lookup_app. unfold pieces. cbn [map concat app]. destruct (nvp_lookup es n); [reflexivity|].
    unfold nvp_lookup. cbn [find e_type e_lhs]. destruct (bytes_eqb n0 n) eqn:B; [|reflexivity]. apply bytes_eqb_true in B. subst n0. destruct (NP v (or_introl eq_refl)).
  - match goal with K : stands cs _ fs, J : joined n0 v es _ |- _ => rewrite (IH n _ _ K) by (intros w I; apply (NP w); now right);
      unfold pieces; cbn [map concat]; fold (pieces n cs); destruct (bytes_eqb n0 n) eqn:B; cbn [app concat];
      [apply bytes_eqb_true in B; subst n0; destruct (nvp_lookup es n) as [u|] eqn:E; [rewrite (joined_last _ _ _ _ _ J E); now rewrite <- app_assoc|rewrite (joined_first _ _ _ _ J E); reflexivity]
      |rewrite (lookup_other n _ _ _ _ J B); reflexivity] end.
Qed.
Lemma pieces_joined : forall cs n es, stands cs [] es -> (forall v, ~ In (Param n v) cs) -> pieces n cs <> [] -> nvp_lookup es n = Some (concat (pieces n cs)).
Proof. intros cs n es ST NP NE. rewrite (pieces_ok cs n [] es ST NP). cbn [nvp_lookup find option_map]. destruct (pieces n cs); [contradiction|reflexivity]. Qed.
Lemma first_kept : forall cs e es fs, stands cs (e :: es) fs -> e_type e <> NVP_NAMEVALUE -> exists gs, fs = e :: gs.
Proof.
  induction cs as [|c cs IH]; intros e es fs ST T; inversion ST; subst; [eexists; reflexivity| | | |]; try (eapply (IH e (es ++ _)); [eassumption|exact T]).
  match goal with J : joined _ _ (e :: es) _ |- _ => inversion J; subst end; [contradiction|]. eapply IH; [eassumption|exact T].
Qed.
Lemma type_ok : forall a b cs es, stands (Type_of a b :: cs) [] es -> nvp_major es = Some a /\ nvp_minor es = Some b.
Proof. intros a b cs es ST. inversion ST; subst. match goal with K : stands cs _ es |- _ => destruct (first_kept cs _ [] es K ltac:(discriminate)) as [gs ->] end. split; reflexivity. Qed.
Lemma word_ok : forall n cs es, stands (Word n :: cs) [] es -> nvp_major es = None /\ nvp_first es = Some n.
Proof. intros n cs es ST. inversion ST; subst. match goal with K : stands cs _ es |- _ => destruct (first_kept cs _ [] es K ltac:(discriminate)) as [gs ->] end. split; reflexivity. Qed.

(* examples *)
Definition ascii_space (c : N) : bool := (c =? 32) || between 9 13 c.
Lemma ascii_space_ok : (forall c, blank c -> ascii_space c = true) /\ (forall c, name_char c -> ascii_space c = false).
Proof.
  split; intros c H; unfold ascii_space, between.
  - destruct H as [<-|[<-|[]]]; reflexivity.
  - assert (K : c <> 32 /\ ~ (9 <= c <= 13)). { destruct H as [[H|[H|H]]|H]; [lia|lia|lia|]. cbn in H. destruct H as [<-|[<-|[]]]; lia. }
    rewrite orb_false_iff, andb_false_iff, !N.leb_gt, N.eqb_neq. lia.
Qed.
Definition ex_list : list component := [Type_of (bs "multipart") (bs "mixed"); Param (bs "boundary") (bs "a b;c"); Piece (bs "name") (bs "long "); Piece (bs "name") (bs "name")].
Definition ex_text : bytes := bs " multipart/mixed; boundary=""a b;c""; name*0*=utf-8''long%20; name*1=name ".
Lemma names_by : forall s, forallb (fun c => (c <? 256) && has NAME1 c) s = true -> Forall name_char s.
Proof. intros s H. apply Forall_forall. intros c I. rewrite forallb_forall in H. specialize (H c I). rewrite andb_true_iff, N.ltb_lt in H. apply has_name; apply H. Qed.
Lemma values_by : forall s, forallb (has VALUE) s = true -> Forall value_char s.
Proof.
  intros s H. apply Forall_forall. intros c I. rewrite forallb_forall in H. specialize (H c I). cbn [has] in H. unfold between in H. rewrite andb_true_iff, negb_true_iff, !orb_false_iff, andb_true_iff, !N.leb_le, !N.eqb_neq in H.
  split; [tauto|]. cbn. intuition.
Qed.
Lemma quoted_by : forall s, forallb kquoted s = true -> Forall quoted_char s.
Proof.
  intros s H. apply Forall_forall. intros c I. rewrite forallb_forall in H. specialize (H c I). unfold kquoted in H. apply orb_true_iff in H. destruct H as [H|H]; [left; apply (Forall_inv (values_by [c] ltac:(cbn [forallb]; now rewrite H)))|].
  right. cbn [has] in H. rewrite !orb_true_iff, !N.eqb_eq in H. cbn. intuition.
Qed.
Lemma name_by : forall a b, forallb (fun c => (c <? 256) && has NAME1 c) (a :: b) = true -> name_ok (a :: b).
Proof.
  intros a b H. apply names_by in H. exists a, b. split; [reflexivity|]. split; [exact (Forall_inv H)|]. split; [|eapply Forall_impl; [|exact (Forall_inv_tail H)]; intros c K; now left].
  rewrite Forall_forall in H. apply H. assert (NE : a :: b <> []) by discriminate. rewrite (app_removelast_last 0 NE) at 2. apply in_or_app. right. now left.
Qed.
Lemma ex_listed : listed ex_list ex_text.
Proof.
  assert (N1 : name_ok (bs "boundary")) by (apply name_by; reflexivity). assert (N2 : name_ok (bs "name")) by (apply name_by; reflexivity).
  assert (W : Forall white [32]) by (constructor; [right; right; now left|constructor]).
  unfold ex_list, ex_text.
  apply (li_more _ _ [32] (bs "multipart/mixed") [] (bs " boundary=""a b;c""; name*0*=utf-8''long%20; name*1=name ")); [exact W| |constructor|].
  { apply (sp_type (bs "multipart") (bs "mixed")); (split; [discriminate|]); [now apply names_by|]. eapply Forall_impl; [|apply (names_by (bs "mixed")); reflexivity]. intros c K; now left. }
  apply (li_more _ _ [32] (bs "boundary=""a b;c""") [] (bs " name*0*=utf-8''long%20; name*1=name ")); [exact W| |constructor|].
  { apply (sp_param (bs "boundary") (bs "a b;c") [] (34 :: bs "a b;c" ++ [34])); [exact N1|constructor|]. apply v_quoted. split; [discriminate|]. now apply quoted_by. }
  apply (li_more _ _ [32] (bs "name*0*=utf-8''long%20") [] (bs " name*1=name ")); [exact W| |constructor|].
  { apply (sp_coded (bs "name") (bs "*0*") [] [] (bs "utf-8") (bs "long ") (bs "long%20")); [exact N2|now right|constructor|constructor| |discriminate|].
    - eapply Forall_impl; [|apply (names_by (bs "utf-8")); reflexivity]. intros c K; now left.
    - change (pct_spelled [108; 111; 110; 103; 32] [108; 111; 110; 103; 37; 50; 48]). do 4 (apply pct_char; [split; [lia|cbn; intuition discriminate]|discriminate|]). apply (pct_hex 2 0 50 48 [] []); [left; reflexivity|left; reflexivity|discriminate|constructor]. }
  apply (li_last _ [32] (bs "name*1=name") [32]); [exact W| |exact W].
  apply (sp_piece (bs "name") (bs "1") [] [] (bs "name") (bs "name")); [exact N2| |constructor|constructor|].
  - split; [discriminate|]. change (bs "1") with [49]. constructor; [unfold is_digit; lia|constructor].
  - apply v_plain. split; [discriminate|]. now apply values_by.
Qed.
(* parameters that are misread *)
Definition type_value (p : bytes) : bytes := bs "content-type: multipart/mixed; " ++ p.
Lemma blank_refuted : exists n v t es, rfc_param n v t /\ make_nvp ascii_space (type_value t) (bs "content-type:") = Ok (Some es) /\ nvp_lookupcase es n = None.
Proof.
  exists (bs "boundary"), (bs "x"), (bs "boundary = x"). eexists. split; [|split; [vm_compute; reflexivity|vm_compute; reflexivity]].
  assert (W : Forall blank [32]) by (constructor; [right; now left|constructor]).
  apply (rfc_plain (bs "boundary") (bs "x") [32] [32]); try assumption; (split; [discriminate|]); now apply names_by.
Qed.
Lemma escape_refuted : exists n v t es u, rfc_param n v t /\ make_nvp ascii_space (type_value t) (bs "content-type:") = Ok (Some es) /\ nvp_lookupcase es n = Some u /\ u <> v.
Proof.
  exists (bs "name"), (bs "ab""c"), (bs "name=""ab\""c"""). eexists. eexists. split; [|split; [vm_compute; reflexivity|split; [vm_compute; reflexivity|discriminate]]].
  apply (rfc_quoted (bs "name") (bs "ab""c") [] [] (bs "ab\""c")); [split; [discriminate|]; now apply names_by|constructor|constructor|].
  change (quoted_string [97; 98; 34; 99] [97; 98; 92; 34; 99]). apply qs_char; [left; split; [lia|cbn; intuition discriminate]|]. apply qs_char; [left; split; [lia|cbn; intuition discriminate]|]. apply qs_escape; [right; now left|]. apply qs_char; [left; split; [lia|cbn; intuition discriminate]|]. constructor.
Qed.
Lemma empty_refuted : exists n v t, rfc_param n v t /\ make_nvp ascii_space (type_value t) (bs "content-type:") = Ok None.
Proof.
  exists (bs "name"), [], (bs "name="""""). split; [|vm_compute; reflexivity].
  apply (rfc_quoted (bs "name") [] [] [] []); [split; [discriminate|]; now apply names_by|constructor|constructor|constructor].
Qed.
