(* Compiling patterns; colon lists. *)
From Verif Require Import Base L_Bits M_Search M_Glob S_Glob L_Glob L_Search4.
Local Open Scope N_scope.

Definition put (b : bool) (x m : N) : N := if b then N.lor x m else x.
Lemma put_put a b x m : put b (put a x m) m = put (a || b) x m.
Proof. destruct a, b; cbn; try reflexivity. now rewrite <- N.lor_assoc, N.lor_diag. Qed.
Lemma or_pat_put p i m c : or_pat p i m c = put (c =? i) (p c) m.
Proof. reflexivity. Qed.
Lemma or_range_put m k : forall i p c, (0 <= i)%Z -> (i + Z.of_nat k <= 128)%Z ->
  or_range k i p m c = put ((i <=? Z.of_N c)%Z && (Z.of_N c <? i + Z.of_nat k)%Z) (p c) m.
Proof.
  induction k as [|k IH]; intros i p c H1 H2; cbn [or_range].
  - replace ((i <=? Z.of_N c)%Z && (Z.of_N c <? i + Z.of_nat 0)%Z) with false; [reflexivity|]. lia.
  - rewrite IH by lia. rewrite or_pat_put, put_put. rewrite Z.mod_small by lia. f_equal. lia.
Qed.
Lemma schar_ascii c : c < 128 -> schar c = Z.of_N c.
Proof. intros H. unfold schar. apply N.ltb_lt in H. now rewrite H. Qed.

(* one step of the class scanner for each kind of item *)
Lemma pc_close mask prev s p : parse_charclass false prev mask (93 :: s) p = Some (s, p).
Proof. reflexivity. Qed.
Lemma pc_char first prev mask c s p : (c = 93 -> first = true) -> c <> 45 ->
  exists p', parse_charclass first prev mask (c :: s) p = parse_charclass false (schar c) mask s p' /\ forall d, p' d = put (d =? c) (p d) mask.
Proof.
  intros H1 H2. cbn [parse_charclass]. destruct (N.eqb_spec c 93) as [->|H3].
  - rewrite (H1 eq_refl). eexists. split; [reflexivity|]. reflexivity.
  - destruct (N.eqb_spec c 45); [congruence|]. eexists. split; [reflexivity|]. reflexivity.
Qed.
Lemma pc_dash first prev mask d s p : (prev < 0)%Z \/ d = 93 ->
  exists p', parse_charclass first prev mask (45 :: d :: s) p = parse_charclass false (schar 45) mask (d :: s) p' /\ forall e, p' e = put (e =? 45) (p e) mask.
Proof.
  intros H. cbn [parse_charclass]. change (45 =? 93) with false. change (45 =? 45) with true. cbn iota.
  assert (E : ((prev <? 0)%Z || (d =? 93)) = true) by (apply orb_true_iff; destruct H as [H| ->]; [left; now apply Z.ltb_lt|right; reflexivity]).
  rewrite E. eexists. split; [reflexivity|]. reflexivity.
Qed.
Lemma pc_range first mask a d s p : 0 < a < 128 -> 0 < d < 128 -> d <> 93 ->
  exists p', parse_charclass first (schar a) mask (45 :: d :: s) p = parse_charclass false (schar d) mask s p' /\
    forall e, p' e = put ((N.min a d <=? e) && (e <=? N.max a d)) (p e) mask.
Proof.
  intros HA HD ND. cbn [parse_charclass]. change (45 =? 93) with false. change (45 =? 45) with true. cbn iota. rewrite !schar_ascii by lia.
  assert (E : ((Z.of_N a <? 0)%Z || (d =? 93)) = false) by (apply orb_false_iff; split; [apply Z.ltb_ge; lia|now apply N.eqb_neq]).
  rewrite E. eexists. split; [reflexivity|]. intros e. rewrite or_range_put by lia. f_equal. lia.
Qed.
Lemma class_parse mask l : forall first prev p rest, class_ok first l -> (first = true -> (prev < 0)%Z) ->
  exists p', parse_charclass first prev mask (flat_map show_citem l ++ 93 :: rest) p = Some (rest, p') /\
    forall c, p' c = put (existsb (fun x => in_itemb x c) l) (p c) mask.
Proof.
  induction l as [|x l IH]; intros first prev p rest HO HP.
  - cbn in HO. subst first. exists p. split; [reflexivity|]. reflexivity.
  - destruct x as [c|a b]; cbn [class_ok] in HO; cbn [flat_map show_citem].
    + destruct HO as (H1 & H2 & H3 & H4). cbn [app].
      assert (ST : exists prev' p1, parse_charclass first prev mask (c :: flat_map show_citem l ++ 93 :: rest) p =
        parse_charclass false prev' mask (flat_map show_citem l ++ 93 :: rest) p1 /\ forall d, p1 d = put (d =? c) (p d) mask).
      { destruct (N.eq_dec c 45) as [->|NE].
        - destruct (H3 eq_refl) as [F|E].
          + specialize (HP F). destruct (flat_map show_citem l ++ 93 :: rest) as [|d s] eqn:ES; [destruct (flat_map show_citem l); discriminate|].
            destruct (pc_dash first prev mask d s p (or_introl HP)) as (p1 & E1 & E2). eauto.
          + subst l. cbn [flat_map app]. destruct (pc_dash first prev mask 93 rest p (or_intror eq_refl)) as (p1 & E1 & E2). eauto.
        - destruct (pc_char first prev mask c (flat_map show_citem l ++ 93 :: rest) p H2 NE) as (p1 & E1 & E2). eauto. }
      destruct ST as (prev' & p1 & E1 & E2). destruct (IH false prev' p1 rest H4 ltac:(discriminate)) as (p' & E3 & E4).
      exists p'. split; [now rewrite E1, E3|]. intros d. rewrite E4, E2, put_put. reflexivity.
    + destruct HO as (H1 & H2 & H3 & H4 & H5 & H6). cbn [app].
      destruct (pc_char first prev mask a (45 :: b :: flat_map show_citem l ++ 93 :: rest) p H5 H3) as (p1 & E1 & E2).
      destruct (pc_range false mask a b (flat_map show_citem l ++ 93 :: rest) p1 H1 H2 H4) as (p2 & E3 & E4).
      destruct (IH false (schar b) p2 rest H6 ltac:(discriminate)) as (p' & E5 & E6).
      exists p'. split; [change (ch "-") with 45; now rewrite E1, E3, E5|]. intros d. rewrite E6, E4, E2, !put_put. cbn [existsb in_itemb]. f_equal.
      destruct (N.eqb_spec d a) as [->|]; [|reflexivity]. replace ((N.min a b <=? a) && (a <=? N.max a b)) with true by lia. reflexivity.
Qed.

(* ---- the pattern loop ---- *)
Definition shifted (n : N) (b : nat -> bool) (i : nat) : bool := (N.to_nat n <=? i)%nat && b (i - N.to_nat n)%nat.
Lemma put_bit b x n i : N.testbit (put b x (2 ^ n)) (N.of_nat i) = N.testbit x (N.of_nat i) || (b && (N.to_nat n =? i)%nat).
Proof.
  destruct b; cbn [put andb]; [|now rewrite orb_false_r]. rewrite N.lor_spec, N.pow2_bits_eqb. f_equal.
  apply eq_true_iff_eq. rewrite N.eqb_eq, Nat.eqb_eq. lia.
Qed.
Lemma shift_S n b b' i : (forall k, b' (S k) = b k) -> (b' 0%nat && (N.to_nat n =? i)%nat) || shifted (n + 1) b i = shifted n b' i.
Proof.
  intros H. unfold shifted. replace (N.to_nat (n + 1)) with (S (N.to_nat n)) by lia.
  destruct (Nat.eqb_spec (N.to_nat n) i) as [<-|NE].
  - rewrite Nat.leb_refl, Nat.sub_diag. destruct (S (N.to_nat n) <=? N.to_nat n)%nat eqn:B; [apply Nat.leb_le in B; lia|]. cbn [andb]. now rewrite andb_true_r, orb_false_r.
  - rewrite andb_false_r. cbn [orb]. destruct (N.to_nat n <=? i)%nat eqn:B.
    + apply Nat.leb_le in B. assert (B2 : (S (N.to_nat n) <=? i)%nat = true) by (apply Nat.leb_le; lia). rewrite B2. cbn [andb].
      replace (i - N.to_nat n)%nat with (S (i - S (N.to_nat n))) by lia. now rewrite H.
    + apply Nat.leb_gt in B. assert (B2 : (S (N.to_nat n) <=? i)%nat = false) by (apply Nat.leb_gt; lia). now rewrite B2.
Qed.
Lemma shift_S0 n b b' i : (forall k, b' (S k) = b k) -> b' 0%nat = false -> shifted (n + 1) b i = shifted n b' i.
Proof. intros H H0. rewrite <- (shift_S n b b' i H), H0. reflexivity. Qed.
Lemma shift_0 n b b' i : (forall k, b' (S k) = b (S k)) -> b' 0%nat = true -> ((N.to_nat n =? i)%nat || shifted n b i) = shifted n b' i.
Proof.
  intros H H0. unfold shifted. destruct (Nat.eqb_spec (N.to_nat n) i) as [<-|NE].
  - rewrite Nat.leb_refl, Nat.sub_diag, H0. reflexivity.
  - cbn [orb]. destruct (N.to_nat n <=? i)%nat eqn:B; [|reflexivity]. apply Nat.leb_le in B. destruct (i - N.to_nat n)%nat as [|k] eqn:E; [lia|]. now rewrite H.
Qed.

Record bits_ok (p : list gitem) (n : N) (P : N -> N) (st ds : N) (P' : N -> N) (st' ds' : N) : Prop := {
  bk_pat : forall c i, is_byte c -> N.testbit (P' c) (N.of_nat i) = N.testbit (P c) (N.of_nat i) || shifted n (acc_at (snd (states p)) c) i;
  bk_st : forall i, N.testbit st' (N.of_nat i) = N.testbit st (N.of_nat i) || shifted n (star_at (fst (states p)) (snd (states p))) i;
  bk_ds : forall i, N.testbit ds' (N.of_nat i) = N.testbit ds (N.of_nat i) || shifted n (two_at (fst (states p)) (snd (states p))) i }.

Lemma atoms_states p : length (snd (states p)) = atoms p.
Proof.
  unfold atoms. induction p as [|g p IH]; [reflexivity|]. destruct g; cbn [states filter]; try (destruct (states p) as [f l]); cbn [snd length] in *; rewrite ?IH; reflexivity.
Qed.
(* an atom: the pattern word of position n gets its characters *)
Lemma atom_step g p n P P1 st ds P' st' ds' : (match g with Gstar | Gdstar => False | _ => True end) ->
  (forall c, is_byte c -> P1 c = put (one_char g c) (P c) (2 ^ n)) ->
  bits_ok p (n + 1) P1 st ds P' st' ds' -> bits_ok (g :: p) n P st ds P' st' ds'.
Proof.
  intros HG HP [B1 B2 B3].
  assert (E : states (g :: p) = ((false, false), (one_char g, fst (states p)) :: snd (states p))) by (destruct g; try destruct HG; reflexivity).
  constructor; rewrite E; cbn [fst snd].
  - intros c i Hc. rewrite B1 by exact Hc. rewrite HP by exact Hc. rewrite put_bit, <- orb_assoc. f_equal.
    apply (shift_S n (acc_at (snd (states p)) c) (acc_at ((one_char g, fst (states p)) :: snd (states p)) c) i). intros k. reflexivity.
  - intros i. rewrite B2. f_equal. apply shift_S0; [|reflexivity]. intros [|k]; reflexivity.
  - intros i. rewrite B3. f_equal. apply shift_S0; [|reflexivity]. intros [|k]; reflexivity.
Qed.
Lemma shl1_ok n : n < 31 -> shl1 n = Ok (2 ^ n).
Proof. intros H. unfold shl1. apply N.ltb_lt in H. now rewrite H. Qed.
Lemma loop_nil fuel n P st ds : globber_loop (S fuel) [] n P st ds = Ok (P, st, ds, n).
Proof. reflexivity. Qed.
Lemma loop_star fuel s n P st ds : n < 31 -> (forall s', s <> 42 :: s') -> globber_loop (S fuel) (42 :: s) n P st ds = globber_loop fuel s n P (N.lor st (2 ^ n)) ds.
Proof.
  intros H HS. cbn [globber_loop]. rewrite shl1_ok by exact H. cbn [bind]. change (42 =? 42) with true. cbn iota.
  destruct s as [|d s]; [reflexivity|]. destruct (N.eqb_spec d 42) as [->|]; [exfalso; now apply (HS s)|reflexivity].
Qed.
Lemma loop_two fuel s n P st ds : n < 31 -> globber_loop (S fuel) (42 :: 42 :: s) n P st ds = globber_loop fuel s n P st (N.lor ds (2 ^ n)).
Proof. intros H. cbn [globber_loop]. rewrite shl1_ok by exact H. reflexivity. Qed.
Lemma loop_class fuel s n P st ds rest P1 : n < 31 -> parse_charclass true (-1) (2 ^ n) s P = Some (rest, P1) ->
  globber_loop (S fuel) (91 :: s) n P st ds = globber_loop fuel rest (n + 1) P1 st ds.
Proof. intros H E. cbn [globber_loop]. rewrite shl1_ok by exact H. cbn [bind]. change (91 =? 42) with false. change (91 =? 91) with true. cbn iota. now rewrite E. Qed.
Lemma loop_any fuel s n P st ds : n < 31 -> globber_loop (S fuel) (63 :: s) n P st ds = globber_loop fuel s (n + 1) (fun i => if i <? 256 then N.lor (P i) (2 ^ n) else P i) st ds.
Proof. intros H. cbn [globber_loop]. rewrite shl1_ok by exact H. reflexivity. Qed.
Lemma loop_char fuel c s n P st ds : n < 31 -> c <> 42 -> c <> 91 -> c <> 63 -> globber_loop (S fuel) (c :: s) n P st ds = globber_loop fuel s (n + 1) (or_pat P c (2 ^ n)) st ds.
Proof.
  intros H H1 H2 H3. cbn [globber_loop]. rewrite shl1_ok by exact H. cbn [bind].
  destruct (N.eqb_spec c 42); [congruence|]. destruct (N.eqb_spec c 91); [congruence|]. destruct (N.eqb_spec c 63); [congruence|]. reflexivity.
Qed.

Lemma star_next p : pattern_ok p -> match p with Gstar :: _ | Gdstar :: _ => False | _ => True end -> forall s', show_pattern p <> 42 :: s'.
Proof.
  intros HO HS s' E. destruct p as [|[c| |l| |] p]; cbn in *; try discriminate; try tauto. injection E as -> _. destruct HO as (_ & X & _). now apply X.
Qed.
Lemma loop_ok p : forall fuel n P st ds, pattern_ok p -> (length (show_pattern p) < fuel)%nat -> (N.to_nat n + atoms p <= 30)%nat ->
  exists P' st' ds', globber_loop fuel (show_pattern p) n P st ds = Ok (P', st', ds', n + N.of_nat (atoms p)) /\ bits_ok p n P st ds P' st' ds'.
Proof.
  induction p as [|g p IH]; intros fuel n P st ds HO HF HN.
  - destruct fuel as [|fuel]; [cbn in HF; lia|]. exists P, st, ds. change (show_pattern []) with (@nil N). rewrite loop_nil. change (atoms []) with 0%nat. split; [do 2 f_equal; lia|].
    constructor; cbn [states fst snd]; intros; (rewrite <- (orb_false_r (N.testbit _ _)) at 1; f_equal; symmetry).
    + unfold shifted, acc_at. destruct (i - N.to_nat n)%nat; apply andb_false_r.
    + unfold shifted, star_at. destruct (i - N.to_nat n)%nat as [|[|?]]; apply andb_false_r.
    + unfold shifted, two_at. destruct (i - N.to_nat n)%nat as [|[|?]]; apply andb_false_r.
  - change (show_pattern (g :: p)) with (show_item g ++ show_pattern p) in *. rewrite app_length in HF.
    assert (AT : forall m, (match g with Gstar | Gdstar => False | _ => True end) -> m = N.of_nat (S (atoms p)) -> n + 1 + N.of_nat (atoms p) = n + N.of_nat (atoms (g :: p))).
    { intros m HG _. destruct g; try destruct HG; change (atoms (_ :: p)) with (S (atoms p)); lia. }
    destruct fuel as [|fuel]; [lia|].
    assert (NL : n < 31) by lia.
    destruct g as [c| |l| |]; cbn [pattern_ok] in HO; cbn [show_item].
    + destruct HO as (H1 & H2 & H3 & H4 & H5). change (atoms (Gc c :: p)) with (S (atoms p)) in *. cbn [app]. rewrite loop_char by assumption.
      destruct (IH fuel (n + 1) (or_pat P c (2 ^ n)) st ds H5) as (P' & st' & ds' & E & B); [cbn in HF; lia|lia|]. exists P', st', ds'. split; [rewrite E; do 2 f_equal; lia|].
      eapply atom_step; [exact I| |exact B]. intros d _. apply or_pat_put.
    + change (atoms (Gany :: p)) with (S (atoms p)) in *. change (bs "?" ++ show_pattern p) with (63 :: show_pattern p). rewrite loop_any by assumption.
      destruct (IH fuel (n + 1) (fun i => if i <? 256 then N.lor (P i) (2 ^ n) else P i) st ds HO) as (P' & st' & ds' & E & B); [cbn in HF; lia|lia|].
      exists P', st', ds'. split; [rewrite E; do 2 f_equal; lia|].
      eapply atom_step; [exact I| |exact B]. intros d Hd. cbn. unfold is_byte in Hd. apply N.ltb_lt in Hd. now rewrite Hd.
    + destruct HO as (H1 & H2). change (atoms (Gclass l :: p)) with (S (atoms p)) in *.
      replace ((bs "[" ++ flat_map show_citem l ++ bs "]") ++ show_pattern p) with (91 :: (flat_map show_citem l ++ 93 :: show_pattern p)) by (cbn; rewrite <- app_assoc; reflexivity).
      destruct (class_parse (2 ^ n) l true (-1) P (show_pattern p) H1 ltac:(lia)) as (P1 & E1 & E2). rewrite (loop_class _ _ _ _ _ _ _ _ NL E1).
      destruct (IH fuel (n + 1) P1 st ds H2) as (P' & st' & ds' & E & B); [cbn in HF; lia|lia|]. exists P', st', ds'. split; [rewrite E; do 2 f_equal; lia|].
      eapply atom_step; [exact I| |exact B]. intros d _. apply E2.
    + destruct HO as (H1 & H2). change (atoms (Gstar :: p)) with (atoms p) in *. change (bs "*" ++ show_pattern p) with (42 :: show_pattern p).
      rewrite loop_star; [|assumption|now apply star_next].
      destruct (IH fuel n P (N.lor st (2 ^ n)) ds H2) as (P' & st' & ds' & E & B); [cbn in HF; lia|lia|]. exists P', st', ds'. split; [exact E|].
      destruct B as [B1 B2 B3]. cbn [states] in *. destruct (states p) as [[s0 d0] l0] eqn:ES. cbn [fst snd] in *.
      constructor; rewrite ?ES; cbn [states fst snd]; rewrite ?ES; cbn [fst snd]; [exact B1| |exact B3].
      intros i. rewrite B2. change (N.lor st (2 ^ n)) with (put true st (2 ^ n)). rewrite put_bit, <- orb_assoc. cbn [andb]. f_equal. apply shift_0; reflexivity.
    + change (atoms (Gdstar :: p)) with (atoms p) in *. change (bs "**" ++ show_pattern p) with (42 :: 42 :: show_pattern p). rewrite loop_two by assumption.
      destruct (IH fuel n P st (N.lor ds (2 ^ n)) HO) as (P' & st' & ds' & E & B); [cbn in HF; lia|lia|]. exists P', st', ds'. split; [exact E|].
      destruct B as [B1 B2 B3]. cbn [states] in *. destruct (states p) as [[s0 d0] l0] eqn:ES. cbn [fst snd] in *.
      constructor; cbn [states]; rewrite ?ES; cbn [fst snd]; [exact B1|exact B2|].
      intros i. rewrite B3. change (N.lor ds (2 ^ n)) with (put true ds (2 ^ n)). rewrite put_bit, <- orb_assoc. cbn [andb]. f_equal. apply shift_0; reflexivity.
Qed.
Lemma shifted_0 b i : shifted 0 b i = b i.
Proof. unfold shifted. cbn. now rewrite Nat.sub_0_r. Qed.
Lemma glob_exact p s : pattern_ok p -> (atoms p <= 30)%nat -> all_bytes s ->
  exists g, make_globber (show_pattern p) = Ok g /\ (is_glob_match g s = true <-> gmatch p s).
Proof.
  intros HO HN HB. unfold make_globber. destruct (loop_ok p (S (length (show_pattern p))) 0 (fun _ => 0) 0 0 HO) as (P' & st' & ds' & E & [B1 B2 B3]); [lia|cbn; lia|].
  rewrite E. cbn [bind]. rewrite shl1_ok by lia. cbn [bind]. eexists. split; [reflexivity|]. rewrite <- states_match.
  erewrite match_ok; [reflexivity| |exact HB]. constructor; cbn [pat starpat twostarpat hit].
  - now rewrite atoms_states.
  - intros c k Hc. rewrite B1 by exact Hc. now rewrite N.bits_0, shifted_0.
  - intros k. now rewrite B2, N.bits_0, shifted_0.
  - intros k. now rewrite B3, N.bits_0, shifted_0.
  - rewrite atoms_states. reflexivity.
Qed.

(* C29 *)
Lemma no_class_loop s : forall fuel n P st ds, ~ In 91 s -> (length s < fuel)%nat -> (N.to_nat n + length s <= 30)%nat ->
  exists P' st' ds' n', globber_loop fuel s n P st ds = Ok (P', st', ds', n') /\ n' < 31.
Proof.
  intros fuel. revert s. induction fuel as [|fuel IH]; intros s n P st ds HI HF HN; [lia|].
  destruct s as [|c s]; [rewrite loop_nil; exists P, st, ds, n; split; [reflexivity|cbn in HN; lia]|]. cbn [length] in *.
  assert (NL : n < 31) by lia. assert (HI' : ~ In 91 s) by (intros X; apply HI; now right).
  destruct (N.eq_dec c 42) as [->|N1].
  - destruct s as [|d s].
    + rewrite loop_star; [|assumption|discriminate]. apply IH; cbn [length] in *; auto; lia.
    + destruct (N.eq_dec d 42) as [->|N2].
      * rewrite loop_two by assumption. apply IH; cbn [length] in *; try lia. intros X. apply HI'. now right.
      * rewrite loop_star; [|assumption|congruence]. apply IH; cbn [length] in *; auto; lia.
  - destruct (N.eq_dec c 63) as [->|N2]; [rewrite loop_any by assumption; apply IH; auto; lia|].
    assert (N3 : c <> 91) by (intros ->; apply HI; now left). rewrite loop_char by assumption. apply IH; auto; lia.
Qed.
Lemma no_class_ok s : ~ In 91 s -> (length s <= 30)%nat -> exists g, make_globber s = Ok g.
Proof.
  intros HI HL. unfold make_globber. destruct (no_class_loop s (S (length s)) 0 (fun _ => 0) 0 0 HI) as (P' & st' & ds' & n' & E & HN); [lia|cbn; lia|].
  rewrite E. cbn [bind]. rewrite shl1_ok by exact HN. cbn [bind]. eauto.
Qed.

(* ---- colon lists ---- *)
Definition open_end (x : bytes) : Prop := last x 0 <> ch "\".
Lemma escape_app a b : escape (a ++ b) = escape a ++ escape b.
Proof. unfold escape. apply flat_map_app. Qed.
Lemma escape_plain y : ~ In 58 y -> escape y = y.
Proof.
  induction y as [|c y IH]; intros H; [reflexivity|]. unfold escape in *. cbn [flat_map]. change (ch ":") with 58.
  destruct (N.eqb_spec c 58) as [->|]; [exfalso; apply H; now left|]. cbn [app]. f_equal. apply IH. intros X. apply H. now right.
Qed.
Lemma first_colon x : ~ In 58 x \/ exists y z, x = y ++ 58 :: z /\ ~ In 58 y.
Proof.
  induction x as [|c x [IH|(y & z & -> & IH)]]; [left; auto| |].
  - destruct (N.eq_dec c 58) as [->|NE]; [right; exists [], x; auto|left]. intros [E|E]; [congruence|auto].
  - destruct (N.eq_dec c 58) as [->|NE]; [right; exists [], (y ++ 58 :: z); auto|right]. exists (c :: y), z. split; [reflexivity|]. intros [E|E]; [congruence|auto].
Qed.
Lemma last_app1 (a : bytes) b c d : last (a ++ b :: c) d = last (b :: c) d.
Proof. induction a as [|x a IH]; [reflexivity|]. cbn [app last]. destruct (a ++ b :: c) eqn:E; [destruct a; discriminate|exact IH]. Qed.
Lemma esc_split y z T : ~ In 58 y -> split_at 58 (escape (y ++ 58 :: z) ++ T) = Some (y ++ [92], escape z ++ T).
Proof.
  intros H. rewrite escape_app, escape_plain by exact H.
  replace ((y ++ escape (58 :: z)) ++ T) with ((y ++ [92]) ++ 58 :: (escape z ++ T)) by (unfold escape; cbn [flat_map]; change (58 =? ch ":") with true; cbn iota; rewrite <- !app_assoc; reflexivity).
  apply split_at_app. intros X. apply in_app_iff in X as [X|[X|[]]]; [auto|discriminate].
Qed.
Lemma more_some rest : forall n z fuel seen, (length z <= n)%nat -> (length z < fuel)%nat -> last seen 0 = 58 -> open_end z -> seen <> [] ->
  more_colons fuel seen (escape z ++ 58 :: rest) = Ok (Some (seen ++ escape z, rest)).
Proof.
  induction n as [|n IH]; intros z fuel seen HL HF HS HO HN.
  - destruct z; [|cbn in HL; lia]. destruct fuel; [lia|]. cbn [more_colons escape flat_map app]. cbn [split_at]. change (58 =? 58) with true. cbn iota. rewrite app_nil_r, HS. reflexivity.
  - destruct fuel; [lia|]. cbn [more_colons]. destruct (first_colon z) as [H|(y & z' & -> & H)].
    + rewrite escape_plain by exact H. rewrite split_at_app by exact H.
      assert (L : last (seen ++ z) 0 <> 92). { destruct z as [|c z]; [rewrite app_nil_r, HS; discriminate|]. rewrite last_app1. exact HO. }
      apply N.eqb_neq in L. now rewrite L.
    + rewrite esc_split by exact H. rewrite app_assoc, last_app1. change (last [92] 0 =? 92) with true. cbn iota.
      replace (seen ++ (y ++ [92]) ++ [58]) with ((seen ++ y ++ [92]) ++ [58]) by (rewrite <- !app_assoc; reflexivity).
      rewrite app_length in HL, HF. cbn [length] in HL, HF. rewrite IH.
      * do 3 f_equal. rewrite escape_app, (escape_plain y) by exact H. unfold escape at 2. cbn [flat_map]. change (58 =? ch ":") with true. cbn iota. rewrite <- !app_assoc. reflexivity.
      * lia.
      * lia.
      * rewrite last_app1. reflexivity.
      * unfold open_end in *. rewrite last_app1 in HO. destruct z'; [discriminate|]. exact HO.
      * intros X. apply app_eq_nil in X as [_ X]. discriminate.
Qed.
Lemma more_none : forall n z fuel seen, (length z <= n)%nat -> (length z < fuel)%nat -> last seen 0 = 58 -> seen <> [] ->
  more_colons fuel seen (escape z) = Ok None.
Proof.
  induction n as [|n IH]; intros z fuel seen HL HF HS HN.
  - destruct z; [|cbn in HL; lia]. destruct fuel; [lia|]. reflexivity.
  - destruct fuel; [lia|]. cbn [more_colons]. destruct (first_colon z) as [H|(y & z' & -> & H)].
    + rewrite escape_plain by exact H. now rewrite split_at_none.
    + rewrite <- (app_nil_r (escape _)), esc_split by exact H. rewrite app_assoc, last_app1. change (last [92] 0 =? 92) with true. cbn iota. rewrite app_nil_r.
      rewrite app_length in HL, HF. cbn [length] in HL, HF. apply IH; [lia|lia| |].
      * rewrite app_assoc, last_app1. reflexivity.
      * intros X. apply app_eq_nil in X as [_ X]. apply app_eq_nil in X as [_ X]. discriminate.
Qed.
Lemma escape_length z : (length z <= length (escape z))%nat.
Proof. unfold escape. induction z as [|c z IH]; [auto|]. cbn [flat_map]. rewrite app_length. destruct (c =? ch ":"); cbn [length]; lia. Qed.
Lemma nonempty_app1 (y : bytes) c : match y ++ [c] with [] => true | _ => false end = false.
Proof. destruct y; reflexivity. Qed.
Lemma find_some x rest : open_end x -> find_colon (escape x ++ 58 :: rest) = Ok (Some (escape x, rest)).
Proof.
  intros HO. unfold find_colon. destruct (first_colon x) as [H|(y & z & -> & H)].
  - rewrite escape_plain by exact H. rewrite split_at_app by exact H. apply N.eqb_neq in HO. change (ch "\") with 92 in HO. rewrite HO, andb_false_r. reflexivity.
  - rewrite esc_split by exact H. rewrite nonempty_app1, last_app1. change (last [92] 0 =? 92) with true. cbn [negb andb].
    rewrite (more_some rest (length z)); [|lia| | | |].
    + do 3 f_equal. rewrite escape_app, (escape_plain y) by exact H. unfold escape at 2. cbn [flat_map]. change (58 =? ch ":") with true. cbn iota. rewrite <- !app_assoc. reflexivity.
    + rewrite app_length. pose proof (escape_length z). cbn. lia.
    + rewrite last_app1. reflexivity.
    + unfold open_end in *. rewrite last_app1 in HO. destruct z; [discriminate|]. exact HO.
    + intros X. apply app_eq_nil in X as [_ X]. discriminate.
Qed.
Lemma find_none x : find_colon (escape x) = Ok None.
Proof.
  unfold find_colon. destruct (first_colon x) as [H|(y & z & -> & H)].
  - rewrite escape_plain by exact H. now rewrite split_at_none.
  - rewrite <- (app_nil_r (escape _)), esc_split by exact H. rewrite nonempty_app1, last_app1. change (last [92] 0 =? 92) with true. cbn [negb andb]. rewrite app_nil_r.
    apply (more_none (length z)); [lia| | |].
    + pose proof (escape_length z). lia.
    + rewrite last_app1. reflexivity.
    + intros X. apply app_eq_nil in X as [_ X]. discriminate.
Qed.
Lemma escape_head x : match escape x with d :: _ => d =? 58 | [] => false end = false.
Proof. unfold escape. destruct x as [|c x]; [reflexivity|]. cbn [flat_map]. change (ch ":") with 58. destruct (c =? 58) eqn:E; [reflexivity|exact E]. Qed.
Lemma copy_escape x next : (next =? 58) = false \/ open_end x -> copy_folder_name (escape x) next = x.
Proof.
  induction x as [|c x IH]; intros H; [reflexivity|].
  assert (H' : (next =? 58) = false \/ open_end x). { destruct H as [H|H]; [now left|right]. unfold open_end in *. destruct x; [discriminate|exact H]. }
  specialize (IH H'). pose proof (escape_head x) as EH. unfold escape in *. cbn [flat_map]. change (ch ":") with 58 in *. destruct (N.eqb_spec c 58) as [->|NE].
  - cbn [app copy_folder_name]. change (ch "\" =? 92) with true. change (58 =? 58) with true. change (58 =? 92) with false. cbn [andb]. now rewrite IH.
  - cbn [app copy_folder_name].
    assert (B : (c =? 92) && ((match flat_map (fun c : N => if c =? 58 then [ch "\"; 58] else [c]) x with d :: _ => d | [] => next end) =? 58) = false).
    { destruct (flat_map _ x) as [|d s] eqn:EF; [|rewrite EH; apply andb_false_r].
      destruct H as [H|H]; [rewrite H; apply andb_false_r|]. destruct x as [|e x]; [|cbn in EF; destruct (e =? 58); discriminate].
      unfold open_end in H. change (ch "\") with 92 in H. cbn [last] in H. apply N.eqb_neq in H. now rewrite H. }
    rewrite B, IH. reflexivity.
Qed.
Lemma colon_list_nonempty names : (length names >= 2)%nat -> colon_list names <> [].
Proof.
  destruct names as [|x [|y l]]; cbn [length]; try lia. intros _. cbn [colon_list]. intros X. apply app_eq_nil in X as [_ X]. discriminate.
Qed.
Lemma escape_nonempty x : x <> [] -> escape x <> [].
Proof. destruct x as [|c x]; [congruence|]. intros _. unfold escape. cbn [flat_map]. destruct (c =? ch ":"); discriminate. Qed.
Lemma split_list names : forall fuel, (length (colon_list names) < fuel)%nat -> names <> [] ->
  (forall x, In x (removelast names) -> open_end x) -> (length names = 1%nat \/ last names [] <> []) ->
  split_loop fuel (colon_list names) = Ok names.
Proof.
  induction names as [|x names IH]; intros fuel HF HN HO HL; [congruence|]. destruct fuel as [|fuel]; [lia|]. cbn [split_loop].
  destruct names as [|y names].
  - cbn [colon_list]. rewrite find_none. cbn [bind]. rewrite copy_escape by (left; reflexivity). reflexivity.
  - assert (OX : open_end x) by (apply HO; now left).
    change (colon_list (x :: y :: names)) with (escape x ++ 58 :: colon_list (y :: names)) in *. rewrite app_length in HF. cbn [length] in HF.
    rewrite find_some by exact OX. cbn [bind]. rewrite copy_escape by (right; exact OX).
    assert (NE : colon_list (y :: names) <> []).
    { destruct names as [|z names]; [|apply colon_list_nonempty; cbn; lia]. cbn [colon_list]. apply escape_nonempty. destruct HL as [HL|HL]; [discriminate|exact HL]. }
    assert (R : split_loop fuel (colon_list (y :: names)) = Ok (y :: names)).
    { apply IH; [lia|discriminate| |].
      - intros z Hz. apply HO. now right.
      - destruct HL as [HL|HL]; [discriminate|now right]. }
    destruct (colon_list (y :: names)) as [|c s] eqn:E; [congruence|]. rewrite R. reflexivity.
Qed.
Lemma split_colons names : names <> [] -> (forall x, In x (removelast names) -> open_end x) -> (length names = 1%nat \/ last names [] <> []) ->
  split_on_colons (colon_list names) = Ok names.
Proof. intros H1 H2 H3. apply split_list; auto. Qed.

Lemma colon_list_app a b : a <> [] -> b <> [] -> colon_list (a ++ b) = colon_list a ++ [58] ++ colon_list b.
Proof.
  intros HA HB. induction a as [|x a IH]; [congruence|]. destruct a as [|y a].
  - cbn [app colon_list]. destruct b; [congruence|]. reflexivity.
  - change ((x :: y :: a) ++ b) with (x :: (y :: a) ++ b). change (colon_list (x :: y :: a)) with (escape x ++ bs ":" ++ colon_list (y :: a)).
    change (colon_list (x :: (y :: a) ++ b)) with (escape x ++ bs ":" ++ colon_list ((y :: a) ++ b)). rewrite IH by discriminate. now rewrite <- !app_assoc.
Qed.
Lemma add_many lists : Forall (fun l => l <> []) lists -> forall old, old <> [] ->
  fold_left add_folders (map colon_list lists) (Some (colon_list old)) = Some (colon_list (old ++ concat lists)).
Proof.
  induction 1 as [|l lists HL _ IH]; intros old HO; [cbn; now rewrite app_nil_r|]. cbn [map fold_left add_folders concat].
  rewrite <- colon_list_app by assumption. rewrite IH; [now rewrite <- app_assoc|]. intros X. apply app_eq_nil in X as [X _]. auto.
Qed.
Lemma directives_accumulate lists : Forall (fun l => l <> []) lists -> lists <> [] ->
  fold_left add_folders (map colon_list lists) None = Some (colon_list (concat lists)).
Proof.
  intros H HN. destruct H as [|l lists HL H]; [congruence|]. cbn [map fold_left add_folders concat]. now apply add_many.
Qed.

Lemma accumulate_split lists : Forall (fun l => l <> []) lists -> lists <> [] ->
  (forall x, In x (concat lists) -> open_end x /\ x <> []) ->
  exists c, fold_left add_folders (map colon_list lists) None = Some c /\ c = colon_list (concat lists) /\ split_on_colons c = Ok (concat lists).
Proof.
  intros H HN HX. exists (colon_list (concat lists)). split; [now apply directives_accumulate|]. split; [reflexivity|].
  assert (NE : concat lists <> []). { destruct H as [|l ls Hl _]; [congruence|]. cbn [concat]. destruct l; [congruence|discriminate]. }
  apply split_colons; [exact NE| |right].
  - intros x Hx. apply HX. rewrite (app_removelast_last [] NE). apply in_or_app. now left.
  - apply HX. rewrite (app_removelast_last [] NE) at 2. apply in_or_app. right. now left.
Qed.

Lemma glob_ub_examples : make_globber (bs "inbox[0-9") = Err E_oob /\ make_globber (bs "a-folder-with-31-letters-in-it-") = Err E_ub.
Proof. split; vm_compute; reflexivity. Qed.
Definition glob_says (s : bytes) (f : globber -> bool) : bool := match make_globber s with Ok g => f g | Err _ => false end.
Lemma glob_says_ok s f : glob_says s f = true -> exists g, make_globber s = Ok g /\ f g = true.
Proof. unfold glob_says. destruct (make_globber s) as [g|]; [eauto|discriminate]. Qed.
Lemma high_range : exists g, make_globber (show_pattern [Gclass [CR 224 233]]) = Ok g /\ gmatch [Gclass [CR 224 233]] [225] /\ is_glob_match g [225] = false.
Proof.
  destruct (glob_says_ok (show_pattern [Gclass [CR 224 233]]) (fun g => negb (is_glob_match g [225]))) as (g & E & X); [vm_compute; reflexivity|].
  exists g. split; [exact E|]. split; [|now apply negb_true_iff].
  cbn [gmatch]. exists 225, []. repeat split. exists (CR 224 233). split; [now left|]. vm_compute. split; discriminate.
Qed.
Lemma dash_after_range : exists g, make_globber (bs "[a-e-z]") = Ok g /\ is_glob_match g (bs "k") = true /\ is_glob_match g (bs "-") = false.
Proof.
  destruct (glob_says_ok (bs "[a-e-z]") (fun g => is_glob_match g (bs "k") && negb (is_glob_match g (bs "-")))) as (g & E & X); [vm_compute; reflexivity|].
  exists g. split; [exact E|]. apply andb_true_iff in X as [X Y]. split; [exact X|now apply negb_true_iff].
Qed.
Lemma split_drops_last : split_on_colons (colon_list [bs "a"; []]) = Ok [bs "a"].
Proof. vm_compute. reflexivity. Qed.
(* lists/[a-cx]?*.20** *)
Definition ex_pattern : list gitem := map Gc (bs "lists/") ++ [Gclass [CS (ch "]"); CR (ch "a") (ch "c"); CS (ch "-")]; Gany; Gstar; Gc (ch "."); Gdstar].
