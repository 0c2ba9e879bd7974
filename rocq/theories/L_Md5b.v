(* Lemmas about md5.c: blocks, padding and the length. *)
From Coq Require Import Lia.
From Verif Require Import Base M_Md5 S_Md5 L_Md5.
Local Open Scope N_scope.

Definition octet (c : N) : Prop := c < 256.
Lemma word_value : forall a b c d, octet a -> octet b -> octet c -> octet d ->
  N.lor (N.lor (N.lor (u32 (N.shiftl d 24)) (N.shiftl c 16)) (N.shiftl b 8)) a = value [a; b; c; d].
Proof.
  intros a b c d A B C D. unfold octet in *. rewrite !N.shiftl_mul_pow2. cbn [value]. change (2 ^ 24) with 16777216. change (2 ^ 16) with 65536. change (2 ^ 8) with 256.
  unfold u32. rewrite N.mod_small by (change (2 ^ 32) with 4294967296; lia).
  pose proof (lor_add (c * 65536) d 24) as E1. pose proof (lor_add (b * 256) (d * 256 + c) 16) as E2. pose proof (lor_add a ((d * 256 + c) * 256 + b) 8) as E3.
  change (2 ^ 24) with 16777216 in E1. change (2 ^ 16) with 65536 in E2. change (2 ^ 8) with 256 in E3.
  rewrite E1 by lia. replace (d * 16777216 + c * 65536) with ((d * 256 + c) * 65536) by lia. rewrite E2 by lia.
  replace ((d * 256 + c) * 65536 + b * 256) with (((d * 256 + c) * 256 + b) * 256) by lia. rewrite E3 by lia. lia.
Qed.
Definition quad (w : bytes) : Prop := length w = 4%nat.
Lemma words_app : forall ws rest, Forall quad ws -> Forall (Forall octet) ws -> words (concat ws ++ rest) = map value ws ++ words rest.
Proof.
  induction ws as [|w ws IH]; intros rest Q O; [reflexivity|]. pose proof (Forall_inv Q) as L. pose proof (Forall_inv O) as OW. unfold quad in L.
  destruct w as [|a [|b [|c [|d [|? ?]]]]]; try discriminate. rewrite !Forall_cons_iff in OW. destruct OW as (A & B & C & D & _).
  cbn [concat app words map]. rewrite word_value by assumption. f_equal. apply IH; [exact (Forall_inv_tail Q)|exact (Forall_inv_tail O)].
Qed.
Lemma split_quads : forall n (s : bytes), length s = (4 * n)%nat -> exists ws, length ws = n /\ Forall quad ws /\ concat ws = s.
Proof.
  induction n as [|n IH]; intros s L; [exists []; destruct s; [auto|discriminate]|].
  destruct s as [|a [|b [|c [|d s]]]]; cbn [length] in L; try lia. destruct (IH s ltac:(lia)) as (ws & W1 & W2 & W3).
  exists ([a; b; c; d] :: ws). split; [cbn; lia|]. split; [constructor; [reflexivity|exact W2]|]. cbn [concat app]. now rewrite W3.
Qed.
Lemma concat_octets : forall (ws : list bytes), Forall octet (concat ws) <-> Forall (Forall octet) ws.
Proof. induction ws as [|w ws IH]; cbn [concat]; [split; constructor|]. rewrite Forall_app, IH. split; [intros [A B]; now constructor|intro H; split; [exact (Forall_inv H)|exact (Forall_inv_tail H)]]. Qed.

Lemma set_firstn : forall (l : bytes) i x, (i < length l)%nat -> firstn (S i) (set_nth l i x) = firstn i l ++ [x].
Proof. induction l as [|y l IH]; intros [|i] x H; cbn [length] in H; try lia; [reflexivity|]. cbn [set_nth firstn app]. f_equal. apply IH. lia. Qed.

Definition block_ok (b : list bytes) : Prop := length b = 16%nat /\ Forall quad b.
Definition hashed (blocks : list (list bytes)) : N * N * N * N := fold_left compress (map (map value) blocks) iv.
Lemma feed_ok : forall s bf i blocks t, Forall octet s -> Forall octet t -> regs bf -> length i = 64%nat -> (length t < 64)%nat -> firstn (length t) i = t ->
  Forall block_ok blocks -> tuple bf = hashed blocks ->
  exists bf' i' blocks' t', feed s bf i (length t) = Ok (bf', i') /\ concat (concat blocks) ++ t ++ s = concat (concat blocks') ++ t' /\
    Forall octet t' /\ regs bf' /\ length i' = 64%nat /\ (length t' < 64)%nat /\ firstn (length t') i' = t' /\ Forall block_ok blocks' /\ tuple bf' = hashed blocks'.
Proof.
  induction s as [|c s IH]; intros bf i blocks t Os Ot R L LT FT B H.
  - exists bf, i, blocks, t. rewrite app_nil_r. auto 10.
  - cbn [feed]. destruct (Nat.ltb_spec (length t) 64); [|lia]. cbv zeta. pose proof (set_firstn i (length t) c ltac:(lia)) as SF. rewrite FT in SF.
    assert (LS : length (set_nth i (length t) c) = 64%nat) by (rewrite set_len; exact L).
    assert (Oc : Forall octet (t ++ [c])) by (apply Forall_app; split; [exact Ot|constructor; [exact (Forall_inv Os)|constructor]]).
    destruct (Nat.eqb_spec (S (length t)) 64) as [E|E].
    + rewrite E in SF. rewrite firstn_all2 in SF by lia.
      destruct (split_quads 16 (set_nth i (length t) c) LS) as (b & B1 & B2 & B3).
      assert (OB : Forall (Forall octet) b) by (apply concat_octets; rewrite B3, SF; exact Oc).
      assert (W : words (set_nth i (length t) c) = map value b) by (rewrite <- B3, <- (app_nil_r (concat b)), words_app by assumption; apply app_nil_r).
      destruct (transform_ok (map value b) bf R) as [R' T']. rewrite W.
      destruct (IH (transform bf (map value b)) (set_nth i (length t) c) (blocks ++ [b]) [] (Forall_inv_tail Os)) as (bf' & i' & bl' & t' & F & EQ & REST);
        [constructor|exact R'|exact LS|cbn; lia|reflexivity|apply Forall_app; split; [exact B|constructor; [now split|constructor]]| |].
      * rewrite T', H. unfold hashed. rewrite map_app, fold_left_app. reflexivity.
      * exists bf', i', bl', t'. split; [exact F|]. split; [|exact REST]. rewrite <- EQ. rewrite concat_app, concat_app. cbn [concat app]. rewrite app_nil_r, B3, SF.
        rewrite <- !app_assoc. reflexivity.
    + destruct (IH bf (set_nth i (length t) c) blocks (t ++ [c]) (Forall_inv_tail Os) Oc R LS) as (bf' & i' & bl' & t' & F & EQ & REST).
      * rewrite app_length. cbn [length]. lia.
      * rewrite app_length. cbn [length]. rewrite Nat.add_1_r. exact SF.
      * exact B.
      * exact H.
      * exists bf', i', bl', t'. rewrite app_length in F. cbn [length] in F. rewrite Nat.add_1_r in F. split; [exact F|]. split; [|exact REST].
        rewrite <- EQ, <- app_assoc. reflexivity.
Qed.

Definition absorbed (m : bytes) (c : ctx) : Prop :=
  exists blocks t, m = concat (concat blocks) ++ t /\ Forall octet t /\ Forall block_ok blocks /\ (length t < 64)%nat /\ regs (buf c) /\ tuple (buf c) = hashed blocks /\
    length (inb c) = 64%nat /\ firstn (length t) (inb c) = t /\ w32 (bits0 c) /\ w32 (bits1 c) /\ bits0 c + 2 ^ 32 * bits1 c = (8 * N.of_nat (length m)) mod 2 ^ 64.
Lemma blocks_len : forall blocks : list (list (list N)), Forall block_ok blocks -> length (concat (concat blocks)) = (64 * length blocks)%nat.
Proof.
  induction blocks as [|b bl IH]; intro H; [reflexivity|]. cbn [concat]. rewrite concat_app, app_length, IH by exact (Forall_inv_tail H).
  assert (G : forall ws : list (list N), Forall quad ws -> length (concat ws) = (4 * length ws)%nat).
  { induction ws as [|w ws IHw]; intro Q; [reflexivity|]. cbn [concat length]. rewrite app_length, IHw by exact (Forall_inv_tail Q). pose proof (Forall_inv Q) as X. unfold quad in X. lia. }
  destruct (Forall_inv H) as [L Q]. rewrite (G b Q). unfold bytes in L. cbn [length]. lia.
Qed.
(* The number of bytes in the buffer. *)
Lemma in_buffer : forall b0 b1 n, w32 b0 -> b0 + 2 ^ 32 * b1 = (8 * n) mod 2 ^ 64 -> N.land (N.shiftr b0 3) 63 = n mod 64.
Proof.
  intros b0 b1 n W E. change 63 with (N.ones 6). rewrite N.land_ones, N.shiftr_div_pow2. change (2 ^ 6) with 64. change (2 ^ 3) with 8.
  assert (D : 8 * n = 2 ^ 64 * (8 * n / 2 ^ 64) + (8 * n) mod 2 ^ 64) by (apply N.div_mod; discriminate).
  rewrite <- E in D. set (k := 8 * n / 2 ^ 64) in *. clearbody k. change (2 ^ 64) with (8 * 2305843009213693952) in D. change (2 ^ 32) with (8 * 536870912) in D.
  assert (B : b0 = 8 * (b0 / 8) + b0 mod 8) by (apply N.div_mod; discriminate). pose proof (N.mod_lt b0 8 ltac:(discriminate)) as M.
  set (q := b0 / 8) in *. set (r := b0 mod 8) in *. clearbody q r. subst b0.
  assert (N1 : n = q + (36028797018963968 * k + 8388608 * b1) * 64) by lia.
  rewrite N1. rewrite N.mod_add by discriminate. reflexivity.
Qed.
Lemma count : forall b0 b1 n l, w32 b0 -> w32 b1 -> w32 l -> b0 + 2 ^ 32 * b1 = (8 * n) mod 2 ^ 64 ->
  let x := u32 (b0 + u32 (N.shiftl l 3)) in
  let y := u32 ((if x <? b0 then u32 (b1 + 1) else b1) + N.shiftr l 29) in
  w32 x /\ w32 y /\ x + 2 ^ 32 * y = (8 * (n + l)) mod 2 ^ 64.
Proof.
  intros b0 b1 n l W0 W1 WL E x y. split; [apply u32_w32|]. split; [apply u32_w32|].
  rewrite N.mul_add_distr_l, <- N.add_mod_idemp_l by discriminate. rewrite <- E. clear E n.
  subst y x. unfold u32, w32 in *. rewrite N.shiftl_mul_pow2, N.shiftr_div_pow2. change (2 ^ 3) with 8. change (2 ^ 29) with 536870912.
  change (2 ^ 64) with 18446744073709551616. change (2 ^ 32) with 4294967296 in *.
  assert (D : l = 536870912 * (l / 536870912) + l mod 536870912) by (apply N.div_mod; discriminate).
  pose proof (N.mod_lt l 536870912 ltac:(discriminate)) as M. set (h := l / 536870912) in *. set (r := l mod 536870912) in *. clearbody h r. subst l.
  replace ((536870912 * h + r) * 8) with (8 * r + h * 4294967296) by lia. rewrite N.mod_add by discriminate. rewrite (N.mod_small (8 * r)) by lia.
  destruct (N.lt_ge_cases (b0 + 8 * r) 4294967296) as [C|C].
  - rewrite (N.mod_small (b0 + 8 * r)) by exact C. destruct (N.ltb_spec (b0 + 8 * r) b0); [lia|].
    assert (Q : b1 + h = 4294967296 * ((b1 + h) / 4294967296) + (b1 + h) mod 4294967296) by (apply N.div_mod; discriminate).
    pose proof (N.mod_lt (b1 + h) 4294967296 ltac:(discriminate)) as M2. set (u := (b1 + h) / 4294967296) in *. set (v := (b1 + h) mod 4294967296) in *. clearbody u v.
    replace (b0 + 4294967296 * b1 + 8 * (536870912 * h + r)) with (b0 + 8 * r + 4294967296 * v + u * 18446744073709551616) by lia.
    rewrite N.mod_add by discriminate. rewrite N.mod_small by lia. lia.
  - replace (b0 + 8 * r) with (b0 + 8 * r - 4294967296 + 1 * 4294967296) by lia. rewrite N.mod_add by discriminate. rewrite (N.mod_small (b0 + 8 * r - 4294967296)) by lia.
    destruct (N.ltb_spec (b0 + 8 * r - 4294967296) b0); [|lia]. rewrite N.add_mod_idemp_l by discriminate.
    assert (Q : b1 + 1 + h = 4294967296 * ((b1 + 1 + h) / 4294967296) + (b1 + 1 + h) mod 4294967296) by (apply N.div_mod; discriminate).
    pose proof (N.mod_lt (b1 + 1 + h) 4294967296 ltac:(discriminate)) as M2. set (u := (b1 + 1 + h) / 4294967296) in *. set (v := (b1 + 1 + h) mod 4294967296) in *. clearbody u v.
    replace (b0 + 4294967296 * b1 + 8 * (536870912 * h + r)) with (b0 + 8 * r - 4294967296 + 4294967296 * v + u * 18446744073709551616) by lia.
    rewrite N.mod_add by discriminate. rewrite N.mod_small by lia. lia.
Qed.
Lemma update_ok : forall m c s, absorbed m c -> Forall octet s -> w32 (N.of_nat (length s)) -> exists c', md5_update c s = Ok c' /\ absorbed (m ++ s) c'.
Proof.
  intros m c s (blocks & t & EM & Ot & B & LT & R & T & LI & FT & W0 & W1 & E) Os WL. unfold md5_update. cbv zeta.
  assert (U : u32 (N.of_nat (length s)) = N.of_nat (length s)) by now apply N.mod_small. rewrite U, Nat2N.id, firstn_all.
  rewrite (in_buffer _ _ _ W0 E).
  assert (MT : N.to_nat (N.of_nat (length m) mod 64) = length t).
  { rewrite EM, app_length, (blocks_len blocks B). rewrite Nat2N.inj_add, Nat2N.inj_mul. change (N.of_nat 64) with 64.
    rewrite (N.mul_comm 64), N.add_comm, N.mod_add by discriminate. rewrite N.mod_small by lia. lia. }
  rewrite MT. destruct (feed_ok s (buf c) (inb c) blocks t Os Ot R LI LT FT B T) as (bf' & i' & bl' & t' & F & EQ & Ot' & R' & LI' & LT' & FT' & B' & T').
  rewrite F. cbn [bind]. eexists. split; [reflexivity|]. exists bl', t'. cbn [bits0 bits1 buf inb].
  split; [rewrite EM, <- app_assoc; exact EQ|]. repeat (split; [assumption|]).
  destruct (count _ _ _ _ W0 W1 WL E) as (C1 & C2 & C3). cbv zeta in C1, C2, C3. split; [exact C1|]. split; [exact C2|].
  rewrite C3. rewrite app_length, Nat2N.inj_add. reflexivity.
Qed.
Lemma init_ok : forall mem, length mem = 64%nat -> absorbed [] (md5_init mem).
Proof.
  intros mem L. exists [], []. split; [reflexivity|]. split; [constructor|]. split; [constructor|]. split; [cbn; lia|].
  split; [split; [reflexivity|repeat (constructor; [now vm_compute|]); constructor]|]. split; [now vm_compute|]. split; [exact L|]. split; [reflexivity|].
  split; [now vm_compute|]. split; [now vm_compute|reflexivity].
Qed.
Lemma updates_ok : forall l m c, absorbed m c -> Forall (fun s => Forall octet s /\ w32 (N.of_nat (length s))) l ->
  exists c', md5_updates c l = Ok c' /\ absorbed (m ++ concat l) c'.
Proof.
  induction l as [|s l IH]; intros m c A F.
  - exists c. cbn [concat]. rewrite app_nil_r. split; [reflexivity|exact A].
  - destruct (Forall_inv F) as [O W]. destruct (update_ok m c s A O W) as (c1 & U & A1). destruct (IH _ _ A1 (Forall_inv_tail F)) as (c2 & U2 & A2).
    exists c2. cbn [md5_updates concat]. rewrite U. cbn [bind]. split; [exact U2|]. now rewrite app_assoc.
Qed.

Lemma store_little : forall w, store_word w = little 4 w.
Proof.
  intro w. unfold store_word, little. change 255 with (N.ones 8). rewrite !N.land_ones, !N.shiftr_div_pow2. change (2 ^ 8) with 256. change (2 ^ 16) with (256 * 256).
  change (2 ^ 24) with (256 * 256 * 256). now rewrite <- !N.div_div by discriminate.
Qed.
Lemma little_app : forall n k v, little (n + k) v = little n v ++ little k (v / 256 ^ N.of_nat n).
Proof.
  induction n as [|n IH]; intros k v; [cbn [Nat.add little app]; change (256 ^ N.of_nat 0) with 1; now rewrite N.div_1_r|].
  cbn [Nat.add little app]. f_equal. rewrite IH, N.div_div by (try discriminate; apply N.pow_nonzero; discriminate). f_equal. f_equal. f_equal.
  rewrite Nat2N.inj_succ, N.pow_succ_r'. reflexivity.
Qed.
Lemma little_mod : forall n v, little n v = little n (v mod 256 ^ N.of_nat n).
Proof.
  induction n as [|n IH]; intro v; [reflexivity|]. cbn [little]. rewrite Nat2N.inj_succ, N.pow_succ_r'.
  assert (P : 256 ^ N.of_nat n <> 0) by (apply N.pow_nonzero; discriminate). rewrite N.mod_mul_r by (discriminate || exact P). f_equal.
  - rewrite (N.mul_comm 256), N.mod_add by discriminate. rewrite N.mod_mod by discriminate. reflexivity.
  - rewrite (N.mul_comm 256 (_ mod _)), N.div_add by discriminate. rewrite (N.div_small (v mod 256)) by (apply N.mod_lt; discriminate). cbn [N.add]. apply IH.
Qed.
Lemma value_little : forall n v, v < 256 ^ N.of_nat n -> value (little n v) = v.
Proof.
  induction n as [|n IH]; intros v H; [cbn in *; lia|]. cbn [little value]. rewrite Nat2N.inj_succ, N.pow_succ_r' in H.
  rewrite IH by (apply N.div_lt_upper_bound; [discriminate|exact H]). rewrite N.add_comm. symmetry. apply N.div_mod. discriminate.
Qed.
Lemma length_words : forall b0 b1 v, w32 b0 -> b0 + 2 ^ 32 * b1 = v mod 2 ^ 64 -> w32 b1 -> little 8 v = little 4 b0 ++ little 4 b1.
Proof.
  intros b0 b1 v W0 E W1. rewrite (little_mod 8). change (256 ^ N.of_nat 8) with (2 ^ 64). rewrite <- E. rewrite (little_app 4 4). change (256 ^ N.of_nat 4) with (2 ^ 32).
  f_equal.
  - rewrite (little_mod 4 (_ + _)). change (256 ^ N.of_nat 4) with (2 ^ 32). rewrite (N.mul_comm (2 ^ 32)), N.mod_add by discriminate. now rewrite N.mod_small by exact W0.
  - rewrite (N.mul_comm (2 ^ 32)), N.div_add by discriminate. now rewrite N.div_small by exact W0.
Qed.
Lemma final_ok : forall m c, absorbed m c -> exists d, md5_final c = Ok d /\ md5_of m d.
Proof.
  intros m c A. pose proof A as (blocks & t & EM & Ot & B & LT & R & T & LI & FT & W0 & W1 & E). unfold md5_final. cbv zeta.
  rewrite (in_buffer _ _ _ W0 E).
  assert (MT : N.of_nat (length m) mod 64 = N.of_nat (length t)).
  { rewrite EM, app_length, (blocks_len blocks B). rewrite Nat2N.inj_add, Nat2N.inj_mul. change (N.of_nat 64) with 64.
    rewrite (N.mul_comm 64), N.add_comm, N.mod_add by discriminate. apply N.mod_small. lia. }
  rewrite MT. set (pl := if N.of_nat (length t) <? 56 then 56 - N.of_nat (length t) else 120 - N.of_nat (length t)).
  assert (P : 1 <= pl <= 64 /\ (N.of_nat (length t) + pl = 56 \/ N.of_nat (length t) + pl = 120)) by (unfold pl; destruct (N.ltb_spec (N.of_nat (length t)) 56); lia).
  destruct P as [P1 P2]. destruct (N.ltb_spec 64 pl); [lia|].
  set (z := (N.to_nat pl - 1)%nat). assert (FP : firstn (N.to_nat pl) padding = 128 :: repeat 0 z).
  { unfold padding. replace (N.to_nat pl) with (S z) by (unfold z; lia). cbn [firstn]. f_equal. replace 63%nat with (z + (63 - z))%nat by (unfold z; lia).
    rewrite repeat_app, firstn_app, repeat_length, Nat.sub_diag, firstn_O, app_nil_r. apply firstn_all2. rewrite repeat_length. lia. }
  rewrite FP. destruct (update_ok m c (128 :: repeat 0 z) A) as (c' & U & A').
  { constructor; [now vm_compute|]. apply Forall_forall. intros x X. apply repeat_spec in X. subst x. now vm_compute. }
  { cbn [length]. rewrite repeat_length. unfold w32. change (2 ^ 32) with 4294967296. unfold z. lia. }
  rewrite U. cbn [bind]. eexists. split; [reflexivity|].
  destruct A' as (blocks' & t' & EM' & Ot' & B' & LT' & R' & T' & LI' & FT' & _).
  assert (L56 : length t' = 56%nat).
  { assert (X : (length m + S z = 64 * length blocks' + length t')%nat) by (rewrite <- (blocks_len blocks' B'), <- app_length, <- EM', app_length; cbn [length]; rewrite repeat_length; reflexivity).
    assert (Y : length m = (64 * length blocks + length t)%nat) by (rewrite EM at 1; rewrite app_length, (blocks_len blocks B); reflexivity).
    unfold z in X. lia. }
  destruct (split_quads 14 t' L56) as (ws & S1 & S2 & S3).
  assert (OW : Forall (Forall octet) ws) by (apply concat_octets; now rewrite S3).
  assert (W14 : firstn 14 (words (inb c')) = map value ws).
  { rewrite <- (firstn_skipn 56 (inb c')). rewrite L56 in FT'. rewrite FT', <- S3, words_app by assumption.
    rewrite firstn_app, map_length, S1, Nat.sub_diag, firstn_O, app_nil_r. apply firstn_all2. rewrite map_length. lia. }
  rewrite W14. set (last := ws ++ [little 4 (bits0 c); little 4 (bits1 c)]).
  assert (VL : map value ws ++ [bits0 c; bits1 c] = map value last).
  { unfold last. rewrite map_app. cbn [map]. rewrite !value_little by assumption. reflexivity. }
  rewrite VL. destruct (transform_ok (map value last) (buf c') R') as [R2 T2].
  exists z, (blocks' ++ [last]). split; [|split; [unfold z; lia|split]].
  - rewrite !concat_app. cbn [concat app]. rewrite app_nil_r. unfold last. rewrite concat_app, S3. cbn [concat]. rewrite app_nil_r.
    rewrite (length_words (bits0 c) (bits1 c) _ W0 E W1). rewrite app_assoc, <- EM', <- !app_assoc. reflexivity.
  - apply Forall_app. split; [exact B'|]. constructor; [|constructor]. split; [unfold last; rewrite app_length, S1; reflexivity|].
    unfold last. apply Forall_app. split; [exact S2|]. constructor; [reflexivity|]. constructor; [reflexivity|constructor].
  - change (fold_left compress (map (map value) (blocks' ++ [last])) iv) with (hashed (blocks' ++ [last])).
    assert (HL : hashed (blocks' ++ [last]) = tuple (transform (buf c') (map value last))).
    { rewrite T2, T'. unfold hashed. rewrite map_app, fold_left_app. reflexivity. }
    rewrite HL. destruct R2 as [L2 _]. destruct (transform (buf c') (map value last)) as [|x0 [|x1 [|x2 [|x3 [|? ?]]]]]; try discriminate L2.
    cbn [flat_map]. rewrite !store_little, app_nil_r. reflexivity.
Qed.
Lemma block_split : forall bl bl' : list (list bytes), Forall block_ok bl -> Forall block_ok bl' -> concat (concat bl) = concat (concat bl') -> bl = bl'.
Proof.
  assert (Q : forall ws ws' : list bytes, Forall quad ws -> Forall quad ws' -> concat ws = concat ws' -> ws = ws').
  { induction ws as [|w ws IH]; intros [|w' ws'] A B E; [reflexivity| | |].
    - pose proof (Forall_inv B) as X. unfold quad in X. destruct w'; [discriminate|discriminate E].
    - pose proof (Forall_inv A) as X. unfold quad in X. destruct w; [discriminate|discriminate E].
    - pose proof (Forall_inv A) as X. pose proof (Forall_inv B) as Y. unfold quad in X, Y. cbn [concat] in E.
      assert (E1 : w = w') by (apply (f_equal (firstn 4)) in E; rewrite !firstn_app, X, Y, !firstn_O, !app_nil_r, !firstn_all2 in E by lia; exact E).
      subst w'. apply app_inv_head in E. f_equal. apply IH; [exact (Forall_inv_tail A)|exact (Forall_inv_tail B)|exact E]. }
  assert (G : forall l l' : list (list bytes), Forall block_ok l -> Forall block_ok l' -> concat l = concat l' -> l = l').
  { induction l as [|w ws IH]; intros [|w' ws'] A B E; [reflexivity| | |].
    - destruct (Forall_inv B) as [X _]. destruct w'; [discriminate|discriminate E].
    - destruct (Forall_inv A) as [X _]. destruct w; [discriminate|discriminate E].
    - destruct (Forall_inv A) as [X _], (Forall_inv B) as [Y _]. cbn [concat] in E.
      assert (E1 : w = w') by (apply (f_equal (firstn 16)) in E; rewrite !firstn_app, X, Y, !firstn_O, !app_nil_r, !firstn_all2 in E by lia; exact E).
      subst w'. apply app_inv_head in E. f_equal. apply IH; [exact (Forall_inv_tail A)|exact (Forall_inv_tail B)|exact E]. }
  assert (C : forall l : list (list bytes), Forall block_ok l -> Forall quad (concat l)).
  { induction l as [|b l IH]; intro H; [constructor|]. cbn [concat]. apply Forall_app. split; [apply (Forall_inv H)|]. apply IH. exact (Forall_inv_tail H). }
  intros bl bl' A B E. apply G; [exact A|exact B|]. apply Q; [now apply C|now apply C|exact E].
Qed.
Lemma md5_unique : forall m d d', md5_of m d -> md5_of m d' -> d = d'.
Proof.
  intros m d d' (z & bl & E & Z & B & D) (z' & bl' & E' & Z' & B' & D').
  pose proof (blocks_len bl B) as L. rewrite E in L. pose proof (blocks_len bl' B') as L'. rewrite E' in L'.
  assert (LL : forall k v, length (little k v) = k) by (induction k as [|k IH]; intro v; cbn [little length]; [reflexivity|now rewrite IH]).
  rewrite !app_length in L, L'. cbn [length] in L, L'. rewrite !app_length, !repeat_length, !LL in L, L'.
  assert (z = z') by lia. subst z'. assert (bl = bl') by (apply block_split; [exact B|exact B'|exact (eq_trans E (eq_sym E'))]). subst bl'.
  destruct (fold_left compress (map (map value) bl) iv) as [[[a b] c] e]. congruence.
Qed.
Lemma digest_main : forall mem l, length mem = 64%nat -> Forall (fun s => Forall (fun c => c < 256) s /\ N.of_nat (length s) < 2 ^ 32) l ->
  exists c d, md5_updates (md5_init mem) l = Ok c /\ md5_final c = Ok d /\ md5_of (concat l) d.
Proof.
  intros mem l L F. destruct (updates_ok l [] (md5_init mem) (init_ok mem L) F) as (c & U & A). destruct (final_ok _ _ A) as (d & D & M). exists c, d. auto.
Qed.
Lemma checksum_main : forall mem data, length mem = 64%nat -> Forall (fun c => c < 256) data -> N.of_nat (length data) < 2 ^ 32 ->
  exists d, compute_checksum mem data = Ok d /\ md5_of data d.
Proof.
  intros mem data L O W. destruct (update_ok [] (md5_init mem) data (init_ok mem L) O W) as (c & U & A). destruct (final_ok _ _ A) as (d & D & M).
  exists d. unfold compute_checksum. rewrite U. cbn [bind]. auto.
Qed.
Lemma pieces_main : forall mem mem' l l', length mem = 64%nat -> length mem' = 64%nat ->
  Forall (fun s => Forall (fun c => c < 256) s /\ N.of_nat (length s) < 2 ^ 32) l -> Forall (fun s => Forall (fun c => c < 256) s /\ N.of_nat (length s) < 2 ^ 32) l' ->
  concat l = concat l' ->
  exists d, (let! c := md5_updates (md5_init mem) l in md5_final c) = Ok d /\ (let! c := md5_updates (md5_init mem') l' in md5_final c) = Ok d.
Proof.
  intros mem mem' l l' L L' F F' E. destruct (digest_main mem l L F) as (c & d & U & D & M). destruct (digest_main mem' l' L' F') as (c' & d' & U' & D' & M').
  rewrite E in M. rewrite (md5_unique _ _ _ M' M) in D'. exists d. rewrite U, U'. cbn [bind]. auto.
Qed.
Lemma long_main : forall mem data, Forall (fun c => c < 256) data -> length mem = 64%nat ->
  exists d, compute_checksum mem data = Ok d /\ md5_of (firstn (N.to_nat (N.of_nat (length data) mod 2 ^ 32)) data) d.
Proof.
  intros mem data O L. set (k := N.of_nat (length data) mod 2 ^ 32).
  assert (K : k < 2 ^ 32) by (apply N.mod_lt; discriminate).
  assert (LF : length (firstn (N.to_nat k) data) = N.to_nat k).
  { rewrite firstn_length. pose proof (N.mod_le (N.of_nat (length data)) (2 ^ 32) ltac:(discriminate)) as X. fold k in X. lia. }
  destruct (checksum_main mem (firstn (N.to_nat k) data) L) as (d & D & M).
  - rewrite <- (firstn_skipn (N.to_nat k) data) in O. apply Forall_app in O. apply O.
  - rewrite LF, N2Nat.id. exact K.
  - exists d. split; [|exact M]. rewrite <- D. unfold compute_checksum, md5_update. cbv zeta. rewrite LF, N2Nat.id.
    assert (U : u32 (N.of_nat (length data)) = u32 k) by (unfold u32, k; rewrite N.mod_mod by discriminate; reflexivity). rewrite U.
    assert (U2 : u32 k = k) by (now apply N.mod_small). rewrite U2. rewrite firstn_firstn, Nat.min_id. reflexivity.
Qed.
(* examples *)
Definition ex_md5_pieces : list bytes := [bs "a"; []; bs "b"; repeat 48 130; bs "c"].
Lemma ex_pieces_ok : Forall (fun s => Forall (fun c => c < 256) s /\ N.of_nat (length s) < 2 ^ 32) ex_md5_pieces.
Proof. repeat (constructor; [split; [apply Forall_forall; intros x X; apply N.ltb_lt; revert x X; apply forallb_forall; now vm_compute|now vm_compute]|]). constructor. Qed.
Lemma ex_abc : compute_checksum (repeat 255 64) (bs "abc") = Ok [144; 1; 80; 152; 60; 210; 79; 176; 214; 150; 63; 125; 40; 225; 127; 114].
Proof. now vm_compute. Qed.
