(* Lemmas about the transfer encodings. *)
From Verif Require Import Base M_Decode S_Decode.
Local Open Scope N_scope.

Lemma sweep : forall P : N -> bool, forallb P (map N.of_nat (seq 0 256)) = true -> forall c, c < 256 -> P c = true.
Proof.
  intros P H c L. rewrite forallb_forall in H. apply H. apply in_map_iff. exists (N.to_nat c). split; [apply N2Nat.id|]. apply in_seq. lia.
Qed.
(* the tables *)
Definition mem_N (c : N) (l : bytes) : bool := existsb (N.eqb c) l.
Lemma mem_N_in : forall c l, mem_N c l = true <-> In c l.
Proof. intros c l. unfold mem_N. rewrite existsb_exists. split; [intros (x & X & E); apply N.eqb_eq in E; now subst|intro H; exists c; split; [exact H|apply N.eqb_refl]]. Qed.
Definition z_is (o : option Z) (v : Z) : bool := match o with Some x => (x =? v)%Z | None => false end.
Lemma z_is_ok : forall o v, z_is o v = true -> o = Some v.
Proof. intros [x|] v H; [apply Z.eqb_eq in H; now subst|discriminate]. Qed.
Lemma noise_table : forall c, noise c -> nth_error base64_table (N.to_nat c) = Some (-1)%Z /\ nth_error equal_table (N.to_nat c) = Some 0%Z.
Proof.
  intros c (L & A & E).
  assert (S : (mem_N c alphabet || (c =? 61) || (z_is (nth_error base64_table (N.to_nat c)) (-1) && z_is (nth_error equal_table (N.to_nat c)) 0))%bool = true)
    by (revert c L A E; intros c L _ _; exact (sweep (fun c => (mem_N c alphabet || (c =? 61) || (z_is (nth_error base64_table (N.to_nat c)) (-1) && z_is (nth_error equal_table (N.to_nat c)) 0))%bool) eq_refl c L)).
  rewrite !orb_true_iff, andb_true_iff in S. destruct S as [[S|S]|[S1 S2]].
  - apply mem_N_in in S. contradiction.
  - apply N.eqb_eq in S. contradiction.
  - split; now apply z_is_ok.
Qed.
Lemma digit_table : forall v, v < 64 -> nth_error base64_table (N.to_nat (digit v)) = Some (Z.of_N v) /\ nth_error equal_table (N.to_nat (digit v)) = Some 0%Z.
Proof.
  intros v L. assert (G : v < 256) by lia.
  pose proof (sweep (fun v => ((64 <=? v) || (z_is (nth_error base64_table (N.to_nat (digit v))) (Z.of_N v) && z_is (nth_error equal_table (N.to_nat (digit v))) 0))%bool) eq_refl v G) as S.
  cbv beta in S. rewrite orb_true_iff, andb_true_iff, N.leb_le in S. destruct S as [S|[S1 S2]]; [lia|]. split; now apply z_is_ok.
Qed.
Lemma byte_table : forall c, c < 256 -> exists d e, nth_error base64_table (N.to_nat c) = Some d /\ nth_error equal_table (N.to_nat c) = Some e /\ (0 <= e)%Z.
Proof.
  intros c L. pose proof (sweep (fun c => match nth_error base64_table (N.to_nat c), nth_error equal_table (N.to_nat c) with Some d, Some e => (0 <=? e)%Z | _, _ => false end) eq_refl c L) as S.
  cbv beta in S. destruct (nth_error base64_table (N.to_nat c)) as [d|]; [|discriminate]. destruct (nth_error equal_table (N.to_nat c)) as [e|]; [|discriminate].
  exists d, e. split; [reflexivity|]. split; [reflexivity|]. now apply Z.leb_le.
Qed.
Lemma put_ok : forall cap out c, (length out < cap)%nat -> put cap out c = Ok (c :: out).
Proof. intros cap out c H. unfold put. destruct (Nat.ltb_spec (length out) cap); [reflexivity|lia]. Qed.

Lemma skip_noise : forall cap n s reg nc eq out, Forall noise n -> base64 cap (n ++ s) reg nc eq out = base64 cap s reg nc eq out.
Proof.
  induction n as [|c n IH]; intros s reg nc eq out F; [reflexivity|]. cbn [app base64]. destruct (noise_table c (Forall_inv F)) as [-> ->].
  cbv zeta. change (0 <=? -1)%Z with false. cbv iota. rewrite Z.add_0_r. apply IH. exact (Forall_inv_tail F).
Qed.
Lemma spread_nil_inv : forall t u, spread t u -> t = [] -> Forall noise u.
Proof. induction 1 as [|c t u S IH|c t u N S IH]; intro E; [constructor|discriminate|]. constructor; auto. Qed.
Lemma spread_cons_inv : forall x u, spread x u -> forall c t, x = c :: t -> exists n u', u = n ++ c :: u' /\ Forall noise n /\ spread t u'.
Proof.
  induction 1 as [|d t' u S IH|d t' u N S IH]; intros c t E; [discriminate| |].
  - injection E as -> ->. exists [], u. split; [reflexivity|]. split; [constructor|exact S].
  - destruct (IH c t E) as (n & u' & -> & F & S'). exists (d :: n), u'. split; [reflexivity|]. split; [now constructor|exact S'].
Qed.
Ltac take S := let n := fresh "n" in let u := fresh "u" in let F := fresh "F" in let T := fresh "T" in
  destruct (spread_cons_inv _ _ S _ _ eq_refl) as (n & u & -> & F & T); clear S; rename T into S.
Lemma digit_step : forall cap v s reg nc out, v < 64 -> (nc < 3)%nat -> base64 cap (digit v :: s) reg nc 0 out = base64 cap s (reg * 64 + Z.of_N v) (S nc) 0 out.
Proof.
  intros cap v s reg nc out V C. cbn [base64]. destruct (digit_table v V) as [-> ->]. cbv zeta. destruct (Z.leb_spec 0 (Z.of_N v)); [|lia].
  destruct (Nat.eqb_spec (S nc) 4); [lia|]. reflexivity.
Qed.
Lemma last_step : forall cap v s reg out, v < 64 -> (length out + 3 <= cap)%nat -> base64 cap (digit v :: s) reg 3 0 out =
  let r := (reg * 64 + Z.of_N v)%Z in base64 cap s 0 0 0 (Z.to_N (r mod 256) :: Z.to_N (r / 256 mod 256) :: Z.to_N (r / 65536 mod 256) :: out).
Proof.
  intros cap v s reg out V C. cbn [base64]. destruct (digit_table v V) as [-> ->]. cbv zeta. destruct (Z.leb_spec 0 (Z.of_N v)); [|lia].
  cbn [Nat.eqb]. change (0 + 0 <? 2)%Z with true. change (0 + 0 <? 1)%Z with true. change (0 + 0 =? 0)%Z with true. cbv iota.
  rewrite put_ok by lia. cbn [bind]. rewrite put_ok by (cbn [length]; lia). cbn [bind]. rewrite put_ok by (cbn [length]; lia). reflexivity.
Qed.
Lemma pad_step : forall cap s reg nc eq out, (nc < 3)%nat -> base64 cap (61 :: s) reg nc eq out = base64 cap s (reg * 64) (S nc) (eq + 1) out.
Proof. intros cap s reg nc eq out C. cbn [base64]. change (nth_error base64_table (N.to_nat 61)) with (Some 0%Z). change (nth_error equal_table (N.to_nat 61)) with (Some 1%Z).
  cbv zeta. change (0 <=? 0)%Z with true. cbv iota. destruct (Nat.eqb_spec (S nc) 4); [lia|]. now rewrite Z.add_0_r. Qed.
Lemma list_ind3 : forall P : list N -> Prop, P [] -> (forall a, P [a]) -> (forall a b, P [a; b]) -> (forall a b c s, P s -> P (a :: b :: c :: s)) -> forall s, P s.
Proof.
  intros P H0 H1 H2 H3 s. assert (G : P s /\ (forall a, P (a :: s)) /\ (forall a b, P (a :: b :: s))); [|apply G].
  induction s as [|x s (I1 & I2 & I3)]; [auto|]. split; [apply I2|]. split; [intro a; apply I3|]. intros a b. now apply H3.
Qed.
Lemma base64_decodes : forall s u junk out cap, Forall (fun c => c < 256) s -> spread (base64_of s) u -> (length s mod 3 = 0 -> junk = [])%nat ->
  (length out + length u <= cap)%nat -> base64 cap (u ++ junk) 0 0 0 out = Ok (rev s ++ out).
Proof.
  induction s as [|a|a b|a b c s IH] using list_ind3; intros u junk out cap O S J L.
  - cbn [base64_of] in S. pose proof (spread_nil_inv _ _ S eq_refl) as F. rewrite (J eq_refl), skip_noise by exact F. reflexivity.
  - cbn [base64_of] in S. cbv zeta in S. pose proof (Forall_inv O) as A. cbv beta in A. take S. take S. take S. take S. rewrite !app_length in L. cbn [length] in L. rewrite !app_length in L. cbn [length] in L.
    rewrite !app_length in L. cbn [length] in L. rewrite !app_length in L. cbn [length] in L.
    rewrite <- !app_assoc. cbn [app]. rewrite skip_noise by assumption. rewrite digit_step by lia.
    rewrite <- !app_assoc. cbn [app]. rewrite skip_noise by assumption. rewrite digit_step by lia.
    rewrite <- !app_assoc. cbn [app]. rewrite skip_noise by assumption. rewrite pad_step by lia.
    rewrite <- !app_assoc. cbn [app]. rewrite skip_noise by assumption. cbn [base64].
    change (nth_error base64_table (N.to_nat 61)) with (Some 0%Z). change (nth_error equal_table (N.to_nat 61)) with (Some 1%Z). cbv zeta.
    change (0 <=? 0)%Z with true. cbv iota. cbn [Nat.eqb]. rewrite put_ok by lia. cbn [bind rev app]. apply (f_equal Ok). apply (f_equal (fun x => x :: out)). lia.
  - cbn [base64_of] in S. cbv zeta in S. pose proof (Forall_inv O) as A. pose proof (Forall_inv (Forall_inv_tail O)) as B. cbv beta in A, B.
    take S. take S. take S. take S. rewrite !app_length in L. cbn [length] in L. rewrite !app_length in L. cbn [length] in L.
    rewrite !app_length in L. cbn [length] in L. rewrite !app_length in L. cbn [length] in L.
    rewrite <- !app_assoc. cbn [app]. rewrite skip_noise by assumption. rewrite digit_step by lia.
    rewrite <- !app_assoc. cbn [app]. rewrite skip_noise by assumption. rewrite digit_step by lia.
    rewrite <- !app_assoc. cbn [app]. rewrite skip_noise by assumption. rewrite digit_step by lia.
    rewrite <- !app_assoc. cbn [app]. rewrite skip_noise by assumption. cbn [base64].
    change (nth_error base64_table (N.to_nat 61)) with (Some 0%Z). change (nth_error equal_table (N.to_nat 61)) with (Some 1%Z). cbv zeta.
    change (0 <=? 0)%Z with true. cbv iota. cbn [Nat.eqb]. rewrite put_ok by lia. cbn [bind]. change (0 + 1 <? 2)%Z with true. change (0 + 1 <? 1)%Z with false. change (0 + 1 =? 0)%Z with false.
    cbv iota. rewrite put_ok by (cbn [length]; lia). cbn [bind rev app]. apply (f_equal Ok). f_equal; [lia|]. f_equal. lia.
  - cbn [base64_of] in S. cbv zeta in S. pose proof (Forall_inv O) as A. pose proof (Forall_inv (Forall_inv_tail O)) as B. pose proof (Forall_inv (Forall_inv_tail (Forall_inv_tail O))) as C. cbv beta in A, B, C.
    take S. take S. take S. take S. rewrite !app_length in L. cbn [length] in L. rewrite !app_length in L. cbn [length] in L.
    rewrite !app_length in L. cbn [length] in L. rewrite !app_length in L. cbn [length] in L.
    rewrite <- !app_assoc. cbn [app]. rewrite skip_noise by assumption. rewrite digit_step by lia.
    rewrite <- !app_assoc. cbn [app]. rewrite skip_noise by assumption. rewrite digit_step by lia.
    rewrite <- !app_assoc. cbn [app]. rewrite skip_noise by assumption. rewrite digit_step by lia.
    rewrite <- !app_assoc. cbn [app]. rewrite skip_noise by assumption. rewrite last_step by lia. cbv zeta.
    rewrite (IH _ junk); [|exact (Forall_inv_tail (Forall_inv_tail (Forall_inv_tail O)))|exact S| |cbn [length]; lia].
    + cbn [rev]. rewrite <- !app_assoc. cbn [app]. apply (f_equal Ok). f_equal. f_equal; [lia|]. f_equal; [lia|]. f_equal. lia.
    + intro M. apply J. cbn [length]. lia.
Qed.
Lemma base64_fits : forall s cap reg nc eq out, Forall (fun c => c < 256) s -> (nc < 4)%nat -> (length out + 3 * ((nc + length s) / 4) <= cap)%nat ->
  exists out', base64 cap s reg nc eq out = Ok out' /\ (length out' <= length out + 3 * ((nc + length s) / 4))%nat.
Proof.
  induction s as [|c s IH]; intros cap reg nc eq out O C L; [exists out; split; [reflexivity|lia]|].
  cbn [base64]. destruct (byte_table c (Forall_inv O)) as (d & e & -> & -> & _). cbv zeta. cbn [length] in *. pose proof (Forall_inv_tail O) as O'.
  destruct (0 <=? d)%Z.
  - destruct (Nat.eqb_spec (S nc) 4) as [E|E].
    + assert (nc = 3)%nat by lia. subst nc. clear E. replace ((3 + S (length s)) / 4)%nat with (S (length s / 4))%nat in * by lia.
      rewrite put_ok by lia. cbn [bind].
      assert (G : forall o : bytes, (@length N o <= S (length out))%nat -> exists o' : bytes, (if (eq + e <? 2)%Z then put cap o (Z.to_N ((reg * 64 + d) / 256 mod 256)) else Ok o) = Ok o' /\ (length o' <= S (S (length out)))%nat).
      { intros o H. destruct (eq + e <? 2)%Z; [rewrite put_ok by lia; eexists; split; [reflexivity|cbn [length]; lia]|exists o; split; [reflexivity|lia]]. }
      destruct (G (Z.to_N ((reg * 64 + d) / 65536 mod 256) :: out) ltac:(cbn [length]; lia)) as (o1 & -> & L1). cbn [bind].
      assert (G2 : exists o' : bytes, (if (eq + e <? 1)%Z then put cap o1 (Z.to_N ((reg * 64 + d) mod 256)) else Ok o1) = Ok o' /\ (length o' <= S (S (S (length out))))%nat).
      { destruct (eq + e <? 1)%Z; [rewrite put_ok by lia; eexists; split; [reflexivity|cbn [length]; lia]|exists o1; split; [reflexivity|lia]]. }
      destruct G2 as (o2 & -> & L2). cbn [bind]. destruct (eq + e =? 0)%Z; [|exists o2; split; [reflexivity|lia]].
      destruct (IH cap 0%Z 0%nat (eq + e)%Z o2 O' ltac:(lia) ltac:(cbn [Nat.add]; lia)) as (o3 & E3 & L3). exists o3. split; [exact E3|]. cbn [Nat.add] in L3. lia.
    + destruct (IH cap (reg * 64 + d)%Z (S nc) (eq + e)%Z out O' ltac:(lia)) as (o & E1 & L1); [replace (S nc + length s)%nat with (nc + S (length s))%nat by lia; exact L|].
      exists o. split; [exact E1|]. replace (nc + S (length s))%nat with (S nc + length s)%nat by lia. exact L1.
  - destruct (IH cap reg nc (eq + e)%Z out O' C) as (o & E1 & L1); [lia|]. exists o. split; [exact E1|]. lia.
Qed.

(* quoted-printable *)
Lemma ws_newline_soft : forall isspc w t, Forall (fun c => isspc c = true /\ c <> 10) w -> ws_newline isspc (w ++ 10 :: t) = Ok (Some (length w)).
Proof.
  induction w as [|c w IH]; intros t F; [reflexivity|]. destruct (Forall_inv F) as [S N]. cbn [app ws_newline length].
  destruct (N.eqb_spec c 10); [contradiction|]. rewrite S, IH by exact (Forall_inv_tail F). reflexivity.
Qed.
Lemma hex_val : forall x v, hex x v -> hex_to_val x = v /\ isspace x = false /\ x < 128 /\ v < 16 /\ x <> 10.
Proof.
  intros x v H. assert (V : v < 16).
  { destruct H as [H|H]; assert (nth_error (A := N) _ (N.to_nat v) <> None) as Z by (rewrite H; discriminate); apply nth_error_Some in Z; cbn [length bs] in Z; lia. }
  pose proof (sweep (fun v => ((16 <=? v) || match nth_error (bs "0123456789ABCDEF") (N.to_nat v), nth_error (bs "0123456789abcdef") (N.to_nat v) with
    Some x, Some y => (hex_to_val x =? v) && negb (isspace x) && (x <? 128) && negb (x =? 10) && (hex_to_val y =? v) && negb (isspace y) && (y <? 128) && negb (y =? 10) | _, _ => false end)%bool) eq_refl v ltac:(lia)) as S.
  cbv beta in S. destruct (N.leb_spec 16 v); [lia|]. cbn [orb] in S.
  unfold hex in H. destruct (nth_error (bs "0123456789ABCDEF") (N.to_nat v)) as [a|]; [|discriminate]. destruct (nth_error (bs "0123456789abcdef") (N.to_nat v)) as [b|]; [|discriminate].
  rewrite !andb_true_iff in S. rewrite !negb_true_iff, !N.eqb_eq, !N.ltb_lt, !N.eqb_neq in S.
  destruct S as (((((((A1 & A2) & A3) & A4) & B1) & B2) & B3) & B4). destruct H as [H|H]; injection H as ->; auto.
Qed.
Definition ascii_spaces (isspc : N -> bool) : Prop := forall c, c < 128 -> isspc c = isspace c.
Lemma qp_decodes : forall isspc s t, ascii_spaces isspc -> qp_of isspc s t -> forall fuel cap after out, (length t < fuel)%nat -> (length out + length t <= cap)%nat ->
  qp isspc fuel cap (t ++ after) (length t) out = Ok (rev s ++ out) /\ (length s <= length t)%nat.
Proof.
  intros isspc s t A Q. induction Q as [|c s t NE Q IH|x y a b s t HX HY Q IH|w s t W Q IH]; intros fuel cap after out LF LC.
  - destruct fuel as [|f]; [cbn in LF; lia|]. split; [reflexivity|cbn; lia].
  - destruct fuel as [|f]; [lia|]. cbn [length] in *. cbn [qp app]. cbn [Nat.eqb]. destruct (N.eqb_spec c 61); [contradiction|].
    rewrite put_ok by lia. cbn [bind Nat.sub]. rewrite Nat.sub_0_r. destruct (IH f cap after (c :: out) ltac:(lia) ltac:(cbn [length]; lia)) as [-> L]. split; [|lia].
    cbn [rev]. now rewrite <- app_assoc.
  - destruct fuel as [|f]; [lia|]. cbn [length] in *. cbn [qp app Nat.eqb]. change (61 =? 61) with true. cbv iota.
    destruct (hex_val x a HX) as (HX1 & HX2 & HX3 & HX4 & HX5). destruct (hex_val y b HY) as (HY1 & HY2 & HY3 & HY4 & HY5).
    cbn [ws_newline]. destruct (N.eqb_spec x 10); [contradiction|]. rewrite (A x HX3), HX2. cbn [bind]. rewrite HX1, HY1.
    rewrite put_ok by lia. cbn [bind Nat.sub]. rewrite Nat.sub_0_r. destruct (IH f cap after ((a * 16 + b) mod 256 :: out) ltac:(lia) ltac:(cbn [length]; lia)) as [-> L].
    split; [|lia]. cbn [rev]. rewrite <- app_assoc. cbn [app]. rewrite N.mod_small by lia. apply (f_equal Ok). f_equal. f_equal. lia.
  - destruct fuel as [|f]; [lia|]. cbn [length] in *. rewrite app_length in *. cbn [length] in *. cbn [qp app Nat.eqb]. change (61 =? 61) with true. cbv iota.
    rewrite <- app_assoc. cbn [app]. rewrite ws_newline_soft by exact W. cbn [bind].
    assert (SK : skipn (S (length w)) (w ++ 10 :: t ++ after) = t ++ after) by (clear; induction w as [|c w IH]; [reflexivity|exact IH]).
    rewrite SK. replace (S (length w + S (length t)) - 1 - S (length w))%nat with (length t) by lia.
    destruct (IH f cap after out ltac:(lia) ltac:(lia)) as [-> L]. split; [reflexivity|lia].
Qed.
(* It stays within bounds when a character that is no space follows the text, and another one. *)
Lemma ws_newline_some : forall isspc s r, ws_newline isspc s = Ok (Some r) -> (r < length s)%nat.
Proof.
  induction s as [|c s IH]; intros r H; [discriminate|]. cbn [ws_newline] in H. destruct (c =? 10); [injection H as <-; cbn; lia|]. destruct (isspc c); [|discriminate].
  destruct (ws_newline isspc s) as [[k|]|] eqn:E; [|discriminate|discriminate]. cbn in H. injection H as <-. specialize (IH k eq_refl). cbn [length]. lia.
Qed.
Lemma ws_newline_total : forall isspc s x y z, isspc x = false -> exists r, ws_newline isspc (s ++ x :: y :: z) = Ok r /\
  (forall k, r = Some k -> (k <= length s)%nat).
Proof.
  induction s as [|c s IH]; intros x y z X; cbn [app ws_newline].
  - destruct (x =? 10); [exists (Some 0%nat); split; [reflexivity|intros k [= <-]; lia]|]. rewrite X. exists None. split; [reflexivity|discriminate].
  - destruct (c =? 10); [exists (Some 0%nat); split; [reflexivity|intros k [= <-]; lia]|]. destruct (isspc c); [|exists None; split; [reflexivity|discriminate]].
    destruct (IH x y z X) as (r & -> & R). cbn [bind]. exists (option_map S r). split; [reflexivity|]. intros k K. destruct r as [k'|]; [|discriminate]. injection K as <-.
    specialize (R k' eq_refl). cbn [length]. lia.
Qed.
Lemma qp_bounds : forall isspc x y z fuel t cap out, isspc x = false -> (length t < fuel)%nat -> (length out + length t <= cap)%nat ->
  exists out', qp isspc fuel cap (t ++ x :: y :: z) (length t) out = Ok out' /\ (length out' <= length out + length t)%nat.
Proof.
  intros isspc x y z. induction fuel as [|f IH]; intros t cap out X LF LC; [lia|]. cbn [qp].
  destruct t as [|c t]; [exists out; split; [reflexivity|lia]|]. cbn [length Nat.eqb app] in *.
  destruct (c =? 61).
  - destruct (ws_newline_total isspc t x y z X) as (r & -> & R). cbn [bind]. destruct r as [k|].
    + specialize (R k eq_refl). replace (S (length t) - 1 - S k)%nat with (length t - S k)%nat by lia.
      destruct (Nat.le_gt_cases (S k) (length t)) as [G|G].
      * rewrite skipn_app. replace (S k - length t)%nat with 0%nat by lia. cbn [skipn]. rewrite <- skipn_length.
        destruct (IH (skipn (S k) t) cap out X ltac:(rewrite skipn_length; lia) ltac:(rewrite skipn_length; lia)) as (o & E & L). exists o. split; [exact E|]. rewrite skipn_length in L. lia.
      * replace (length t - S k)%nat with 0%nat by lia. destruct f as [|f']; [lia|]. cbn [qp Nat.eqb]. exists out. split; [reflexivity|lia].
    + destruct t as [|a [|b t]]; cbn [app].
      * rewrite put_ok by (cbn [length] in *; lia). cbn [bind length Nat.sub]. destruct f as [|f']; [cbn [length] in *; lia|]. cbn [qp Nat.eqb]. eexists. split; [reflexivity|cbn [length]; lia].
      * rewrite put_ok by (cbn [length] in *; lia). cbn [bind length Nat.sub]. destruct f as [|f']; [cbn [length] in *; lia|]. cbn [qp Nat.eqb]. eexists. split; [reflexivity|cbn [length]; lia].
      * cbn [length] in *. rewrite put_ok by lia. cbn [bind Nat.sub]. rewrite Nat.sub_0_r.
        destruct (IH t cap ((hex_to_val a * 16 + hex_to_val b) mod 256 :: out) X ltac:(lia) ltac:(cbn [length]; lia)) as (o & E & L). exists o. split; [exact E|]. cbn [length] in *. lia.
  - rewrite put_ok by lia. cbn [bind Nat.sub]. rewrite Nat.sub_0_r. destruct (IH t cap (c :: out) X ltac:(lia) ltac:(cbn [length]; lia)) as (o & E & L). exists o. split; [exact E|]. cbn [length] in *. lia.
Qed.

(* the name of the encoding *)
Lemma skip_space_all : forall isspc sp r, Forall (fun c => isspc c = true) sp -> skip_space isspc (sp ++ r) = skip_space isspc r.
Proof. induction sp as [|c sp IH]; intros r F; [reflexivity|]. cbn [app skip_space]. rewrite (Forall_inv F). apply IH. exact (Forall_inv_tail F). Qed.
Lemma match_string_lower : forall r n rest, map tolower n = r -> match_string r (n ++ rest) = true.
Proof. induction r as [|x r IH]; intros [|y n] rest E; try discriminate; [reflexivity|]. cbn [map] in E. injection E as <- E. cbn [app match_string]. rewrite N.eqb_refl. now apply IH. Qed.
(* the first place at which two words differ *)
Fixpoint differ (r k : bytes) : bool := match r, k with a :: r', b :: k' => negb (a =? b) || differ r' k' | _, _ => false end.
Lemma differ_ok : forall r n rest, differ r (map tolower n) = true -> match_string r (n ++ rest) = false.
Proof.
  induction r as [|x r IH]; intros n rest D; [discriminate|]. destruct n as [|y n]; [discriminate|]. cbn [map differ] in D. cbn [app match_string].
  destruct (N.eqb_spec x (tolower y)) as [->|NE]; cbn [negb orb] in D; [rewrite N.eqb_refl; cbn [andb]; now apply IH|]. destruct (N.eqb_spec (tolower y) x); [congruence|reflexivity].
Qed.
Lemma first_not_space : forall isspc n c, ascii_spaces isspc -> map tolower n = c -> match c with x :: _ => (x <? 128) && negb (isspace x) && isalnum x = true | [] => False end -> forall rest, skip_space isspc (n ++ rest) = n ++ rest.
Proof.
  intros isspc n c A E H rest. destruct n as [|y n]; [subst c; contradiction|]. subst c. cbn [map] in H. rewrite !andb_true_iff, N.ltb_lt in H. destruct H as [[H1 H2] H3]. rewrite negb_true_iff in H2.
  cbn [app skip_space]. assert (Y : y < 128 /\ isspace y = false).
  { unfold tolower in *. destruct (isupper y) eqn:U; [|auto]. unfold isupper in U. unfold isspace. split; lia. }
  destruct Y as [Y1 Y2]. now rewrite (A y Y1), Y2.
Qed.
Lemma names_base64 : forall isspc e, ascii_spaces isspc -> names isspc "base64" e -> decode_encoding_type isspc (Some e) = ENC_BASE64.
Proof.
  intros isspc e A (sp & n & rest & -> & SP & E). unfold decode_encoding_type. rewrite skip_space_all by exact SP. rewrite (first_not_space isspc n _ A E) by reflexivity.
  rewrite !differ_ok by (rewrite E; reflexivity). cbn [orb]. rewrite (match_string_lower (bs "base64") n rest E). reflexivity.
Qed.
Lemma names_qp : forall isspc e, ascii_spaces isspc -> names isspc "quoted-printable" e -> decode_encoding_type isspc (Some e) = ENC_QUOTED_PRINTABLE.
Proof.
  intros isspc e A (sp & n & rest & -> & SP & E). unfold decode_encoding_type. rewrite skip_space_all by exact SP. rewrite (first_not_space isspc n _ A E) by reflexivity.
  rewrite !differ_ok by (rewrite E; reflexivity). cbn [orb]. rewrite (match_string_lower (bs "quoted-printable") n rest E). reflexivity.
Qed.
Lemma names_uu : forall isspc e, ascii_spaces isspc -> names isspc "x-uuencode" e -> decode_encoding_type isspc (Some e) = ENC_UUENCODE.
Proof.
  intros isspc e A (sp & n & rest & -> & SP & E). unfold decode_encoding_type. rewrite skip_space_all by exact SP. rewrite (first_not_space isspc n _ A E) by reflexivity.
  rewrite !differ_ok by (rewrite E; reflexivity). cbn [orb]. rewrite (match_string_lower (bs "x-uuencode") n rest E). reflexivity.
Qed.

(* the whole function *)
Lemma finish : forall n out, (length out <= n)%nat -> (let! _ := put (S n) out 0 in Ok (rev out)) = Ok (rev out).
Proof. intros n out L. rewrite put_ok by lia. reflexivity. Qed.
Lemma firstn_all_app : forall (t after : bytes), firstn (length t) (t ++ after) = t.
Proof. intros t after. rewrite firstn_app, Nat.sub_diag, firstn_O, app_nil_r. apply firstn_all. Qed.
Lemma base64_main : forall isspc e s u junk after, ascii_spaces isspc -> names isspc "base64" e -> Forall (fun c => c < 256) s -> spread (base64_of s) u ->
  (length s mod 3 = 0 -> junk = [])%nat -> unencode_data isspc ((u ++ junk) ++ after) (length (u ++ junk)) (Some e) = Ok s.
Proof.
  intros isspc e s u junk after A NM O SP J. unfold unencode_data. cbv zeta. rewrite (names_base64 isspc e A NM).
  destruct (Nat.leb_spec (length (u ++ junk)) (length ((u ++ junk) ++ after))) as [_|G]; [|rewrite !app_length in G; lia].
  rewrite firstn_all_app. rewrite (base64_decodes s u junk [] _ O SP J) by (rewrite app_length; cbn [length]; lia). cbn [bind]. rewrite app_nil_r, finish; [now rewrite rev_involutive|].
  rewrite rev_length, app_length. assert (G : (length s <= length u)%nat); [|lia].
  transitivity (length (base64_of s)).
  - clear. induction s as [|a|a b|a b c s IH] using list_ind3; cbn [base64_of length]; cbv zeta; cbn [length]; lia.
  - clear -SP. induction SP; cbn [length]; lia.
Qed.
Lemma base64_total : forall isspc e t after, ascii_spaces isspc -> names isspc "base64" e -> Forall (fun c => c < 256) t ->
  exists s, unencode_data isspc (t ++ after) (length t) (Some e) = Ok s /\ (length s <= 3 * (length t / 4))%nat.
Proof.
  intros isspc e t after A NM O. unfold unencode_data. cbv zeta. rewrite (names_base64 isspc e A NM).
  destruct (Nat.leb_spec (length t) (length (t ++ after))) as [_|G]; [|rewrite app_length in G; lia]. rewrite firstn_all_app.
  destruct (base64_fits t (S (length t)) 0%Z 0%nat 0%Z [] O ltac:(lia)) as (o & -> & L); [cbn [length Nat.add]; lia|]. cbn [length Nat.add] in L. cbn [bind].
  exists (rev o). split; [apply finish; lia|]. rewrite rev_length. exact L.
Qed.
Lemma qp_main : forall isspc e s t after, ascii_spaces isspc -> names isspc "quoted-printable" e -> qp_of isspc s t ->
  unencode_data isspc (t ++ after) (length t) (Some e) = Ok s.
Proof.
  intros isspc e s t after A NM Q. unfold unencode_data. cbv zeta. rewrite (names_qp isspc e A NM).
  destruct (qp_decodes isspc s t A Q (S (length t)) (S (length t)) after [] ltac:(lia) ltac:(cbn [length]; lia)) as [-> L]. cbn [bind].
  rewrite app_nil_r, finish by (rewrite rev_length; exact L). now rewrite rev_involutive.
Qed.
Lemma qp_total : forall isspc e t x y after, ascii_spaces isspc -> names isspc "quoted-printable" e -> isspc x = false ->
  exists s, unencode_data isspc (t ++ x :: y :: after) (length t) (Some e) = Ok s /\ (length s <= length t)%nat.
Proof.
  intros isspc e t x y after A NM X. unfold unencode_data. cbv zeta. rewrite (names_qp isspc e A NM).
  destruct (qp_bounds isspc x y after (S (length t)) t (S (length t)) [] X ltac:(lia) ltac:(cbn [length]; lia)) as (o & -> & L). cbn [bind]. cbn [length Nat.add] in L.
  exists (rev o). split; [now apply finish|]. now rewrite rev_length.
Qed.
Lemma plain_main : forall isspc e t after, ascii_spaces isspc -> (e = None \/ exists e', e = Some e' /\ (names isspc "7bit" e' \/ names isspc "8bit" e' \/ names isspc "binary" e')) ->
  unencode_data isspc (t ++ after) (length t) e = Ok t.
Proof.
  intros isspc e t after A H. unfold unencode_data. cbv zeta.
  assert (D : (if (length t <=? length (t ++ after))%nat then Ok (rev (firstn (length t) (t ++ after))) else Err E_oob) = Ok (rev t)).
  { destruct (Nat.leb_spec (length t) (length (t ++ after))) as [_|G]; [|rewrite app_length in G; lia]. now rewrite firstn_all_app. }
  assert (F : (let! out := Ok (rev t) in let! _ := put (S (length t)) out 0 in Ok (rev out)) = Ok t) by (cbn [bind]; rewrite finish by (rewrite rev_length; lia); now rewrite rev_involutive).
  destruct H as [->|(e' & -> & H)]; [cbn [decode_encoding_type]; rewrite D; exact F|].
  assert (C : decode_encoding_type isspc (Some e') = ENC_7BIT \/ decode_encoding_type isspc (Some e') = ENC_8BIT \/ decode_encoding_type isspc (Some e') = ENC_BINARY).
  { destruct H as [(sp & n & rest & -> & SP & E)|[(sp & n & rest & -> & SP & E)|(sp & n & rest & -> & SP & E)]]; unfold decode_encoding_type; rewrite skip_space_all by exact SP; rewrite (first_not_space isspc n _ A E) by reflexivity.
    - rewrite (match_string_lower (bs "7bit") n rest E). now left.
    - rewrite !(differ_ok (bs "7bit")), !(differ_ok (bs "7-bit")), !(differ_ok (bs "7 bit")) by (rewrite E; reflexivity). rewrite (match_string_lower (bs "8bit") n rest E). right. now left.
    - rewrite !differ_ok by (rewrite E; reflexivity). rewrite (match_string_lower (bs "binary") n rest E). right. now right. }
  destruct C as [C|[C|C]]; rewrite C, D; exact F.
Qed.

(* examples *)
Lemma isspace_ascii : ascii_spaces isspace.
Proof. intros c _. reflexivity. Qed.
Lemma name_of : forall (name : string) n, map tolower n = bs name -> names isspace name n.
Proof. intros name n E. exists [], n, []. split; [symmetry; apply app_nil_r|]. split; [constructor|exact E]. Qed.
Lemma ex_spread : forall t, spread t t.
Proof. induction t; constructor; assumption. Qed.
Definition ex_b64 : bytes := bs "SGVsbG8s" ++ [13; 10] ++ bs "IHdvcmxkIQ==" ++ [10].
Lemma ex_b64_ok : spread (base64_of (bs "Hello, world!")) ex_b64.
Proof.
  unfold ex_b64. cbn [bs app].
  assert (N1 : noise 13) by (split; [reflexivity|split; [apply (fun H => H); intro I; apply mem_N_in in I; discriminate I|discriminate]]).
  assert (N2 : noise 10) by (split; [reflexivity|split; [intro I; apply mem_N_in in I; discriminate I|discriminate]]).
  vm_compute base64_of. vm_compute N_of_ascii.
  repeat (apply spread_keep). apply spread_noise; [exact N1|]. apply spread_noise; [exact N2|]. repeat (apply spread_keep). apply spread_noise; [exact N2|constructor].
Qed.
Definition ex_qp : bytes := bs "caf=C3=a9 =" ++ [32; 10] ++ bs "2 =3D 1+1".
Lemma ex_qp_ok : qp_of isspace (bs "caf" ++ [195; 169] ++ bs " 2 = 1+1") ex_qp.
Proof.
  unfold ex_qp. cbn [bs app]. vm_compute N_of_ascii.
  repeat (apply qp_char; [discriminate|]).
  apply (qp_hex isspace 67 51 12 3); [left; reflexivity|left; reflexivity|]. apply (qp_hex isspace 97 57 10 9); [right; reflexivity|left; reflexivity|].
  apply qp_char; [discriminate|]. apply (qp_soft isspace [32]); [constructor; [split; [reflexivity|discriminate]|constructor]|].
  repeat (apply qp_char; [discriminate|]). apply (qp_hex isspace 51 68 3 13); [left; reflexivity|left; reflexivity|]. repeat (apply qp_char; [discriminate|]). constructor.
Qed.
Definition ex_uu_piece : bytes := bs "The quick brown fox jumps over the lazy dog..".
Definition ex_uu : bytes := bs "begin 644 " ++ bs "fox" ++ [10] ++ concat (map uu_line (repeat ex_uu_piece 5)) ++ uu_line [] ++ bs "end" ++ [10].
Lemma ex_uu_ok : uu_of (concat (repeat ex_uu_piece 5)) ex_uu.
Proof.
  exists (bs "fox"), (repeat ex_uu_piece 5). split; [reflexivity|]. split; [|split; [intro I; apply mem_N_in in I; discriminate I|reflexivity]].
  apply Forall_forall. intros p P. apply repeat_spec in P. subst p. cbn. lia.
Qed.
Definition same_bytes (r : res bytes) (s : bytes) : bool := match r with Ok x => bytes_eqb x s | Err _ => false end.
Lemma bytes_eqb_same : forall s, bytes_eqb s s = true.
Proof. induction s as [|c s IH]; [reflexivity|]. cbn [bytes_eqb]. now rewrite N.eqb_refl. Qed.
Lemma uu_wrong : unencode_data isspace (ex_uu ++ repeat 0 100) (length ex_uu) (Some (bs "x-uuencode")) <> Ok (concat (repeat ex_uu_piece 5)).
Proof.
  intro H. assert (B : same_bytes (unencode_data isspace (ex_uu ++ repeat 0 100) (length ex_uu) (Some (bs "x-uuencode"))) (concat (repeat ex_uu_piece 5)) = false) by (vm_compute; reflexivity).
  rewrite H in B. cbn [same_bytes] in B. now rewrite bytes_eqb_same in B.
Qed.
Definition ex_uu2 : bytes := bs "begin 644 " ++ bs "cat.txt" ++ [10] ++ concat (map uu_line [bs "Cat"]) ++ uu_line [] ++ bs "end" ++ [10].
Lemma ex_uu2_ok : uu_of (bs "Cat") ex_uu2.
Proof.
  exists (bs "cat.txt"), [bs "Cat"]. split; [reflexivity|]. split; [constructor; [cbn; lia|constructor]|]. split; [intro I; apply mem_N_in in I; discriminate I|reflexivity].
Qed.
Lemma uu_overrun : unencode_data isspace (ex_uu2 ++ repeat 0 100) (length ex_uu2) (Some (bs "x-uuencode")) = Err E_oob.
Proof. vm_compute. reflexivity. Qed.
Lemma qp_overrun : unencode_data isspace (bs "a=" ++ [0]) 2 (Some (bs "quoted-printable")) = Err E_oob.
Proof. vm_compute. reflexivity. Qed.
Lemma qp_outside : unencode_data isspace (bs "a=" ++ bs "42c") 2 (Some (bs "quoted-printable")) = Ok (bs "aB").
Proof. vm_compute. reflexivity. Qed.
Lemma qp_overrun_main : exists t, Forall (fun c => 0 < c < 256) t /\ unencode_data isspace (t ++ [0]) (length t) (Some (bs "quoted-printable")) = Err E_oob.
Proof. exists (bs "a="). split; [repeat constructor|exact qp_overrun]. Qed.
