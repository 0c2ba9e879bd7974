(* Lemmas about encoded words. *)
From Verif Require Import Base M_Decode S_Decode L_Decode M_Words S_Words.
Local Open Scope N_scope.

(* searching *)
Fixpoint cut1 (a : N) (s : bytes) : option (bytes * bytes) :=
  match s with [] => None | c :: s' => if c =? a then Some ([], s') else option_map (fun p => (c :: fst p, snd p)) (cut1 a s') end.
Fixpoint cut2 (a b : N) (s : bytes) : option (bytes * bytes) :=
  match s with
  | [] => None
  | c :: s' =>
    match s' with
    | d :: s'' => if (c =? a) && (d =? b) then Some ([], s'') else option_map (fun p => (c :: fst p, snd p)) (cut2 a b s')
    | [] => None
    end
  end.
Lemma cut1_inv : forall a s x y, cut1 a s = Some (x, y) -> s = x ++ a :: y /\ ~ In a x.
Proof.
  induction s as [|c s IH]; intros x y H; [discriminate|]. cbn [cut1] in H. destruct (N.eqb_spec c a) as [->|NE]; [injection H as <- <-; split; [reflexivity|intros []]|].
  destruct (cut1 a s) as [[x' y']|]; [|discriminate]. injection H as <- <-. destruct (IH _ _ eq_refl) as [-> I]. split; [reflexivity|]. cbn [In fst]. tauto.
Qed.
Lemma cut1_ok : forall a x y, ~ In a x -> cut1 a (x ++ a :: y) = Some (x, y).
Proof.
  induction x as [|c x IH]; intros y I; cbn [app cut1]; [now rewrite N.eqb_refl|]. cbn [In] in I. destruct (N.eqb_spec c a); [tauto|]. rewrite IH by tauto. reflexivity.
Qed.
Lemma cut2_cons : forall a b c s, cut2 a b (c :: s) = match s with d :: s'' => if (c =? a) && (d =? b) then Some ([], s'') else option_map (fun p => (c :: fst p, snd p)) (cut2 a b s) | [] => None end.
Proof. reflexivity. Qed.
Lemma cut2_inv : forall a b s x y, cut2 a b s = Some (x, y) -> s = x ++ a :: b :: y.
Proof.
  induction s as [|c s IH]; intros x y H; [discriminate|]. rewrite cut2_cons in H. destruct s as [|d s]; [discriminate|].
  destruct (N.eqb_spec c a) as [->|NE]; cbn [andb] in H.
  - destruct (N.eqb_spec d b) as [->|NE2]; [injection H as <- <-; reflexivity|]. destruct (cut2 a b (d :: s)) as [[x' y']|]; [|discriminate]. injection H as <- <-. cbn [fst snd app]. f_equal. now apply IH.
  - destruct (cut2 a b (d :: s)) as [[x' y']|]; [|discriminate]. injection H as <- <-. cbn [fst snd app]. f_equal. now apply IH.
Qed.
Lemma cut2_none : forall a b s, cut2 a b s = None -> ~ occurs a b s.
Proof.
  induction s as [|c s IH]; intros H (x & y & E); [destruct x; discriminate E|]. rewrite cut2_cons in H. destruct s as [|d s]; [destruct x as [|? [|? ?]]; discriminate E|].
  destruct ((c =? a) && (d =? b)) eqn:C; [discriminate|]. destruct (cut2 a b (d :: s)) as [[? ?]|] eqn:K; [discriminate|]. destruct x as [|c' x].
  - injection E as -> -> ->. rewrite !N.eqb_refl in C. discriminate C.
  - apply (IH eq_refl). exists x, y. now injection E.
Qed.
Lemma cut2_ok : forall a b x y, ~ occurs a b (x ++ [a]) -> cut2 a b (x ++ a :: b :: y) = Some (x, y).
Proof.
  induction x as [|c x IH]; intros y O; [cbn [app]; rewrite cut2_cons, !N.eqb_refl; reflexivity|]. cbn [app]. rewrite cut2_cons.
  assert (O' : ~ occurs a b (x ++ [a])) by (intros (u & v & E); apply O; exists (c :: u), v; cbn [app]; now rewrite E).
  destruct x as [|d x]; cbn [app] in *.
  - destruct ((c =? a) && (a =? b)) eqn:C.
    + rewrite andb_true_iff, !N.eqb_eq in C. destruct C as [-> ->]. exfalso. apply O. exists [], []. reflexivity.
    + rewrite (IH y O'). reflexivity.
  - destruct ((c =? a) && (d =? b)) eqn:C.
    + rewrite andb_true_iff, !N.eqb_eq in C. destruct C as [-> ->]. exfalso. apply O. exists [], (x ++ [a]). reflexivity.
    + rewrite (IH y O'). reflexivity.
Qed.
Definition off (o : option (bytes * bytes)) : option nat := option_map (fun p => length (fst p)) o.
Lemma strchr_ok : forall a s after, a <> 0 -> ~ In 0 s -> strchr a (s ++ 0 :: after) = Ok (off (cut1 a s)).
Proof.
  induction s as [|c s IH]; intros after NZ I; cbn [app strchr cut1].
  - destruct (N.eqb_spec 0 a); [congruence|]. reflexivity.
  - cbn [In] in I. destruct (N.eqb_spec c a); [reflexivity|]. destruct (N.eqb_spec c 0); [tauto|]. rewrite IH by tauto. cbn [bind]. destruct (cut1 a s) as [[x y]|]; reflexivity.
Qed.
Lemma strstr_ok : forall a b s after, b <> 0 -> ~ In 0 s -> strstr a b (s ++ 0 :: after) = Ok (off (cut2 a b s)).
Proof.
  induction s as [|c s IH]; intros after NZ I; [reflexivity|]. cbn [In] in I. specialize (IH after NZ ltac:(tauto)). rewrite cut2_cons. cbn [app strstr]. destruct (N.eqb_spec c 0); [tauto|].
  destruct s as [|d s]; cbn [app] in *.
  - rewrite IH. cbn [bind cut2 off option_map]. destruct (c =? a); [|reflexivity]. destruct (N.eqb_spec 0 b); [congruence|]. reflexivity.
  - rewrite IH. cbn [bind]. destruct (c =? a); cbn [andb].
    + destruct (d =? b); [reflexivity|]. destruct (cut2 a b (d :: s)) as [[x y]|]; reflexivity.
    + destruct (cut2 a b (d :: s)) as [[x y]|]; reflexivity.
Qed.

(* memory: what is written, a gap, what is still to be read *)
Lemma read_at : forall D c R n, n = length D -> read (D ++ c :: R) n = Ok c.
Proof. intros D c R n ->. unfold read. rewrite nth_error_app2, Nat.sub_diag by lia. reflexivity. Qed.
Lemma read_at1 : forall D c1 c2 R n, n = length D -> read (D ++ c1 :: c2 :: R) (n + 1) = Ok c2.
Proof. intros D c1 c2 R n ->. unfold read. rewrite nth_error_app2 by lia. replace (length D + 1 - length D)%nat with 1%nat by lia. reflexivity. Qed.
Lemma read_at2 : forall D c1 c2 c3 R n, n = length D -> read (D ++ c1 :: c2 :: c3 :: R) (n + 2) = Ok c3.
Proof. intros D c1 c2 c3 R n ->. unfold read. rewrite nth_error_app2 by lia. replace (length D + 2 - length D)%nat with 2%nat by lia. reflexivity. Qed.
Lemma set_at : forall (D : bytes) (g : N) (R : bytes) (c : N), set_nth (D ++ g :: R) (length D) c = (D ++ [c]) ++ R.
Proof. induction D as [|x D IH]; intros g R c; [reflexivity|]. cbn [app set_nth length]. f_equal. apply IH. Qed.
Lemma write_at : forall D g R c n, n = length D -> write (D ++ g :: R) n c = Ok ((D ++ [c]) ++ R).
Proof. intros D g R c n ->. unfold write. destruct (Nat.ltb_spec (length D) (length (D ++ g :: R))) as [_|H]; [|rewrite app_length in H; cbn [length] in H; lia]. now rewrite set_at. Qed.
Lemma skip_at : forall (D R : bytes) n, n = length D -> skipn n (D ++ R) = R.
Proof. intros D R n ->. rewrite skipn_app, Nat.sub_diag, skipn_all. reflexivity. Qed.
Lemma copy_ok : forall H D G R, exists G', copy (length H) (D ++ G ++ H ++ R) (length D) (length D + length G) =
  Ok ((D ++ H) ++ G' ++ R, (length D + length H)%nat, (length D + length G + length H)%nat) /\ length G' = length G.
Proof.
  induction H as [|h H IH]; intros D G R; cbn [length copy app].
  - exists G. split; [|reflexivity]. now rewrite app_nil_r, !Nat.add_0_r.
  - assert (RD : read (D ++ G ++ h :: H ++ R) (length D + length G) = Ok h) by (rewrite app_assoc; apply read_at; now rewrite app_length). rewrite RD. cbn [bind].
    destruct G as [|g G]; cbn [app length].
    + rewrite (write_at D h (H ++ R) h _ eq_refl). cbn [bind]. destruct (IH (D ++ [h]) [] R) as (G' & E & L). cbn [app length] in E. rewrite app_length in E. cbn [length] in E.
      replace (S (length D)) with (length D + 1)%nat by lia. replace (S (length D + 0)) with (length D + 1 + 0)%nat by lia. rewrite E. exists G'. split; [|exact L]. apply (f_equal Ok). rewrite <- !app_assoc. cbn [app]. f_equal; [f_equal|]; lia.
    + rewrite (write_at D g (G ++ h :: H ++ R) h _ eq_refl). cbn [bind]. destruct (IH (D ++ [h]) (G ++ [h]) R) as (G' & E & L). rewrite !app_length in E. cbn [length] in E.
      rewrite <- !app_assoc in E. cbn [app] in E. rewrite <- !app_assoc. cbn [app]. replace (S (length D)) with (length D + 1)%nat by lia. replace (S (length D + S (length G))) with (length D + 1 + (length G + 1))%nat by lia.
      rewrite E. exists G'. rewrite app_length in L. cbn [length] in L. split; [|cbn [length]; lia]. apply (f_equal Ok). rewrite <- !app_assoc. cbn [app]. f_equal; [f_equal|]; lia.
Qed.
Lemma copy_rest_ok : forall H D G after fuel, ~ In 0 H -> (length H < fuel)%nat -> exists J, copy_rest fuel (D ++ G ++ H ++ 0 :: after) (length D) (length D + length G) =
  Ok ((D ++ H) ++ 0 :: J ++ after) /\ length J = length G.
Proof.
  induction H as [|h H IH]; intros D G after fuel I F; (destruct fuel as [|f]; [lia|]); cbn [copy_rest app].
  - assert (RD : read (D ++ G ++ 0 :: after) (length D + length G) = Ok 0) by (rewrite app_assoc; apply read_at; now rewrite app_length). rewrite RD. cbn [bind]. change (0 =? 0) with true. cbv iota.
    destruct G as [|g G]; cbn [app length].
    + rewrite (write_at D 0 after 0 _ eq_refl). exists []. split; [|reflexivity]. now rewrite <- !app_assoc.
    + rewrite (write_at D g (G ++ 0 :: after) 0 _ eq_refl). exists (G ++ [0]). split; [|rewrite app_length; cbn [length]; lia]. now rewrite <- !app_assoc.
  - cbn [In] in I. cbn [length] in F. assert (RD : read (D ++ G ++ h :: H ++ 0 :: after) (length D + length G) = Ok h) by (rewrite app_assoc; apply read_at; now rewrite app_length). rewrite RD. cbn [bind].
    destruct (N.eqb_spec h 0); [tauto|]. destruct G as [|g G]; cbn [app length].
    + rewrite (write_at D h (H ++ 0 :: after) h _ eq_refl). cbn [bind]. destruct (IH (D ++ [h]) [] after f ltac:(tauto) ltac:(lia)) as (J & E & L). cbn [app length] in E. rewrite app_length in E. cbn [length] in E.
      replace (S (length D)) with (length D + 1)%nat by lia. replace (S (length D + 0)) with (length D + 1 + 0)%nat by lia. rewrite E. exists J. split; [|exact L]. now rewrite <- !app_assoc.
    + rewrite (write_at D g (G ++ h :: H ++ 0 :: after) h _ eq_refl). cbn [bind]. destruct (IH (D ++ [h]) (G ++ [h]) after f ltac:(tauto) ltac:(lia)) as (J & E & L). rewrite !app_length in E. cbn [length] in E.
      rewrite <- !app_assoc in E. cbn [app] in E. rewrite <- !app_assoc. cbn [app]. replace (S (length D)) with (length D + 1)%nat by lia. replace (S (length D + S (length G))) with (length D + 1 + (length G + 1))%nat by lia.
      rewrite E. exists J. rewrite app_length in L. cbn [length] in L. split; [|cbn [length]; lia]. now rewrite <- !app_assoc.
Qed.

(* q words *)
Fixpoint unq (s : bytes) : bytes :=
  match s with
  | [] => []
  | c :: s' =>
    if c =? 95 then 32 :: unq s'
    else if c =? 61 then
      match s' with
      | x :: y :: s'' => (hex_to_val x * 16 + hex_to_val y) mod 256 :: unq s''
      | [x] => [(hex_to_val x * 16 + hex_to_val 63) mod 256]
      | [] => [(hex_to_val 63 * 16 + hex_to_val 61) mod 256]
      end
    else c :: unq s'
  end.
Ltac nrm_in E := repeat (progress (rewrite <- ?app_assoc in E; cbn [app] in E)).
Ltac nrm := repeat (progress (rewrite <- ?app_assoc; cbn [app])).
Lemma q_text_ok : forall fuel text D g G R, (length text < fuel)%nat ->
  exists G', q_text fuel (D ++ (g :: G) ++ text ++ 63 :: 61 :: R) (length D) (length D + S (length G)) (length D + S (length G) + length text) =
    Ok ((D ++ unq text) ++ G' ++ R, length (D ++ unq text)) /\ (length (D ++ unq text) + length G' = length D + S (length G) + length text + 2)%nat /\ G' <> [].
Proof.
  induction fuel as [|f IH]; intros text D g G R F; [lia|]. cbn [q_text].
  destruct text as [|c t].
  - cbn [length unq app]. rewrite Nat.add_0_r, Nat.ltb_irrefl. exists (g :: G ++ [63; 61]). rewrite app_nil_r. split; [nrm; reflexivity|]. split; [cbn [length]; rewrite app_length; cbn [length]; lia|discriminate].
  - cbn [length] in F. set (q := (length D + S (length G))%nat). assert (Q : q = length (D ++ g :: G)) by (rewrite app_length; reflexivity).
    destruct (Nat.ltb_spec q (q + length (c :: t))) as [_|X]; [|cbn [length] in X; lia].
    assert (RD : read (D ++ (g :: G) ++ (c :: t) ++ 63 :: 61 :: R) q = Ok c) by (rewrite app_assoc; cbn [app]; now apply read_at). rewrite RD. cbn [bind unq].
    assert (STEP : forall v, exists G', (let! mem := write (D ++ (g :: G) ++ (c :: t) ++ 63 :: 61 :: R) (length D) v in q_text f mem (S (length D)) (S q) (q + length (c :: t))) =
        Ok ((D ++ v :: unq t) ++ G' ++ R, length (D ++ v :: unq t)) /\ (length (D ++ v :: unq t) + length G' = q + length (c :: t) + 2)%nat /\ G' <> []).
    { intro v. cbn [app]. rewrite (write_at D g _ v _ eq_refl). cbn [bind].
      assert (GN : exists g2 G2, G ++ [c] = g2 :: G2 /\ length G2 = length G) by (destruct G as [|x G0]; [exists c, []; auto|exists x, (G0 ++ [c]); split; [reflexivity|rewrite app_length; cbn [length]; lia]]).
      destruct GN as (g2 & G2 & EG & LG). destruct (IH t (D ++ [v]) g2 G2 R ltac:(lia)) as (G' & E & L & NN). rewrite <- EG in E. rewrite LG in E, L.
      rewrite !app_length in *. cbn [length] in *. nrm. nrm_in E.
      replace (S (length D)) with (length D + 1)%nat by lia. replace (S q) with (length D + 1 + S (length G))%nat by (unfold q; lia).
      replace (q + S (length t))%nat with (length D + 1 + S (length G) + length t)%nat by (unfold q; lia).
      rewrite E. exists G'. split; [|split; [unfold q; lia|exact NN]]. nrm. apply (f_equal Ok). f_equal. lia. }
    destruct (c =? 95); [apply STEP|]. destruct (c =? 61); [|apply STEP]. clear STEP.
    destruct t as [|x [|y t]].
    + assert (RX : read (D ++ (g :: G) ++ [c] ++ 63 :: 61 :: R) (q + 1) = Ok 63) by (rewrite app_assoc; cbn [app]; now apply read_at1).
      assert (RY : read (D ++ (g :: G) ++ [c] ++ 63 :: 61 :: R) (q + 2) = Ok 61) by (rewrite app_assoc; cbn [app]; now apply read_at2).
      rewrite RX, RY. cbn [bind]. cbn [app]. rewrite (write_at D g _ _ _ eq_refl). cbn [bind]. destruct f as [|f']; [cbn [length] in F; lia|]. cbn [q_text].
      destruct (Nat.ltb_spec (q + 3) (q + length [c])) as [X|_]; [cbn [length] in X; lia|]. exists (G ++ [c; 63; 61]). split; [nrm; rewrite app_length; cbn [length]; repeat f_equal; lia|].
      rewrite !app_length. cbn [length]. split; [unfold q; lia|destruct G; discriminate].
    + assert (RX : read (D ++ (g :: G) ++ [c; x] ++ 63 :: 61 :: R) (q + 1) = Ok x) by (rewrite app_assoc; cbn [app]; now apply read_at1).
      assert (RY : read (D ++ (g :: G) ++ [c; x] ++ 63 :: 61 :: R) (q + 2) = Ok 63) by (rewrite app_assoc; cbn [app]; now apply read_at2).
      rewrite RX, RY. cbn [bind]. cbn [app]. rewrite (write_at D g _ _ _ eq_refl). cbn [bind]. destruct f as [|f']; [cbn [length] in F; lia|]. cbn [q_text].
      destruct (Nat.ltb_spec (q + 3) (q + length [c; x])) as [X|_]; [cbn [length] in X; lia|]. exists (G ++ [c; x; 63; 61]). split; [nrm; rewrite app_length; cbn [length]; repeat f_equal; lia|].
      rewrite !app_length. cbn [length]. split; [unfold q; lia|destruct G; discriminate].
    + assert (RX : read (D ++ (g :: G) ++ (c :: x :: y :: t) ++ 63 :: 61 :: R) (q + 1) = Ok x) by (rewrite app_assoc; cbn [app]; now apply read_at1).
      assert (RY : read (D ++ (g :: G) ++ (c :: x :: y :: t) ++ 63 :: 61 :: R) (q + 2) = Ok y) by (rewrite app_assoc; cbn [app]; now apply read_at2).
      rewrite RX, RY. cbn [bind]. cbn [app]. set (v := (hex_to_val x * 16 + hex_to_val y) mod 256). rewrite (write_at D g _ v _ eq_refl). cbn [bind].
      assert (GN : exists g2 G2, G ++ [c; x; y] = g2 :: G2 /\ length G2 = (length G + 2)%nat) by (destruct G as [|z G0]; [exists c, [x; y]; auto|exists z, (G0 ++ [c; x; y]); split; [reflexivity|rewrite app_length; cbn [length]; lia]]).
      destruct GN as (g2 & G2 & EG & LG). cbn [length] in *. destruct (IH t (D ++ [v]) g2 G2 R ltac:(lia)) as (G' & E & L & NN). rewrite <- EG in E. rewrite LG in E, L.
      rewrite !app_length in *. cbn [length] in *. nrm. nrm_in E.
      replace (S (length D)) with (length D + 1)%nat by lia. replace (q + 3)%nat with (length D + 1 + S (length G + 2))%nat by (unfold q; lia).
      replace (q + S (S (S (length t))))%nat with (length D + 1 + S (length G + 2) + length t)%nat by (unfold q; lia).
      rewrite E. exists G'. split; [|split; [unfold q; lia|exact NN]]. nrm. apply (f_equal Ok). f_equal. lia.
Qed.
