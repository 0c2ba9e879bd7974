(* Encoded words: b words, the loop, and what a value reads as. *)
From Verif Require Import Base M_Decode S_Decode L_Decode M_Words S_Words L_Words.
Local Open Scope N_scope.

Fixpoint unb (s : bytes) (reg : Z) (nc : nat) (eq : Z) : bytes :=
  match s with
  | [] => []
  | c :: s' =>
    match nth_error base64_table (N.to_nat c), nth_error equal_table (N.to_nat c) with
    | Some dc, Some n =>
      let eq := (eq + n)%Z in
      if (0 <=? dc)%Z then
        let reg := (reg * 64 + dc)%Z in
        if (S nc =? 4)%nat then
          [Z.to_N (reg / 65536 mod 256)] ++ (if (eq <? 2)%Z then [Z.to_N (reg / 256 mod 256)] else []) ++ (if (eq <? 1)%Z then [Z.to_N (reg mod 256)] else []) ++
          (if (eq =? 0)%Z then unb s' 0 0 eq else [])
        else unb s' reg (S nc) eq
      else unb s' reg nc eq
    | _, _ => []
    end
  end.
Lemma unb_base64 : forall s cap reg nc eq out r, base64 cap s reg nc eq out = Ok r -> r = rev (unb s reg nc eq) ++ out.
Proof.
  induction s as [|c s IH]; intros cap reg nc eq out r H; [cbn in H; injection H as <-; reflexivity|]. cbn [base64 unb] in *.
  destruct (nth_error base64_table (N.to_nat c)) as [dc|]; [|discriminate]. destruct (nth_error equal_table (N.to_nat c)) as [n|]; [|discriminate]. cbv zeta in *.
  destruct (0 <=? dc)%Z; [|now apply IH in H]. destruct (S nc =? 4)%nat; [|now apply IH in H].
  assert (PI : forall o v o', put cap o v = Ok o' -> o' = v :: o) by (intros o v o' E; unfold put in E; destruct (length o <? cap)%nat; [now injection E|discriminate]).
  destruct (put cap out _) as [o1|] eqn:P1; [|discriminate]. apply PI in P1. cbn [bind] in H.
  destruct (eq + n <? 2)%Z.
  - destruct (put cap o1 _) as [o2|] eqn:P2; [|discriminate]. apply PI in P2. cbn [bind] in H. destruct (eq + n <? 1)%Z.
    + destruct (put cap o2 _) as [o3|] eqn:P3; [|discriminate]. apply PI in P3. cbn [bind] in H. destruct (eq + n =? 0)%Z.
      * apply IH in H. subst. cbn [app rev]. rewrite <- !app_assoc. reflexivity.
      * injection H as <-. subst. reflexivity.
    + cbn [bind] in H. destruct (eq + n =? 0)%Z.
      * apply IH in H. subst. cbn [app rev]. rewrite <- !app_assoc. reflexivity.
      * injection H as <-. subst. reflexivity.
  - cbn [bind] in H. destruct (eq + n <? 1)%Z.
    + destruct (put cap o1 _) as [o3|] eqn:P3; [|discriminate]. apply PI in P3. cbn [bind] in H. destruct (eq + n =? 0)%Z.
      * apply IH in H. subst. cbn [app rev]. rewrite <- !app_assoc. reflexivity.
      * injection H as <-. subst. reflexivity.
    + cbn [bind] in H. destruct (eq + n =? 0)%Z.
      * apply IH in H. subst. cbn [app rev]. rewrite <- !app_assoc. reflexivity.
      * injection H as <-. subst. reflexivity.
Qed.
Lemma unb_decodes : forall s u, Forall (fun c => c < 256) s -> spread (base64_of s) u -> unb u 0 0 0 = s.
Proof.
  intros s u O S. pose proof (base64_decodes s u [] [] (length u) O S (fun _ => eq_refl) ltac:(cbn [length]; lia)) as H. rewrite app_nil_r in H.
  apply unb_base64 in H. rewrite !app_nil_r in H. apply (f_equal (@rev N)) in H. now rewrite !rev_involutive in H.
Qed.

(* three bytes may be written *)
Lemma write3 : forall (mem : bytes) D g1 g2 g3 R (w : bytes), mem = D ++ g1 :: g2 :: g3 :: R -> (length w <= 3)%nat -> exists G,
  fold_left (fun r v => let! (m, p) := r in let! m := write m p v in Ok (m, S p)) w (Ok (mem, length D)) = Ok ((D ++ w) ++ G ++ R, length (D ++ w)) /\ (length w + length G = 3)%nat.
Proof.
  intros mem D g1 g2 g3 R w -> L. destruct w as [|a [|b [|c [|? ?]]]]; cbn [length] in L; [| | | |lia]; cbn [fold_left bind].
  - exists [g1; g2; g3]. rewrite app_nil_r. split; reflexivity.
  - rewrite (write_at D g1 _ a _ eq_refl). cbn [bind]. exists [g2; g3]. rewrite app_length. cbn [length]. split; [|reflexivity]. nrm. repeat f_equal. lia.
  - rewrite (write_at D g1 _ a _ eq_refl). cbn [bind]. rewrite (write_at (D ++ [a]) g2 _ b) by (rewrite app_length; cbn [length]; lia). cbn [bind]. exists [g3]. rewrite app_length. cbn [length].
    split; [|reflexivity]. nrm. repeat f_equal. lia.
  - rewrite (write_at D g1 _ a _ eq_refl). cbn [bind]. rewrite (write_at (D ++ [a]) g2 _ b) by (rewrite app_length; cbn [length]; lia). cbn [bind].
    rewrite (write_at ((D ++ [a]) ++ [b]) g3 _ c) by (rewrite !app_length; cbn [length]; lia). cbn [bind]. exists []. rewrite app_length. cbn [length].
    split; [|reflexivity]. nrm. repeat f_equal. lia.
Qed.
Lemma gap3 : forall (G : bytes) n, (3 + n <= length G)%nat -> exists g1 g2 g3 G', G = g1 :: g2 :: g3 :: G' /\ (n <= length G')%nat.
Proof. intros [|g1 [|g2 [|g3 G']]] n H; cbn [length] in H; try lia. exists g1, g2, g3, G'. split; [reflexivity|lia]. Qed.
Lemma b_text_ok : forall text fuel D G R reg nc eq, (length text < fuel)%nat -> (3 + nc <= length G)%nat -> Forall (fun c => c < 256) text ->
  exists G', b_text fuel (D ++ G ++ text ++ R) (length D) (length D + length G) (length D + length G + length text) reg nc eq =
    Ok ((D ++ unb text reg nc eq) ++ G' ++ R, length (D ++ unb text reg nc eq)) /\ (length (D ++ unb text reg nc eq) + length G' = length D + length G + length text)%nat /\ G' <> [] .
Proof.
  induction text as [|c t IH]; intros fuel D G R reg nc eq F LG O; (destruct fuel as [|f]; [lia|]); cbn [b_text].
  - cbn [length unb app]. rewrite Nat.add_0_r, Nat.ltb_irrefl. exists G. rewrite app_nil_r. split; [reflexivity|]. split; [lia|]. destruct G; [cbn in LG; lia|discriminate].
  - cbn [length] in F. set (q := (length D + length G)%nat). assert (Q : q = length (D ++ G)) by (rewrite app_length; reflexivity).
    destruct (Nat.ltb_spec q (q + length (c :: t))) as [_|X]; [|cbn [length] in X; lia].
    assert (RD : read (D ++ G ++ (c :: t) ++ R) q = Ok c) by (rewrite app_assoc; cbn [app]; now apply read_at). rewrite RD. cbn [bind unb].
    destruct (byte_table c (Forall_inv O)) as (d & e & -> & -> & _). cbv zeta. pose proof (Forall_inv_tail O) as O'.
    assert (NEXT : forall reg' nc' eq', (nc' <= S nc)%nat -> exists G', b_text f (D ++ G ++ (c :: t) ++ R) (length D) (S q) (q + length (c :: t)) reg' nc' eq' =
       Ok ((D ++ unb t reg' nc' eq') ++ G' ++ R, length (D ++ unb t reg' nc' eq')) /\ (length (D ++ unb t reg' nc' eq') + length G' = q + length (c :: t))%nat /\ G' <> []).
    { intros reg' nc' eq' LN. destruct (IH f D (G ++ [c]) R reg' nc' eq' ltac:(lia) ltac:(rewrite app_length; cbn [length]; lia) O') as (G' & E & L & NN).
      rewrite (app_length G) in E, L. cbn [length] in *. exists G'. split; [|split; [unfold q; lia|exact NN]]. rewrite <- E. f_equal; [nrm; reflexivity|unfold q; lia|unfold q; lia]. }
    destruct (0 <=? d)%Z; [|apply NEXT; lia]. destruct (Nat.eqb_spec (S nc) 4) as [E4|E4]; [|apply NEXT; lia]. clear NEXT. assert (nc = 3)%nat by lia. subst nc. clear E4.
    destruct (gap3 G 3 LG) as (g1 & g2 & g3 & G0 & -> & LG0).
    set (r := (reg * 64 + d)%Z). set (w := [Z.to_N (r / 65536 mod 256)] ++ (if (eq + e <? 2)%Z then [Z.to_N (r / 256 mod 256)] else []) ++ (if (eq + e <? 1)%Z then [Z.to_N (r mod 256)] else [])).
    assert (LW : (1 <= length w <= 3)%nat) by (unfold w; destruct (eq + e <? 2)%Z, (eq + e <? 1)%Z; cbn [app length]; lia).
    destruct (write3 (D ++ (g1 :: g2 :: g3 :: G0) ++ (c :: t) ++ R) D g1 g2 g3 (G0 ++ (c :: t) ++ R) w eq_refl (proj2 LW)) as (G1 & WE & WL).
    assert (CODE : forall K : bytes -> nat -> res (bytes * nat),
      (let! (mem, p) := let! mem := write (D ++ (g1 :: g2 :: g3 :: G0) ++ (c :: t) ++ R) (length D) (Z.to_N (r / 65536 mod 256)) in Ok (mem, S (length D)) in
       let! (mem, p) := if (eq + e <? 2)%Z then let! mem := write mem p (Z.to_N (r / 256 mod 256)) in Ok (mem, S p) else Ok (mem, p) in
       let! (mem, p) := if (eq + e <? 1)%Z then let! mem := write mem p (Z.to_N (r mod 256)) in Ok (mem, S p) else Ok (mem, p) in K mem p) =
      K ((D ++ w) ++ G1 ++ G0 ++ (c :: t) ++ R) (length (D ++ w))).
    { intro K. assert (FW : forall m p w', fold_left (fun r v => let! (m, p) := r in let! m := write m p v in Ok (m, S p)) w' (Ok (m, p)) = Ok ((D ++ w) ++ G1 ++ G0 ++ (c :: t) ++ R, length (D ++ w)) ->
        match w' with [] => Ok (m, p) = Ok ((D ++ w) ++ G1 ++ G0 ++ (c :: t) ++ R, length (D ++ w)) | v :: w'' => exists m', write m p v = Ok m' /\ fold_left (fun r v => let! (m, p) := r in let! m := write m p v in Ok (m, S p)) w'' (Ok (m', S p)) = Ok ((D ++ w) ++ G1 ++ G0 ++ (c :: t) ++ R, length (D ++ w)) end).
      { intros m p [|v w''] H; [exact H|]. cbn [fold_left bind] in H. destruct (write m p v) as [m'|er]; [exists m'; split; [reflexivity|exact H]|]. exfalso. cbn [bind] in H.
        assert (Z : forall l, fold_left (fun r v => let! (m, p) := r in let! m := write m p v in Ok (m, S p)) l (Err er) = (Err er : res (bytes * nat))) by (induction l as [|? l IHl]; [reflexivity|exact IHl]). rewrite Z in H. discriminate H. }
      pose proof WE as W1. unfold w in W1 at 1. apply FW in W1. cbn [app] in W1. destruct W1 as (m1 & X1 & W1). cbn [app]. rewrite X1. cbn [bind].
      destruct (eq + e <? 2)%Z eqn:B2; cbn [app] in W1.
      - apply FW in W1. destruct W1 as (m2 & -> & W1). cbn [bind]. destruct (eq + e <? 1)%Z eqn:B1.
        + apply FW in W1. destruct W1 as (m3 & -> & W1). cbn [bind]. cbn [fold_left] in W1. injection W1 as -> ->. reflexivity.
        + cbn [fold_left bind] in *. injection W1 as -> ->. reflexivity.
      - cbn [bind]. destruct (eq + e <? 1)%Z eqn:B1.
        + apply FW in W1. destruct W1 as (m3 & -> & W1). cbn [bind]. cbn [fold_left] in W1. injection W1 as -> ->. reflexivity.
        + cbn [fold_left bind] in *. injection W1 as -> ->. reflexivity. }
    rewrite CODE. destruct (eq + e =? 0)%Z.
    + assert (UN : [Z.to_N (r / 65536 mod 256)] ++ (if (eq + e <? 2)%Z then [Z.to_N (r / 256 mod 256)] else []) ++ (if (eq + e <? 1)%Z then [Z.to_N (r mod 256)] else []) ++ unb t 0 0 (eq + e) = w ++ unb t 0 0 (eq + e)) by (unfold w; rewrite <- !app_assoc; reflexivity).
      rewrite UN. destruct (IH f (D ++ w) (G1 ++ G0 ++ [c]) R 0%Z 0%nat (eq + e)%Z ltac:(lia) ltac:(rewrite !app_length; cbn [length]; lia) O') as (G' & E & L & NN).
      rewrite !app_length in E, L. rewrite !app_length. cbn [length] in *. nrm. nrm_in E. exists G'. split; [|split; [unfold q; cbn [length]; lia|exact NN]].
      replace (S q) with (length D + length w + (length G1 + (length G0 + 1)))%nat by (unfold q; cbn [length]; lia).
      replace (q + S (length t))%nat with (length D + length w + (length G1 + (length G0 + 1)) + length t)%nat by (unfold q; cbn [length]; lia).
      rewrite E. apply (f_equal Ok). f_equal; [nrm; reflexivity|rewrite app_length; lia].
    + rewrite !app_nil_r. exists (G1 ++ G0 ++ c :: t). fold w. split; [nrm; reflexivity|]. split; [rewrite !app_length; unfold q; cbn [length]; lia|]. destruct G1; [destruct G0|]; discriminate.
Qed.

(* the loop *)
Definition w_value (cs enc content : bytes) : bytes :=
  match enc with
  | [k] => if (k =? 113) || (k =? 81) then unq content else if (k =? 98) || (k =? 66) then unb content 0 0 0 else word cs enc content
  | _ => word cs enc content
  end.
Fixpoint shown (fuel : nat) (t : bytes) : bytes :=
  match fuel with
  | O => t
  | S f =>
    match cut2 61 63 t with
    | None => t
    | Some (pre, r) =>
      match cut1 63 r with
      | None => t
      | Some (cs, r1) =>
        match cut1 63 r1 with
        | None => t
        | Some (enc, r2) =>
          match cut2 63 61 r2 with
          | None => t
          | Some (content, post) => pre ++ w_value cs enc content ++ shown f post
          end
        end
      end
    end
  end.
Lemma forall_app_inv : forall (P : N -> Prop) a b, Forall P (a ++ b) -> Forall P a /\ Forall P b.
Proof. intros P a b H. now apply Forall_app. Qed.
Lemma loop_ok : forall fuel D G H T after, ~ In 0 H -> ~ In 0 T -> Forall (fun c => c < 256) T -> (length T < fuel)%nat ->
  exists D' G' H', words_loop fuel (D ++ G ++ H ++ T ++ 0 :: after) (length D) (length D + length G) (length D + length G + length H) =
      Ok (D' ++ G' ++ H' ++ 0 :: after, length D', (length D' + length G')%nat) /\
    ~ In 0 H' /\ D' ++ H' = D ++ H ++ shown fuel T /\ (length D' + length G' + length H' = length D + length G + length H + length T)%nat.
Proof.
  induction fuel as [|f IH]; intros D G H T after IH0 IT O F; [lia|]. cbn [words_loop shown].
  assert (STOP : exists D' G' H', Ok (D ++ G ++ H ++ T ++ 0 :: after, length D, (length D + length G)%nat) = Ok (D' ++ G' ++ H' ++ 0 :: after, length D', (length D' + length G')%nat) /\
    ~ In 0 H' /\ D' ++ H' = D ++ H ++ T /\ (length D' + length G' + length H' = length D + length G + length H + length T)%nat).
  { exists D, G, (H ++ T). split; [nrm; reflexivity|]. split; [rewrite in_app_iff; tauto|]. split; [reflexivity|]. rewrite app_length. lia. }
  assert (SK : skipn (length D + length G + length H) (D ++ G ++ H ++ T ++ 0 :: after) = T ++ 0 :: after).
  { replace (D ++ G ++ H ++ T ++ 0 :: after) with ((D ++ G ++ H) ++ T ++ 0 :: after) by (now nrm). apply skip_at. rewrite !app_length. lia. }
  rewrite SK, strstr_ok by (discriminate || exact IT). cbn [bind]. destruct (cut2 61 63 T) as [[pre r]|] eqn:C; [|exact STOP]. clear STOP.
  apply cut2_inv in C. subst T. cbn [off option_map fst].
  assert (MOVE : exists G1, (if (length D =? length D + length G)%nat then Ok (D ++ G ++ H ++ (pre ++ 61 :: 63 :: r) ++ 0 :: after, (length D + length G + length H + length pre)%nat, (length D + length G + length H + length pre)%nat)
     else if (length D + length G <=? length D + length G + length H + length pre)%nat
       then copy (length D + length G + length H + length pre - (length D + length G)) (D ++ G ++ H ++ (pre ++ 61 :: 63 :: r) ++ 0 :: after) (length D) (length D + length G) else Err E_oob) =
    Ok ((D ++ H ++ pre) ++ G1 ++ [61; 63] ++ r ++ 0 :: after, length (D ++ H ++ pre), (length (D ++ H ++ pre) + length G1)%nat) /\ length G1 = length G).
  { destruct (Nat.eqb_spec (length D) (length D + length G)) as [E|E].
    - assert (G = []) by (destruct G; [reflexivity|cbn [length] in E; lia]). subst G. exists []. split; [|reflexivity]. nrm. rewrite !app_length. cbn [length]. apply (f_equal Ok). f_equal; [f_equal|]; lia.
    - destruct (Nat.leb_spec (length D + length G) (length D + length G + length H + length pre)) as [_|X]; [|lia].
      destruct (copy_ok (H ++ pre) D G ([61; 63] ++ r ++ 0 :: after)) as (G1 & CE & LG). exists G1. split; [|exact LG].
      replace (length D + length G + length H + length pre - (length D + length G))%nat with (length (H ++ pre)) by (rewrite app_length; lia).
      replace (D ++ G ++ H ++ (pre ++ 61 :: 63 :: r) ++ 0 :: after) with (D ++ G ++ (H ++ pre) ++ [61; 63] ++ r ++ 0 :: after) by (now nrm). rewrite CE, !app_length, LG. nrm.
      replace (length D + length G + (length H + length pre))%nat with (length D + (length H + length pre) + length G)%nat by lia. reflexivity. }
  destruct MOVE as (G1 & MV & LG). unfold bytes in *. rewrite MV. cbn [bind]. set (D1 := D ++ H ++ pre). assert (LD1 : (length D1 = length D + length H + length pre)%nat) by (unfold D1; rewrite !app_length; lia).
  rewrite in_app_iff in IT. cbn [In] in IT. apply forall_app_inv in O. destruct O as [_ O]. apply Forall_inv_tail, Forall_inv_tail in O.
  rewrite app_length in F. cbn [length] in F.
  assert (STOP : exists D' G' H', Ok (D1 ++ G1 ++ [61; 63] ++ r ++ 0 :: after, length D1, (length D1 + length G1)%nat) = Ok (D' ++ G' ++ H' ++ 0 :: after, length D', (length D' + length G')%nat) /\
    ~ In 0 H' /\ D' ++ H' = D ++ H ++ pre ++ 61 :: 63 :: r /\ (length D' + length G' + length H' = length D + length G + length H + length (pre ++ 61%N :: 63%N :: r))%nat).
  { exists D1, G1, (61 :: 63 :: r). split; [nrm; reflexivity|]. split; [cbn [In]; intros [X|[X|X]]; [discriminate|discriminate|tauto]|]. split; [unfold D1; nrm; reflexivity|]. rewrite app_length. cbn [length]. lia. }
  set (s := (length D + length G + length H + length pre + 2)%nat). assert (S2 : s = length (D1 ++ G1 ++ [61; 63])) by (rewrite !app_length; cbn [length]; unfold s; lia).
  assert (M0 : D1 ++ G1 ++ [61; 63] ++ r ++ 0 :: after = (D1 ++ G1 ++ [61; 63]) ++ r ++ 0 :: after) by (now nrm).
  rewrite M0, (skip_at _ _ s S2), strchr_ok by (discriminate || tauto). rewrite <- M0. cbn [bind]. destruct (cut1 63 r) as [[cs r1]|] eqn:C1; [|exact STOP]. cbn [off option_map fst].
  apply cut1_inv in C1. destruct C1 as [-> Ncs]. rewrite in_app_iff in IT. cbn [In] in IT. apply forall_app_inv in O. destruct O as [_ O]. apply Forall_inv_tail in O. rewrite app_length in F. cbn [length] in F.
  set (a := (s + length cs + 1)%nat). assert (A2 : a = length (D1 ++ G1 ++ [61; 63] ++ cs ++ [63])) by (rewrite !app_length; cbn [length]; unfold a, s; lia).
  assert (M1 : D1 ++ G1 ++ [61; 63] ++ (cs ++ 63 :: r1) ++ 0 :: after = (D1 ++ G1 ++ [61; 63] ++ cs ++ [63]) ++ r1 ++ 0 :: after) by (now nrm).
  rewrite M1, (skip_at _ _ a A2), strchr_ok by (discriminate || tauto). rewrite <- M1. cbn [bind]. destruct (cut1 63 r1) as [[enc r2]|] eqn:C2; [|exact STOP]. cbn [off option_map fst].
  apply cut1_inv in C2. destruct C2 as [-> Nenc]. rewrite in_app_iff in IT. cbn [In] in IT. apply forall_app_inv in O. destruct O as [_ O]. apply Forall_inv_tail in O. rewrite app_length in F. cbn [length] in F.
  set (b := (a + length enc + 1)%nat). assert (B2 : b = length (D1 ++ G1 ++ [61; 63] ++ cs ++ [63] ++ enc ++ [63])) by (rewrite !app_length; cbn [length]; unfold b, a, s; lia).
  assert (M2 : D1 ++ G1 ++ [61; 63] ++ (cs ++ 63 :: enc ++ 63 :: r2) ++ 0 :: after = (D1 ++ G1 ++ [61; 63] ++ cs ++ [63] ++ enc ++ [63]) ++ r2 ++ 0 :: after) by (now nrm).
  rewrite M2, (skip_at _ _ b B2), strstr_ok by (discriminate || tauto). rewrite <- M2. cbn [bind]. destruct (cut2 63 61 r2) as [[content post]|] eqn:C3; [|exact STOP]. cbn [off option_map fst]. clear STOP.
  apply cut2_inv in C3. subst r2. rewrite in_app_iff in IT. cbn [In] in IT. apply forall_app_inv in O. destruct O as [Oc O]. apply Forall_inv_tail, Forall_inv_tail in O. rewrite app_length in F. cbn [length] in F.
  set (e := (b + length content)%nat).
  (* going on with the word left as it is *)
  assert (KEEP : exists D' G' H', words_loop f (D1 ++ G1 ++ [61; 63] ++ (cs ++ 63 :: enc ++ 63 :: content ++ 63 :: 61 :: post) ++ 0 :: after) (length D1) (length D1 + length G1) (e + 2) =
      Ok (D' ++ G' ++ H' ++ 0 :: after, length D', (length D' + length G')%nat) /\ ~ In 0 H' /\ D' ++ H' = D ++ H ++ pre ++ word cs enc content ++ shown f post /\
      (length D' + length G' + length H' = length D + length G + length H + length (pre ++ 61%N :: 63%N :: cs ++ 63%N :: enc ++ 63%N :: content ++ 63%N :: 61%N :: post))%nat).
  { destruct (IH D1 G1 (word cs enc content) post after) as (D' & G' & H' & E & IN & EQ & L).
    - unfold word. rewrite !in_app_iff. cbn. intuition discriminate.
    - tauto.
    - exact O.
    - lia.
    - exists D', G', H'. split; [|split; [exact IN|split; [rewrite EQ; unfold D1; nrm; reflexivity|]]].
      + rewrite <- E. f_equal; [unfold word; cbn [bs]; nrm; reflexivity|]. unfold word, e, b, a, s. rewrite !app_length. cbn [length bs]. lia.
      + rewrite L. unfold word. rewrite !app_length. cbn [length bs]. rewrite !app_length. cbn [length]. rewrite !app_length. cbn [length]. rewrite !app_length. cbn [length]. lia. }
  (* going on with the word decoded *)
  assert (DONE : forall w mem' G2, mem' = (D1 ++ w) ++ G2 ++ post ++ 0 :: after -> (length (D1 ++ w) + length G2 = e + 2)%nat -> w = w_value cs enc content ->
    exists D' G' H', words_loop f mem' (length (D1 ++ w)) (e + 2) (e + 2) = Ok (D' ++ G' ++ H' ++ 0 :: after, length D', (length D' + length G')%nat) /\ ~ In 0 H' /\
      D' ++ H' = D ++ H ++ pre ++ w_value cs enc content ++ shown f post /\
      (length D' + length G' + length H' = length D + length G + length H + length (pre ++ 61%N :: 63%N :: cs ++ 63%N :: enc ++ 63%N :: content ++ 63%N :: 61%N :: post))%nat).
  { intros w mem' G2 -> LG2 ->. destruct (IH (D1 ++ w_value cs enc content) G2 [] post after) as (D' & G' & H' & E & IN & EQ & L).
    - intros [].
    - tauto.
    - exact O.
    - lia.
    - exists D', G', H'. split; [|split; [exact IN|split; [rewrite EQ; unfold D1; nrm; reflexivity|]]].
      + rewrite <- E. cbn [app length]. f_equal; lia.
      + cbn [length] in L. rewrite L, LG2. unfold e, b, a, s. rewrite !app_length. cbn [length]. rewrite !app_length. cbn [length]. rewrite !app_length. cbn [length]. rewrite !app_length. cbn [length]. lia. }
  destruct (Nat.eqb_spec (b - a) 2) as [E2|E2]; cbn [negb].
  2: { assert (WV : w_value cs enc content = word cs enc content) by (unfold w_value; destruct enc as [|k [|? ?]]; [reflexivity|unfold b in E2; cbn [length] in E2; lia|reflexivity]). rewrite WV. exact KEEP. }
  destruct enc as [|k [|? ?]]; [unfold b in E2; cbn [length] in E2; lia| |unfold b in E2; cbn [length] in E2; lia].
  assert (RK : read (D1 ++ G1 ++ [61; 63] ++ (cs ++ 63 :: [k] ++ 63 :: content ++ 63 :: 61 :: post) ++ 0 :: after) a = Ok k).
  { replace (D1 ++ G1 ++ [61; 63] ++ (cs ++ 63 :: [k] ++ 63 :: content ++ 63 :: 61 :: post) ++ 0 :: after) with ((D1 ++ G1 ++ [61; 63] ++ cs ++ [63]) ++ k :: 63 :: content ++ 63 :: 61 :: post ++ 0 :: after) by (now nrm). now apply read_at. }
  rewrite RK. cbn [bind]. cbn [w_value] in *. destruct ((k =? 113) || (k =? 81)) eqn:KQ.
  - destruct G1 as [|g G1'].
    + destruct (q_text_ok (S (e - b)) content D1 61 (63 :: cs ++ 63 :: k :: [63]) (post ++ 0 :: after) ltac:(unfold e; lia)) as (G2 & QE & QL & _).
      assert (MM : D1 ++ [] ++ [61; 63] ++ (cs ++ 63 :: [k] ++ 63 :: content ++ 63 :: 61 :: post) ++ 0 :: after = D1 ++ (61 :: 63 :: cs ++ 63 :: k :: [63]) ++ content ++ 63 :: 61 :: post ++ 0 :: after) by (now nrm).
      rewrite MM. assert (LB : b = (length D1 + S (length (63%N :: cs ++ 63%N :: k :: [63%N])))%nat) by (rewrite B2, !app_length; cbn [length]; rewrite ?app_length; cbn [length]; lia).
      rewrite <- LB in QE, QL. fold e in QE, QL. rewrite QE. cbn [bind]. apply (DONE (unq content) _ G2); [nrm; reflexivity|lia|reflexivity].
    + destruct (q_text_ok (S (e - b)) content D1 g (G1' ++ [61; 63] ++ cs ++ 63 :: k :: [63]) (post ++ 0 :: after) ltac:(unfold e; lia)) as (G2 & QE & QL & _).
      assert (MM : D1 ++ (g :: G1') ++ [61; 63] ++ (cs ++ 63 :: [k] ++ 63 :: content ++ 63 :: 61 :: post) ++ 0 :: after = D1 ++ (g :: G1' ++ [61; 63] ++ cs ++ 63 :: k :: [63]) ++ content ++ 63 :: 61 :: post ++ 0 :: after) by (now nrm).
      rewrite MM. assert (LB : b = (length D1 + S (length (G1' ++ [61%N; 63%N] ++ cs ++ 63%N :: k :: [63%N])))%nat) by (rewrite B2, !app_length; cbn [length]; rewrite ?app_length; cbn [length]; lia).
      rewrite <- LB in QE, QL. fold e in QE, QL. rewrite QE. cbn [bind]. apply (DONE (unq content) _ G2); [nrm; reflexivity|lia|reflexivity].
  - destruct ((k =? 98) || (k =? 66)) eqn:KB; [|exact KEEP].
    destruct (b_text_ok content (S (e - b)) D1 (G1 ++ [61; 63] ++ cs ++ 63 :: k :: [63]) (63 :: 61 :: post ++ 0 :: after) 0%Z 0%nat 0%Z ltac:(unfold e; lia) ltac:(rewrite !app_length; cbn [length]; lia) Oc) as (G2 & QE & QL & _).
    assert (MM : D1 ++ G1 ++ [61; 63] ++ (cs ++ 63 :: [k] ++ 63 :: content ++ 63 :: 61 :: post) ++ 0 :: after = D1 ++ (G1 ++ [61; 63] ++ cs ++ 63 :: k :: [63]) ++ content ++ 63 :: 61 :: post ++ 0 :: after) by (now nrm).
    rewrite MM. assert (LB : b = (length D1 + length (G1 ++ [61%N; 63%N] ++ cs ++ 63%N :: k :: [63%N]))%nat) by (rewrite B2, !app_length; cbn [length]; rewrite ?app_length; cbn [length]; lia).
    rewrite <- LB in QE. fold e in QE. rewrite QE. cbn [bind]. rewrite <- LB in QL. fold e in QL. apply (DONE (unb content 0 0 0) _ (G2 ++ [63; 61])); [nrm; reflexivity|rewrite (app_length G2); cbn [length]; lia|reflexivity].
Qed.
Lemma decode_ok : forall T after, ~ In 0 T -> Forall (fun c => c < 256) T ->
  exists junk, decode_header_value (T ++ 0 :: after) = Ok (shown (S (length (T ++ 0 :: after))) T ++ 0 :: junk ++ after) /\
    (length (shown (S (length (T ++ 0%N :: after))) T) + length junk = length T)%nat.
Proof.
  intros T after I O. unfold decode_header_value. set (fu := S (length (T ++ 0 :: after))).
  destruct (loop_ok fu [] [] [] T after ltac:(intros []) I O) as (D & G & H & E & IN & EQ & L); [unfold fu; rewrite app_length; lia|].
  cbn [app length Nat.add] in E, EQ, L. rewrite E. cbn [bind]. rewrite <- EQ. destruct (Nat.eqb_spec (length D) (length D + length G)) as [Z|Z].
  - assert (G = []) by (destruct G; [reflexivity|cbn [length] in Z; lia]). subst G. exists []. cbn [length app] in *. split; [nrm; reflexivity|]. rewrite app_length. lia.
  - destruct (copy_rest_ok H D G after (S (length (D ++ G ++ H ++ 0 :: after))) IN) as (J & CE & LJ); [rewrite !app_length; cbn [length]; lia|]. rewrite CE. exists J. split; [reflexivity|]. rewrite app_length. lia.
Qed.
