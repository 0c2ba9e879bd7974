From Verif Require Import Base M_Output M_Search M_Tokens M_Rfc822 M_Imap S_Imap S_Server L_Imap.
From Verif Require L_Output.
Local Open Scope N_scope.

Fixpoint fmt_all (tag : Z) (first : bool) (ks : list tok) : bytes :=
  match ks with [] => [] | k :: ks' => (if first then [] else [32]) ++ format_cmd tag k ++ fmt_all tag false ks' end.
Lemma format_unfold tag ty leaf ks : format_cmd tag (Tok ty leaf ks) =
  match ty with
        | T_untagged => bs "* t" ++ show_z tag ++ [32]
        | T_tagged => bs "t" ++ show_z tag ++ [32]
        | T_list => [40]
        | T_sqlist => [91]
        | T_atom => match leaf with Some l => l | None => [] end
        | T_string => let l := match leaf with Some l => l | None => [] end in if needs_literal l then [123] ++ show_z (int_of_u32 (u32 (N.of_nat (length l)))) ++ [43; 125; 13; 10] ++ l else [34] ++ l ++ [34]
        | T_continuation => bs "+ "
        end ++ fmt_all tag true ks ++ match ty with T_list => [41] | T_sqlist => [93] | _ => [] end.
Proof. cbn [format_cmd]. f_equal. f_equal. generalize true. induction ks as [|k ks IH]; intros b; [reflexivity|]. cbn [fmt_all]. rewrite <- IH. reflexivity. Qed.

Definition items_fmt (tag : Z) (is : list item) : bytes := fmt_all tag true (map tok_of is).
Lemma items_cons tag i is : items_fmt tag (i :: is) = format_cmd tag (tok_of i) ++ match is with [] => [] | _ => 32 :: items_fmt tag is end.
Proof. unfold items_fmt. cbn [map fmt_all app]. f_equal. destruct is as [|j is]; reflexivity. Qed.
Lemma span_stop f : forall s t, Forall (fun c => f c = true) s -> match t with [] => True | c :: _ => f c = false end -> span f (s ++ t) = (s, t).
Proof.
  induction s as [|c s IH]; intros t F H.
  - destruct t as [|c t]; [reflexivity|]. cbn [app span]. rewrite H. reflexivity.
  - inversion F as [|? ? A F']; subst. cbn [app span]. rewrite A, (IH t F' H). reflexivity.
Qed.
Lemma quotes_read : forall s t, (forall c, In c s -> c <> 34 /\ c <> 92 /\ c <> 0 /\ c <> 10 /\ c <> 13 /\ c < 128) -> in_quotes (s ++ 34 :: t) = Some (s, t).
Proof.
  induction s as [|c s IH]; intros t H; [reflexivity|]. cbn [app in_quotes]. destruct (H c (or_introl eq_refl)) as (A & B & C & D & E & F).
  replace (c =? 34) with false by lia. replace (c =? 92) with false by lia. replace (c =? 0) with false by lia. replace (c =? 10) with false by lia. replace (c =? 13) with false by lia. replace (128 <=? c) with false by lia. cbn [orb]. rewrite IH; [reflexivity|]. intros d I. apply H. right. exact I.
Qed.
Lemma counted_read s t : N.of_nat (length s) < 2 ^ 31 -> counted (show_int (N.of_nat (length s)) ++ [43; 125; 13; 10] ++ s ++ t) = Some (s, t).
Proof.
  intros L. destruct (L_Output.show_int_ok (N.of_nat (length s))) as (A & B & C). unfold counted. rewrite span_stop.
  - replace (bytes_eqb (show_int (N.of_nat (length s))) []) with false by (destruct (show_int (N.of_nat (length s))); [contradiction|reflexivity]). cbn [app firstn skipn negb]. replace (bytes_eqb _ _) with true by reflexivity. cbn [andb].
    replace (number (show_int (N.of_nat (length s)))) with (N.of_nat (length s)) by (rewrite <- A at 1; reflexivity). rewrite Nat2N.id, app_length. replace (length s <=? length s + length t)%nat with true by (symmetry; apply Nat.leb_le; lia).
    rewrite firstn_app, firstn_all, Nat.sub_diag, skipn_app, skipn_all, Nat.sub_diag, app_nil_r. reflexivity.
  - eapply Forall_impl; [|exact C]. intros c D. unfold L_Output.digitp in D. unfold is_digit. lia.
  - reflexivity.
Qed.

Lemma show_z_nat n : show_z (Z.of_N n) = show_int n.
Proof. unfold show_z. replace (Z.of_N n <? 0)%Z with false by lia. now rewrite N2Z.id. Qed.
Lemma int_small n : n < 2 ^ 31 -> int_of_u32 (u32 n) = Z.of_N n.
Proof. intros H. unfold u32, int_of_u32. change (2 ^ 31) with 2147483648 in *. change (2 ^ 32) with 4294967296 in *. rewrite N.mod_small by lia. replace (n <? 2147483648) with true by lia. reflexivity. Qed.
Lemma all_in (P : item -> Prop) : forall l, (fix all (l : list item) : Prop := match l with [] => True | i :: l' => P i /\ all l' end) l <-> Forall P l.
Proof. induction l as [|i l IH]; [split; [constructor|trivial]|]. rewrite IH. split; [intros [A B]; constructor; assumption|intros H; inversion H; subst; split; assumption]. Qed.
Definition ender (t : bytes) : Prop := match t with [] => True | c :: _ => c = 13 \/ c = 41 end.
Lemma needs_false s : (forall c, In c s -> c < 256) -> needs_literal s = false -> (In 92 s -> exists c, In c s /\ (c < 32 \/ c = 34 \/ 127 <= c)) -> forall c, In c s -> c <> 34 /\ c <> 92 /\ c <> 0 /\ c <> 10 /\ c <> 13 /\ c < 128.
Proof.
  intros B E N92. assert (G : forall c, In c s -> (c <? 32) || (128 <=? c) || (c =? 34) || (126 <? c) = false).
  { intros c I. unfold needs_literal in E. destruct ((c <? 32) || (128 <=? c) || (c =? 34) || (126 <? c)) eqn:Q; [|reflexivity]. rewrite <- E. symmetry. apply existsb_exists. exists c. split; assumption. }
  intros c I. pose proof (G c I). assert (c <> 92) by (intros ->; destruct (N92 I) as (d & ID & D); specialize (G d ID); lia). lia.
Qed.
Lemma fmt_head tag i : sendable i -> exists c t, format_cmd tag (tok_of i) = c :: t /\ c <> 41.
Proof.
  destruct i as [s|s|l|l]; cbn [sendable tok_of]; rewrite ?format_unfold.
  - intros [NE F]. destruct s as [|c s]; [contradiction|]. exists c, (s ++ []). split; [reflexivity|]. inversion F as [|? ? A _]; subst. unfold send_char in A. intros ->. discriminate.
  - intros _. cbn [app fmt_all]. destruct (needs_literal s); eexists _, _; split; try reflexivity; discriminate.
  - intros _. eexists _, _. split; [reflexivity|discriminate].
  - contradiction.
Qed.
Lemma args_read tag : forall fuel is tail, is <> [] -> Forall sendable is -> Forall no_backslash is -> ender tail -> (length (items_fmt tag is) <= fuel)%nat -> arguments fuel (items_fmt tag is ++ tail) = Some (is, tail).
Proof.
  induction fuel as [|f IH]; intros is tail NE S B E L.
  - destruct is as [|i is]; [contradiction|]. inversion S as [|? ? SI _]; subst. destruct (fmt_head tag i SI) as (c & t & EQ & _). rewrite items_cons, EQ in L. cbn in L. lia.
  - destruct is as [|i is]; [contradiction|]. inversion S as [|? ? SI S']; subst. inversion B as [|? ? BI B']; subst. rewrite items_cons in L |- *. rewrite app_length in L. rewrite <- app_assoc.
    set (rest := match is with [] => [] | _ :: _ => 32 :: items_fmt tag is end ++ tail).
    assert (GO : forall c u, format_cmd tag (tok_of i) ++ rest = c :: u ->
      (if c =? 34 then match in_quotes u with Some (s, v) => Some (Str s, v) | None => None end
        else if c =? 123 then match counted u with Some (s, v) => Some (Str s, v) | None => None end
        else if c =? 40 then
          match u with
          | d :: v => if d =? 41 then Some (Paren [], v)
                      else match arguments f u with Some (is, e :: w) => if e =? 41 then Some (Paren is, w) else None | _ => None end
          | [] => None
          end
        else match span send_char (c :: u) with ([], _) => None | (s, v) => Some (Atom s, v) end) = Some (i, rest)).
    { assert (RH : match rest with [] => True | c :: _ => send_char c = false end).
      { unfold rest. destruct is as [|j is]; cbn [app]; [|reflexivity]. destruct tail as [|c tail]; [exact I|]. cbn [ender] in E. destruct E as [-> | ->]; reflexivity. }
      intros c u EQ. destruct i as [s|s|l|l]; cbn [sendable no_backslash tok_of] in *; rewrite format_unfold in EQ; cbn [app fmt_all map] in EQ.
      - destruct SI as [SN SF]. rewrite app_nil_r in EQ. destruct s as [|d s]; [contradiction|]. injection EQ as <- <-. inversion SF as [|? ? SC _]; subst. pose proof SC as SC2. unfold send_char in SC2. cbn [existsb] in SC2.
        replace (d =? 34) with false by lia. replace (d =? 123) with false by lia. replace (d =? 40) with false by lia. change (d :: s ++ rest) with ((d :: s) ++ rest). rewrite (span_stop send_char (d :: s) rest SF RH). reflexivity.
      - rewrite app_nil_r in EQ. destruct SI as [SB SL]. destruct (needs_literal s) eqn:NL; injection EQ as <- <-; cbn [N.eqb Pos.eqb].
        + rewrite int_small, show_z_nat by exact SL. rewrite <- app_assoc. change ((43 :: 125 :: 13 :: 10 :: s) ++ rest) with ([43; 125; 13; 10] ++ s ++ rest). rewrite (counted_read s rest SL). reflexivity.
        + rewrite <- app_assoc. cbn [app]. rewrite (quotes_read s rest (needs_false s SB NL BI)). reflexivity.
      - injection EQ as <- <-. cbn [N.eqb Pos.eqb]. apply all_in in SI. apply all_in in BI. rewrite <- app_assoc. cbn [app]. destruct l as [|j l]; [reflexivity|].
        assert (FI : fmt_all tag true (map tok_of (j :: l)) = items_fmt tag (j :: l)) by reflexivity. rewrite FI.
        assert (HD : exists d v, items_fmt tag (j :: l) ++ 41 :: rest = d :: v /\ d <> 41).
        { inversion SI as [|? ? SJ _]; subst. destruct (fmt_head tag j SJ) as (d & v & Q & ND). rewrite items_cons, Q. eexists d, _. split; [reflexivity|exact ND]. }
        destruct HD as (d & v & Q & ND). rewrite Q. replace (d =? 41) with false by lia. rewrite <- Q. rewrite IH; [reflexivity|discriminate|exact SI|exact BI|right; reflexivity|].
        cbn [tok_of] in L. rewrite format_unfold in L. cbn [app] in L. change (fmt_all tag true (map tok_of (j :: l))) with (items_fmt tag (j :: l)) in L. cbn [length] in L. rewrite app_length in L. cbn [length] in L. lia.
      - contradiction. }
    destruct (fmt_head tag i SI) as (c & t & EQ & _). assert (EQ2 : format_cmd tag (tok_of i) ++ rest = c :: (t ++ rest)) by (rewrite EQ; reflexivity). specialize (GO _ _ EQ2). rewrite EQ2. cbn [arguments]. rewrite GO.
    unfold rest. destruct is as [|j is].
    + cbn [app]. destruct tail as [|d tail]; [reflexivity|]. cbn [ender] in E. replace (d =? 32) with false by lia. reflexivity.
    + cbn [app]. change (32 =? 32) with true. cbn [length] in L. rewrite IH; [reflexivity|discriminate|exact S'|exact B'|exact E|rewrite EQ in L; cbn [length] in L; lia].
Qed.
(* the server receives what was to be sent *)
Lemma sent_main tag is : tag < 2 ^ 31 -> is <> [] -> Forall sendable is -> Forall no_backslash is -> received (format_cmd (Z.of_N tag) (a_cmd (map tok_of is)) ++ [13; 10]) = Some (tag, is).
Proof.
  intros T NE S B. unfold a_cmd. rewrite format_unfold. cbn [app]. rewrite show_z_nat, app_nil_r. change (bs "t") with [116]. fold (items_fmt (Z.of_N tag) is). destruct (L_Output.show_int_ok tag) as (A & C & D).
  rewrite <- !app_assoc. cbn [app]. unfold received. change (116 =? 116) with true. rewrite span_stop; [|eapply Forall_impl; [|exact D]; intros c X; unfold L_Output.digitp in X; unfold is_digit; lia|reflexivity].
  destruct (show_int tag) as [|d ds] eqn:ES; [contradiction|]. change (32 =? 32) with true. rewrite args_read; [|exact NE|exact S|exact B|left; reflexivity|rewrite app_length; lia].
  change (bytes_eqb [13; 10] [13; 10]) with true. replace (number (d :: ds)) with tag by (rewrite <- A; reflexivity). reflexivity.
Qed.
(* and the buffer was big enough: imap.c 674-684 *)
Fixpoint strlen_all (ks : list tok) : N := match ks with [] => 0 | k :: ks' => 1 + string_len k + strlen_all ks' end.
Lemma string_len_unfold ty leaf ks : string_len (Tok ty leaf ks) = match ty with T_untagged => 2 | T_tagged => 15 | T_list | T_sqlist => 2 | T_atom => match leaf with Some l => N.of_nat (length l) | None => 0 end | T_string => 20 + match leaf with Some l => N.of_nat (length l) | None => 0 end | T_continuation => 2 end + strlen_all ks.
Proof. reflexivity. Qed.

Lemma show_z_short z : (- 2147483648 <= z < 2147483648)%Z -> (length (show_z z) <= 11)%nat.
Proof.
  intros H. unfold show_z. destruct (z <? 0)%Z eqn:E.
  - cbn [length]. destruct (Z.eq_dec z (-2147483648)) as [->|NE]; [vm_compute; lia|]. pose proof (L_Output.show_int_short (Z.to_N (- z))). change (2 ^ 31) with 2147483648 in *. lia.
  - pose proof (L_Output.show_int_short (Z.to_N z)). change (2 ^ 31) with 2147483648 in *. lia.
Qed.
Lemma int_range x : (- 2147483648 <= int_of_u32 (u32 x) < 2147483648)%Z.
Proof. unfold u32, int_of_u32. pose proof (N.mod_lt x (2 ^ 32)). change (2 ^ 32) with 4294967296 in *. change (2 ^ 31) with 2147483648 in *. destruct (_ <? _) eqn:E; lia. Qed.

Section Item_ind.
Variable P : item -> Prop.
Hypothesis PA : forall s, P (Atom s).
Hypothesis PS : forall s, P (Str s).
Hypothesis PP : forall l, Forall P l -> P (Paren l).
Hypothesis PQ : forall l, Forall P l -> P (Square l).
Fixpoint item_all (i : item) : P i :=
  let go := fix go (l : list item) : Forall P l := match l with [] => Forall_nil P | j :: l' => Forall_cons j (item_all j) (go l') end in
  match i with Atom s => PA s | Str s => PS s | Paren l => PP l (go l) | Square l => PQ l (go l) end.
End Item_ind.
Lemma fits_all tag b : forall l, Forall (fun i => N.of_nat (length (format_cmd tag (tok_of i))) <= string_len (tok_of i)) l -> N.of_nat (length (fmt_all tag b (map tok_of l))) <= strlen_all (map tok_of l).
Proof.
  intros l F. revert b. induction F as [|i l A F IH]; intros b; [cbn; lia|]. cbn [map fmt_all strlen_all]. rewrite !app_length. specialize (IH false). destruct b; cbn [length]; lia.
Qed.
Lemma fits_item tag : forall i, N.of_nat (length (format_cmd tag (tok_of i))) <= string_len (tok_of i).
Proof.
  apply item_all.
  - intros s. cbn [tok_of]. rewrite format_unfold, string_len_unfold. cbn [fmt_all strlen_all app]. rewrite app_nil_r. lia.
  - intros s. cbn [tok_of]. rewrite format_unfold, string_len_unfold. cbn [fmt_all strlen_all app]. rewrite app_nil_r. destruct (needs_literal s).
    + pose proof (show_z_short _ (int_range (N.of_nat (length s)))). cbn [length]. rewrite app_length. cbn [length]. lia.
    + cbn [length]. rewrite app_length. cbn [length]. lia.
  - intros l F. cbn [tok_of]. rewrite format_unfold, string_len_unfold. rewrite !app_length. pose proof (fits_all tag true l F). cbn [length]. lia.
  - intros l F. cbn [tok_of]. rewrite format_unfold, string_len_unfold. rewrite !app_length. pose proof (fits_all tag true l F). cbn [length]. lia.
Qed.
Lemma fits_main tag is : (- 2147483648 <= tag < 2147483648)%Z -> N.of_nat (length (format_cmd tag (a_cmd (map tok_of is)) ++ [13; 10])) <= string_len (a_cmd (map tok_of is)).
Proof.
  intros T. unfold a_cmd. rewrite format_unfold, string_len_unfold, !app_length. pose proof (show_z_short tag T). assert (F : Forall (fun i => N.of_nat (length (format_cmd tag (tok_of i))) <= string_len (tok_of i)) is) by (apply Forall_forall; intros i _; apply fits_item). pose proof (fits_all tag true is F). change (bs "t") with [116]. cbn [length]. lia.
Qed.
