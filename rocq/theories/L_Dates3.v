(* Lemmas about dates.c: no string is accepted by rules of two kinds; strings of 6 or 8 digits; strings that are
   accepted are spelled as the manual page says. *)
From Coq Require Import Lia.
From Verif Require Import Base M_Dates S_Dates L_TokTable L_Dates L_Dates2.
Local Open Scope N_scope.

Definition chars : list N := map N.of_nat (List.seq 0 128).
Lemma chars_in : forall c, c < 128 -> In c chars.
Proof. intros c H. apply in_map_iff. exists (N.to_nat c). split; [lia|]. apply in_seq. lia. Qed.
Definition bounded (p : cls) : Prop := forall c, p c = true -> c < 128.
Lemma rng_bounded : forall a b, b < 128 -> bounded (rng a b).
Proof. intros a b H c. unfold rng. rewrite andb_true_iff, !N.leb_le. lia. Qed.
Lemma or_bounded : forall p q, bounded p -> bounded q -> bounded (fun c => p c || q c).
Proof. intros p q Hp Hq c H. apply orb_prop in H. destruct H; auto. Qed.
Definition alts : list (list cls * ds) := flat_map (fun r => map (fun l => (l, snd r)) (fst r)) rules.
Lemma seq_bounded : forall a b, Forall (Forall bounded) a -> Forall (Forall bounded) b -> Forall (Forall bounded) (seq a b).
Proof.
  intros a b Ha Hb. apply Forall_forall. intros l Hl. apply in_flat_map in Hl. destruct Hl as (x & Hx & Hl).
  apply in_map_iff in Hl. destruct Hl as (y & <- & Hy). rewrite Forall_forall in Ha, Hb.
  apply Forall_app. split; auto.
Qed.
Lemma rules_bounded : Forall (fun r => Forall (Forall bounded) (fst r)) rules.
Proof.
  assert (D : bounded any_digit) by (apply rng_bounded; lia).
  assert (L : bounded letter) by (apply or_bounded; apply rng_bounded; lia).
  assert (H1 : Forall (Forall bounded) blk_one) by (repeat constructor; apply rng_bounded; lia).
  assert (H2 : Forall (Forall bounded) blk_day) by (repeat constructor; try exact D; apply rng_bounded; lia).
  assert (H3 : Forall (Forall bounded) blk_year) by
    (repeat constructor; try exact D; [apply or_bounded | |]; apply rng_bounded; lia).
  assert (H4 : Forall (Forall bounded) blk_month) by (repeat constructor; exact L).
  assert (H5 : Forall (Forall bounded) blk_ccyy) by (repeat constructor; try exact D; apply rng_bounded; lia).
  assert (H6 : forall n, Forall (Forall bounded) (blk_digits n)) by
    (intro n; constructor; [|constructor]; apply Forall_forall; intros x Hx; apply repeat_spec in Hx; now subst).
  unfold rules. repeat (constructor; [cbn [fst]; repeat apply seq_bounded; auto|]). constructor.
Qed.
Lemma alts_in : forall l t, In (l, t) alts <-> exists a, In (a, t) rules /\ In l a.
Proof.
  intros l t. unfold alts. rewrite in_flat_map. split.
  - intros ([a u] & H1 & H2). apply in_map_iff in H2. destruct H2 as (l' & H2 & H3). cbn [fst snd] in *. injection H2 as -> ->. eauto.
  - intros (a & H1 & H2). exists (a, t). split; [exact H1|]. apply in_map_iff. exists l. auto.
Qed.
Lemma alts_bounded : forall l t, In (l, t) alts -> Forall bounded l.
Proof.
  intros l t H. apply alts_in in H. destruct H as (a & H1 & H2). pose proof rules_bounded as B. rewrite Forall_forall in B.
  specialize (B _ H1). cbn [fst] in B. rewrite Forall_forall in B. auto.
Qed.

(* Two alternatives that accept the same string agree at every position. *)
Fixpoint overlap (l1 l2 : list cls) : bool :=
  match l1, l2 with
  | [], [] => true
  | p :: l1', q :: l2' => existsb (fun c => p c && q c) chars && overlap l1' l2'
  | _, _ => false
  end.
Lemma fits_overlap : forall l1 l2 s, Forall bounded l1 -> fits l1 s = true -> fits l2 s = true -> overlap l1 l2 = true.
Proof.
  induction l1 as [|p l1 IH]; intros [|q l2] [|c s] B F1 F2; cbn [fits overlap] in *; try discriminate; [reflexivity|].
  apply andb_prop in F1, F2. destruct F1 as [P1 F1], F2 as [P2 F2]. apply andb_true_intro. split.
  - apply existsb_exists. exists c. split; [apply chars_in; exact (Forall_inv B c P1)|]. now rewrite P1, P2.
  - eapply IH; [exact (Forall_inv_tail B)|exact F1|exact F2].
Qed.
Definition ds_eqb (a b : ds) : bool :=
  match a, b with
  | DS_D, DS_D | DS_Y, DS_Y | DS_YYMMDD, DS_YYMMDD | DS_SCALED, DS_SCALED | DS_M, DS_M | DS_DM, DS_DM | DS_MD, DS_MD
  | DS_YM, DS_YM | DS_MY, DS_MY | DS_YMD, DS_YMD | DS_DMY, DS_DMY => true
  | _, _ => false end.
Lemma ds_eqb_eq : forall a b, ds_eqb a b = true -> a = b.
Proof. intros [] []; intro; (discriminate || reflexivity). Qed.
Lemma no_overlap : forallb (fun a => forallb (fun b => ds_eqb (snd a) (snd b) || negb (overlap (fst a) (fst b))) alts) alts = true.
Proof. vm_compute. reflexivity. Qed.
Lemma one_kind : forall l1 t1 l2 t2 s, In (l1, t1) alts -> In (l2, t2) alts -> fits l1 s = true -> fits l2 s = true -> t1 = t2.
Proof.
  intros l1 t1 l2 t2 s H1 H2 F1 F2. pose proof no_overlap as N. rewrite forallb_forall in N. specialize (N _ H1).
  rewrite forallb_forall in N. specialize (N _ H2). cbn [fst snd] in N.
  rewrite (fits_overlap l1 l2 s (alts_bounded _ _ H1) F1 F2) in N. cbn [negb] in N. rewrite orb_false_r in N. now apply ds_eqb_eq.
Qed.
(* ... nor is a scaled number accepted by another rule. *)
Fixpoint like_scaled (l : list cls) : bool :=
  match l with
  | [] => false
  | p :: l' => existsb (fun c => p c && any_digit c) chars &&
               (match l' with [q] => existsb (fun c => q c && letter c) chars | _ => false end || like_scaled l')
  end.
Lemma fits_scaled : forall s l, Forall bounded l -> scaled s = true -> fits l s = true -> like_scaled l = true.
Proof.
  induction s as [|c s IH]; intros l B SC F; [discriminate|]. destruct l as [|p l]; [discriminate|].
  cbn [scaled fits like_scaled] in *. apply andb_prop in SC. destruct SC as [D SC]. apply andb_prop in F. destruct F as [P F].
  apply andb_true_intro. split.
  - apply existsb_exists. exists c. split; [apply chars_in; exact (Forall_inv B c P)|]. now rewrite P, D.
  - apply orb_prop in SC. apply orb_true_intro. destruct SC as [SC|SC].
    + left. destruct s as [|a [|b s]]; try discriminate. destruct l as [|q [|q2 l]]; cbn [fits] in F; try discriminate.
      * apply andb_prop in F. destruct F as [Q _]. apply existsb_exists. exists a.
        split; [apply chars_in; exact (Forall_inv (Forall_inv_tail B) a Q)|]. now rewrite Q, SC.
      * rewrite andb_false_r in F. discriminate.
    + right. exact (IH l (Forall_inv_tail B) SC F).
Qed.
Lemma none_scaled : forallb (fun a => negb (like_scaled (fst a))) alts = true.
Proof. vm_compute. reflexivity. Qed.
Lemma type_rule : forall s l t, In (l, t) alts -> fits l s = true -> discover_type s = Some t.
Proof.
  intros s l t H F. unfold discover_type. destruct (scaled s) eqn:SC.
  - exfalso. pose proof none_scaled as N. rewrite forallb_forall in N. specialize (N _ H). cbn [fst] in N.
    rewrite (fits_scaled s l (alts_bounded _ _ H) SC F) in N. discriminate.
  - destruct (find _ rules) as [[a u]|] eqn:E.
    + cbn [option_map snd]. apply find_some in E. destruct E as [E1 E2]. cbn [fst] in E2. apply existsb_exists in E2.
      destruct E2 as (l2 & E2 & E3). f_equal. eapply one_kind; [apply alts_in; exists a; eauto|exact H|exact E3|exact F].
    + exfalso. apply alts_in in H. destruct H as (a & H1 & H2). pose proof (find_none _ _ E _ H1) as X. cbn [fst] in X.
      assert (Y : existsb (fun l => fits l s) a = true) by (apply existsb_exists; eauto). congruence.
Qed.
Lemma type_some : forall s t, discover_type s = Some t -> t = DS_SCALED /\ scaled s = true \/ exists a, In (a, t) rules /\ exists l, In l a /\ fits l s = true.
Proof.
  intros s t. unfold discover_type. destruct (scaled s) eqn:SC; [intro H; injection H as <-; auto|].
  destruct (find _ rules) as [[a u]|] eqn:E; cbn [option_map snd]; intro H; [|discriminate]. injection H as <-. right.
  apply find_some in E. destruct E as [E1 E2]. cbn [fst] in E2. apply existsb_exists in E2. eauto.
Qed.
Lemma digits_fit : forall s, digs s -> fits (repeat any_digit (length s)) s = true.
Proof.
  induction s as [|c s IH]; intro D; [reflexivity|]. cbn [length repeat fits]. rewrite IH by exact (Forall_inv_tail D).
  pose proof (Forall_inv D) as C. cbn beta in C. unfold any_digit, rng. rewrite andb_true_r. apply andb_true_intro. rewrite !N.leb_le. lia.
Qed.
Lemma type_yymmdd : forall s, digs s -> length s = 6%nat \/ length s = 8%nat -> discover_type s = Some DS_YYMMDD.
Proof.
  intros s D L. apply (type_rule s (repeat any_digit (length s))); [|now apply digits_fit].
  apply alts_in. destruct L as [-> | ->]; [exists (blk_digits 6)|exists (blk_digits 8)]; (split; [unfold rules; cbn [In]; tauto|now left]).
Qed.
Lemma scaled_ok : forall w c, w <> [] -> digs w -> letter c = true -> scaled (w ++ [c]) = true.
Proof.
  induction w as [|d w IH]; intros c NE D L; [congruence|]. cbn [app scaled]. pose proof (Forall_inv D) as Dd. cbn beta in Dd.
  assert (E : any_digit d = true) by (unfold any_digit, rng; apply andb_true_intro; rewrite !N.leb_le; lia). rewrite E. cbn [andb].
  destruct w as [|d2 w]; [cbn [app]; now rewrite L|]. rewrite (IH c); [apply orb_true_r|discriminate|exact (Forall_inv_tail D)|exact L].
Qed.
Lemma scaled_inv : forall s, scaled s = true -> exists w c, s = w ++ [c] /\ w <> [] /\ digs w /\ letter c = true.
Proof.
  induction s as [|d s IH]; intro H; [discriminate|]. cbn [scaled] in H. apply andb_prop in H. destruct H as [D H].
  unfold any_digit, rng in D. apply andb_prop in D. rewrite !N.leb_le in D.
  apply orb_prop in H. destruct H as [H|H].
  - destruct s as [|a [|b s]]; try discriminate. exists [d], a. split; [reflexivity|]. split; [discriminate|]. split; [|exact H].
    constructor; [lia|constructor].
  - destruct (IH H) as (w & c & -> & A & B & C). exists (d :: w), c. split; [reflexivity|]. split; [discriminate|]. split; [|exact C].
    constructor; [lia|exact B].
Qed.

(* ---- the other direction ---- *)
Lemma fits_app : forall l1 l2 s, fits (l1 ++ l2) s = true -> exists a b, s = a ++ b /\ fits l1 a = true /\ fits l2 b = true.
Proof.
  induction l1 as [|p l1 IH]; intros l2 s H; [exists [], s; auto|]. destruct s as [|c s]; [discriminate|]. cbn [app fits] in H.
  apply andb_prop in H. destruct H as [P H]. destruct (IH _ _ H) as (a & b & -> & A & B). exists (c :: a), b. split; [reflexivity|].
  cbn [fits]. rewrite P. auto.
Qed.
Definition accepts (a : list (list cls)) (s : bytes) : Prop := exists l, In l a /\ fits l s = true.
Lemma accepts_seq : forall a b s, accepts (seq a b) s -> exists u v, s = u ++ v /\ accepts a u /\ accepts b v.
Proof.
  intros a b s (l & H & F). apply in_flat_map in H. destruct H as (x & Hx & H). apply in_map_iff in H. destruct H as (y & <- & Hy).
  destruct (fits_app _ _ _ F) as (u & v & -> & A & B). exists u, v. split; [reflexivity|]. split; [exists x|exists y]; auto.
Qed.
Lemma dig_back : forall c, 48 <= c <= 57 -> c = dig (Z.of_N c - 48).
Proof. intros c H. unfold dig. lia. Qed.
Lemma rng_in : forall a b c, rng a b c = true -> a <= c <= b.
Proof. intros a b c. unfold rng. now rewrite andb_true_iff, !N.leb_le. Qed.
Lemma two_back : forall a b, 48 <= a <= 57 -> 48 <= b <= 57 -> [a; b] = two (10 * (Z.of_N a - 48) + (Z.of_N b - 48)).
Proof.
  intros a b A B. unfold two.
  replace ((10 * (Z.of_N a - 48) + (Z.of_N b - 48)) / 10)%Z with (Z.of_N a - 48)%Z by (apply Z.div_unique with (Z.of_N b - 48)%Z; lia).
  replace ((10 * (Z.of_N a - 48) + (Z.of_N b - 48)) mod 10)%Z with (Z.of_N b - 48)%Z by (apply Z.mod_unique with (Z.of_N a - 48)%Z; lia).
  now rewrite <- !dig_back.
Qed.
Lemma four_back : forall a b c d, 48 <= a <= 57 -> 48 <= b <= 57 -> 48 <= c <= 57 -> 48 <= d <= 57 ->
  [a; b; c; d] = four (1000 * (Z.of_N a - 48) + 100 * (Z.of_N b - 48) + 10 * (Z.of_N c - 48) + (Z.of_N d - 48)).
Proof.
  intros a b c d A B C D. unfold four.
  set (u := (10 * (Z.of_N a - 48) + (Z.of_N b - 48))%Z). set (v := (10 * (Z.of_N c - 48) + (Z.of_N d - 48))%Z).
  replace (1000 * (Z.of_N a - 48) + 100 * (Z.of_N b - 48) + 10 * (Z.of_N c - 48) + (Z.of_N d - 48))%Z with (100 * u + v)%Z by (unfold u, v; lia).
  replace ((100 * u + v) / 100)%Z with u by (apply Z.div_unique with v; unfold v; lia).
  replace ((100 * u + v) mod 100)%Z with v by (apply Z.mod_unique with u; unfold v; lia).
  unfold u, v. rewrite <- !two_back by assumption. reflexivity.
Qed.
Ltac chars3 F := cbn [fits] in F; repeat match type of F with
  | andb _ _ = true => let G := fresh "G" in apply andb_prop in F; destruct F as [G F]; try apply rng_in in G end.
Ltac each_alt H := cbn [In] in H; repeat match type of H with _ \/ _ => destruct H as [<-|H] end; [..|contradiction].
Lemma one_back : forall s, accepts blk_one s -> exists d, day_word d s.
Proof.
  intros s (l & H & F). unfold blk_one in H. each_alt H. destruct s as [|c [|? s]]; try discriminate; chars3 F; [|discriminate].
  exists (Z.of_N c - 48)%Z. rewrite (dig_back c) at 2 by lia. constructor. lia.
Qed.
Lemma day_back : forall s, accepts blk_day s -> exists d, day_word d s.
Proof.
  intros s (l & H & F). unfold blk_day in H. each_alt H;
  (destruct s as [|a [|b [|? s]]]; try discriminate; chars3 F; try discriminate; rewrite two_back by lia; eexists; apply day2; lia).
Qed.
Lemma year_back : forall s, accepts blk_year s -> exists y, year_word y s.
Proof.
  intros s (l & H & F). unfold blk_year in H. each_alt H.
  - destruct s as [|a [|b [|? s]]]; try discriminate; chars3 F; try discriminate.
    apply orb_prop in G. assert (A : 48 <= a <= 48 \/ 52 <= a <= 57) by (destruct G as [G|G]; apply rng_in in G; auto).
    rewrite two_back by lia. eexists. apply year2. lia.
  - destruct s as [|a [|b [|? s]]]; try discriminate; chars3 F; try discriminate. rewrite two_back by lia. eexists. apply year2. lia.
Qed.
Lemma ccyy_back : forall s, accepts blk_ccyy s -> exists y, year_word y s.
Proof.
  intros s (l & H & F). unfold blk_ccyy in H. each_alt H.
  destruct s as [|a [|b [|c [|d [|? s]]]]]; try discriminate; chars3 F; try discriminate.
  rewrite four_back by lia. eexists. apply year4. lia.
Qed.
Lemma letters_back : forall s, accepts blk_month s -> length s = 3%nat /\ forall rest, no_digit_first (s ++ rest).
Proof.
  intros s (l & H & F). unfold blk_month in H. each_alt H.
  destruct s as [|a [|b [|c [|? s]]]]; try discriminate; chars3 F; try discriminate. split; [reflexivity|]. intro rest.
  cbn [app no_digit_first]. destruct (isdigit a) eqn:E; [|reflexivity]. apply isdigit_ok in E. unfold letter in G. apply orb_prop in G.
  destruct G as [G|G]; apply rng_in in G; lia.
Qed.
Lemma index_of_back : forall l n w, (0 < n)%Z -> index_of n w l <> 0%Z -> (n <= index_of n w l)%Z /\ nth_error l (Z.to_nat (index_of n w l - n)) = Some w.
Proof.
  induction l as [|x l IH]; intros n w Hn H; cbn [index_of] in *; [congruence|]. destruct (bytes_eqb w x) eqn:E.
  - apply bytes_eqb_eq in E. subst x. split; [lia|]. rewrite Z.sub_diag. reflexivity.
  - destruct (IH (n + 1)%Z w ltac:(lia) H) as [A B]. split; [lia|].
    replace (Z.to_nat (index_of (n + 1) w l - n)) with (S (Z.to_nat (index_of (n + 1) w l - (n + 1)))) by lia. exact B.
Qed.
Lemma month_back : forall w rest, length w = 3%nat -> match_month (w ++ rest) <> 0%Z -> month_word (match_month (w ++ rest)) w.
Proof.
  intros w rest L H. unfold match_month in *. rewrite firstn_app, L in *. change (firstn (3 - 3) rest) with (@nil N) in *.
  rewrite app_nil_r, firstn_all2 in * by lia. destruct (index_of_back month_names 1 (map tolower w) ltac:(lia) H) as [A B].
  split; [lia|exact B].
Qed.
