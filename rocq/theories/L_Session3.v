(* What the entries of an index record, through loading and purging. *)
From Coq Require Import Permutation Sorted.
From Verif Require Import Base M_Encoding M_TokTable S_TokTable M_DbFile S_DbFile M_Search S_Search M_Thread M_Purge S_Purge M_Tokens S_Tokens M_Mbox S_Mbox M_Update S_Update M_Session S_Session
  L_TokTable2 L_DbFile5 L_Purge L_Purge2 L_Output3 L_Search6 L_Update11 L_Update13 L_Session L_Session2.
From Verif Require M_Paths.
Local Open Scope N_scope.

Definition reading (W : world) (db : database) (m : msg) : option rfc822 :=
  match src m with
  | S_dead => None
  | S_file p _ _ => if ends_gitignore p then None else make_rfc822 W p
  | S_imap p => if ends_gitignore p then None else w_imap W p
  | S_mbox fi mi =>
    match nth_error (mboxen db) (N.to_nat fi) with
    | None => None
    | Some mb =>
      match mb_path mb, nth_error (starts mb) (N.to_nat mi), nth_error (lens mb) (N.to_nat mi) with
      | Some p, Some (Some st), Some (Some ln) =>
        match w_map W p with
        | Mapped va => if st + ln <=? N.of_nat (length va) then fst (w_parse W (cut st ln va)) else None
        | _ => None
        end
      | _, _, _ => None
      end
    end
  end.
Lemma says_reading W db m r : says W db m r <-> reading W db m = Some r.
Proof.
  unfold reading. split.
  - intros [p mt sz va E H EM EP|p E H EP|fi mi mb p va st ln E E1 E2 E3 E4 E5 E6 E7]; rewrite E.
    + rewrite <- gitignore in H. unfold make_rfc822. rewrite EM. destruct (ends_gitignore p); congruence.
    + rewrite <- gitignore in H. destruct (ends_gitignore p); congruence.
    + rewrite E1, E2, E3, E4, E5. destruct (N.leb_spec (st + ln) (N.of_nat (length va))); [exact E7|lia].
  - destruct (src m) as [|p mt sz|p|fi mi] eqn:E; [discriminate| | |].
    + destruct (ends_gitignore p) eqn:G; [discriminate|]. unfold make_rfc822. destruct (w_map W p) eqn:EM; try discriminate. intros H. eapply Says_file; eauto. rewrite <- gitignore. congruence.
    + destruct (ends_gitignore p) eqn:G; [discriminate|]. intros H. eapply Says_imap; eauto. rewrite <- gitignore. congruence.
    + destruct (nth_error (mboxen db) (N.to_nat fi)) as [mb|] eqn:E1; [|discriminate]. destruct (mb_path mb) as [p|] eqn:E2; [|discriminate].
      destruct (nth_error (starts mb) (N.to_nat mi)) as [[st|]|] eqn:E4; try discriminate. destruct (nth_error (lens mb) (N.to_nat mi)) as [[ln|]|] eqn:E5; try discriminate.
      destruct (w_map W p) as [va| | |] eqn:E3; try discriminate. destruct (N.leb_spec (st + ln) (N.of_nat (length va))); [|discriminate]. intros H1. eapply Says_mbox; eauto.
Qed.

(* Entry x, which is m, records this reading. *)
Definition told (alnum : N -> bool) (db : database) (x : N) (m : msg) (o : option rfc822) : Prop :=
  (forall p v, recorded db p v x <-> exists r w, o = Some r /\ mentions alnum r p w /\ v = lower w) /\
  (forall v, has_id db v x <-> exists r w, o = Some r /\ carries r true w /\ v = lower w) /\
  (forall v, refers db v x <-> exists r own w, o = Some r /\ carries r own w /\ v = lower w) /\
  (forall h atts, o = Some (Rfc822 h atts) -> date m = u32_of_int (h_date h) /\ flags_of m h).
Lemma described_told W db x m : described W db x m <-> told (w_alnum W) db x m (reading W db m).
Proof.
  unfold described, told.
  assert (A : forall p v, (exists r w, says W db m r /\ mentions (w_alnum W) r p w /\ v = lower w) <-> (exists r w, reading W db m = Some r /\ mentions (w_alnum W) r p w /\ v = lower w)).
  { intros p v. split; intros (r & w & S1 & S2); exists r, w; (split; [now apply says_reading|exact S2]). }
  assert (B : forall v, (exists r w, says W db m r /\ carries r true w /\ v = lower w) <-> (exists r w, reading W db m = Some r /\ carries r true w /\ v = lower w)).
  { intros v. split; intros (r & w & S1 & S2); exists r, w; (split; [now apply says_reading|exact S2]). }
  assert (C : forall v, (exists r own w, says W db m r /\ carries r own w /\ v = lower w) <-> (exists r own w, reading W db m = Some r /\ carries r own w /\ v = lower w)).
  { intros v. split; intros (r & o & w & S1 & S2); exists r, o, w; (split; [now apply says_reading|exact S2]). }
  split; intros (H1 & H2 & H3 & H4); (split; [intros p v; rewrite (H1 p v); first [apply A|symmetry; apply A]|]); (split; [intros v; rewrite (H2 v); first [apply B|symmetry; apply B]|]);
    (split; [intros v; rewrite (H3 v); first [apply C|symmetry; apply C]|]); intros h atts X; apply (H4 h atts); now apply says_reading.
Qed.
(* The index db' records for x' what db records for x. *)
Definition alike (db db' : database) (x x' : N) : Prop :=
  (forall p v, recorded db' p v x' <-> recorded db p v x) /\ (forall v, has_id db' v x' <-> has_id db v x) /\ (forall v, refers db' v x' <-> refers db v x).
(* m' has the date and the flags of m. *)
Definition marked_alike (m m' : msg) : Prop := date m' = date m /\ forall h, flags_of m h -> flags_of m' h.
Lemma marked_src m m' : src m' = src m -> date m' = date m -> seen m' = seen m -> replied m' = replied m -> flagged m' = flagged m -> marked_alike m m'.
Proof. intros A B C D E. split; [exact B|]. intros h. unfold flags_of. rewrite A, C, D, E. auto. Qed.
Lemma marked_moved db db' m m' : same_message db db' m m' -> marked_alike m m'.
Proof.
  intros (A & _ & B & C & D & E). split; [exact A|]. intros h. unfold flags_of. rewrite B, C, D.
  destruct (src m); [rewrite E; auto|rewrite E; auto|rewrite E; auto|]. destruct E as (fi' & mb & -> & _). auto.
Qed.
Lemma told_alike alnum db db' x x' m m' o : told alnum db x m o -> alike db db' x x' -> marked_alike m m' -> told alnum db' x' m' o.
Proof.
  intros (H1 & H2 & H3 & H4) (A1 & A2 & A3) [ED EF]. split; [intros p v; rewrite A1; apply H1|]. split; [intros v; rewrite A2; apply H2|]. split; [intros v; rewrite A3; apply H3|].
  intros h atts E. destruct (H4 h atts E) as [G1 G2]. split; [congruence|now apply EF].
Qed.
Lemma alike_sym db db' x x' : alike db db' x x' -> alike db' db x' x.
Proof. intros (A & B & C). repeat split; intros; first [apply A|apply B|apply C]; assumption. Qed.

(* ---- loading ---- *)
Lemma ids_both h db w m0 m1 : db_ok h db -> In (w, (m0, m1)) (entries (d_ids db)) -> exists xs ys, lists m0 xs /\ lists m1 ys.
Proof. intros OK I. destruct (ok_ids _ _ OK) as (_ & H). destruct (H w m0 m1 I) as (_ & xs & ys & A & _ & B & _). eauto. Qed.
Lemma table_F2 (R : toktable matches -> toktable matches -> Prop) db db' p : Forall2 R (tabs db) (tabs db') -> R (table db p) (table db' p).
Proof.
  unfold tabs. intros F. inversion F as [|? ? ? ? R1 F1]; subst. inversion F1 as [|? ? ? ? R2 F2]; subst. inversion F2 as [|? ? ? ? R3 F3]; subst.
  inversion F3 as [|? ? ? ? R4 F4]; subst. inversion F4 as [|? ? ? ? R5 F5]; subst. inversion F5 as [|? ? ? ? R6 F6]; subst. destruct p; assumption.
Qed.
Lemma same_alike h db db' : db_ok h db -> db_ok h db' -> same_db db db' -> forall x, alike db db' x x.
Proof.
  intros OK OK' (_ & _ & _ & _ & FT & FI) x. split; [|split].
  - intros p v. pose proof (table_F2 _ _ _ p FT) as SW. split; intros (m & xs & I & L & X); [destruct (proj1 (SW v xs)) as (m0 & I0 & L0)|destruct (proj2 (SW v xs)) as (m0 & I0 & L0)]; eauto; exists m0, xs; auto.
  - intros v. split; intros (m0 & m1 & xs & I & L & X).
    + destruct (ids_both _ _ _ _ _ OK' I) as (ys & zs & LY & LZ). assert (zs = xs) by (eapply lists_fun; eauto). subst zs.
      destruct (proj1 (FI v ys xs)) as (k0 & k1 & I0 & L0 & L1); [eauto|]. exists k0, k1, xs. auto.
    + destruct (ids_both _ _ _ _ _ OK I) as (ys & zs & LY & LZ). assert (zs = xs) by (eapply lists_fun; eauto). subst zs.
      destruct (proj2 (FI v ys xs)) as (k0 & k1 & I0 & L0 & L1); [eauto|]. exists k0, k1, xs. auto.
  - intros v. split; intros (m0 & m1 & xs & I & L & X).
    + destruct (ids_both _ _ _ _ _ OK' I) as (ys & zs & LY & LZ). assert (ys = xs) by (eapply lists_fun; eauto). subst ys.
      destruct (proj1 (FI v xs zs)) as (k0 & k1 & I0 & L0 & L1); [eauto|]. exists k0, k1, xs. auto.
    + destruct (ids_both _ _ _ _ _ OK I) as (ys & zs & LY & LZ). assert (ys = xs) by (eapply lists_fun; eauto). subst ys.
      destruct (proj2 (FI v xs zs)) as (k0 & k1 & I0 & L0 & L1); [eauto|]. exists k0, k1, xs. auto.
Qed.
Lemma same_reading h W db db' m m' : db_ok h db -> same_db db db' -> In m (msgs db) -> src m' = src m -> reading W db' m' = reading W db m.
Proof.
  intros OK SD I ES. unfold reading. rewrite ES. destruct (src m) as [|p mt sz|p|fi mi] eqn:E; try reflexivity.
  destruct (ok_places _ _ OK m fi mi I E) as (mb & st & ln & E1 & _ & E2 & _ & E3 & _). pose proof SD as (_ & _ & FB & _). destruct (F2_nth _ _ _ FB _ _ E1) as (mb' & E1' & X1 & _).
  destruct (same_places db db' fi mi mb mb' m SD I E E1 E1' _ _ E2 E3) as (Q1 & Q2). now rewrite E1, E1', E2, E3, Q1, Q2, X1.
Qed.

(* ---- purging ---- *)
Lemma live_alive db x m : message db x = Some m -> src m <> S_dead -> alive (liveness db) x = true.
Proof.
  unfold message, alive, liveness. intros E ND. erewrite nth_indep; [|rewrite map_length; apply nth_error_Some; congruence].
  rewrite (map_nth (fun m => match src m with S_dead => false | _ => true end) (msgs db) m). rewrite (nth_error_nth _ _ m E). destruct (src m); congruence.
Qed.
Lemma renumber_has live xs x : alive live x = true -> In (new_number live x) (renumber live xs) <-> In x xs.
Proof.
  intros A. rewrite In_renumber. split; [intros (y & I & B & E); apply new_number_inj in E; auto; congruence|eauto].
Qed.
Lemma purged_alike h db db' x m : db_ok h db -> db_ok h db' -> purged db db' -> message db x = Some m -> src m <> S_dead -> alike db db' x (new_number (liveness db) x).
Proof.
  intros OK OK' PU E ND. pose proof (live_alive db x m E ND) as A. assert (NE : forall (y : N) l, In y l -> l <> []) by (intros y [|] []; discriminate). split; [|split].
  - intros p v. split.
    + intros (m' & ys & I & L & X). destruct (proj1 (pg_words _ _ PU p v ys)) as (_ & k & xs & I0 & L0 & ->); [eauto|]. exists k, xs. split; [exact I0|]. split; [exact L0|]. now apply renumber_has in X.
    + intros (k & xs & I & L & X). pose proof (proj2 (renumber_has _ _ _ A) X) as X'. destruct (proj2 (pg_words _ _ PU p v (renumber (liveness db) xs))) as (m' & I0 & L0); [split; [eapply NE; exact X'|eauto]|].
      exists m', (renumber (liveness db) xs). auto.
  - intros v. split.
    + intros (m0 & m1 & ys & I & L & X). destruct (ids_both _ _ _ _ _ OK' I) as (us & zs & LU & LZ). assert (zs = ys) by (eapply lists_fun; eauto). subst zs.
      destruct (proj1 (pg_ids _ _ PU v us ys)) as (_ & k0 & k1 & xs & vs & I0 & L0 & L1 & -> & ->); [eauto|]. exists k0, k1, vs. split; [exact I0|]. split; [exact L1|]. now apply renumber_has in X.
    + intros (k0 & k1 & vs & I & L & X). destruct (ids_both _ _ _ _ _ OK I) as (us & zs & LU & LZ). assert (zs = vs) by (eapply lists_fun; eauto). subst zs.
      pose proof (proj2 (renumber_has _ _ _ A) X) as X'. destruct (proj2 (pg_ids _ _ PU v (renumber (liveness db) us) (renumber (liveness db) vs))) as (m0 & m1 & I0 & L0 & L1);
        [split; [intros [_ Z]; exact (NE _ _ X' Z)|exists k0, k1, us, vs; auto]|]. exists m0, m1, (renumber (liveness db) vs). auto.
  - intros v. split.
    + intros (m0 & m1 & ys & I & L & X). destruct (ids_both _ _ _ _ _ OK' I) as (us & zs & LU & LZ). assert (us = ys) by (eapply lists_fun; eauto). subst us.
      destruct (proj1 (pg_ids _ _ PU v ys zs)) as (_ & k0 & k1 & xs & vs & I0 & L0 & L1 & -> & ->); [eauto|]. exists k0, k1, xs. split; [exact I0|]. split; [exact L0|]. now apply renumber_has in X.
    + intros (k0 & k1 & vs & I & L & X). destruct (ids_both _ _ _ _ _ OK I) as (us & zs & LU & LZ). assert (us = vs) by (eapply lists_fun; eauto). subst us.
      pose proof (proj2 (renumber_has _ _ _ A) X) as X'. destruct (proj2 (pg_ids _ _ PU v (renumber (liveness db) vs) (renumber (liveness db) zs))) as (m0 & m1 & I0 & L0 & L1);
        [split; [intros [Z _]; exact (NE _ _ X' Z)|exists k0, k1, vs, zs; auto]|]. exists m0, m1, (renumber (liveness db) vs). auto.
Qed.
Lemma purged_reading W db db' m m' : same_message db db' m m' -> src m <> S_dead -> reading W db' m' = reading W db m.
Proof.
  intros (_ & _ & _ & _ & _ & SM) ND. unfold reading. destruct (src m) as [|p mt sz|p|fi mi]; [congruence|now rewrite SM|now rewrite SM|].
  destruct SM as (fi' & mb & -> & E1 & E2). now rewrite E1, E2.
Qed.
