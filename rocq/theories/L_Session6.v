(* Example histories. *)
From Coq Require Import Permutation Sorted.
From Verif Require Import Base M_Encoding M_TokTable S_TokTable M_DbFile S_DbFile M_Search S_Search M_Thread M_Purge S_Purge M_Tokens S_Tokens M_Mbox S_Mbox M_Update S_Update M_Session S_Session
  L_TokTable L_DbFile7 L_Output3 L_Search6 L_Update13 L_Update14 L_Session L_Session2 L_Session3 L_Session4 L_Session5.
From Verif Require M_Paths.
Local Open Scope N_scope.

Definition ex_session W fnd purge : session := {| s_world := W; s_fast := false; s_symlinks := false; s_purge := purge; s_checks := true; s_key := 7; s_found := fnd; s_paths := ex_paths;
  s_index := fun _ => 0; s_current := 5; s_highest := 0%Z |}.
Definition get_file (r : res (option bytes)) : option bytes := match r with Ok f => f | Err _ => None end.
(* First everything is new; then one message has changed, one is gone, one is new and the mailbox has
   grown, and the index is purged; then nothing has changed. *)
Definition hi_s1 := ex_session ex_w1 ex_fnd1 false.
Definition hi_s2 := ex_session ex_w2 ex_fnd2 true.
Definition hi_s3 := ex_session ex_w2 ex_fnd2 false.
Definition hi_f1 : option bytes := Eval vm_compute in get_file (index_session hi_s1 100 None).
Definition hi_f2 : option bytes := Eval vm_compute in get_file (index_session hi_s2 100 hi_f1).
Definition hi_F2 : bytes := Eval vm_compute in match hi_f2 with Some F => F | None => [] end.
Definition hi_db : database := Eval vm_compute in match load (w_hash ex_w2) (fun _ => 0) 0 hi_F2 with Ok db => db | Err _ => new_database 0 end.
Definition hi_h := [(hi_s3, hi_f2); (hi_s2, hi_f1); (hi_s1, None)].

Lemma update_det s f1 f2 file a b : update_index s f1 file = Ok a -> update_index s f2 file = Ok b -> a = b.
Proof.
  unfold update_index. destruct (get_database s file) as [db|]; [|discriminate]. cbn [bind]. destruct (index_run _ _ _ _ _ db) as [[c1 db1]|]; [|discriminate]. cbn [bind].
  destruct (s_purge s); [|cbn [bind]; congruence]. intros H1 H2. apply bind_ok in H1 as ([c2 db2] & A & H1). apply bind_ok in H2 as ([c3 db3] & B & H2).
  pose proof (cull_det _ _ _ _ _ _ _ A B). congruence.
Qed.
(* What is left to check of fit, computed. *)
Definition small (s : session) (file : option bytes) : bool :=
  match update_index s 100 file with Ok (_, db) => file_len db <? 2 ^ 31 | Err _ => false end.
Definition whole (W : world) (mb : mbox) : bool :=
  match mb_path mb with
  | None => true
  | Some p => match w_map W p with
              | Mapped va => match find_number_intact (w_csum W) mb va with
                             | Ok k => (mb_n mb <=? k) || negb (match build_new_message_list (w_from_ok W) (last_kept mb k) va with Ok [] => true | _ => false end)
                             | Err _ => true end
              | _ => true end
  end.
Definition sound (s : session) (file : option bytes) : bool :=
  match get_database s file with
  | Ok db => forallb (whole (s_world s)) (mboxen db) &&
      match build_mbox_lists (s_world s) (s_symlinks s) (s_paths s) (mboxen db) with
      | Ok boxes => n_msgs db + N.of_nat (length (s_found s)) + N.of_nat (length (flat_map (fun b => new_msgs (snd b)) boxes)) <=? 63 * 2 ^ 24
      | Err _ => true end
  | Err _ => true
  end.
Lemma whole_ok W mb : whole W mb = true -> ~ shrunk W mb.
Proof.
  unfold whole. intros H (p & va & k & E1 & E2 & E3 & L & E4). rewrite E1, E2, E3, E4 in H. cbn in H. rewrite orb_false_r in H. apply N.leb_le in H. lia.
Qed.
Lemma ex_fit files server fnd purge file : let s := ex_session (ex_world files server) fnd purge in
  NoDup fnd -> forallb (fun x => forallb (fun x => (0 <? x) && (x <? 256)) (fpath x)) fnd = true -> small s file = true -> sound s file = true -> fit s file.
Proof.
  intros s ND CS SM SO. constructor; cbn [s ex_session s_world s_key s_current s_found s_paths s_index s_symlinks].
  - apply ex_world_ok.
  - reflexivity.
  - reflexivity.
  - exact ND.
  - apply Forall_forall. intros x I. apply c_stringb. rewrite forallb_forall in CS. now apply CS.
  - repeat constructor; cbn; intuition discriminate.
  - repeat constructor; now apply c_stringb.
  - intros p _. cbn. destruct (lookup p files) as [[mt t]|]; [|discriminate]. destruct t; [discriminate|]. destruct (_ <? _); discriminate.
  - intros. lia.
  - intros db boxes E EB. unfold sound in SO. fold s in SO, E. rewrite E in SO. apply andb_true_iff in SO as [_ SO]. cbn [s ex_session s_world s_found s_paths s_symlinks] in SO. rewrite EB in SO. now apply N.leb_le.
  - intros db mb E I. unfold sound in SO. fold s in SO, E. rewrite E in SO. apply andb_true_iff in SO as [SO _]. rewrite forallb_forall in SO. apply whole_ok. now apply SO.
  - intros fuel c db E. unfold small in SM. destruct (update_index s 100 file) as [[c' db']|] eqn:E'; [|discriminate]. pose proof (update_det _ _ _ _ _ _ E E') as X. injection X as -> ->. now apply N.ltb_lt.
Qed.
Lemma hi_history : history hi_h hi_f2.
Proof.
  unfold hi_h. apply (History_next _ 100%nat hi_s3 hi_f2 hi_f2); [|apply ex_fit; [repeat constructor; cbn; intuition discriminate|now vm_compute|now vm_compute|now vm_compute]|repeat constructor|now vm_compute].
  apply (History_next _ 100%nat hi_s2 hi_f1 hi_f2); [|apply ex_fit; [repeat constructor; cbn; intuition discriminate|now vm_compute|now vm_compute|now vm_compute]|repeat constructor|now vm_compute].
  apply (History_next _ 100%nat hi_s1 None hi_f1); [constructor|apply ex_fit; [repeat constructor; cbn; intuition discriminate|now vm_compute|now vm_compute|now vm_compute]|repeat constructor|now vm_compute].
Qed.

(* Checksums that tell two texts apart. *)
Definition apart (csum : bytes -> bytes) (va0 va : bytes) : bool :=
  forallb (fun st => forallb (fun ln => negb (bytes_eqb (csum (cut (N.of_nat st) (N.of_nat ln) va)) (csum (cut (N.of_nat st) (N.of_nat ln) va0)))
     || bytes_eqb (cut (N.of_nat st) (N.of_nat ln) va) (cut (N.of_nat st) (N.of_nat ln) va0)) (seq 0 (S (Nat.min (length va0) (length va) - st)))) (seq 0 (S (Nat.min (length va0) (length va)))).
Lemma apart_ok csum va0 va : apart csum va0 va = true -> forall st ln, st + ln <= N.of_nat (length va0) -> st + ln <= N.of_nat (length va) -> csum (cut st ln va) = csum (cut st ln va0) -> cut st ln va = cut st ln va0.
Proof.
  unfold apart. intros H st ln L0 L1 E. rewrite forallb_forall in H. specialize (H (N.to_nat st)). cbv beta in H. rewrite forallb_forall in H.
  specialize (fun I => H I (N.to_nat ln)). specialize (H ltac:(apply in_seq; lia)). rewrite !N2Nat.id in H. assert (I : In (N.to_nat ln) (seq 0 (S (Nat.min (length va0) (length va) - N.to_nat st)))) by (apply in_seq; lia). specialize (H I).
  apply orb_true_iff in H as [H|H]; [|now apply bytes_eqb_eq]. apply negb_true_iff in H. assert (X : bytes_eqb (csum (cut st ln va)) (csum (cut st ln va0)) = true) by now apply bytes_eqb_eq. congruence.
Qed.

Definition mapped_eqb (a b : mapped) : bool :=
  match a, b with Mapped s, Mapped t => bytes_eqb s t | Map_empty, Map_empty | Map_failed, Map_failed | Map_no_stat, Map_no_stat => true | _, _ => false end.
Lemma mapped_eqb_eq a b : mapped_eqb a b = true -> a = b.
Proof. destruct a, b; cbn; try discriminate; auto. intros H. f_equal. now apply bytes_eqb_eq. Qed.
Section Honest.
Variables (files0 files : list (bytes * (N * bytes))) (server0 server : list (bytes * bytes)) (fnd0 fnd : list found) (pu0 pu : bool).
Let W0 := ex_world files0 server0.
Let W := ex_world files server.
Definition hon_files : bool := forallb (fun x => match w_stat W0 (fpath x), w_stat W (fpath x) with
  | Some (M_Paths.K_reg, mt0, _), Some (M_Paths.K_reg, mt, _) => negb (mt =? mt0) || mapped_eqb (w_map W (fpath x)) (w_map W0 (fpath x)) | _, _ => true end) fnd.
Definition hon_server : bool := forallb (fun x => match lookup (fpath x) server0, lookup (fpath x) server with Some a, Some b => bytes_eqb a b | None, None => true | _, _ => false end) fnd.
Definition hon_boxes : bool := forallb (fun e => match w_lstat W0 (fst e), w_lstat W (fst e) with
  | Some (_, mt0, sz0), Some (_, mt, sz) => negb ((mt =? mt0) && (sz =? sz0)) || mapped_eqb (w_map W (fst e)) (w_map W0 (fst e)) | _, _ => true end) files0.
Definition hon_sums : bool := forallb (fun e => match w_map W0 (fst e), w_map W (fst e) with Mapped a, Mapped b => apart (w_csum W) a b | _, _ => true end) files0.
Lemma lookup_in {A} p (l : list (bytes * A)) v : lookup p l = Some v -> exists e, In e l /\ fst e = p.
Proof. unfold lookup. destruct (find _ l) as [e|] eqn:E; [|discriminate]. intros _. apply find_some in E as [I E]. exists e. split; [exact I|]. now apply bytes_eqb_eq. Qed.
Lemma ex_honest : hon_files && hon_server && hon_boxes && hon_sums = true -> honest (ex_session W0 fnd0 pu0) (ex_session W fnd pu).
Proof.
  intros H. apply andb_true_iff in H as [H H4]. apply andb_true_iff in H as [H H3]. apply andb_true_iff in H as [H1 H2].
  unfold hon_files, hon_server, hon_boxes, hon_sums in *. rewrite forallb_forall in *. constructor; cbn [ex_session s_world s_found s_fast].
  - intros p mt sz I E [F|(sz' & E')]; [discriminate|]. specialize (H1 _ I). cbn [fpath] in H1. rewrite E, E', N.eqb_refl in H1. cbn [negb orb] in H1. now apply mapped_eqb_eq.
  - intros p _ I. specialize (H2 _ I). cbn [fpath] in H2. unfold W, W0. cbn [ex_world w_imap]. destruct (lookup p server0), (lookup p server); try discriminate; auto. apply bytes_eqb_eq in H2. now subst.
  - intros p l0 l mt sz E0 E. assert (exists e, In e files0 /\ fst e = p) as (e & I & EP) by (unfold W0 in E0; cbn [ex_world w_lstat] in E0; destruct (lookup p files0) eqn:EL; [eapply lookup_in; eauto|discriminate]).
    specialize (H3 e I). rewrite EP, E0, E, !N.eqb_refl in H3. cbn [negb orb andb] in H3. now apply mapped_eqb_eq.
  - intros p va0 va st ln E0 E. assert (exists e, In e files0 /\ fst e = p) as (e & I & EP) by (unfold W0 in E0; cbn [ex_world w_map] in E0; destruct (lookup p files0) eqn:EL; [eapply lookup_in; eauto|discriminate]).
    specialize (H4 e I). rewrite EP, E0, E in H4. now apply apart_ok.
Qed.
End Honest.
(* In a changed mailbox the messages that are unchanged come first. *)
Definition intactb (csum : bytes -> bytes) (mb : mbox) (va : bytes) (i : nat) : bool :=
  match nth_error (starts mb) i, nth_error (lens mb) i, nth_error (checks mb) i with
  | Some (Some s), Some (Some l), Some c => (s + l <=? N.of_nat (length va)) && bytes_eqb c (csum (cut s l va))
  | _, _, _ => false
  end.
Lemma intactb_iff csum mb va i : intactb csum mb va (N.to_nat i) = true <-> intact csum mb va i.
Proof.
  unfold intactb, intact. split.
  - destruct (nth_error (starts mb) (N.to_nat i)) as [[s|]|]; try discriminate. destruct (nth_error (lens mb) (N.to_nat i)) as [[l|]|]; try discriminate. destruct (nth_error (checks mb) (N.to_nat i)) as [c|]; try discriminate.
    intros H. apply andb_true_iff in H as [A B]. exists s, l. split; [reflexivity|]. split; [reflexivity|]. split; [now apply N.leb_le|]. apply bytes_eqb_eq in B. now subst.
  - intros (s & l & -> & -> & A & ->). apply andb_true_iff. split; [now apply N.leb_le|now apply bytes_eqb_eq].
Qed.
Definition in_order (csum : bytes -> bytes) (mb : mbox) (va : bytes) : bool :=
  forallb (fun j => negb (intactb csum mb va j) || forallb (intactb csum mb va) (seq 0 j)) (seq 0 (length (starts mb))).
Definition orderly_boxes (s : session) (file : option bytes) : bool :=
  match get_database s file with
  | Ok db => forallb (fun mb => match mb_path mb with Some p => match w_map (s_world s) p with Mapped va => in_order (w_csum (s_world s)) mb va | _ => true end | None => true end) (mboxen db)
  | Err _ => true
  end.
Lemma ex_undisturbed s file : orderly_boxes s file = true -> undisturbed s file.
Proof.
  unfold orderly_boxes. intros H db mb p va E I EP EM i j L J. rewrite E in H. rewrite forallb_forall in H. specialize (H mb I). rewrite EP, EM in H. unfold in_order in H. rewrite forallb_forall in H.
  assert (LJ : (N.to_nat j < length (starts mb))%nat) by (destruct J as (s0 & l & A & _); apply nth_error_Some; congruence).
  specialize (H (N.to_nat j) ltac:(apply in_seq; lia)). apply intactb_iff in J. rewrite J in H. cbn [negb orb] in H. rewrite forallb_forall in H. apply intactb_iff. apply H. apply in_seq. lia.
Qed.
Lemma hi_orderly : orderly hi_h.
Proof.
  split.
  - repeat constructor; cbn [fst]; apply ex_honest; now vm_compute.
  - repeat constructor; cbn [fst snd]; apply ex_undisturbed; now vm_compute.
Qed.
Lemma hi_next : Forall (fun x => same_program (fst x) hi_s3) hi_h /\ fit hi_s3 hi_f2.
Proof. split; [repeat constructor|]. apply ex_fit; [repeat constructor; cbn; intuition discriminate|now vm_compute|now vm_compute|now vm_compute]. Qed.
Lemma hi_result : hi_f2 = Some hi_F2 /\ holds_index ex_w2 hi_F2 hi_db /\ map src (msgs hi_db) = [S_imap (bs "s1"); S_mbox 0 0; S_mbox 0 1; S_file (bs "/m/1") 11 11; S_file (bs "/m/3") 21 9; S_mbox 0 2] /\
  exists r, open_db hi_F2 = Ok r /\ search no_dates hi_F2 r false [bs "s:hello"] = Ok [0; 1; 3].
Proof. split; [now vm_compute|]. split; [now vm_compute|]. split; [now vm_compute|]. eexists. split; [vm_compute; reflexivity|]. now vm_compute. Qed.

(* The first message of a mailbox is edited in place, and the last is as it was: the change goes
   unnoticed, although the modification time has changed. *)
Definition ed_box := bs "From a !" ++ nl ++ bs "jello one" ++ nl ++ bs "From b !" ++ nl ++ bs "bye two" ++ nl.
Definition ed_w1 := ex_world [(bs "/box", (30, ex_box1))] [].
Definition ed_w2 := ex_world [(bs "/box", (31, ed_box))] [].
Definition ed_s1 := ex_session ed_w1 [] false.
Definition ed_s2 := ex_session ed_w2 [] false.
Definition ed_f1 : option bytes := Eval vm_compute in get_file (index_session ed_s1 100 None).
Definition ed_F1 : bytes := Eval vm_compute in match ed_f1 with Some F => F | None => [] end.
Definition ed_db : database := Eval vm_compute in match load (w_hash ed_w2) (fun _ => 0) 0 ed_F1 with Ok db => db | Err _ => new_database 0 end.
Definition recb (db : database) (p : part) (w : bytes) (i : N) : bool :=
  existsb (fun e => bytes_eqb (fst e) w && match read_matches (snd e) with RA_ok xs _ => existsb (N.eqb i) xs | _ => false end) (entries (table db p)).
Lemma recb_ok db p w i : recorded db p w i -> recb db p w i = true.
Proof.
  intros (m & xs & I & (q & L) & X). unfold recb. apply existsb_exists. exists (w, m). split; [exact I|]. cbn [fst snd]. apply andb_true_iff. split; [now apply bytes_eqb_eq|].
  rewrite L. apply existsb_exists. exists i. split; [exact X|apply N.eqb_refl].
Qed.
Lemma edited_stale : exists s file s0 F db, history [(s, file); (s0, None)] (Some F) /\ honest s0 s /\ holds_index (s_world s) F db /\ ~ faithful (s_world s) db.
Proof.
  exists ed_s2, ed_f1, ed_s1, ed_F1, ed_db. split.
  { apply (History_next _ 100%nat ed_s2 ed_f1 (Some ed_F1)); [|apply ex_fit; [repeat constructor; cbn; intuition discriminate|now vm_compute|now vm_compute|now vm_compute]|repeat constructor|now vm_compute].
    apply (History_next _ 100%nat ed_s1 None ed_f1); [constructor|apply ex_fit; [repeat constructor; cbn; intuition discriminate|now vm_compute|now vm_compute|now vm_compute]|repeat constructor|now vm_compute]. }
  split; [apply ex_honest; now vm_compute|]. split; [now vm_compute|]. intros FA.
  destruct (message ed_db 0) as [m|] eqn:EM; [|vm_compute in EM; discriminate]. destruct (FA 0 m EM) as (R & _); [vm_compute in EM; injection EM as <-; discriminate|].
  assert (RD : exists h atts, reading ed_w2 ed_db m = Some (Rfc822 h atts) /\ h_subject h = Some (bs "jello one" ++ nl)) by (vm_compute in EM; injection EM as <-; eexists; eexists; split; vm_compute; reflexivity).
  destruct RD as (h & atts & RD & HS). apply says_reading in RD.
  assert (RC : recorded ed_db Subject (bs "jello") 0).
  { apply R. exists (Rfc822 h atts), (bs "jello"). split; [exact RD|]. split; [|reflexivity]. eapply Me_subject; [exact HS|]. exists O, [], (bs " one" ++ nl).
    split; [reflexivity|]. split; [reflexivity|]. split; [discriminate|]. split; [repeat constructor; left; reflexivity|]. split; [intros [|] c X; discriminate|].
    intros c b' X. injection X as <- _. intros [Y|Y]; discriminate. }
  apply recb_ok in RC. vm_compute in RC. discriminate.
Qed.
