From Verif Require Import Base L_Bits M_Encoding M_TokTable S_TokTable M_DbFile S_DbFile L_Encoding L_Encoding2 L_TokTable L_TokTable2 L_DbFile L_DbFile2 L_DbFile3 L_DbFile4 L_DbFile5 L_DbFile6.
Local Open Scope N_scope.

(* Concrete databases. *)
Definition ex_h : N -> bytes -> N := fun k w => k + nth 0 w 0.
Definition get_ok {A} (d : A) (r : res A) : A := match r with Ok a => a | Err _ => d end.
Definition ex_tab (k : N) (hs : list (bytes * N)) := get_ok new_toktable (add_tokens (ex_h k) init_matches upd1 new_toktable hs).
Definition ex_tab2 (k : N) (hs : list (bytes * (N * bool))) :=
  get_ok new_toktable (add_tokens (ex_h k) (init_matches, init_matches) upd2 new_toktable hs).
Definition smallb (x : N) : bool := x <? 63 * 2 ^ 24.
Lemma ex_tab_index k hs : forallb (fun h => smallb (snd h)) hs = true -> index_table (ex_h k) (ex_tab k hs).
Proof.
  intros H. unfold ex_tab. destruct (add_tokens _ _ _ _ hs) as [t|] eqn:E; cbn [get_ok]; [|apply IT_new].
  eapply add_tokens_index; [apply IT_new| |exact E]. rewrite forallb_forall in H. apply Forall_forall. intros x Hx.
  apply in_map_iff in Hx as (h & <- & Hh). apply H in Hh. now apply N.ltb_lt.
Qed.
Lemma ex_tab2_index k hs : forallb (fun h => smallb (fst (snd h))) hs = true -> index_table2 (ex_h k) (ex_tab2 k hs).
Proof.
  intros H. unfold ex_tab2. destruct (add_tokens _ _ _ _ hs) as [t|] eqn:E; cbn [get_ok]; [|apply IT2_new].
  eapply add_tokens_index2; [apply IT2_new| |exact E]. rewrite forallb_forall in H. apply Forall_forall. intros x Hx.
  apply in_map_iff in Hx as (h & <- & Hh). apply H in Hh. now apply N.ltb_lt.
Qed.
Definition mk_msg s d t := {| src := s; date := d; tid := t; seen := true; replied := false; flagged := true |}.
Definition mk_db k ms mbs (h1 h2 : list (bytes * N)) hi := {| msgs := ms; mboxen := mbs; hash_key := k;
  d_to := new_toktable; d_cc := new_toktable; d_from := ex_tab k h1; d_subject := new_toktable; d_body := ex_tab k h2; d_att := new_toktable;
  d_ids := ex_tab2 k hi |}.
Lemma mk_db_ok k ms mbs h1 h2 hi :
  word k -> Forall msg_storable ms -> Forall mbox_storable mbs ->
  (forall b, exists j, run_of b ms = map N.of_nat (seq 0 j)) ->
  (forall m fi mi, In m ms -> src m = S_mbox fi mi ->
    exists mb st ln, nth_error mbs (N.to_nat fi) = Some mb /\ mi < mb_n mb /\
      nth_error (starts mb) (N.to_nat mi) = Some (Some st) /\ word st /\ nth_error (lens mb) (N.to_nat mi) = Some (Some ln) /\ word ln) ->
  forallb (fun h => smallb (snd h)) h1 && forallb (fun h => smallb (snd h)) h2 && forallb (fun h => smallb (fst (snd h))) hi &&
  entries_below (N.of_nat (length ms)) (ex_tab k h1) && entries_below (N.of_nat (length ms)) (ex_tab k h2) &&
  entries2_below (N.of_nat (length ms)) (ex_tab2 k hi) = true ->
  db_ok ex_h (mk_db k ms mbs h1 h2 hi).
Proof.
  intros HK HM HB HO HP HE. repeat (apply andb_true_iff in HE as [HE ?E]).
  assert (NT : forall n, entries_below n new_toktable = true) by (intros n; reflexivity).
  constructor; try assumption.
  - unfold tabs, n_msgs. cbn [mk_db d_to d_cc d_from d_subject d_body d_att msgs hash_key].
    intros t [<-|[<-|[<-|[<-|[<-|[<-|[]]]]]]]; (split; [first [apply IT_new|now apply ex_tab_index]|apply entries_below_ok; auto]).
  - split; [now apply ex_tab2_index|]. now apply entries2_below_ok.
Qed.

Definition ex_box := {| mb_path := Some (bs "/m/box"); f_mtime := 0; f_size := 0; c_mtime := 77; c_size := 90; mb_n := 2;
  starts := [Some 0; Some 40]; lens := [Some 40; Some 50]; checks := [repeat 1 16; repeat 2 16] |}.
Definition ex_db := mk_db 5
  [mk_msg (S_file (bs "/m/new/1") 10 20) 100 0; mk_msg (S_mbox 0 0) 101 1; mk_msg S_dead 0 2; mk_msg (S_mbox 0 1) 102 0;
   mk_msg (S_imap (bs "&3:INBOX")) 103 3]
  [ex_box; {| mb_path := None; f_mtime := 0; f_size := 0; c_mtime := 0; c_size := 0; mb_n := 0; starts := []; lens := []; checks := [] |}]
  [(bs "alice", 0); (bs "bob", 1); (bs "alice", 3); (bs "Anna", 4)]
  [(bs "hello", 0); (bs "heap", 1); (bs "hello", 1); (bs "hello", 4)]
  [(bs "id1@x", (0, true)); (bs "id0@x", (1, false)); (bs "id2@x", (1, true))].
Lemma ex_db_ok : db_ok ex_h ex_db.
Proof.
  apply mk_db_ok.
  - now vm_compute.
  - repeat constructor; cbn; try (now vm_compute); apply c_stringb_ok; now vm_compute.
  - repeat constructor; cbn; try (now vm_compute); try discriminate. intros p [= <-]. apply c_stringb_ok. now vm_compute.
  - intros b. destruct (N.eqb_spec b 0) as [->|H]; [exists 2%nat; now vm_compute|exists 0%nat].
    unfold run_of. cbn. destruct b as [|p]; [congruence|reflexivity].
  - intros m fi mi H E. cbn in H. destruct H as [<-|[<-|[<-|[<-|[<-|[]]]]]]; cbn in E; try discriminate E; injection E as <- <-.
    + exists ex_box, 0, 40. repeat split; now vm_compute.
    + exists ex_box, 40, 50. repeat split; now vm_compute.
  - now vm_compute.
Qed.
Lemma ex_db_size : file_len ex_db < 2 ^ 31.
Proof. now vm_compute. Qed.

(* An id with no message of its own, written and loaded with an unlucky stack. *)
Definition lone_db := mk_db 0 [mk_msg (S_file (bs "/m/1") 1 2) 3 0] [] [] [] [(bs "parent@x", (0, false))].
Lemma one_file_ok p mt sz h1 h2 hi : forallb (fun x => (0 <? x) && (x <? 256)) p = true -> word mt -> word sz ->
  forallb (fun h => smallb (snd h)) h1 && forallb (fun h => smallb (snd h)) h2 && forallb (fun h => smallb (fst (snd h))) hi &&
  entries_below 1 (ex_tab 0 h1) && entries_below 1 (ex_tab 0 h2) && entries2_below 1 (ex_tab2 0 hi) = true ->
  db_ok ex_h (mk_db 0 [mk_msg (S_file p mt sz) 3 0] [] h1 h2 hi).
Proof.
  intros H1 H2 H3 H4. apply mk_db_ok; try assumption.
  - now vm_compute.
  - constructor; [|constructor]. split; [now vm_compute|]. split; [now vm_compute|]. split; [now apply c_stringb_ok|]. now split.
  - constructor.
  - intros b. exists 0%nat. reflexivity.
  - intros m fi mi [<-|[]] E. discriminate.
Qed.
Lemma lone_db_ok : db_ok ex_h lone_db.
Proof. apply one_file_ok; now vm_compute. Qed.
Lemma roundtrip_refuted : exists db gi F, db_ok ex_h db /\ file_len db < 2 ^ 31 /\
  write_database db [] = Ok F /\ forall gm, load ex_h gi gm F = Err E_assert.
Proof.
  destruct (write_database lone_db []) as [F|] eqn:E; [|vm_compute in E; discriminate].
  exists lone_db, (fun _ => 7), F. split; [apply lone_db_ok|]. split; [now vm_compute|]. split; [exact E|].
  intros gm. vm_compute in E. injection E as <-. vm_compute. reflexivity.
Qed.

(* A header of 40 words. *)
Definition header (ws : list (N * N)) : bytes :=
  concat (map (fun i => if i =? 0 then [77; 88; 165; 4] else if i =? 1 then [17; 34; 51; 68]
                        else le32 (match find (fun p => fst p =? i) ws with Some (_, v) => v | None => 0 end)) (map N.of_nat (seq 0 40))).
Definition bad_type := header [(2, 1); (3, 1000000)].
Definition bad_wrap := header ((2, 8) :: map (fun i => (i, 4294967290)) [4; 5; 6; 7; 8]).
Lemma open_refuted :
  (exists data r, open_db data = Ok r /\ N.of_nat (length data) < r_type r + r_n r) /\
  (exists data r, open_db data = Ok r /\ N.of_nat (length data) < 4 * r_path r + 4 * r_n r).
Proof.
  split; [exists bad_type|exists bad_wrap].
  - destruct (open_db bad_type) as [r|] eqn:E; [|vm_compute in E; discriminate]. exists r. split; [reflexivity|].
    vm_compute in E. injection E as <-. now vm_compute.
  - destruct (open_db bad_wrap) as [r|] eqn:E; [|vm_compute in E; discriminate]. exists r. split; [reflexivity|].
    vm_compute in E. injection E as <-. now vm_compute.
Qed.

(* Interrupted write: same layout, different contents. *)
Definition old_db := mk_db 0 [mk_msg (S_file (bs "/m/a") 1 10) 3 0] [] [(bs "alice", 0)] [(bs "first", 0)] [].
Definition new_db := mk_db 0 [mk_msg (S_file (bs "/m/b") 2 20) 3 0] [] [(bs "bella", 0)] [(bs "later", 0)] [].
Definition stores (db : database) : list write := match write_trace db with Ok (ws, _) => ws | Err _ => [] end.
Definition torn_file : bytes := get_ok [] (apply_writes (firstn 45 (stores new_db)) (resize (get_ok [] (write_database old_db [])) (file_len new_db))).
Lemma old_db_ok : db_ok ex_h old_db.
Proof. apply one_file_ok; now vm_compute. Qed.
Lemma new_db_ok : db_ok ex_h new_db.
Proof. apply one_file_ok; now vm_compute. Qed.
(* The torn index names the new message file under the old message's words. *)
Lemma torn_loads : exists db', load ex_h (fun _ => 0) 0 torn_file = Ok db' /\
  map src (msgs db') = [S_file (bs "/m/b") 2 20] /\ map fst (entries (d_from db')) = [bs "alice"].
Proof.
  destruct (load ex_h (fun _ => 0) 0 torn_file) as [d|] eqn:E; [|vm_compute in E; discriminate].
  exists d. split; [reflexivity|]. vm_compute in E. injection E as <-. split; now vm_compute.
Qed.
Lemma same_words_words t t' w : same_words t t' -> (exists m xs, In (w, m) (entries t') /\ lists m xs) -> In w (map fst (entries t)).
Proof. intros H (m & xs & A & B). destruct (proj1 (H w xs)) as (m2 & C & D); [eauto|]. change w with (fst (w, m2)). now apply in_map. Qed.
Lemma same_db_src a b : same_db a b -> map src (msgs b) = map src (msgs a).
Proof. intros (_ & H & _). induction H as [|x y l l' [E _] H IH]; [reflexivity|]. cbn [map]. now rewrite E, IH. Qed.
Lemma old_not_new : [S_file (bs "/m/b") 2 20] <> map src (msgs old_db).
Proof. vm_compute. discriminate. Qed.
Lemma new_has_bella : exists m, In (bs "bella", m) (entries (d_from new_db)) /\ lists m [0].
Proof.
  destruct (entries (d_from new_db)) as [|[w m] l] eqn:E3; [vm_compute in E3; discriminate|].
  exists m. vm_compute in E3. injection E3 as <- <- <-. split; [left; reflexivity|]. eexists. vm_compute. reflexivity.
Qed.
Lemma bella_alice : ~ In (bs "bella") [bs "alice"].
Proof. vm_compute. intros [H|[]]. discriminate. Qed.
Lemma same_db_from a b : same_db a b -> same_words (d_from a) (d_from b).
Proof.
  intros (_ & _ & _ & _ & H & _). unfold tabs in H.
  assert (G : forall x1 x2 x3 l y1 y2 y3 l', Forall2 same_words (x1 :: x2 :: x3 :: l) (y1 :: y2 :: y3 :: l') -> same_words x3 y3).
  { clear. intros ? ? ? ? ? ? ? ? F. inversion F as [|? ? ? ? _ F2]. subst. inversion F2 as [|? ? ? ? _ F3]. subst. inversion F3. assumption. }
  exact (G _ _ _ _ _ _ _ _ H).
Qed.
Lemma not_new db' : map fst (entries (d_from db')) = [bs "alice"] -> ~ same_db new_db db'.
Proof.
  intros H HS. apply same_db_from in HS. destruct (proj2 (HS (bs "bella") [0]) new_has_bella) as (m & A & _).
  apply (in_map fst) in A. rewrite H in A. exact (bella_alice A).
Qed.
Lemma crash_refuted : exists old new F ws len k D db',
  db_ok ex_h old /\ db_ok ex_h new /\ write_database old [] = Ok F /\ write_trace new = Ok (ws, len) /\
  apply_writes (firstn k ws) (resize F (file_len new)) = Ok D /\
  load ex_h (fun _ => 0) 0 D = Ok db' /\ ~ same_db old db' /\ ~ same_db new db'.
Proof.
  destruct torn_loads as (db' & HL & H1 & H2).
  destruct (write_database old_db []) as [F|] eqn:E; [|vm_compute in E; discriminate].
  destruct (apply_writes (firstn 45 (stores new_db)) (resize F (file_len new_db))) as [D|] eqn:E2.
  2:{ exfalso. vm_compute in E. injection E as <-. vm_compute in E2. discriminate. }
  assert (HT : torn_file = D) by (unfold torn_file; rewrite E; cbn [get_ok]; now rewrite E2). rewrite HT in HL.
  assert (E4 : write_trace new_db = Ok (stores new_db, file_len new_db)) by (vm_compute; reflexivity).
  exists old_db, new_db, F, (stores new_db), (file_len new_db), 45%nat, D, db'. split; [apply old_db_ok|]. split; [apply new_db_ok|]. split; [exact E|]. split; [exact E4|].
  split; [exact E2|]. split; [exact HL|]. split.
  - intros HS. apply same_db_src in HS. rewrite H1 in HS. apply old_not_new, HS.
  - exact (not_new db' H2).
Qed.
