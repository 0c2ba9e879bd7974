(* Two sessions of the whole program. *)
From Verif Require Import Base M_Encoding M_TokTable S_TokTable M_DbFile S_DbFile M_Search S_Search M_Tokens S_Tokens M_Mbox S_Mbox S_Header S_Words S_Rfc822 S_Multipart S_Mime M_Rfc822 M_Update S_Update M_Session S_Session M_Program S_Program
  L_TokTable L_DbFile7 L_Output3 L_Search6 L_Update13 L_Update14 L_Session2 L_Session5 L_Session6 L_Multipart2 L_Rfc822b L_Rfc822d L_Words3 L_Mime4 L_Mime5 L_Program L_Program2.
From Verif Require M_Paths M_Dates L_Zone.
Local Open Scope N_scope.

Definition pr_machine : machine := {| m_alnum := isalnum; m_isspc := isspace; m_mktime := fun y m d => snd (L_Zone.utc_mk {| M_Dates.tm_year := y; M_Dates.tm_mon := m; M_Dates.tm_mday := d; M_Dates.tm_hour := 0; M_Dates.tm_min := 0; M_Dates.tm_sec := 0; M_Dates.tm_isdst := 0 |}); m_stack := repeat 0 64 |}.
Lemma pr_machine_ok : machine_ok pr_machine.
Proof. constructor; [reflexivity| |reflexivity]. intros c I. cbn in I. intuition subst; reflexivity. Qed.
Definition pr_disc (files : list (bytes * (N * bytes))) (t : bytes) : disc := {|
  d_stat := fun p => match lookup p files with Some (mt, t) => Some (M_Paths.K_reg, u32 mt, u32 (N.of_nat (length t))) | None => None end;
  d_lstat := fun p => match lookup p files with Some (mt, t) => Some (false, u32 mt, u32 (N.of_nat (length t))) | None => None end;
  d_map := fun p => match lookup p files with Some (_, []) => Map_empty | Some (_, t) => if N.of_nat (length t) <? 2 ^ 32 then Mapped t else Map_failed | None => Map_failed end;
  d_server := fun _ => Some t;
  d_junk_msg := fun _ => {| src := S_dead; date := 99; tid := 0; seen := true; replied := false; flagged := false |};
  d_junk_sum := repeat 0 16 |}.
Lemma pr_disc_ok files t : disc_ok (pr_disc files t).
Proof.
  constructor; cbn.
  - intros p k mt sz. destruct (lookup p files) as [[m t0]|]; [|discriminate]. intros [= <- <- <-]. split; apply u32_is_word.
  - intros p k mt sz. destruct (lookup p files) as [[m t0]|]; [|discriminate]. intros [= <- <- <-]. split; apply u32_is_word.
  - intros p va. destruct (lookup p files) as [[m t0]|]; [|discriminate]. destruct t0 as [|c t0]; [discriminate|]. destruct (_ <? _) eqn:L; [|discriminate]. intros [= <-]. now apply N.ltb_lt.
  - intros n. split; reflexivity.
  - reflexivity.
Qed.
(* no piece of whole lines breaks the parser *)
Definition linesb (t : bytes) : bool := match rev t with [] => true | c :: _ => c =? 10 end.
Lemma linesb_ok t : S_Multipart.whole_lines t -> linesb t = true.
Proof. intros [->|(u & ->)]; [reflexivity|]. unfold linesb. rewrite rev_app_distr. reflexivity. Qed.
Definition soundb (M : machine) (t : bytes) : bool := in_memory t && match data_to_rfc822 (m_isspc M) (m_mktime M) t (length t) with Ok _ => true | Err _ => false end.
Lemma soundb_ok M t : soundb M t = true -> sound_text M t.
Proof. unfold soundb. intros H. apply andb_true_iff in H as [A B]. split; [exact (memory_small _ A)|]. destruct (data_to_rfc822 _ _ _ _) as [r|]; [exists r; reflexivity|discriminate]. Qed.
Definition endsb (M : machine) (v : bytes) : bool := forallb (fun k => if linesb (firstn k v) || (k =? length v)%nat then soundb M (firstn k v) else true) (seq 0 (S (length v))).
Fixpoint piecesb (M : machine) (start : bool) (v : bytes) : bool :=
  (if start then endsb M v else true) && match v with [] => true | c :: v' => piecesb M (c =? 10) v' end.
Lemma endsb_ok M v : endsb M v = true -> forall t b, v = t ++ b -> S_Multipart.whole_lines t \/ b = [] -> sound_text M t.
Proof.
  intros H t b -> W. unfold endsb in H. rewrite forallb_forall in H. specialize (H (length t) ltac:(apply in_seq; rewrite app_length; lia)). rewrite firstn_app, Nat.sub_diag, firstn_all in H. cbn [firstn] in H. rewrite app_nil_r in H.
  destruct W as [W| ->].
  - rewrite (linesb_ok _ W) in H. cbn [orb] in H. now apply soundb_ok.
  - rewrite app_nil_r, Nat.eqb_refl, orb_true_r in H. now apply soundb_ok.
Qed.
Lemma piecesb_ok M : forall a start v t b, piecesb M start v = true -> v = a ++ t ++ b -> (a = [] /\ start = true) \/ (exists u, a = u ++ [10]) -> S_Multipart.whole_lines t \/ b = [] -> sound_text M t.
Proof.
  induction a as [|c a IH]; intros start v t b H -> ST W.
  - destruct ST as [[_ ->]|(u & E)]; [|destruct u; discriminate]. cbn [app] in H. destruct (t ++ b) as [|c v] eqn:E; cbn [piecesb] in H; apply andb_true_iff in H as [H _]; rewrite <- E in H; eapply endsb_ok; eauto.
  - destruct ST as [[E _]|(u & E)]; [discriminate|]. cbn [app piecesb] in H. apply andb_true_iff in H as [_ H]. eapply IH; [exact H|reflexivity| |exact W].
    destruct u as [|d u]; injection E as -> E; subst a; [left; split; reflexivity|right; exists u; reflexivity].
Qed.
Definition pr_session D fnd : session := {| s_world := program_world pr_machine D; s_fast := false; s_symlinks := false; s_purge := false; s_checks := true; s_key := 7; s_found := fnd; s_paths := [bs "/box"];
  s_index := fun _ => 0; s_current := 5; s_highest := 0%Z |}.
Lemma pr_mapped files t p va : d_map (pr_disc files t) p = Mapped va -> exists q mt, In (q, (mt, va)) files /\ q = p.
Proof.
  cbn [pr_disc d_map]. unfold lookup. destruct (find _ files) as [[q [mt x]]|] eqn:E; [|discriminate]. cbn [option_map snd]. apply find_some in E as [I E]. apply bytes_eqb_eq in E. cbn [fst] in E.
  destruct x as [|c x]; [discriminate|]. destruct (_ <? _); [|discriminate]. intros X. injection X as <-. exists q, mt. auto.
Qed.
Lemma pr_sound (files : list (bytes * (N * bytes))) t fnd : forallb (fun e => if bytes_eqb (fst e) (bs "/box") then piecesb pr_machine true (snd (snd e)) else soundb pr_machine (snd (snd e))) files = true -> soundb pr_machine t = true ->
  forallb (fun x => negb (bytes_eqb (fpath x) (bs "/box"))) fnd = true -> S_Program.sound pr_machine (pr_disc files t) (pr_session (pr_disc files t) fnd).
Proof.
  intros H S NB. rewrite forallb_forall in H, NB. constructor; cbn [pr_session s_found s_paths].
  - intros p va I E. apply pr_mapped in E as (q & mt & J & ->). specialize (H _ J). specialize (NB _ I). cbn [fst snd fpath] in H, NB. apply negb_true_iff in NB. rewrite NB in H. now apply soundb_ok.
  - intros p va a u b [<-|[]] E EV WA WU. apply pr_mapped in E as (q & mt & J & ->). specialize (H _ J). cbn [fst snd] in H. replace (bytes_eqb (bs "/box") (bs "/box")) with true in H by reflexivity.
    eapply piecesb_ok; [exact H|exact EV| |exact WU]. destruct WA as [->|WA]; [left; split; reflexivity|right; exact WA].
  - intros p _. exists t. split; [reflexivity|]. now apply soundb_ok.
Qed.

(* First there is a message in a file, one in a mailbox and one on the server; then another file is there. *)
Definition pr_box : bytes := L_Multipart2.nl "From joe Mon Nov 16 12:00:00 2026" ++ L_Multipart2.nl "Subject: box" ++ L_Multipart2.nl "" ++ L_Multipart2.nl "mild greetings".
Definition pr_served : bytes := L_Multipart2.nl "To: ann@x.org, Bob" ++ L_Multipart2.nl "Subject: served" ++ L_Multipart2.nl "" ++ L_Multipart2.nl "hello from there".
Definition pr_small : bytes := L_Multipart2.nl "From: Joe <joe@y.org>" ++ L_Multipart2.nl "Subject: =?utf-8?q?caf=C3=A9?= two" ++ L_Multipart2.nl "" ++ L_Multipart2.nl "bye".
Definition pr_files1 := [(bs "/m/1", (10, ex_mime)); (bs "/box", (30, pr_box))].
Definition pr_files2 := [(bs "/m/1", (10, ex_mime)); (bs "/m/2", (20, pr_small)); (bs "/box", (30, pr_box))].
Definition pr_d1 := pr_disc pr_files1 pr_served.
Definition pr_d2 := pr_disc pr_files2 pr_served.
Definition pr_s1 := pr_session pr_d1 [imap "s1"; file "/m/1"].
Definition pr_s2 := pr_session pr_d2 [imap "s1"; file "/m/1"; file "/m/2"].
Definition pr_f1 : option bytes := Eval vm_compute in get_file (index_session pr_s1 100 None).
Definition pr_f2 : option bytes := Eval vm_compute in get_file (index_session pr_s2 100 pr_f1).
Definition pr_F2 : bytes := Eval vm_compute in match pr_f2 with Some F => F | None => [] end.
Definition pr_db : database := Eval vm_compute in match load (w_hash (s_world pr_s2)) (fun _ => 0) 0 pr_F2 with Ok db => db | Err _ => new_database 0 end.
Definition pr_h := [(pr_s2, pr_f1); (pr_s1, None)].
Lemma pr_fit files t fnd f : let s := pr_session (pr_disc files t) fnd in
  NoDup fnd -> forallb (fun x => forallb (fun x => (0 <? x) && (x <? 256)) (fpath x)) fnd = true -> L_Session6.small s f = true -> L_Session6.sound s f = true -> fit s f.
Proof.
  intros s ND CS SM SO. constructor; cbn [s pr_session s_world s_key s_current s_found s_paths s_index s_symlinks].
  - apply program_ok; [exact pr_machine_ok|apply pr_disc_ok].
  - reflexivity.
  - reflexivity.
  - exact ND.
  - apply Forall_forall. intros x I. apply c_stringb. rewrite forallb_forall in CS. now apply CS.
  - repeat constructor; cbn; intuition discriminate.
  - repeat constructor; now apply c_stringb.
  - intros p _. cbn. destruct (lookup p files) as [[mt x]|]; [|discriminate]. destruct x; [discriminate|]. destruct (_ <? _); discriminate.
  - intros. lia.
  - intros db boxes E EB. unfold L_Session6.sound in SO. fold s in SO, E. rewrite E in SO. apply andb_true_iff in SO as [_ SO]. cbn [s pr_session s_world s_found s_paths s_symlinks] in SO. rewrite EB in SO. now apply N.leb_le.
  - intros db mb E I. unfold L_Session6.sound in SO. fold s in SO, E. rewrite E in SO. apply andb_true_iff in SO as [SO _]. rewrite forallb_forall in SO. apply whole_ok. now apply SO.
  - intros fuel c db E. unfold L_Session6.small in SM. destruct (update_index s 100 f) as [[c' db']|] eqn:E'; [|discriminate]. pose proof (update_det _ _ _ _ _ _ E E') as X. injection X as -> ->. now apply N.ltb_lt.
Qed.
Lemma pr_history : history pr_h (Some pr_F2).
Proof.
  unfold pr_h. apply (History_next _ 100%nat pr_s2 pr_f1 (Some pr_F2)); [|apply pr_fit; [repeat constructor; cbn; intuition discriminate|now vm_compute|now vm_compute|now vm_compute]|repeat constructor|now vm_compute].
  apply (History_next _ 100%nat pr_s1 None pr_f1); [constructor|apply pr_fit; [repeat constructor; cbn; intuition discriminate|now vm_compute|now vm_compute|now vm_compute]|repeat constructor|now vm_compute].
Qed.
Lemma pr_run_by : run_by pr_machine pr_h.
Proof.
  unfold run_by, pr_h. constructor; [exists pr_d2; split; [apply pr_disc_ok|split; [reflexivity|apply pr_sound; now vm_compute]]|].
  constructor; [exists pr_d1; split; [apply pr_disc_ok|split; [reflexivity|apply pr_sound; now vm_compute]]|constructor].
Qed.
(* what was there is unchanged *)
Lemma pr_look p : lookup p pr_files1 = None \/ lookup p pr_files2 = lookup p pr_files1.
Proof.
  unfold lookup, pr_files1, pr_files2. cbn [find fst]. destruct (bytes_eqb (bs "/m/1") p); [right; reflexivity|]. destruct (bytes_eqb (bs "/box") p) eqn:E3; [|left; reflexivity].
  destruct (bytes_eqb (bs "/m/2") p) eqn:E2; [|right; reflexivity]. apply bytes_eqb_eq in E2, E3. rewrite <- E3 in E2. discriminate.
Qed.
Lemma pr_same p : lookup p pr_files1 <> None -> d_map pr_d2 p = d_map pr_d1 p.
Proof. intros H. destruct (pr_look p) as [E|E]; [contradiction|]. unfold pr_d1, pr_d2, pr_disc. cbn [d_map]. rewrite E. reflexivity. Qed.
Lemma pr_there p x : d_stat pr_d1 p = Some x \/ (exists y, d_lstat pr_d1 p = Some y) \/ (exists y, d_map pr_d1 p = Mapped y) -> lookup p pr_files1 <> None.
Proof. unfold pr_d1, pr_disc. cbn [d_stat d_lstat d_map]. intros H E. rewrite E in H. destruct H as [H|[[y H]|[y H]]]; discriminate. Qed.
Lemma pr_orderly : orderly pr_h.
Proof.
  split.
  - unfold pr_h. constructor; [|constructor; [constructor|constructor]]. constructor; [|constructor]. cbn [fst]. constructor; cbn [pr_s1 pr_s2 pr_session s_world s_found s_fast program_world w_stat w_lstat w_map w_imap w_csum].
    + intros p mt sz _ E _. apply pr_same. apply (pr_there p _ (or_introl E)).
    + intros p _ _. reflexivity.
    + intros p l0 l mt sz E _. apply pr_same. apply (pr_there p (M_Paths.K_reg, 0, 0)). right; left; eauto.
    + intros p va0 va st ln E0 E _ _ _. assert (X : d_map pr_d2 p = d_map pr_d1 p) by (apply pr_same; apply (pr_there p (M_Paths.K_reg, 0, 0)); right; right; eauto). rewrite E, E0 in X. injection X as ->. reflexivity.
  - repeat constructor; cbn [fst snd]; apply ex_undisturbed; now vm_compute.
Qed.
Lemma pr_result : holds_index (s_world pr_s2) pr_F2 pr_db /\ map src (msgs pr_db) = [S_file (bs "/m/1") 10 318; S_imap (bs "s1"); S_mbox 0 0; S_file (bs "/m/2") 20 62] /\
  exists r, open_db pr_F2 = Ok r /\ search no_dates pr_F2 r false [bs "b:hello"] = Ok [0; 1] /\ search no_dates pr_F2 r false [bs "f:joe"] = Ok [0; 3].
Proof. split; [now vm_compute|]. split; [now vm_compute|]. eexists. split; [vm_compute; reflexivity|]. split; now vm_compute. Qed.
(* /m/1 is a message that can be read, and its part bears the name of the sender *)
Lemma pr_legible : legible (map unfolded ex_fs) ex_nodes.
Proof.
  constructor.
  - intros name v I J. cbn [In] in I. destruct I as [<-|[<-|[<-|[<-|[]]]]]; vm_compute in J; try contradiction. destruct J as [<-|[]]. eexists. split; [apply reads_plain; apply no_word; vm_compute; lia|vm_compute; intuition discriminate].
  - intros name l n [E|[E|[E|[]]]]; try discriminate. injection E as <- <- <-. constructor.
    + intros nm v I J. cbn [In] in I. destruct I as [<-|[<-|[<-|[<-|[]]]]]; vm_compute in J; try contradiction. destruct J as [<-|[]]. eexists. split; [apply reads_plain; apply no_word; vm_compute; lia|vm_compute; intuition discriminate].
    + intros nm l n [E|[]]. discriminate.
Qed.
Lemma pr_bears : bears isalnum (map unfolded ex_fs) ex_nodes From_ (bs "joe").
Proof.
  eapply Be_mail; [right; left; reflexivity|]. eapply Be_from; [vm_compute; reflexivity|]. left. exists (bs " joe"). split; [apply reads_plain; apply no_word; vm_compute; lia|]. split; [vm_compute; intuition discriminate|].
  exists 1%nat, [32], []. split; [reflexivity|]. split; [reflexivity|]. split; [discriminate|]. split; [repeat constructor; left; reflexivity|]. split; [|intros c b' X; discriminate].
  intros [|? [|]] c X; try discriminate. injection X as <-. intros [Y|Y]; discriminate.
Qed.
