(* A small disc with the mail of ex_db on it, for the examples. *)
From Coq Require Import Permutation.
From Verif Require Import Base M_DbFile S_DbFile M_Tokens M_Search M_Paths M_Output S_Search S_Update S_Output L_DbFile5 L_DbFile6 L_DbFile7 L_Search6 L_TokTable L_Output L_Output2 L_Output3 L_Output4 L_Output5 L_Output6 L_Output7 L_Output8.
Local Open Scope N_scope.

Definition text0 : bytes := bs "From: bob" ++ [10; 10] ++ bs "heap, hello" ++ repeat 46 17 ++ [10].
Definition text1 : bytes := bs "From: alice" ++ [10; 10] ++ bs "good bye" ++ repeat 46 28 ++ [10].
Definition ex_csum (t : bytes) : bytes := repeat (if bytes_eqb t text0 then 1 else if bytes_eqb t text1 then 2 else 0) 16.
Definition plain_file (p b : bytes) : option bytes := Some b.
Definition ex_imap (p : bytes) : option bytes := Some (bs "From: Anna").
Definition ex_names (l : list (bytes * node)) (p : bytes) : option node := match find (fun x => bytes_eqb (fst x) p) l with Some (_, n) => Some n | None => None end.
Definition ex_data (l : list bytes) (i : N) : bytes := nth (N.to_nat i) l [].
Definition mk_disc l ds : disc := {| name := ex_names l; data := ex_data ds; fresh := N.of_nat (length ds) |}.
Definition ex_disc : disc := mk_disc [(bs "/m/new/1", File 0); (bs "/m/box", File 1); (bs "/r/mine", File 2); (bs "/r/007", File 2)]
  [bs "user mail"; text0 ++ text1; bs "notes"].
Definition ex_F := file_of ex_db.
Definition ex_search hard ft augment dir args d := search_top ex_csum plain_file ex_imap hard (fun _ => None) None false augment ex_F dir args ft d.
Definition look (x : res (outcome * N)) (ps : list bytes) : option (list (option node * option bytes) * bytes * bool * N) :=
  match x with
  | Ok (o, c) => Some (map (fun p => (name (o_disc o) p, match name (o_disc o) p with Some (File i) => Some (data (o_disc o) i) | _ => None end)) ps, o_stdout o, o_warned o, c)
  | Err _ => None
  end.

Lemma ex_written : write_database ex_db [] = Ok ex_F /\ open_db ex_F = Ok (exp_db ex_db).
Proof. split; now vm_compute. Qed.
Lemma disc_files l ds : forallb (fun x => match snd x with File i => i <? N.of_nat (length ds) | _ => true end) l = true -> disc_ok (mk_disc l ds).
Proof.
  intros H p i E. cbn in *. unfold ex_names in E. destruct (find (fun x => bytes_eqb (fst x) p) l) as [[q n]|] eqn:X; [|discriminate].
  injection E as ->. apply find_some in X as [X _]. rewrite forallb_forall in H. apply H in X. cbn [snd] in X. now apply N.ltb_lt.
Qed.
Lemma ex_disc_ok : disc_ok ex_disc.
Proof. apply disc_files. now vm_compute. Qed.
Lemma ex_maps l ds : forallb (fun b => blen b <? 2 ^ 31) ds = true -> maps_small plain_file (mk_disc l ds).
Proof.
  intros H p. unfold map_file, plain_file. destruct (stat_node (mk_disc l ds) p) as [[i|t|]|]; eauto. cbn [data mk_disc]. unfold ex_data.
  destruct (nth_in_or_default (N.to_nat i) ds []) as [I|E]; [|rewrite E; eauto].
  destruct (nth (N.to_nat i) ds []) as [|c b] eqn:E; [eauto|]. rewrite forallb_forall in H. apply H in I. apply N.ltb_lt in I. apply N.leb_gt in I. rewrite I. eauto.
Qed.
Lemma ex_disc_maps : maps_small plain_file ex_disc.
Proof. apply ex_maps. now vm_compute. Qed.
Lemma ex_places : places_small ex_db.
Proof.
  intros m fi mi H E. cbn in H. destruct H as [<-|[<-|[<-|[<-|[<-|[]]]]]]; cbn in E; try discriminate E; injection E as <- <-.
  - exists (bs "/m/box"), 0, 40, (repeat 1 16). split; [exists 0, 0, ex_box; repeat split; now vm_compute|]. split; now vm_compute.
  - exists (bs "/m/box"), 40, 50, (repeat 2 16). split; [exists 0, 1, ex_box; repeat split; now vm_compute|]. split; now vm_compute.
Qed.
Lemma ex_ends m w st ln ck : In m (msgs ex_db) -> indexed_at ex_db m w st ln ck -> st + ln < 2 ^ 31.
Proof.
  intros H (fi & mi & mb & E & E1 & E2 & E3 & E4 & E5). cbn in H. destruct H as [<-|[<-|[<-|[<-|[<-|[]]]]]]; cbn in E; try discriminate E; injection E as <- <-;
    cbn in E1; injection E1 as <-; cbn in E3, E4; injection E3 as <-; injection E4 as <-; now vm_compute.
Qed.
Lemma ex_mail_file m w : In m (msgs ex_db) -> mail_file ex_db m w -> w = bs "/m/new/1" \/ w = bs "/m/box".
Proof.
  intros H [(mt & sz & E)|(st & ln & ck & fi & mi & mb & E & E1 & E2 & _)]; cbn in H; destruct H as [<-|[<-|[<-|[<-|[<-|[]]]]]]; cbn in E; try discriminate E.
  - injection E as <- _ _. now left.
  - injection E as <- <-. cbn in E1. injection E1 as <-. cbn in E2. injection E2 as <-. now right.
  - injection E as <- <-. cbn in E1. injection E1 as <-. cbn in E2. injection E2 as <-. now right.
Qed.
Lemma ex_not_in ft p : firstn 2 p = bs "/m" -> ~ in_match_folder ft (bs "/r") p.
Proof.
  intros H X. assert (Y : forall x, p = bs "/r" ++ x -> False) by (intros x ->; discriminate H).
  destruct ft; cbn [in_match_folder] in X.
  - destruct X as [->|[->|[->|[->|[(n & _ & _ & ->)|(n & _ & _ & ->)]]]]]; try discriminate H; (rewrite <- app_assoc in Y || idtac); eapply Y; reflexivity.
  - destruct X as [->|(n & _ & ->)]; [discriminate H|]. eapply Y. reflexivity.
  - subst p. discriminate H.
  - exact X.
Qed.
Lemma ex_apart ft : mail_apart ft (bs "/r") ex_disc ex_db.
Proof.
  intros m w Hm HF q R. apply (ex_mail_file m w Hm) in HF. assert (q = w).
  { destruct HF as [-> | ->]; inversion R as [|p t q' E]; try reflexivity; vm_compute in E; discriminate. }
  subst q. apply ex_not_in. destruct HF as [-> | ->]; reflexivity.
Qed.
Lemma ex_names_never l p : forallb (fun x => match snd x with Dir => false | _ => true end) l = true -> ex_names l p <> Some Dir.
Proof.
  intros H E. unfold ex_names in E. destruct (find (fun x => bytes_eqb (fst x) p) l) as [[q n]|] eqn:X; [|discriminate]. injection E as ->.
  apply find_some in X as [X _]. rewrite forallb_forall in H. apply H in X. discriminate X.
Qed.
Lemma ex_ready ft : folder_ready ft ex_disc (bs "/r").
Proof.
  split; [|split].
  - intros p H. left. destruct ft; cbn [In] in H; repeat (destruct H as [<-|H]; [reflexivity|]); destruct H.
  - intros p _. apply ex_names_never. reflexivity.
  - intros _. apply ex_names_never. reflexivity.
Qed.

(* searches *)
Definition ex_mh1 := ex_search false FT_mh false (bs "/r") [bs "b:hello"] ex_disc.
Definition ex_disc1 : disc := match ex_mh1 with Ok (o, _) => o_disc o | Err _ => ex_disc end.
Definition ex_mh2 := ex_search false FT_mh true (bs "/r") [bs "heap"] ex_disc1.

Lemma pick (x : res (outcome * N)) (f : outcome -> bool) : match x with Ok (o, _) => f o | Err _ => false end = true -> exists o c, x = Ok (o, c) /\ f o = true.
Proof. destruct x as [[o c]|e]; [|discriminate]. eauto. Qed.
Definition is_file (n : option node) (i : N) : bool := match n with Some (File j) => j =? i | _ => false end.
Lemma is_file_ok n i : is_file n i = true -> n = Some (File i).
Proof. destruct n as [[j| |]|]; try discriminate. cbn. intros H. apply N.eqb_eq in H. now subst. Qed.
Definition is_none (n : option node) : bool := match n with None => true | _ => false end.

(* An earlier search left a link to the message under the first name; the next search with --augment
   writes its first result there. *)
Lemma augment_overwrites : exists o c,
  search_top ex_csum plain_file ex_imap false (fun _ => None) None false true ex_F (bs "/r") [bs "heap"] FT_mh ex_disc1 = Ok (o, c) /\
  ~ in_match_folder FT_mh (bs "/r") (bs "/m/new/1") /\
  name ex_disc1 (bs "/m/new/1") = Some (File 0) /\ name (o_disc o) (bs "/m/new/1") = Some (File 0) /\
  data ex_disc1 0 = bs "user mail" /\ data (o_disc o) 0 <> bs "user mail".
Proof.
  destruct (pick (search_top ex_csum plain_file ex_imap false (fun _ => None) None false true ex_F (bs "/r") [bs "heap"] FT_mh ex_disc1)
    (fun o => is_file (name (o_disc o) (bs "/m/new/1")) 0 && negb (bytes_eqb (data (o_disc o) 0) (bs "user mail")))) as (o & c & E & H);
    [vm_compute; reflexivity|]. exists o, c. split; [exact E|]. clear E. apply andb_true_iff in H as [H1 H2].
  split; [apply ex_not_in; reflexivity|]. split; [vm_compute; reflexivity|]. split; [now apply is_file_ok|]. split; [vm_compute; reflexivity|].
  apply negb_true_iff, bytes_eqb_neq in H2. exact H2.
Qed.
Lemma cleared_too : exists o c,
  search_top ex_csum plain_file ex_imap false (fun _ => None) None false false ex_F (bs "/r") [bs "b:hello"] FT_mh ex_disc = Ok (o, c) /\
  name ex_disc (bs "/r/007") = Some (File 2) /\ (forall k, mk_mh_path k (bs "/r") <> Ok (bs "/r/007")) /\ name (o_disc o) (bs "/r/007") = None.
Proof.
  destruct (pick (search_top ex_csum plain_file ex_imap false (fun _ => None) None false false ex_F (bs "/r") [bs "b:hello"] FT_mh ex_disc)
    (fun o => is_none (name (o_disc o) (bs "/r/007")))) as (o & c & E & H); [vm_compute; reflexivity|].
  exists o, c. split; [exact E|]. clear E. split; [vm_compute; reflexivity|]. split; [|destruct (name (o_disc o) (bs "/r/007")); [discriminate|reflexivity]].
  intros k E. apply mh_path in E. change (bs "/r/007") with (bs "/r" ++ bs "/" ++ bs "007") in E. apply app_inv_head, app_inv_head in E.
  pose proof (proj1 (show_int_ok (k + 1))) as N7. rewrite <- E in N7. assert (K : k + 1 = 7) by (rewrite <- N7; vm_compute; reflexivity).
  rewrite K in E. vm_compute in E. discriminate.
Qed.
Lemma last_byte_lost : exists o c m t i,
  search_top ex_csum plain_file ex_imap false (fun _ => None) None false false ex_F (bs "/r") [bs "heap"] FT_maildir ex_disc = Ok (o, c) /\
  message ex_db 1 = Some m /\ unchanged ex_csum plain_file ex_disc ex_db m (bs "/m/box") t /\
  name (o_disc o) (bs "/r/cur/123456789.1.mairix:2,FS") = Some (File i) /\ forall s, data (o_disc o) i <> s ++ t.
Proof.
  destruct (pick (search_top ex_csum plain_file ex_imap false (fun _ => None) None false false ex_F (bs "/r") [bs "heap"] FT_maildir ex_disc)
    (fun o => is_file (name (o_disc o) (bs "/r/cur/123456789.1.mairix:2,FS")) 3 && (last (data (o_disc o) 3) 0 =? 46))) as (o & c & E & H); [vm_compute; reflexivity|].
  exists o, c. eexists. exists text0, 3. split; [exact E|]. clear E. apply andb_true_iff in H as [H1 H2]. apply is_file_ok in H1. apply N.eqb_eq in H2.
  split; [vm_compute; reflexivity|]. split.
  - split.
    + exists 0, 40, (repeat 1 16). eexists. split; [exists 0, 0, ex_box; repeat split; now vm_compute|]. split; vm_compute; reflexivity.
    + exists 0, 40. exists 0, 0, ex_box. repeat split; now vm_compute.
  - split; [exact H1|]. intros s E. rewrite E in H2. unfold text0 in H2. rewrite !app_assoc in H2. rewrite last_last in H2. discriminate.
Qed.
(* a message of one byte *)
Definition one_db := mk_db 0 [mk_msg (S_file (bs "/m/1") 1 2) 3 0] [] [] [(bs "word", 0)] [].
Lemma one_db_ok : db_ok ex_h one_db.
Proof. apply one_file_ok; now vm_compute. Qed.
Definition one_disc : disc := mk_disc [(bs "/m/1", File 0)] [bs "x"].
Lemma no_blank : exists o c i, search_top ex_csum plain_file ex_imap false (fun _ => None) None false false (file_of one_db) (bs "/r") [bs "b:word"] FT_mbox one_disc = Ok (o, c) /\
  name (o_disc o) (bs "/r") = Some (File i) /\ data (o_disc o) i <> [] /\ ~ ends_blank (data (o_disc o) i).
Proof.
  destruct (pick (search_top ex_csum plain_file ex_imap false (fun _ => None) None false false (file_of one_db) (bs "/r") [bs "b:word"] FT_mbox one_disc)
    (fun o => is_file (name (o_disc o) (bs "/r")) 1 && (nth 1 (rev (data (o_disc o) 1)) 0 =? ch "x"))) as (o & c & E & H); [vm_compute; reflexivity|].
  exists o, c, 1. split; [exact E|]. clear E. apply andb_true_iff in H as [H1 H2]. apply is_file_ok in H1. apply N.eqb_eq in H2. split; [exact H1|]. split.
  - intros E. rewrite E in H2. discriminate.
  - intros (s & E). rewrite E, rev_app_distr in H2. discriminate.
Qed.
