(* The theorems about results on a server, from the index file on; and an example. *)
From Verif Require Import Base M_DbFile S_DbFile M_Search S_Search M_Output S_Output L_DbFile5 L_DbFile6 L_DbFile7 L_Search6 L_Output4 L_Output9 M_Imap S_Imap S_Server S_Deliver L_Imap6 L_Imap7 L_Deliver L_Deliver2 L_Deliver3 M_ImapOut S_ImapOut L_ImapOut.
Local Open Scope N_scope.

Section Whole.
Context (hashf : N -> bytes -> N) (csum : bytes -> bytes) (expand : bytes -> bytes -> option bytes).
Context (S : Type) (serve : S -> bytes -> S * option (list bytes)) (view : S -> post) (mf : bytes).
Context (SV : serves view serve) (CO : carries_out view serve) (NM : name_ok mf).
Context (db : database) (old F : bytes) (r : read_db) (d : disc).
Context (OK : db_ok hashf db) (EW : write_database db old = Ok F) (EO : open_db F = Ok r) (SMALL : places_small db) (MAPS : maps_small expand d).
Definition whole_filled := out_filled csum expand S serve view mf d db F r (out_written hashf db old F r OK EW EO) SMALL MAPS SV CO NM.
Definition whole_added := out_added csum expand S serve view mf d db F r (out_written hashf db old F r OK EW EO) SMALL MAPS SV CO NM.
Definition whole_changed := out_changed csum expand S serve view mf d db F r (out_written hashf db old F r OK EW EO) SMALL SV NM.
Definition whole_gone := out_gone csum expand S serve view mf d db F r (out_written hashf db old F r OK EW EO) SMALL SV CO NM.
End Whole.

Definition net_db := mk_db 5
  [mk_msg (S_file (bs "/m/new/1") 10 20) 100 0; mk_msg (S_mbox 0 0) 101 1; mk_msg S_dead 0 2; mk_msg (S_mbox 0 1) 102 0;
   mk_msg (S_imap (bs "77:19:INBOX")) 103 3]
  [ex_box] [(bs "alice", 0); (bs "bob", 1); (bs "alice", 3); (bs "Anna", 4)] [(bs "hello", 0); (bs "heap", 1); (bs "hello", 1); (bs "hello", 4)] [].
Definition net_F := file_of net_db.
Definition net_msg (i : N) : msg := nth (N.to_nat i) (msgs net_db) (mk_msg S_dead 0 0).
Definition net_letter (m : msg) (t : bytes) : letter :=
  {| l_uid := []; l_flags := (if seen m then [bs "\Seen"] else []) ++ (if replied m then [bs "\Answered"] else []) ++ (if flagged m then [bs "\Flagged"] else []); l_text := t |}.
Definition net_letters : list letter := [net_letter (net_msg 3) text1; {| l_uid := bs "19"; l_flags := []; l_text := mail2 |}; net_letter (net_msg 0) (bs "user mail"); net_letter (net_msg 1) text0].
(* the mailbox with other text in it, and without the mailbox *)
Definition net_disc1 : disc := mk_disc [(bs "/m/new/1", File 0); (bs "/m/box", File 1)] [bs "user mail"; text1 ++ text0].
Definition net_disc2 : disc := mk_disc [(bs "/m/new/1", File 0)] [bs "user mail"].
Lemma net_db_ok : db_ok ex_h net_db.
Proof.
  apply mk_db_ok.
  - now vm_compute.
  - repeat constructor; cbn; try (now vm_compute); apply c_stringb_ok; now vm_compute.
  - repeat constructor; cbn; try (now vm_compute); try discriminate. intros p [= <-]. apply c_stringb_ok. now vm_compute.
  - intros b. destruct (N.eqb_spec b 0) as [->|H]; [exists 2%nat; now vm_compute|exists 0%nat].
    unfold run_of. cbn. destruct b as [|p]; [congruence|reflexivity].
  - intros m fi mi H E. cbn in H. destruct H as [<-|[<-|[<-|[<-|[<-|[]]]]]]; cbn in E; try discriminate E; injection E as <- <-.
    + exists ex_box, 0, 40. repeat split; now vm_compute.
    + exists ex_box, 40, 50. repeat split; now vm_compute.
  - now vm_compute.
Qed.
Lemma net_written : write_database net_db [] = Ok net_F /\ open_db net_F = Ok (exp_db net_db).
Proof. split; now vm_compute. Qed.
Lemma net_places : places_small net_db.
Proof.
  intros m fi mi H E. cbn in H. destruct H as [<-|[<-|[<-|[<-|[<-|[]]]]]]; cbn in E; try discriminate E; injection E as <- <-.
  - exists (bs "/m/box"), 0, 40, (repeat 1 16). split; [exists 0, 0, ex_box; repeat split; now vm_compute|]. split; now vm_compute.
  - exists (bs "/m/box"), 40, 50, (repeat 2 16). split; [exists 0, 1, ex_box; repeat split; now vm_compute|]. split; now vm_compute.
Qed.
Lemma net_messages : Forall2 (fun i x => message net_db i = Some x) [3; 4; 0; 1] (map net_msg [3; 4; 0; 1]).
Proof. cbn [map]. repeat (constructor; [reflexivity|]). constructor. Qed.
Lemma sent_b t : forallb (fun c => (c <? 256) && negb (c =? 92)) t && (blen t <? 2 ^ 31) = true -> can_be_sent t.
Proof.
  intros H. apply andb_true_iff in H as [H L]. apply N.ltb_lt in L. rewrite forallb_forall in H.
  split; [split; [|exact L]|]; [intros c Hc; apply H in Hc; apply andb_true_iff in Hc as [X _]; now apply N.ltb_lt|].
  intros X. apply H in X. discriminate.
Qed.
Lemma net_wanted : Forall2 (wanted ex_csum plain_file ex_disc net_db ex_post (bs "found")) (map net_msg [3; 4; 0; 1]) net_letters.
Proof.
  cbn [map]. constructor; [|constructor; [|constructor; [|constructor; [|constructor]]]].
  - exists (bs "/m/box"), text1. split; [|split; [apply sent_b; now vm_compute|split; reflexivity]]. split.
    + exists 40, 50, (repeat 2 16). eexists. split; [exists 0, 1, ex_box; repeat split; now vm_compute|]. split; vm_compute; reflexivity.
    + exists 40, 50. exists 0, 1, ex_box. repeat split; now vm_compute.
  - exists (bs "INBOX"). eexists. split; [discriminate|]. split; [reflexivity|]. split; [right; right; left; reflexivity|reflexivity].
  - exists (bs "user mail"). split; [now vm_compute|]. split; [apply sent_b; now vm_compute|split; reflexivity].
  - exists (bs "/m/box"), text0. split; [|split; [apply sent_b; now vm_compute|split; reflexivity]]. split.
    + exists 0, 40, (repeat 1 16). eexists. split; [exists 0, 0, ex_box; repeat split; now vm_compute|]. split; vm_compute; reflexivity.
    + exists 0, 40. exists 0, 0, ex_box. repeat split; now vm_compute.
Qed.
Lemma net_runs : exists k, output_imap ex_csum plain_file post model_serve net_F (exp_db net_db) true (bs "found") ex_disc ex_conn [3; 4; 0; 1] = Ok k /\
  map l_text (letters_in (k_srv k) (bs "found")) = [text1; mail2; bs "user mail"; text0].
Proof. eexists. split; vm_compute; reflexivity. Qed.
Lemma net_changed : exists t, text_now plain_file net_disc1 net_db (net_msg 1) (bs "/m/box") t /\ t <> [] /\ ~ unchanged ex_csum plain_file net_disc1 net_db (net_msg 1) (bs "/m/box") t.
Proof.
  exists (firstn 40 text1). split; [|split; [discriminate|]].
  - exists 0, 40, (repeat 1 16). eexists. split; [exists 0, 0, ex_box; repeat split; now vm_compute|]. split; vm_compute; reflexivity.
  - intros (_ & st & ln & fi & mi & mb & E & E1 & _ & _ & _ & E5). vm_compute in E. injection E as <- <-. vm_compute in E1. injection E1 as <-. vm_compute in E5. discriminate.
Qed.
Lemma net_gone : box_gone plain_file net_disc2 net_db (net_msg 1).
Proof. exists (bs "/m/box"), 0, 40, (repeat 1 16). split; [exists 0, 0, ex_box; repeat split; now vm_compute|now vm_compute]. Qed.
