(* A mailbox to which a mail is appended; and one that is indexed while a mail is being delivered. *)
From Verif Require Import Base M_Encoding M_TokTable S_TokTable M_DbFile S_DbFile M_Search S_Search M_Tokens S_Tokens M_Mbox S_Mbox S_Header S_Words S_Nvp S_Rfc822 S_Multipart S_Mime M_Rfc822 M_Update S_Update M_Session S_Session M_From M_Program S_Program S_Boxes S_Mails
  L_TokTable L_DbFile7 L_Output3 L_Search6 L_Update13 L_Update14 L_Session2 L_Session5 L_Session6 L_Nvp4 L_Multipart L_Multipart2 L_Rfc822b L_Rfc822d L_Words3 L_Mime4 L_Mime5 L_Mime6 L_From4 L_Program L_Program2 L_Program3 L_Boxes5 L_Boxes6.
From Verif Require S_From.
Local Open Scope N_scope.

Definition bx_fs := [line "Subject: parts"; line "Content-Type: multipart/mixed; boundary=""X X"""].
Definition bx_line : bytes := bs "joe Mon Nov 16 12:00:00 2026".
Definition bx_pre : bytes := hd_of bx_fs (nl "intro" ++ nl "--X X" ++ hd_of ex_fs1 (nl "look:")).
Definition bx_text : bytes := nl "look:" ++ nl "From ann Mon Nov 16 12:00:00 2026" ++ nl "hello".
Definition bx_p1 : bytes := hd_of ex_fs1 bx_text.
Definition bx_body : bytes := nl "intro" ++ nl "--X X" ++ bx_p1 ++ nl "--X X--".
Definition bx_m1 : mail := (bx_line, hd_of bx_fs bx_body).
Definition bx_fs2 := [line "Subject: two"].
Definition bx_m2 : mail := (bs "- Mon Nov 16 12:00 2026", hd_of bx_fs2 (nl "bye")).

Lemma bx_ct : content "content-type" (map unfolded bx_fs) (Some [Type_of (bs "multipart") (bs "mixed"); Param (bs "boundary") (bs "X X")]).
Proof.
  exists (bs " multipart/mixed; boundary=""X X"""). split; [vm_compute; reflexivity|].
  apply (listed_two _ _ (bs "multipart/mixed") (bs "boundary=""X X""")); [apply (spelled_type (bs "multipart") (bs "mixed")); [discriminate|discriminate|reflexivity]|].
  apply (sp_param (bs "boundary") (bs "X X") [] (34 :: bs "X X" ++ [34])); [apply name_by; reflexivity|constructor|]. apply v_quoted. split; [discriminate|]. now apply quoted_by.
Qed.
Lemma bx_multi : has_type [Type_of (bs "multipart") (bs "mixed"); Param (bs "boundary") (bs "X X")] "multipart" (fun _ => True).
Proof. exists (bs "multipart"), (bs "mixed"), [Param (bs "boundary") (bs "X X")]. split; [reflexivity|]. split; [reflexivity|exact Logic.I]. Qed.
Lemma bx_param : param [Type_of (bs "multipart") (bs "mixed"); Param (bs "boundary") (bs "X X")] (bs "boundary") (Some (bs "X X")).
Proof. exists [Type_of (bs "multipart") (bs "mixed")], (bs "boundary"), []. split; [reflexivity|]. split; [reflexivity|]. none_of. Qed.
Lemma bx_mime1 : S_Mime.message isspace (snd bx_m1) (map unfolded bx_fs) [Leaf None Plain bx_text].
Proof.
  exists bx_body. split; [apply hd_ok; vm_compute; reflexivity|]. split; [left; vm_compute; reflexivity|].
  apply (en_multi isspace _ [Type_of (bs "multipart") (bs "mixed"); Param (bs "boundary") (bs "X X")] None None _ bx_body (bs "X X") [bx_p1]).
  - exact bx_ct.
  - vm_compute. reflexivity.
  - vm_compute. reflexivity.
  - constructor.
  - exact bx_multi.
  - exact bx_param.
  - exists (nl "intro"), (nl "--X X" ++ bx_p1 ++ nl "--X X--"). split; [reflexivity|]. split; [apply free_of_no; vm_compute; reflexivity|].
    refine (parted_part (bs "X X") [10] bx_p1 _ _ (or_introl eq_refl) _ (parted_last (bs "X X") [10])). apply free_of_no; vm_compute; reflexivity.
  - apply (es_cons isspace bx_p1 _ (map unfolded ex_fs1) bx_text [Leaf None Plain bx_text]); [apply hd_ok; vm_compute; reflexivity| |constructor].
    apply (en_leaf isspace _ [Type_of (bs "text") (bs "plain")] None None).
    + exists (bs " text/plain"). split; [vm_compute; reflexivity|]. apply listed_one. apply (spelled_type (bs "text") (bs "plain")); [discriminate|discriminate|reflexivity].
    + vm_compute. reflexivity.
    + vm_compute. reflexivity.
    + constructor.
    + left. exists (bs "text"), (bs "plain"), []. split; [reflexivity|]. split; reflexivity.
    + constructor.
Qed.
Lemma simple_mime fs t : forallb field_b fs = true -> values "date" (map unfolded fs) = [] -> content "content-type" (map unfolded fs) None -> content "content-transfer-encoding" (map unfolded fs) None ->
  content "content-disposition" (map unfolded fs) None -> S_Mime.message isspace (hd_of fs t) (map unfolded fs) [Leaf None Plain t].
Proof. intros H D A B C. exists t. split; [now apply hd_ok|]. split; [now left|]. apply (en_untyped isspace _ None); auto; [constructor|]. now exists None. Qed.
Lemma bx_mime2 : S_Mime.message isspace (snd bx_m2) (map unfolded bx_fs2) [Leaf None Plain (nl "bye")].
Proof. apply simple_mime; vm_compute; reflexivity. Qed.
Lemma no_nul t : forallb (fun c => negb (c =? 0)) t = true -> ~ In 0 t.
Proof. intros F J. rewrite forallb_forall in F. specialize (F _ J). discriminate. Qed.
Lemma bx_open : open_ended isspace bx_pre.
Proof.
  exists (map unfolded bx_fs), (nl "intro" ++ nl "--X X" ++ hd_of ex_fs1 (nl "look:")), [Type_of (bs "multipart") (bs "mixed"); Param (bs "boundary") (bs "X X")], None, (nl "intro" ++ nl "--X X" ++ hd_of ex_fs1 (nl "look:")), (bs "X X").
  split; [apply hd_ok; vm_compute; reflexivity|]. split; [exact bx_ct|]. split; [vm_compute; reflexivity|]. split; [constructor|]. split; [exact bx_multi|]. split; [exact bx_param|].
  split; [apply starts_ok; vm_compute; reflexivity|]. split; [apply no_nul; vm_compute; reflexivity|].
  intros x y Q _ [r R]. apply (nowhere_ok (mark (bs "X X") ++ bs "--") (nl "intro" ++ nl "--X X" ++ hd_of ex_fs1 (nl "look:")) ltac:(vm_compute; reflexivity) x r). rewrite Q, R, <- app_assoc. reflexivity.
Qed.
Lemma begins_more u v : S_From.begins_message u -> S_From.begins_message (u ++ v).
Proof. intros (a & b & -> & S). exists a, (b ++ v). rewrite app_assoc. auto. Qed.
(* the only places of "From " in a text *)
Definition froms (t : bytes) : list nat := filter (fun k => bytes_eqb (firstn 5 (skipn k t)) (bs "From ")) (seq 0 (S (length t))).
Lemma froms_ok t a b : t = a ++ bs "From " ++ b -> In (length a) (froms t).
Proof.
  intros ->. apply filter_In. split; [apply in_seq; rewrite app_length; lia|]. rewrite skipn_app, skipn_all, Nat.sub_diag. cbn [skipn app]. reflexivity.
Qed.
Lemma closed_by t : Forall (fun c => c < 256) t -> (exists m, data_to_rfc822 isspace ex_mktime t (length t) = Ok (m, DTR8_OK)) -> ~ open_ended isspace t.
Proof. intros B (m & P) O. destruct (told_main isspace ex_mktime (fun c _ => eq_refl) t [] m DTR8_OK O B) as [_ X]; [now rewrite app_nil_r|discriminate]. Qed.
Lemma bx_ok1 : mail_ok S_From.begins_message (open_ended isspace) bx_m1.
Proof.
  constructor; cbn [bx_m1 fst snd].
  - vm_compute. intuition discriminate.
  - intros rest. apply begins_more. apply from_main. vm_compute. reflexivity.
  - discriminate.
  - apply starts_ok. vm_compute. reflexivity.
  - apply closed_by; [apply small_by; vm_compute; reflexivity|eexists; vm_compute; reflexivity].
  - intros a b WA E _. pose proof (froms_ok _ _ _ E) as I. assert (EF : froms (hd_of bx_fs bx_body) = [length bx_pre]) by (vm_compute; reflexivity). rewrite EF in I. destruct I as [I|[]].
    assert (EA : a = bx_pre). { transitivity (firstn (length bx_pre) (hd_of bx_fs bx_body)); [rewrite E, I, firstn_app, Nat.sub_diag, firstn_all; cbn [firstn]; now rewrite app_nil_r|vm_compute; reflexivity]. } subst a.
    split; [exact bx_open|]. exists (bs "ann Mon Nov 16 12:00:00 2026"), (nl "hello" ++ nl "--X X--"). split; [|split; [vm_compute; intuition discriminate|discriminate]].
    apply (app_inv_head (bx_pre ++ bs "From ")). rewrite <- app_assoc, <- E. vm_compute. reflexivity.
  - intros l ND H. assert (F : forall a, In a l -> a = bx_pre).
    { intros a I. destruct (H a I) as (_ & b & _ & E & _). pose proof (froms_ok _ _ _ E) as J. assert (EF : froms (hd_of bx_fs bx_body) = [length bx_pre]) by (vm_compute; reflexivity). rewrite EF in J. destruct J as [J|[]].
      transitivity (firstn (length bx_pre) (hd_of bx_fs bx_body)); [rewrite E, J, firstn_app, Nat.sub_diag, firstn_all; cbn [firstn]; now rewrite app_nil_r|vm_compute; reflexivity]. }
    destruct l as [|x [|y l]]; cbn [length]; try lia. exfalso. inversion ND as [|? ? N1 _]; subst. apply N1. rewrite (F x (or_introl eq_refl)), (F y (or_intror (or_introl eq_refl))). now left.
Qed.
Lemma plain_ok l t : froms t = [] -> ~ In 10 l -> looks_like_from_separator l = true -> t <> [] -> starts t = true -> Forall (fun c => c < 256) t ->
  (exists m, data_to_rfc822 isspace ex_mktime t (length t) = Ok (m, DTR8_OK)) -> mail_ok S_From.begins_message (open_ended isspace) (l, t).
Proof.
  intros EF NL SP NE ST SM P. constructor; cbn [fst snd]; auto.
  - intros rest. apply begins_more. now apply from_main.
  - now apply starts_ok.
  - now apply closed_by.
  - intros a b _ E _. pose proof (froms_ok _ _ _ E) as I. rewrite EF in I. destruct I.
  - intros [|a l0] ND H; [cbn; lia|]. exfalso. destruct (H a (or_introl eq_refl)) as (_ & b & _ & E & _). pose proof (froms_ok _ _ _ E) as I. rewrite EF in I. destruct I.
Qed.
Lemma bx_ok2 : mail_ok S_From.begins_message (open_ended isspace) bx_m2.
Proof.
  apply plain_ok; [vm_compute; reflexivity|vm_compute; intuition discriminate|vm_compute; reflexivity|discriminate|vm_compute; reflexivity|apply small_by; vm_compute; reflexivity|eexists; vm_compute; reflexivity].
Qed.
Lemma bx_mails : program_mails pr_machine [bx_m1; bx_m2].
Proof.
  constructor; [split; [exact bx_ok1|]; eexists _, _; split; [exact bx_mime1|apply small_by; vm_compute; reflexivity]|].
  constructor; [split; [exact bx_ok2|]; eexists _, _; split; [exact bx_mime2|apply small_by; vm_compute; reflexivity]|constructor].
Qed.

(* ---- sessions on one mailbox ---- *)
Definition bx_disc (mt : N) (t : bytes) : disc := pr_disc [(bs "/box", (mt, t))] pr_served.
Definition bx_session (mt : N) (t : bytes) : session := pr_session (bx_disc mt t) [].
Definition bx_f1 : option bytes := Eval vm_compute in get_file (index_session (bx_session 30 (box_text [bx_m1])) 100 None).
Definition bx_s1 := bx_session 30 (box_text [bx_m1]).
Definition bx_s2 := bx_session 40 (box_text [bx_m1; bx_m2]).
Definition bx_F2 : bytes := Eval vm_compute in match get_file (index_session bx_s2 100 bx_f1) with Some F => F | None => [] end.
Definition bx_db : database := Eval vm_compute in match load (w_hash (s_world bx_s2)) (fun _ => 0) 0 bx_F2 with Ok db => db | Err _ => new_database 0 end.
Definition bx_h := [(bx_s2, bx_f1); (bx_s1, None)].
Lemma bx_fit mt t f : L_Session6.small (bx_session mt t) f = true -> L_Session6.sound (bx_session mt t) f = true -> fit (bx_session mt t) f.
Proof. intros A B. exact (pr_fit _ _ [] f (NoDup_nil _) eq_refl A B). Qed.
Lemma bx_history : history bx_h (Some bx_F2).
Proof.
  unfold bx_h. apply (History_next _ 100%nat bx_s2 bx_f1 (Some bx_F2)); [|apply bx_fit; now vm_compute|repeat constructor|now vm_compute].
  apply (History_next _ 100%nat bx_s1 None bx_f1); [constructor|apply bx_fit; now vm_compute|repeat constructor|now vm_compute].
Qed.
Lemma bx_sound mt t : piecesb pr_machine true t = true -> S_Program.sound pr_machine (bx_disc mt t) (bx_session mt t).
Proof. intros H. apply pr_sound; [|now vm_compute|reflexivity]. cbn [forallb fst snd]. replace (bytes_eqb (bs "/box") (bs "/box")) with true by reflexivity. now rewrite H. Qed.
Lemma bx_run_by : run_by pr_machine bx_h.
Proof.
  unfold run_by, bx_h. constructor; [exists (bx_disc 40 (box_text [bx_m1; bx_m2])); split; [apply pr_disc_ok|split; [reflexivity|apply bx_sound; now vm_compute]]|].
  constructor; [exists (bx_disc 30 (box_text [bx_m1])); split; [apply pr_disc_ok|split; [reflexivity|apply bx_sound; now vm_compute]]|constructor].
Qed.
Lemma bx_mapped mt t p va : d_map (bx_disc mt t) p = Mapped va -> p = bs "/box" /\ va = t.
Proof. intros E. apply pr_mapped in E as (q & m & [X|[]] & ->). injection X as <- _ <-. auto. Qed.
Lemma bx_honest mt1 t1 mt2 rest : u32 mt1 <> u32 mt2 -> honest (bx_session mt1 t1) (bx_session mt2 (t1 ++ rest)).
Proof.
  intros ND. constructor; cbn [bx_session pr_session s_world s_found s_fast program_world w_stat w_lstat w_map w_imap w_csum].
  - intros p mt sz [].
  - intros p [].
  - intros p l0 l mt sz E1 E2. exfalso. unfold bx_disc, pr_disc in E1, E2. cbn [d_lstat] in E1, E2. unfold lookup in E1, E2. cbn [find fst] in E1, E2. destruct (bytes_eqb (bs "/box") p); cbn in E1, E2; [|discriminate]. injection E1 as _ E1 _. injection E2 as _ E2 _. congruence.
  - intros p va0 va st ln E1 E2 L _ _. apply bx_mapped in E1 as [-> ->]. apply bx_mapped in E2 as [_ ->]. apply cut_app. exact L.
Qed.
Lemma bx_grown : growing bx_h.
Proof.
  assert (E12 : box_text [bx_m1; bx_m2] = box_text [bx_m1] ++ box_text [bx_m2]) by apply (box_app [bx_m1] [bx_m2]).
  assert (NZ : forall mt t p l, w_lstat (s_world (bx_session mt t)) p = Some (l, 0, 0) -> u32 mt = 0).
  { intros mt t p l E. cbn [bx_session pr_session s_world program_world w_lstat bx_disc pr_disc d_lstat] in E. unfold lookup in E. cbn [find fst] in E. destruct (bytes_eqb (bs "/box") p); cbn [option_map snd] in E; [injection E as _ E _; exact E|discriminate]. }
  split; [|unfold bx_h; apply Forall_cons; [|apply Forall_cons; [|apply Forall_nil]]; cbn [fst]; intros p l E; exfalso; apply NZ in E; discriminate].
  unfold bx_h. constructor; [|constructor; [constructor|constructor]]. constructor; [|constructor]. cbn [fst]. split.
  - unfold bx_s1, bx_s2. rewrite E12. apply bx_honest. vm_compute. discriminate.
  - intros p [<-|[]] va0 va E1 E2. exists [bx_m1], [bx_m2]. apply bx_mapped in E1 as [_ ->]. apply bx_mapped in E2 as [_ ->]. split; [reflexivity|]. split; [reflexivity|].
    apply (mails_main pr_machine (bx_disc 40 (box_text [bx_m1; bx_m2])) bx_s2 (bs "/box") _ pr_machine_ok); [apply bx_sound; now vm_compute|now left|vm_compute; reflexivity|exact bx_mails].
Qed.
Lemma bx_result : holds_index (s_world bx_s2) bx_F2 bx_db /\ map src (msgs bx_db) = [S_mbox 0 0; S_mbox 0 1] /\
  exists r, open_db bx_F2 = Ok r /\ search no_dates bx_F2 r false [bs "b:hello"] = Ok [0] /\ search no_dates bx_F2 r false [bs "b:bye"] = Ok [1].
Proof. split; [now vm_compute|]. split; [now vm_compute|]. eexists. split; [vm_compute; reflexivity|]. split; now vm_compute. Qed.

(* ---- a session during a delivery ---- *)
Definition dl_half : mail := (bx_line, hd_of bx_fs2 (nl "good")).
Definition dl_full : mail := (bx_line, hd_of bx_fs2 (nl "good" ++ nl "day")).
Definition dl_s1 := bx_session 30 (box_text [dl_half]).
Definition dl_s2 := bx_session 40 (box_text [dl_full]).
Definition dl_f1 : option bytes := Eval vm_compute in get_file (index_session dl_s1 100 None).
Definition dl_F2 : bytes := Eval vm_compute in match get_file (index_session dl_s2 100 dl_f1) with Some F => F | None => [] end.
Definition dl_db : database := Eval vm_compute in match load (w_hash (s_world dl_s2)) (fun _ => 0) 0 dl_F2 with Ok db => db | Err _ => new_database 0 end.
Definition dl_h := [(dl_s2, dl_f1); (dl_s1, None)].

Lemma dl_history : history dl_h (Some dl_F2).
Proof.
  unfold dl_h. apply (History_next _ 100%nat dl_s2 dl_f1 (Some dl_F2)); [|apply bx_fit; now vm_compute|repeat constructor|now vm_compute].
  apply (History_next _ 100%nat dl_s1 None dl_f1); [constructor|apply bx_fit; now vm_compute|repeat constructor|now vm_compute].
Qed.
Lemma dl_run_by : run_by pr_machine dl_h.
Proof.
  unfold run_by, dl_h. constructor; [exists (bx_disc 40 (box_text [dl_full])); split; [apply pr_disc_ok|split; [reflexivity|apply bx_sound; now vm_compute]]|].
  constructor; [exists (bx_disc 30 (box_text [dl_half])); split; [apply pr_disc_ok|split; [reflexivity|apply bx_sound; now vm_compute]]|constructor].
Qed.
Lemma dl_orderly : orderly dl_h.
Proof.
  assert (E12 : box_text [dl_full] = box_text [dl_half] ++ nl "day") by reflexivity. split.
  - unfold dl_h. constructor; [|constructor; [constructor|constructor]]. constructor; [|constructor]. cbn [fst]. unfold dl_s1, dl_s2. rewrite E12. apply bx_honest. vm_compute. discriminate.
  - repeat constructor; cbn [fst snd]; apply ex_undisturbed; now vm_compute.
Qed.
Lemma dl_mails : program_mails pr_machine [dl_full].
Proof.
  constructor; [|constructor]. split.
  - apply plain_ok; [vm_compute; reflexivity|vm_compute; intuition discriminate|vm_compute; reflexivity|discriminate|vm_compute; reflexivity|apply small_by; vm_compute; reflexivity|eexists; vm_compute; reflexivity].
  - eexists _, _. split; [apply (simple_mime bx_fs2); vm_compute; reflexivity|apply small_by; vm_compute; reflexivity].
Qed.
Lemma dl_legible : legible (map unfolded bx_fs2) [Leaf None Plain (nl "good" ++ nl "day")].
Proof.
  constructor.
  - intros name v I J. cbn [In] in I. destruct I as [<-|[<-|[<-|[<-|[]]]]]; vm_compute in J; try contradiction. destruct J as [<-|[]]. eexists. split; [apply reads_plain; apply no_word; vm_compute; lia|vm_compute; intuition discriminate].
  - intros name l n [E|[]]. discriminate.
Qed.
Lemma dl_eligible : eligible (s_world dl_s2) (s_symlinks dl_s2) (s_paths dl_s2) (bs "/box").
Proof. split; [now left|]. eexists _, _, _. split; [vm_compute; reflexivity|discriminate]. Qed.
Lemma bx_eligible : eligible (s_world bx_s2) (s_symlinks bx_s2) (s_paths bx_s2) (bs "/box").
Proof. split; [now left|]. eexists _, _, _. split; [vm_compute; reflexivity|discriminate]. Qed.
Lemma bx_there : d_map (bx_disc 40 (box_text [bx_m1; bx_m2])) (bs "/box") = Mapped (box_text [bx_m1; bx_m2]).
Proof. vm_compute. reflexivity. Qed.
Lemma dl_bears : bears isalnum (map unfolded bx_fs2) [Leaf None Plain (nl "good" ++ nl "day")] Body (bs "day").
Proof.
  eapply (Be_text _ _ _ None _ (nl "good" ++ nl "day")); [left; reflexivity|split; [apply no_nul; vm_compute; reflexivity|now left]|].
  exists 5%nat, (nl "good"), [10]. split; [reflexivity|]. split; [reflexivity|]. split; [discriminate|]. split; [repeat constructor; left; reflexivity|]. split.
  - intros a' c X. apply (f_equal (@rev N)) in X. rewrite rev_app_distr in X. injection X as <- _. intros [Y|Y]; discriminate.
  - intros c b' X. injection X as <- _. intros [Y|Y]; discriminate.
Qed.
Lemma dl_missed : ~ enters dl_db (bs "/box") [dl_full].
Proof.
  intros [_ E]. assert (X : exists m, In m (msgs dl_db) /\ src m = S_mbox 0 0) by (eexists; split; [left; reflexivity|reflexivity]). destruct X as (m & I & SM).
  destruct (E m 0 0 _ I SM eq_refl eq_refl) as (st & ln & E1 & E2 & E3). vm_compute in E1, E2, E3. congruence.
Qed.
Lemma dl_main : exists M D s file h F db r p mails t lines ns w, machine_ok M /\ s_world s = program_world M D /\ run_by M ((s, file) :: h) /\
  history ((s, file) :: h) (Some F) /\ orderly ((s, file) :: h) /\ holds_index (s_world s) F db /\ open_db F = Ok r /\
  (forall x, In x (s_paths s) -> d_map D x <> Map_failed) /\ eligible (s_world s) (s_symlinks s) (s_paths s) p /\
  d_map D p = Mapped (box_text mails) /\ S_Program.sound M D s /\ program_mails M mails /\
  map snd mails = [t] /\ S_Mime.message (m_isspc M) t lines ns /\ legible lines ns /\ bears (m_alnum M) lines ns Body w /\
  ~ enters db p mails /\ search no_dates F r false [bs "b:" ++ w] = Ok [].
Proof.
  exists pr_machine, (bx_disc 40 (box_text [dl_full])), dl_s2, dl_f1, [(dl_s1, None)], dl_F2, dl_db. eexists. exists (bs "/box"), [dl_full], (snd dl_full), (map unfolded bx_fs2), [Leaf None Plain (nl "good" ++ nl "day")], (bs "day").
  split; [exact pr_machine_ok|]. split; [reflexivity|]. split; [exact dl_run_by|]. split; [exact dl_history|]. split; [exact dl_orderly|]. split; [now vm_compute|]. split; [vm_compute; reflexivity|].
  split; [intros x [<-|[]]; vm_compute; discriminate|]. split; [exact dl_eligible|]. split; [vm_compute; reflexivity|]. split; [apply bx_sound; now vm_compute|]. split; [exact dl_mails|].
  split; [reflexivity|]. split; [apply (simple_mime bx_fs2); vm_compute; reflexivity|]. split; [exact dl_legible|]. split; [exact dl_bears|]. split; [exact dl_missed|]. now vm_compute.
Qed.
