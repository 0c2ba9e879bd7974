(* A MIME message, and one whose attachment loses its name. *)
From Verif Require Import Base M_Tokens M_Decode M_Header M_Words M_Nvp M_Rfc822 S_Decode S_Header S_Words S_Nvp S_Rfc822 S_Multipart S_Mime
  L_Decode L_Header L_TokTable L_Words3 L_Nvp4 L_Multipart L_Multipart2 L_Output3 L_Rfc822 L_Rfc822b L_Rfc822c L_Rfc822d L_Mime L_Mime2 L_Mime3 L_Mime4.
Local Open Scope N_scope.

Definition line (s : string) : field := {| first := bs s; more := [] |}.
Definition hd_of (fs : list field) (body : bytes) : bytes := concat (map folded fs) ++ [10] ++ body.
Lemma hd_ok : forall fs body, forallb field_b fs = true -> headed isspace (hd_of fs body) (map unfolded fs) body.
Proof. intros fs body H. unfold hd_of. constructor; [apply fields_ok; exact H|]. apply (ends_blank isspace []); [apply Forall_nil|intros []]. Qed.
Lemma small_by : forall s, forallb (fun c => c <? 256) s = true -> Forall (fun c => c < 256) s.
Proof. intros s H. apply Forall_forall. intros c I. rewrite forallb_forall in H. apply N.ltb_lt. exact (H _ I). Qed.
Definition ex_fs1 := [line "Content-Type: text/plain"].
Definition ex_fs2 := [line "Content-Type: message/rfc822"].
Definition ex_fs3 := [line "Content-Type: TEXT/HTML; name=a.html"; line "Content-Disposition: attachment"; line "Content-Transfer-Encoding: base64"].
Definition ex_inner := [line "From: joe"].
Definition ex_fs := [line "Subject: hi"; {| first := bs "Date: Mon, 16 Nov"; more := [(bs " ", bs "2026 12:00:00 +0000")] |}; line "Content-Type: multipart/mixed; boundary=""X X"""].
Definition ex_p1 := hd_of ex_fs1 (nl "hello").
Definition ex_p2 := hd_of ex_fs2 (hd_of ex_inner (nl "inner")).
Definition ex_p3 := hd_of ex_fs3 (nl "SGk=").
Definition ex_mime : bytes := hd_of ex_fs (nl "intro" ++ nl "--X X" ++ ex_p1 ++ nl "--X X" ++ ex_p2 ++ nl "--X X" ++ ex_p3 ++ nl "--X X--").
Definition ex_nodes : list node :=
  [Leaf None Plain (nl "hello"); Mail None (map unfolded ex_inner) [Leaf None Plain (nl "inner")]; Leaf (Some (bs "a.html")) Html (bs "Hi")].

Lemma spelled_type : forall a b, a <> [] -> b <> [] -> forallb (fun c => (c <? 256) && has NAME1 c) (a ++ b) = true -> spelled (Type_of a b) (a ++ [47] ++ b).
Proof.
  intros a b A B H. rewrite forallb_app in H. apply andb_true_iff in H. destruct H as [H1 H2]. apply sp_type; (split; [assumption|]); [now apply names_by|].
  eapply Forall_impl; [|apply names_by; exact H2]. intros c K; now left.
Qed.
Lemma white_one : Forall white [32].
Proof. constructor; [right; right; now left|constructor]. Qed.
Lemma listed_one : forall c t, spelled c t -> listed [c] (32 :: t).
Proof. intros c t S. pose proof (li_last c [32] t [] white_one S (Forall_nil _)) as L. rewrite app_nil_r in L. exact L. Qed.
Lemma listed_two : forall c d t u, spelled c t -> spelled d u -> listed [c; d] (32 :: t ++ [59; 32] ++ u).
Proof. intros c d t u S T. exact (li_more c [d] [32] t [] (32 :: u) white_one S (Forall_nil _) (listed_one _ _ T)). Qed.
Ltac none_of := intros c [<-|[]]; intros (m & v & [Q|Q] & _); discriminate.
Lemma ex_mime_ok : message isspace ex_mime (map unfolded ex_fs) ex_nodes.
Proof.
  exists (nl "intro" ++ nl "--X X" ++ ex_p1 ++ nl "--X X" ++ ex_p2 ++ nl "--X X" ++ ex_p3 ++ nl "--X X--").
  split; [apply hd_ok; vm_compute; reflexivity|]. split.
  { right. exists (bs " Mon, 16 Nov 2026 12:00:00 +0000"), ex_date, 2026%Z, 10%Z, 16%Z. split; [vm_compute; reflexivity|]. split; [|split; [cbn; intuition discriminate|exact ex_dated]].
    apply reads_plain. apply no_word. vm_compute. lia. }
  apply (en_multi isspace _ [Type_of (bs "multipart") (bs "mixed"); Param (bs "boundary") (bs "X X")] None None _ 
    (nl "intro" ++ nl "--X X" ++ ex_p1 ++ nl "--X X" ++ ex_p2 ++ nl "--X X" ++ ex_p3 ++ nl "--X X--") (bs "X X") [ex_p1; ex_p2; ex_p3]).
  - exists (bs " multipart/mixed; boundary=""X X"""). split; [vm_compute; reflexivity|].
    apply (listed_two _ _ (bs "multipart/mixed") (bs "boundary=""X X""")); [apply (spelled_type (bs "multipart") (bs "mixed")); [discriminate|discriminate|reflexivity]|].
    apply (sp_param (bs "boundary") (bs "X X") [] (34 :: bs "X X" ++ [34])); [apply name_by; reflexivity|constructor|]. apply v_quoted. split; [discriminate|]. now apply quoted_by.
  - vm_compute. reflexivity.
  - vm_compute. reflexivity.
  - constructor.
  - exists (bs "multipart"), (bs "mixed"), [Param (bs "boundary") (bs "X X")]. split; [reflexivity|]. split; [reflexivity|exact Logic.I].
  - exists [Type_of (bs "multipart") (bs "mixed")], (bs "boundary"), []. split; [reflexivity|]. split; [reflexivity|]. none_of.
  - exists (nl "intro"), (nl "--X X" ++ ex_p1 ++ nl "--X X" ++ ex_p2 ++ nl "--X X" ++ ex_p3 ++ nl "--X X--"). split; [reflexivity|]. split; [apply free_of_no; vm_compute; reflexivity|].
    refine (parted_part (bs "X X") [10] ex_p1 _ _ (or_introl eq_refl) _ (parted_part (bs "X X") [10] ex_p2 _ _ (or_introl eq_refl) _ (parted_part (bs "X X") [10] ex_p3 _ _ (or_introl eq_refl) _ (parted_last (bs "X X") [10]))));
      apply free_of_no; vm_compute; reflexivity.
  - apply (es_cons isspace ex_p1 _ (map unfolded ex_fs1) (nl "hello") [Leaf None Plain (nl "hello")]); [apply hd_ok; vm_compute; reflexivity| |].
    { apply (en_leaf isspace _ [Type_of (bs "text") (bs "plain")] None None).
      - exists (bs " text/plain"). split; [vm_compute; reflexivity|]. apply listed_one. apply (spelled_type (bs "text") (bs "plain")); [discriminate|discriminate|reflexivity].
      - vm_compute. reflexivity.
      - vm_compute. reflexivity.
      - constructor.
      - left. exists (bs "text"), (bs "plain"), []. split; [reflexivity|]. split; reflexivity.
      - constructor. }
    apply (es_cons isspace ex_p2 _ (map unfolded ex_fs2) (hd_of ex_inner (nl "inner")) [Mail None (map unfolded ex_inner) [Leaf None Plain (nl "inner")]]); [apply hd_ok; vm_compute; reflexivity| |].
    { apply (en_mail isspace _ [Type_of (bs "message") (bs "rfc822")] None None _ (hd_of ex_inner (nl "inner")) None _ (nl "inner")).
      - exists (bs " message/rfc822"). split; [vm_compute; reflexivity|]. apply listed_one. apply (spelled_type (bs "message") (bs "rfc822")); [discriminate|discriminate|reflexivity].
      - vm_compute. reflexivity.
      - vm_compute. reflexivity.
      - constructor.
      - exists (bs "message"), (bs "rfc822"), []. split; [reflexivity|]. split; reflexivity.
      - constructor.
      - apply hd_ok. vm_compute. reflexivity.
      - left. vm_compute. reflexivity.
      - apply (en_untyped isspace _ None); [vm_compute; reflexivity|vm_compute; reflexivity|constructor|]. exists None. vm_compute. reflexivity. }
    apply (es_cons isspace ex_p3 _ (map unfolded ex_fs3) (nl "SGk=") [Leaf (Some (bs "a.html")) Html (bs "Hi")] []); [apply hd_ok; vm_compute; reflexivity| |constructor].
    apply (en_leaf isspace _ [Type_of (bs "TEXT") (bs "HTML"); Param (bs "name") (bs "a.html")] (Some [Word (bs "base64")]) (Some [Word (bs "attachment")])).
    + exists (bs " TEXT/HTML; name=a.html"). split; [vm_compute; reflexivity|].
      apply (listed_two _ _ (bs "TEXT/HTML") (bs "name=a.html")); [apply (spelled_type (bs "TEXT") (bs "HTML")); [discriminate|discriminate|reflexivity]|].
      apply (sp_param (bs "name") (bs "a.html") [] (bs "a.html")); [apply name_by; reflexivity|constructor|]. apply v_plain. split; [discriminate|]. now apply values_by.
    + exists (bs " base64"). split; [vm_compute; reflexivity|]. apply listed_one. constructor. apply name_by. reflexivity.
    + exists (bs " attachment"). split; [vm_compute; reflexivity|]. apply listed_one. constructor. apply name_by. reflexivity.
    + change (nl "SGk=") with (nl "SGk=" ++ []). apply tr_base64; [apply name_of; reflexivity|apply small_by; reflexivity| |reflexivity].
      change (base64_of (bs "Hi")) with (bs "SGk="). change (spread [83; 71; 107; 61] [83; 71; 107; 61; 10]). do 4 apply spread_keep. apply spread_noise; [|constructor].
      split; [lia|]. split; [|lia]. rewrite <- mem_N_in. vm_compute. discriminate.
    + left. exists (bs "TEXT"), (bs "HTML"), [Param (bs "name") (bs "a.html")]. split; [reflexivity|]. split; reflexivity.
    + apply fn_name; [reflexivity| | |].
      * none_of.
      * exists [Type_of (bs "TEXT") (bs "HTML")], (bs "name"), []. split; [reflexivity|]. split; [reflexivity|]. none_of.
      * intros n v [Q|[Q|[]]] _; [discriminate|]. injection Q as <- _. reflexivity.
Qed.
Lemma ex_mime_small : Forall (fun c => c < 256) ex_mime.
Proof. apply small_by. vm_compute. reflexivity. Qed.

(* a name that is not found *)
Definition ex_named : bytes := hd_of [line "Content-Type: text/plain; Name=a.txt"; line "Content-Disposition: attachment"] (nl "x").
Lemma name_refuted : forall mktime, exists ct f h, listed ct (bs " text/plain; Name=a.txt") /\ param ct (bs "name") (Some f) /\
  ex_named = bs "Content-Type: text/plain; Name=a.txt" ++ [10] ++ bs "Content-Disposition: attachment" ++ [10; 10] ++ bs "x" ++ [10] /\
  data_to_rfc822 isspace mktime ex_named (length ex_named) = Ok (Some (Rfc822 h [(None, B_plain (nl "x"))]), DTR8_OK).
Proof.
  intros mktime. exists [Type_of (bs "text") (bs "plain"); Param (bs "Name") (bs "a.txt")], (bs "a.txt"). eexists. split.
  { apply (listed_two _ _ (bs "text/plain") (bs "Name=a.txt")); [apply (spelled_type (bs "text") (bs "plain")); [discriminate|discriminate|reflexivity]|].
    apply (sp_param (bs "Name") (bs "a.txt") [] (bs "a.txt")); [apply name_by; reflexivity|constructor|]. apply v_plain. split; [discriminate|]. now apply values_by. }
  split; [exists [Type_of (bs "text") (bs "plain")], (bs "Name"), []; split; [reflexivity|]; split; [reflexivity|]; none_of|]. split; [reflexivity|]. vm_compute. reflexivity.
Qed.
