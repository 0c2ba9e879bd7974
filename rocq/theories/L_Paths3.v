(* The match folder check, message files, and example file systems. *)
From Verif Require Import Base M_Search M_Glob S_Glob L_Search4 L_Glob L_Glob2 M_Paths S_Paths L_Paths L_Paths2.
Local Open Scope N_scope.

(* same file: same path, or both exist with the same device and inode *)
Definition same_file (f : fs) (p q : bytes) : Prop :=
  p = q \/ exists a b, stat f p = Some a /\ stat f q = Some b /\ st_dev a = st_dev b /\ st_ino a = st_ino b.
Lemma member_hit f p q : same_file f p q -> bytes_eqb p q || same_inode f p q = true.
Proof.
  intros [->|(a & b & EA & EB & _ & I)]; apply orb_true_iff; [left; now apply bytes_eqb_spec|right].
  unfold same_inode. rewrite EA, EB. now apply N.eqb_eq.
Qed.
Lemma member_defined f m o fuel cm base folders : (forall s, folders = Some s -> exists l, folders_of f m o fuel base s = Ok l) ->
  exists b, member_of f m o fuel cm base folders = Ok b.
Proof.
  intros H. destruct folders as [s|]; [|now exists false]. cbn [member_of]. destruct (H s eq_refl) as (l & ->). cbn [bind]. eauto.
Qed.
Definition setting (es : list entry) : option bytes := match es with [] => None | _ => Some (colon_list (map show_entry es)) end.
Definition setting_ok (es : list entry) : Prop := Forall (fun e => entry_ok e /\ show_entry e <> [] /\ last (show_entry e) 0 <> ch "\") es.
Definition to_folder (o : out_kind) : Prop := o = O_maildir \/ o = O_mh \/ o = O_mbox.

Section Guard.
Context (f : fs) (pats : list (list gitem)) (fuel : nat) (base : bytes) (HF : fs_ok f fuel) (HB : c_string base) (HP : pats_ok pats).
Lemma member_exact o k es cm : omit_globs (omit_text pats) = Ok o -> setting_ok es ->
  exists b, member_of f (methods_of k) o fuel cm base (setting es) = Ok b /\
    ((exists e p, In e es /\ selected f k pats base e p /\ same_file f cm p) -> b = true) /\
    (b = true -> exists e p, In e es /\ selected f k pats base e p /\ (cm = p \/ exists x y, stat f cm = Some x /\ stat f p = Some y /\ st_ino x = st_ino y)).
Proof.
  intros EO HE. destruct es as [|e0 es].
  - exists false. split; [reflexivity|]. split; [intros (e & p & [] & _)|discriminate].
  - destruct (folders_exact f k pats fuel base (e0 :: es) HF HB HP) as (o' & l & EO' & EL & HL); [split; [discriminate|exact HE]|].
    rewrite EO in EO'. injection EO' as <-. cbn [setting member_of]. rewrite EL. cbn [bind]. eexists. split; [reflexivity|]. split.
    + intros (e & p & I & S & SF). apply existsb_exists. exists p. split; [apply HL; eauto|now apply member_hit].
    + intros X. apply existsb_exists in X as (p & I & X). apply HL in I as (e & I & S). exists e, p. split; [exact I|]. split; [exact S|].
      apply orb_true_iff in X as [X|X]; [left; now apply bytes_eqb_spec|right]. unfold same_inode in X.
      destruct (stat f cm) as [x|], (stat f p) as [y|]; try discriminate. apply N.eqb_eq in X. eauto.
Qed.
Lemma guard md mh mb out mfolder : setting_ok md -> setting_ok mh -> setting_ok mb -> to_folder out ->
  (exists k e p, In e (match k with F_maildir => md | F_mh => mh | F_mbox => mb end) /\ selected f k pats base e p /\
     same_file f (complete_mfolder base mfolder) p) ->
  exists o, omit_globs (omit_text pats) = Ok o /\
    mfolder_check f o fuel base (setting md) (setting mh) (setting mb) out mfolder = Err (E_exit 3).
Proof.
  intros H1 H2 H3 HO (k & e & p & I & S & SF). destruct (omit_ok pats HP) as (o & EO & _). exists o. split; [exact EO|].
  destruct (member_exact o F_maildir md (complete_mfolder base mfolder) EO H1) as (a & Ea & Ta & _).
  destruct (member_exact o F_mh mh (complete_mfolder base mfolder) EO H2) as (b & Eb & Tb & _).
  destruct (member_exact o F_mbox mb (complete_mfolder base mfolder) EO H3) as (c & Ec & Tc & _).
  cbn [methods_of] in *. unfold mfolder_check. cbv zeta. rewrite Ea, Eb, Ec. cbn [bind].
  assert (X : a || b || c = true).
  { destruct k; [rewrite (Tc ltac:(eauto))|rewrite (Ta ltac:(eauto))|rewrite (Tb ltac:(eauto))]; now destruct a, b, c. }
  destruct HO as [->|[->| ->]]; (destruct a; [reflexivity|]; destruct b; [reflexivity|]; destruct c; [reflexivity|discriminate]).
Qed.
Lemma guard_passes md mh mb out mfolder : setting_ok md -> setting_ok mh -> setting_ok mb ->
  (forall k e p, In e (match k with F_maildir => md | F_mh => mh | F_mbox => mb end) -> selected f k pats base e p ->
     complete_mfolder base mfolder <> p /\
     forall x y, stat f (complete_mfolder base mfolder) = Some x -> stat f p = Some y -> st_ino x <> st_ino y) ->
  exists o, omit_globs (omit_text pats) = Ok o /\
    mfolder_check f o fuel base (setting md) (setting mh) (setting mb) out mfolder = Ok tt.
Proof.
  intros H1 H2 H3 HN. destruct (omit_ok pats HP) as (o & EO & _). exists o. split; [exact EO|].
  destruct (member_exact o F_maildir md (complete_mfolder base mfolder) EO H1) as (a & Ea & _ & Ta).
  destruct (member_exact o F_mh mh (complete_mfolder base mfolder) EO H2) as (b & Eb & _ & Tb).
  destruct (member_exact o F_mbox mb (complete_mfolder base mfolder) EO H3) as (c & Ec & _ & Tc).
  cbn [methods_of] in *. unfold mfolder_check. cbv zeta. rewrite Ea, Eb, Ec. cbn [bind].
  assert (K : forall k es, es = (match k with F_maildir => md | F_mh => mh | F_mbox => mb end) ->
     ~ exists e p, In e es /\ selected f k pats base e p /\ (complete_mfolder base mfolder = p \/ exists x y, stat f (complete_mfolder base mfolder) = Some x /\ stat f p = Some y /\ st_ino x = st_ino y)).
  { intros k es -> (e & p & I & S & [X|(x & y & X & Y & Z)]); destruct (HN k e p I S) as [N1 N2]; [now apply N1|now apply (N2 x y)]. }
  destruct a; [exfalso; apply (K F_maildir md eq_refl); now apply Ta|]. destruct b; [exfalso; apply (K F_mh mh eq_refl); now apply Tb|].
  destruct c; [exfalso; apply (K F_mbox mb eq_refl); now apply Tc|]. now destruct out.
Qed.
End Guard.

(* message files *)
Lemma maildir_files f folder q : In q (maildir_messages f folder) <->
  exists sub n, (sub = bs "new" \/ sub = bs "cur") /\ listed f (below folder sub) n /\ q = below (below folder sub) n.
Proof.
  unfold maildir_messages. rewrite in_flat_map. split.
  - intros (sub & I & X). cbv zeta in X. change (child folder sub) with (below folder sub) in X. destruct (ls f (below folder sub)) as [ns|] eqn:E; [|destruct X].
    apply in_map_iff in X as (n & <- & X). apply filter_In in X as [X Y]. apply negb_true_iff, dots_spec in Y. exists sub, n. split; [destruct I as [<-|[<-|[]]]; auto|].
    split; [exists ns; tauto|reflexivity].
  - intros (sub & n & I & (ns & E & X & Y) & ->). exists sub. split; [destruct I as [->| ->]; cbn; auto|]. cbv zeta. change (child folder sub) with (below folder sub). rewrite E.
    apply in_map_iff. exists n. split; [reflexivity|]. apply filter_In. split; [exact X|]. now apply negb_true_iff, dots_spec.
Qed.
Lemma mh_files f folder q : In q (mh_messages f folder) <-> exists n, listed f folder n /\ mh_name n /\ q = below folder n.
Proof.
  unfold mh_messages. destruct (ls f folder) as [ns|] eqn:E.
  - rewrite in_map_iff. split.
    + intros (n & <- & X). apply filter_In in X as [X Y]. apply andb_true_iff in Y as [Y Z]. apply negb_true_iff, dots_spec in Y. apply mh_name_spec in Z.
      exists n. split; [exists ns; tauto|auto].
    + intros (n & (ns' & E' & X & Y) & Z & ->). assert (ns' = ns) as -> by congruence. exists n. split; [reflexivity|]. apply filter_In. split; [exact X|].
      apply andb_true_iff. split; [now apply negb_true_iff, dots_spec|now apply mh_name_spec].
  - split; [intros []|]. intros (n & (ns & X & _) & _). congruence.
Qed.

(* Example file systems: a finite table of (path, kind, inode, entries). *)
Definition node := (bytes * (kind * N * list bytes))%type.
Fixpoint find_node (t : list node) (p : bytes) : option (kind * N * list bytes) :=
  match t with [] => None | (q, x) :: t' => if bytes_eqb q p then Some x else find_node t' p end.
Definition fs_of (t : list node) : fs :=
  {| stat := fun p => match find_node t p with Some (k, i, _) => Some {| st_kind := k; st_dev := 1; st_ino := i |} | None => None end;
     ls := fun p => match find_node t p with Some (K_dir, _, ns) => Some ns | _ => None end |}.
Definition d_ (p : string) (i : N) (ns : list string) : node := (bs p, (K_dir, i, bs "." :: bs ".." :: map bs ns)).
Definition f_ (p : string) (i : N) : node := (bs p, (K_reg, i, [])).
Open Scope string_scope.
Definition ex_tree : list node := [
  d_ "/m" 1 ["bulk"; "in"; "md"]; d_ "/m/bulk" 2 ["spam"; "spam2005"; "list"]; d_ "/m/bulk/spam" 3 ["2005"];
  f_ "/m/bulk/spam/2005" 4; f_ "/m/bulk/spam2005" 5; f_ "/m/bulk/list" 6; f_ "/m/in" 7;
  d_ "/m/md" 8 ["new"; "cur"; "tmp"; "sub"]; d_ "/m/md/new" 9 ["1"]; d_ "/m/md/cur" 10 []; d_ "/m/md/tmp" 11 []; d_ "/m/md/sub" 12 []; f_ "/m/md/new/1" 13].
Close Scope string_scope.
Definition ex_fs : fs := fs_of ex_tree.
Definition slashes (p : bytes) : nat := length (filter (N.eqb 47) p).
Lemma find_node_in t p x : find_node t p = Some x -> In (p, x) t.
Proof.
  induction t as [|[q y] t IH]; [discriminate|]. cbn [find_node]. destruct (bytes_eqb q p) eqn:E; [|intros H; right; auto].
  apply bytes_eqb_spec in E. intros [= ->]. left. now subst.
Qed.
Definition node_ok (x : node) : bool :=
  (slashes (fst x) <? 20)%nat && forallb (fun n => forallb (fun c => (0 <? c) && (c <? 256)) n) (snd (snd x)).
Lemma slashes_below d n : (slashes (below d n) = slashes d + S (slashes n))%nat.
Proof. unfold slashes, below. rewrite !filter_app, !app_length. reflexivity. Qed.
Lemma fs_of_ok t : forallb node_ok t = true -> fs_ok (fs_of t) 21.
Proof.
  intros H. rewrite forallb_forall in H. split.
  - intros d n (ns & E & I & _). cbn [fs_of ls] in E. destruct (find_node t d) as [[[[] i] l]|] eqn:F; try discriminate. injection E as ->.
    apply find_node_in in F. specialize (H _ F). apply andb_true_iff in H as [_ H]. cbn [snd] in H. rewrite forallb_forall in H. specialize (H n I). rewrite forallb_forall in H.
    apply Forall_forall. intros c Hc. specialize (H c Hc). unfold c_char. lia.
  - exists (fun p => 20 - slashes p)%nat. split; [intros p; lia|]. intros d n _ (s & E & _). cbn [fs_of stat] in E.
    destruct (find_node t (below d n)) as [[[k0 i] l]|] eqn:F; [|discriminate]. apply find_node_in in F. specialize (H _ F). apply andb_true_iff in H as [H _]. cbn [fst] in H.
    apply Nat.ltb_lt in H. rewrite slashes_below in *. lia.
Qed.
Lemma ex_fs_ok : fs_ok ex_fs 21.
Proof. apply fs_of_ok. vm_compute. reflexivity. Qed.

(* bulk... and the omit pattern bulk/spam* *)
Definition e_bulk : entry := E_plain (bs "bulk") true.
Definition p_spam : list gitem := map Gc (bs "bulk/spam") ++ [Gstar].
Lemma not_dot3 (p : bytes) : bytes_eqb (skipn (length p - 3) p) (bs "...") = false -> forall x, p <> x ++ bs "...".
Proof.
  intros H x ->. assert (L : length (x ++ bs "...") = (length x + 3)%nat) by (rewrite app_length; reflexivity). rewrite L in H.
  replace (length x + 3 - 3)%nat with (length x) in H by lia. rewrite skipn_app, skipn_all, Nat.sub_diag in H. vm_compute in H. discriminate.
Qed.
Lemma spam_pats_ok : pats_ok [p_spam].
Proof. constructor; [|constructor]. split; [vm_compute; repeat split; discriminate|]. split; [vm_compute; repeat constructor|]. split; vm_compute; discriminate. Qed.
Lemma bulk_ok : entry_ok e_bulk /\ show_entry e_bulk <> [] /\ last (show_entry e_bulk) 0 <> ch "\".
Proof.
  split; [|split; vm_compute; discriminate]. split; [discriminate|]. split; [|intros _ c I; vm_compute in I; intuition (subst; discriminate)].
  split; [repeat constructor|]. intros d n E. exfalso. assert (I : In 47 (bs "bulk")) by (rewrite E; apply in_or_app; right; now left). vm_compute in I. intuition discriminate.
Qed.
Lemma spam_example : exists o, omit_globs (omit_text [p_spam]) = Ok o /\
  folders_of ex_fs mbox_methods o 21 (bs "/m") (bs "bulk...") = Ok [bs "/m/bulk/list"].
Proof.
  destruct (omit_ok [p_spam] spam_pats_ok) as (o & E & _). exists o. split; [exact E|].
  assert (X : match omit_globs (omit_text [p_spam]) with Ok o => folders_of ex_fs mbox_methods o 21 (bs "/m") (bs "bulk...") | Err _ => Err E_fuel end = Ok [bs "/m/bulk/list"]) by (vm_compute; reflexivity).
  rewrite E in X. exact X.
Qed.
(* 2005 is a file below bulk whose relative name the pattern does not match *)
Lemma gmatch_chars w p s : gmatch (map Gc w ++ p) s -> exists r, s = w ++ r /\ gmatch p r.
Proof. revert s. induction w as [|c w IH]; intros s H; [exists s; auto|]. destruct H as (s' & -> & H). apply IH in H as (r & -> & H). exists r. auto. Qed.
Lemma spam_no_match : ~ gmatch p_spam (bs "bulk/spam/2005").
Proof.
  intros H. apply gmatch_chars in H as (r & E & (a & b & -> & NI & ->)). rewrite app_nil_r in E.
  change (bs "bulk/spam/2005") with (bs "bulk/spam" ++ bs "/2005") in E. apply app_inv_head in E. apply NI. rewrite <- E. now left.
Qed.
Lemma spam_file : a_file ex_fs (bs "/m/bulk/spam/2005"). Proof. eexists. split; vm_compute; reflexivity. Qed.
Lemma spam_refuted : exists o, omit_globs (omit_text [p_spam]) = Ok o /\
  folders_of ex_fs mbox_methods o 21 (bs "/m") (bs "bulk...") = Ok [bs "/m/bulk/list"] /\
  show_pattern p_spam = bs "bulk/spam*" /\ a_file ex_fs (bs "/m/bulk/spam/2005") /\ ~ gmatch p_spam (bs "bulk/spam/2005").
Proof. destruct spam_example as (o & E & X). exists o. split; [exact E|]. split; [exact X|]. split; [vm_compute; reflexivity|]. split; [exact spam_file|exact spam_no_match]. Qed.
Lemma bulk_list_selected : selected ex_fs F_mbox [] (bs "/m") e_bulk (bs "/m/bulk/list").
Proof.
  destruct (folders_exact ex_fs F_mbox [] 21 (bs "/m") [e_bulk] ex_fs_ok) as (o & l & EO & EL & HL).
  - repeat constructor.
  - constructor.
  - split; [discriminate|]. constructor; [exact bulk_ok|constructor].
  - injection EO as <-. assert (X : folders_of ex_fs (methods_of F_mbox) None 21 (bs "/m") (colon_list (map show_entry [e_bulk])) = Ok (map bs ["/m/bulk/spam/2005"; "/m/bulk/spam2005"; "/m/bulk/list"]%string)) by (vm_compute; reflexivity).
    rewrite X in EL. injection EL as <-. destruct (HL (bs "/m/bulk/list")) as [H _]. destruct H as (e & [<-|[]] & H); [cbn; auto|exact H].
Qed.
Lemma bulk_selected q : selected ex_fs F_mbox [] (bs "/m") e_bulk q -> In q (map bs ["/m/bulk/spam/2005"; "/m/bulk/spam2005"; "/m/bulk/list"]%string).
Proof.
  destruct (folders_exact ex_fs F_mbox [] 21 (bs "/m") [e_bulk] ex_fs_ok) as (o & l & EO & EL & HL).
  - repeat constructor.
  - constructor.
  - split; [discriminate|]. constructor; [exact bulk_ok|constructor].
  - injection EO as <-. assert (X : folders_of ex_fs (methods_of F_mbox) None 21 (bs "/m") (colon_list (map show_entry [e_bulk])) = Ok (map bs ["/m/bulk/spam/2005"; "/m/bulk/spam2005"; "/m/bulk/list"]%string)) by (vm_compute; reflexivity).
    rewrite X in EL. injection EL as <-. intros H. apply HL. exists e_bulk. split; [now left|exact H].
Qed.
Lemma bulk_accepts k e p : In e (match k with F_mbox => [e_bulk] | _ => [] end) -> selected ex_fs k [] (bs "/m") e p ->
  complete_mfolder (bs "/m") (bs "md") <> p /\
  forall x y, stat ex_fs (complete_mfolder (bs "/m") (bs "md")) = Some x -> stat ex_fs p = Some y -> st_ino x <> st_ino y.
Proof.
  destruct k; [intros [<-|[]] H|intros []|intros []]. apply bulk_selected in H. cbn [map In] in H.
  destruct H as [<-|[<-|[<-|[]]]]; (split; [vm_compute; discriminate|intros x y X Y; vm_compute in X, Y; injection X as <-; injection Y as <-; vm_compute; discriminate]).
Qed.
