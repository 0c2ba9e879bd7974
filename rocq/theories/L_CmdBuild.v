From Verif Require Import Base M_DbFile M_Imap M_CmdBuild S_CmdBuild.
Local Open Scope N_scope.

Lemma c_str_nul s more : ~ In 0 s -> c_str (s ++ 0 :: more) = s.
Proof.
  induction s as [|c s IH]; intros H; [reflexivity|]. cbn [app c_str]. destruct (c =? 0) eqn:E; [apply N.eqb_eq in E; subst; exfalso; apply H; now left|].
  f_equal. apply IH. intros X. apply H. now right.
Qed.
Lemma first_of s more : fetch (sub (s ++ more) 0 (N.of_nat (length s))) = Ok s.
Proof.
  unfold fetch, sub. rewrite Nat2N.id. change (N.to_nat 0) with 0%nat. cbn [skipn]. rewrite firstn_app, firstn_all, Nat.sub_diag. cbn [firstn]. rewrite app_nil_r.
  repeat match goal with |- context [if ?b then _ else _] => let E := fresh in destruct b eqn:E end; try reflexivity;
    exfalso; unfold blen in *; rewrite ?app_length in *; lia.
Qed.
Lemma copied_ok s p len : bytes_given s p len -> copied p len = Ok s.
Proof. intros [more H|more]; cbn [copied]; [now rewrite c_str_nul|apply first_of]. Qed.
Lemma kids_added f ts t : {| f_type := f_type f; f_leaf := f_leaf f; f_kids := (f_kids f ++ [t]) ++ ts |} = {| f_type := f_type f; f_leaf := f_leaf f; f_kids := f_kids f ++ t :: ts |}.
Proof. now rewrite <- app_assoc. Qed.
Lemma given_builds ts l : given ts l -> forall top f fs rest,
  build_from top (f :: fs) (l ++ rest) = build_from top ({| f_type := f_type f; f_leaf := f_leaf f; f_kids := f_kids f ++ ts |} :: fs) rest.
Proof.
  induction 1 as [|s p len ts l BG G IH|s p len ts l BG G IH|t ts l G IH|ts l G IH|ty b ks m ts l OP G1 IH1 G IH]; intros top f fs rest; cbn [app].
  - destruct f. cbn. now rewrite app_nil_r.
  - cbn [build_from]. rewrite (copied_ok _ _ _ BG). cbn [bind put]. rewrite IH. cbn [add_kid f_type f_leaf f_kids]. now rewrite kids_added.
  - cbn [build_from]. rewrite (copied_ok _ _ _ BG). cbn [bind put]. rewrite IH. cbn [add_kid f_type f_leaf f_kids]. now rewrite kids_added.
  - cbn [build_from put]. rewrite IH. cbn [add_kid f_type f_leaf f_kids]. now rewrite kids_added.
  - cbn [build_from put]. rewrite IH. cbn [add_kid f_type f_leaf f_kids]. now rewrite kids_added.
  - assert (X : build_from top (f :: fs) (b :: (m ++ B_pop :: l) ++ rest) = build_from top ({| f_type := ty; f_leaf := None; f_kids := [] |} :: f :: fs) (m ++ B_pop :: l ++ rest)).
    { rewrite <- app_assoc. destruct ty; try discriminate OP; injection OP as <-; reflexivity. }
    rewrite X, IH1. cbn [f_type f_leaf f_kids app build_from closed]. rewrite IH. cbn [add_kid f_type f_leaf f_kids]. now rewrite kids_added.
Qed.
Lemma build_main ty b ks l rest : opener ty = Some b -> given ks l -> imap_ll_build (b :: l ++ B_end :: rest) = Ok (Some (Tok ty None ks)).
Proof.
  intros OP G. unfold imap_ll_build.
  assert (X : build_from None [] (b :: l ++ B_end :: rest) = build_from None [{| f_type := ty; f_leaf := None; f_kids := [] |}] (l ++ B_end :: rest)).
  { destruct ty; try discriminate OP; injection OP as <-; reflexivity. }
  rewrite X, (given_builds _ _ G). reflexivity.
Qed.
Lemma nul_free s : forallb (fun c => negb (c =? 0)) s = true -> ~ In 0 s.
Proof. intros H X. rewrite forallb_forall in H. apply H in X. discriminate. Qed.
Lemma g_word s ts l : forallb (fun c => negb (c =? 0)) (bs s) = true -> given ts l -> given (a_atom (bs s) :: ts) (word s :: l).
Proof. intros H G. apply g_atom; [apply by_nul, nul_free, H|exact G]. Qed.
Ltac calls := first [apply (build_main T_tagged B_tagged _ [_; _; _; _; _] []); [reflexivity|]
  | apply (build_main T_tagged B_tagged _ [_; _; _; _] []); [reflexivity|] | apply (build_main T_tagged B_tagged _ [_; _; _] []); [reflexivity|]
  | apply (build_main T_tagged B_tagged _ [_; _] []); [reflexivity|] | apply (build_main T_tagged B_tagged _ [_] []); [reflexivity|]];
  repeat first [apply g_none | apply g_word; [reflexivity|] | apply g_sub
    | apply g_atom; [apply by_length|] | apply g_string; [apply by_nul; assumption|]
    | apply g_string; [match goal with |- bytes_given ?s _ _ => rewrite <- (app_nil_r s) at 2; apply by_length end|]].
Lemma calls_main : forall user password folder uid rest data w s a g, ~ In 0 folder ->
  imap_ll_build call_starttls = Ok (Some (a_cmd [a_atom (bs "STARTTLS")])) /\
  imap_ll_build call_capability = Ok (Some (a_cmd [a_atom (bs "CAPABILITY")])) /\
  imap_ll_build (call_login user password) = Ok (Some (a_cmd [a_atom (bs "LOGIN"); a_string user; a_string password])) /\
  imap_ll_build (call_select w folder) = Ok (Some (a_cmd [a_atom (if w then bs "SELECT" else bs "EXAMINE"); a_string folder])) /\
  imap_ll_build call_flags = Ok (Some (a_cmd [a_atom (bs "UID"); a_atom (bs "FETCH"); a_atom (bs "1:*"); a_atom (bs "FLAGS")])) /\
  imap_ll_build (call_fetch uid rest) = Ok (Some (a_cmd [a_atom (bs "UID"); a_atom (bs "FETCH"); a_atom uid; a_atom (bs "BODY.PEEK[]")])) /\
  imap_ll_build call_delete = Ok (Some (a_cmd [a_atom (bs "STORE"); a_atom (bs "1:*"); a_atom (bs "+FLAGS"); a_atom (bs "\Deleted")])) /\
  imap_ll_build call_expunge = Ok (Some (a_cmd [a_atom (bs "EXPUNGE")])) /\
  imap_ll_build (call_create folder) = Ok (Some (a_cmd [a_atom (bs "CREATE"); a_string folder])) /\
  imap_ll_build (call_copy uid rest folder) = Ok (Some (a_cmd [a_atom (bs "UID"); a_atom (bs "COPY"); a_atom uid; a_string folder])) /\
  build_append folder data s a g = Ok (Some (a_cmd [a_atom (bs "APPEND"); a_string folder;
    Tok T_list None ((if s then [a_atom (bs "\Seen")] else []) ++ (if a then [a_atom (bs "\Answered")] else []) ++ (if g then [a_atom (bs "\Flagged")] else [])); a_string data])).
Proof.
  intros user password folder uid rest data w s a g NF.
  split; [calls|]. split; [calls|]. split; [calls|]. split; [destruct w; calls|]. split; [calls|]. split; [calls|]. split; [calls|]. split; [calls|]. split; [calls|]. split; [calls|].
  destruct s, a, g; unfold build_append; calls.
Qed.
