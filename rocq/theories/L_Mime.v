(* The content headers of a message or part. *)
From Verif Require Import Base M_Tokens M_Decode M_Header M_Words M_Nvp M_Rfc822 S_Decode S_Header S_Words S_Nvp S_Rfc822 S_Multipart S_Mime
  L_Decode L_Header L_TokTable L_Words3 L_Nvp4 L_Multipart L_Multipart2 L_Output3 L_Rfc822 L_Rfc822b L_Rfc822c L_Rfc822d.
Local Open Scope N_scope.

Lemma value_inv : forall k x v, value_of k x = [v] -> exists n, x = (n ++ [58]) ++ v /\ map tolower (n ++ [58]) = bs k ++ [58].
Proof.
  intros k x v H. unfold value_of in H. destruct (cut_colon x) as [[n w]|] eqn:E; [|discriminate]. destruct (bytes_eqb (map tolower n) (bs k)) eqn:B; [|discriminate].
  injection H as ->. apply bytes_eqb_eq in B. exists n. split; [|rewrite map_app, B; reflexivity].
  clear B. revert n v E. induction x as [|c x IH]; intros n v E; [discriminate|]. cbn [cut_colon] in E. destruct (c =? 58) eqn:C.
  - injection E as <- <-. apply N.eqb_eq in C. subst c. reflexivity.
  - destruct (cut_colon x) as [[n' v']|]; [|discriminate]. injection E as <- <-. cbn [app]. f_equal. exact (IH _ _ eq_refl).
Qed.
Lemma value_one : forall k x, value_of k x = [] \/ exists v, value_of k x = [v].
Proof. intros. unfold value_of. destruct (cut_colon x) as [[n w]|]; [|left; reflexivity]. destruct (bytes_eqb _ _); [right; exists w|left]; reflexivity. Qed.
Lemma value_no : forall k x, ~ In 58 (bs k) -> value_of k x = [] -> match_string (bs k ++ [58]) x = false.
Proof.
  intros k x H V. rewrite match_cut by exact H. unfold value_of in V. destruct (cut_colon x) as [[n w]|]; [|reflexivity]. destruct (bytes_eqb _ _); [discriminate|reflexivity].
Qed.
Lemma value_other : forall j k x v, value_of j x = [v] -> bs j <> bs k -> value_of k x = [].
Proof.
  intros j k x v H N. unfold value_of in *. destruct (cut_colon x) as [[n w]|]; [|reflexivity]. destruct (bytes_eqb (map tolower n) (bs j)) eqn:B; [|discriminate].
  apply bytes_eqb_eq in B. destruct (bytes_eqb (map tolower n) (bs k)) eqn:C; [|reflexivity]. apply bytes_eqb_eq in C. congruence.
Qed.

Section Mime.
Variable isspc : N -> bool.
Variable mktime : Z -> Z -> Z -> Z.
Hypothesis A : forall c, c < 128 -> isspc c = isspace c.

Lemma blank_space : forall c, blank c -> isspc c = true.
Proof. intros c [<-|[<-|[]]]; rewrite A by lia; reflexivity. Qed.
Lemma name_space : forall c, name_char c -> isspc c = false.
Proof.
  intros c H. assert (R : c < 128 /\ 45 <= c) by (unfold name_char, alnum_ascii in H; cbn in H; intuition lia).
  rewrite A by lia. unfold isspace. apply orb_false_iff. split; [apply N.eqb_neq; lia|]. apply andb_false_iff. right. apply N.leb_gt. lia.
Qed.
Lemma nvp_safe : forall x pfx, c_string x -> exists r, make_nvp isspc x pfx = Ok r.
Proof.
  intros x pfx C. apply (make_safe isspc name_space). apply Forall_forall. intros c I. unfold c_string in C. rewrite Forall_forall in C. specialize (C _ I). unfold c_char in C. lia.
Qed.
Lemma nvp_read : forall k x v cs es, value_of k x = [v] -> c_string x -> listed cs v -> stands cs [] es -> make_nvp isspc x (bs k ++ [58]) = Ok (Some es).
Proof.
  intros k x v cs es V C L S. destruct (value_inv _ _ _ V) as (n & E & T). rewrite E. apply (reads_ok isspc _ _ cs v es blank_space name_space); [|exact T|exact L|exact S].
  rewrite E in C. apply Forall_app in C. destruct C as [C _]. apply Forall_forall. intros c I. rewrite Forall_forall in C. specialize (C _ I). unfold c_char in C. lia.
Qed.
(* what a content header is read as *)
Definition read_as (o : option (list component)) (h : hdr) : Prop :=
  match o, h with
  | None, None => True
  | Some cs, Some es => stands cs [] es
  | _, _ => False
  end.
Lemma pick_content : forall k lines o, content k lines o -> Forall c_string lines -> exists h, pick isspc k None lines = Ok h /\ read_as o h.
Proof.
  intros k lines [cs|] H C.
  - destruct H as (v & V & L). destruct (stands_some cs []) as [es S]. exists (Some es). split; [|exact S].
    induction C as [|x lines X C IH]; [discriminate|]. rewrite values_cons in V. cbn [pick]. destruct (value_one k x) as [E|[w E]]; rewrite E in V |- *.
    + exact (IH V).
    + cbn [app] in V. injection V as -> _. rewrite (nvp_read _ _ _ _ _ E X L S). cbn [bind]. apply pick_some.
  - exists None. split; [|exact Logic.I]. cbn [content] in H. induction C as [|x lines X C IH]; [reflexivity|]. rewrite values_cons in H. apply app_eq_nil in H. destruct H as [H1 H2].
    cbn [pick]. rewrite H1. exact (IH H2).
Qed.
(* the same for a part *)
Definition now (k : string) (x : bytes) (old : hdr) : hdr :=
  match value_of k x with [] => old | _ => match make_nvp isspc x (bs k ++ [58]) with Ok (Some es) => Some es | _ => old end end.
Definition finally (k : string) (lines : list bytes) (old : hdr) : hdr := fold_left (fun o x => now k x o) lines old.
Lemma part_view : forall lines, Forall c_string lines -> forall a b c, part_headers isspc lines a b c =
  Ok (finally "content-type" lines a, finally "content-transfer-encoding" lines b, finally "content-disposition" lines c).
Proof.
  intros lines C. induction C as [|x lines X C IH]; intros a b c; [reflexivity|]. cbn [part_headers].
  change (bs "content-type:") with (bs "content-type" ++ [58]). change (bs "content-transfer-encoding:") with (bs "content-transfer-encoding" ++ [58]). change (bs "content-disposition:") with (bs "content-disposition" ++ [58]).
  unfold finally. cbn [fold_left]. fold (finally "content-type" lines (now "content-type" x a)). fold (finally "content-transfer-encoding" lines (now "content-transfer-encoding" x b)). fold (finally "content-disposition" lines (now "content-disposition" x c)).
  assert (NO : forall k, ~ In 58 (bs k) -> value_of k x = [] -> make_nvp isspc x (bs k ++ [58]) = Ok None) by (intros k K V; unfold make_nvp; rewrite (value_no _ _ K V); reflexivity).
  assert (K1 : ~ In 58 (bs "content-type")) by (cbn; intuition discriminate). assert (K2 : ~ In 58 (bs "content-transfer-encoding")) by (cbn; intuition discriminate). assert (K3 : ~ In 58 (bs "content-disposition")) by (cbn; intuition discriminate).
  destruct (value_one "content-type" x) as [V1|[v V1]].
  - rewrite (NO _ K1 V1). cbn [bind]. destruct (value_one "content-transfer-encoding" x) as [V2|[v V2]].
    + rewrite (NO _ K2 V2). cbn [bind]. destruct (value_one "content-disposition" x) as [V3|[v V3]].
      * rewrite (NO _ K3 V3). cbn [bind]. unfold now. rewrite V1, V2, V3. apply IH.
      * unfold now. rewrite V1, V2, V3. destruct (nvp_safe x (bs "content-disposition" ++ [58]) X) as [[es|] R]; rewrite R; cbn [bind]; apply IH.
    + assert (V3 : value_of "content-disposition" x = []) by (apply (value_other _ _ _ _ V2); discriminate).
      unfold now. rewrite V1, V2, V3. destruct (nvp_safe x (bs "content-transfer-encoding" ++ [58]) X) as [[es|] R]; rewrite R; cbn [bind]; [apply IH|]. rewrite (NO _ K3 V3). cbn [bind]. apply IH.
  - assert (V2 : value_of "content-transfer-encoding" x = []) by (apply (value_other _ _ _ _ V1); discriminate). assert (V3 : value_of "content-disposition" x = []) by (apply (value_other _ _ _ _ V1); discriminate).
    unfold now. rewrite V1, V2, V3. destruct (nvp_safe x (bs "content-type" ++ [58]) X) as [[es|] R]; rewrite R; cbn [bind]; [apply IH|]. rewrite (NO _ K2 V2). cbn [bind]. rewrite (NO _ K3 V3). cbn [bind]. apply IH.
Qed.
Lemma finally_content : forall k lines o, content k lines o -> Forall c_string lines -> read_as o (finally k lines None).
Proof.
  intros k lines o H C. assert (Q : forall lines old, values k lines = [] -> finally k lines old = old).
  { induction lines0 as [|x l IH]; intros old V; [reflexivity|]. rewrite values_cons in V. apply app_eq_nil in V. destruct V as [V1 V2]. unfold finally. cbn [fold_left]. unfold now at 2. rewrite V1. exact (IH _ V2). }
  destruct o as [cs|].
  - destruct H as (v & V & L). destruct (stands_some cs []) as [es S]. assert (E : finally k lines None = Some es); [|rewrite E; exact S].
    induction C as [|x lines X C IH]; [discriminate|]. rewrite values_cons in V. unfold finally. cbn [fold_left]. unfold now at 2. destruct (value_one k x) as [E|[w E]]; rewrite E in V |- *.
    + exact (IH V).
    + cbn [app] in V. injection V as -> V. rewrite (nvp_read _ _ _ _ _ E X L S). exact (Q _ _ V).
  - rewrite (Q _ _ H). exact Logic.I.
Qed.
End Mime.
