(* A search leaves everything outside the match folder alone. *)
From Coq Require Import Permutation Sorted.
From Verif Require Import Base M_DbFile M_Search M_Paths M_Output S_Search S_Output L_TokTable L_Search6 L_Output L_Output2 L_Output3.
Local Open Scope N_scope.

Lemma sorted_NoDup l : StronglySorted N.lt l -> NoDup l.
Proof.
  induction 1 as [|x l S IH F]; constructor; [|exact IH]. intros X. rewrite Forall_forall in F. apply F in X. lia.
Qed.
Lemma result_in_folder ft dir p : result_place ft dir p -> in_match_folder ft dir p.
Proof. destruct ft; cbn [result_place in_match_folder]; tauto. Qed.

Section Top.
Context (csum : bytes -> bytes) (expand : bytes -> bytes -> option bytes) (imap : bytes -> option bytes) (hard : bool).

Definition place_of (ft : folder_type) (dir : bytes) (ii i : N) : bytes -> Prop :=
  match ft with FT_maildir => at_maildir dir i | _ => at_mh dir ii end.
Lemma place_of_place ft dir ii i p : ft = FT_maildir \/ ft = FT_mh -> place_of ft dir ii i p -> result_place ft dir p.
Proof. intros [-> | ->]; cbn [place_of]; [apply at_maildir_place|apply at_mh_place]. Qed.
Lemma place_of_apart ft dir ii i jj j p : place_of ft dir ii i p -> place_of ft dir jj j p -> ii = jj \/ i = j.
Proof. destruct ft; cbn [place_of]; intros A B; [right; eapply at_maildir_inj; eassumption|..]; left; eapply at_mh_inj; eassumption. Qed.

Lemma output_kept F r ft dir d l o : NoDup l -> disc_ok d -> (forall p, result_place ft dir p -> free_name d p) -> (ft = FT_mbox -> free_name d dir) ->
  output csum expand imap hard F r ft dir d l = Ok o -> kept (in_match_folder ft dir) d (o_disc o).
Proof.
  intros ND OK FR FB H. destruct ft; cbn [output] in H.
  - apply bind_ok in H as ((d' & w) & H1 & H). injection H as <-. cbn [o_disc].
    eapply kept_weaken; [|eapply (each_kept _ (place_of FT_maildir dir)); [| |exact ND| |exact OK|exact H1]].
    + intros p (k & i & _ & P). apply result_in_folder. eapply place_of_place; [|exact P]. auto.
    + intros d0 ii i x. apply to_maildir_kept.
    + intros ii i jj j p. apply place_of_apart.
    + intros p (k & i & _ & P). apply FR. eapply place_of_place; [|exact P]. auto.
  - apply bind_ok in H as ((d' & w) & H1 & H). injection H as <-. cbn [o_disc].
    eapply kept_weaken; [|eapply (each_kept _ (place_of FT_mh dir)); [| |exact ND| |exact OK|exact H1]].
    + intros p (k & i & _ & P). apply result_in_folder. eapply place_of_place; [|exact P]. auto.
    + intros d0 ii i x. apply to_mh_kept.
    + intros ii i jj j p. apply place_of_apart.
    + intros p (k & i & _ & P). apply FR. eapply place_of_place; [|exact P]. auto.
  - rewrite open_w_free in H by auto. destruct (name d dir) eqn:E; [discriminate|]. apply bind_ok in H as ((b & w) & _ & H). injection H as <-. cbn [o_disc].
    split; [|split].
    + intros p Hp. cbn. cbn [in_match_folder] in Hp. apply bytes_eqb_neq in Hp. now rewrite Hp.
    + intros i Hi. cbn. destruct (i =? fresh d) eqn:X; [apply N.eqb_eq in X; lia|reflexivity].
    + cbn. lia.
  - apply bind_ok in H as ((b & w) & _ & H). injection H as <-. apply kept_refl.
Qed.
Lemma unlink_free d p : free_name (unlink d p) p.
Proof.
  unfold unlink, free_name. destruct (name d p) as [[i|t|]|] eqn:E; auto; left; apply name_set_same.
Qed.
Lemma prepare_kept ft d dir e : prepare ft false d dir = Ok e -> disc_ok d -> folder_real ft d dir ->
  kept (in_match_folder ft dir) d e /\ disc_ok e /\ (forall p, result_place ft dir p -> free_name e p) /\ (ft = FT_mbox -> free_name e dir).
Proof.
  intros H OK FR. destruct ft.
  - destruct (prepare_maildir _ _ _ H OK FR) as (A & B & C). split; [exact A|]. split; [exact B|]. split; [exact C|discriminate].
  - destruct (prepare_mh _ _ _ H OK) as (A & B & C). split; [exact A|]. split; [exact B|]. split; [exact C|discriminate].
  - cbn in H. injection H as <-. split; [apply kept_unlink; reflexivity|]. split; [now apply disc_ok_unlink|]. split; [intros p []|]. intros _. apply unlink_free.
  - cbn in H. injection H as <-. split; [apply kept_refl|]. split; [assumption|]. split; [intros p []|discriminate].
Qed.
Lemma top_kept sd qsort threads F dir args ft d o code :
  (forall q l, qsort = Some q -> Permutation l (q l)) -> disc_ok d -> folder_real ft d dir ->
  search_top csum expand imap hard sd qsort threads false F dir args ft d = Ok (o, code) ->
  (forall p, ~ in_match_folder ft dir p -> name (o_disc o) p = name d p) /\ (forall i, i < fresh d -> data (o_disc o) i = data d i).
Proof.
  intros Q OK FR H. unfold search_top in H. apply bind_ok in H as (r & _ & H). apply bind_ok in H as (d1 & H1 & H).
  apply bind_ok in H as (l & H2 & H). apply bind_ok in H as (o' & H3 & H). injection H as <- _.
  destruct (prepare_kept _ _ _ _ H1 OK FR) as (K1 & O1 & F1 & F2).
  assert (ND : NoDup l) by (apply sorted_NoDup; exact (proj1 (search_live _ _ _ _ _ _ H2))).
  assert (ND' : NoDup (match qsort with Some q => q l | None => l end)).
  { destruct qsort as [q|]; [|exact ND]. eapply Permutation_NoDup; [apply Q; reflexivity|exact ND]. }
  pose proof (output_kept _ _ _ _ _ _ _ ND' O1 F1 F2 H3) as K2. destruct (kept_trans _ _ _ _ K1 K2) as (A & B & _). auto.
Qed.
End Top.
