(* Mailboxes for the examples of P_Mbox. *)
From Verif Require Import Base M_DbFile M_Mbox S_Mbox.
Local Open Scope N_scope.
Definition nl : bytes := [10].
(* Separator lines end in "!" here. *)
Fixpoint ex_from_ok (s : bytes) : bool :=
  match s with [] => false | c :: s' => if c =? 10 then false else if c =? ch "!" then true else ex_from_ok s' end.
Definition ex_text : bytes :=
  bs "junk" ++ nl ++ bs "From a !" ++ nl ++ bs "one" ++ nl ++ bs "From here on" ++ nl ++ bs "From b !" ++ nl ++ bs "From c !" ++ nl ++ bs "two".
Definition ex_mmdf : bytes :=
  mmdf_sep ++ bs "one" ++ nl ++ mmdf_sep ++ mmdf_sep ++ bs "two" ++ nl ++ [1; 1] ++ nl ++ mmdf_sep.
(* Four messages; the third and fourth have changed. *)
Definition ex_box : mbox :=
  {| mb_path := Some (bs "/m"); f_mtime := 0; f_size := 0; c_mtime := 0; c_size := 0; mb_n := 4;
     starts := map Some [0; 2; 4; 6]; lens := map Some [2; 2; 2; 2]; checks := [bs "ab"; bs "cd"; bs "ef"; bs "gh"] |}.
Lemma ex_box_known : places_known ex_box.
Proof.
  intros i H. cbn [mb_n ex_box] in H. assert (D : i = 0 \/ i = 1 \/ i = 2 \/ i = 3) by lia.
  repeat destruct D as [->|D]; try subst i; repeat eexists.
Qed.
Lemma ex_box_damage : forall i j, i < j -> intact (fun s => s) ex_box (bs "abcdXXXX") j -> intact (fun s => s) ex_box (bs "abcdXXXX") i.
Proof.
  intros i j L (s & l & E1 & E2 & E3 & E4).
  assert (J : j < 4). { apply (f_equal (fun o => match o with Some _ => true | None => false end)) in E1. destruct (N.lt_ge_cases j 4); auto.
    assert (X : nth_error (starts ex_box) (N.to_nat j) = None) by (apply nth_error_None; cbn; lia). rewrite X in E1. discriminate. }
  assert (D : j = 1 \/ j = 2 \/ j = 3) by lia.
  destruct D as [->|D].
  - assert (i = 0) as -> by lia. exists 0, 2. repeat split. vm_compute. discriminate.
  - exfalso. destruct D as [->| ->]; vm_compute in E1, E2; injection E1 as <-; injection E2 as <-; vm_compute in E4; discriminate.
Qed.
