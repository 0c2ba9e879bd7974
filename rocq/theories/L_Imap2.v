(* Whatever a server sends, reading it stays within its memory; what the program sends means what it should. *)
From Verif Require Import Base M_Output M_Search M_Tokens M_Rfc822 M_Imap S_Imap S_Server L_Imap.
From Verif Require L_Output.
Local Open Scope N_scope.

(* ---- hostile servers ---- *)
Definition in_bounds (c : option (bytes * N)) : Prop := match c with Some (s, max) => N.of_nat (length s) <= max /\ 1 <= max | None => True end.
Definition is_listy (ty : tltype) : bool := same_type ty T_list || same_type ty T_sqlist.
Fixpoint rooted (o : list (tltype * list tok)) : Prop :=
  match o with [] => False | [(ty, _)] => is_listy ty = false | _ :: o' => rooted o' end.
Definition after_mark (c : N) (past : bytes) (n : Z) : Prop := exists a ds, past = a ++ c :: ds /\ Forall digit ds /\ n = Z.of_N (number ds).
Definition safe (past : bytes) (r : reader) : Prop :=
  match r_state r with
  | 0 | 1 => r_open r = [] /\ r_cur r = None
  | 2 => r_open r = [] /\ r_cur r = None /\ after_mark 116 past (r_num r)
  | 3 => True
  | 4 => rooted (r_open r) /\ in_bounds (r_cur r)
  | 5 => rooted (r_open r) /\ r_cur r <> None /\ in_bounds (r_cur r)
  | 6 => rooted (r_open r) /\ after_mark 123 past (r_num r)
  | 7 => rooted (r_open r) /\ (0 <= r_num r)%Z
  | 8 => rooted (r_open r) /\ exists s max, r_cur r = Some (s, max) /\ N.of_nat (length s) < max
  | _ => False
  end.
Lemma rooted_leaf o t : rooted o -> exists o', grow_leaf o t = Ok o' /\ rooted o'.
Proof. destruct o as [|[ty ks] [|[ty' ks'] o]]; cbn [rooted]; [contradiction| |]; intros H; eexists; split; try reflexivity; exact H. Qed.
Lemma rooted_list o ty : rooted o -> exists o', grow_list o ty = Ok o' /\ rooted o'.
Proof. destruct o as [|[ty0 ks0] o]; [contradiction|]; intros H; eexists; split; [reflexivity|]. exact H. Qed.
Lemma rooted_close ty ks o : rooted ((ty, ks) :: o) -> is_listy ty = true -> exists o', close_node ((ty, ks) :: o) = Ok o' /\ rooted o'.
Proof.
  destruct o as [|[ty' ks'] o]; cbn [rooted]; intros H L; [congruence|]. eexists; split; [reflexivity|]. destruct o; exact H.
Qed.
Lemma extend_safe c x : in_bounds (Some c) -> exists c', token_extend c x = Ok c' /\ in_bounds (Some c').
Proof. destruct c as [s max]. intros [L M]. destruct (extend_ok s max x L M) as (m & E & A & B). exists (s ++ [x], m). split; [exact E|split; assumption]. Qed.
Lemma finish_safe ty r : rooted (r_open r) -> match r_cur r with Some (s, max) => N.of_nat (length s) <= max | None => True end ->
  exists r', finish ty r = Ok r' /\ rooted (r_open r') /\ r_cur r' = None /\ r_state r' = r_state r /\ r_num r' = r_num r /\ r_plus r' = r_plus r /\
             (forall t k o, r_open r = (t, k) :: o -> exists k', r_open r' = (t, k') :: o).
Proof.
  intros R B. unfold finish. destruct (r_cur r) as [[s max]|] eqn:E.
  - cbn [mktoken]. replace (_ <=? max) with true by lia. cbn [bind]. destruct (rooted_leaf (r_open r) (Tok ty (Some s) []) R) as (o' & G & R'). rewrite G. cbn [bind]. eexists. split; [reflexivity|]. cbn [with_cur with_open r_open r_cur r_state r_num r_plus].
    repeat split; try assumption. intros t k o Q. rewrite Q in G. cbn [grow_leaf] in G. injection G as <-. eexists; reflexivity.
  - exists r. repeat split; try assumption. intros t k o Q. exists k. exact Q.
Qed.
Lemma bounds_weak c : in_bounds c -> match c with Some (s, max) => N.of_nat (length s) <= max | None => True end.
Proof. destruct c as [[s max]|]; [intros [A _]; exact A|trivial]. Qed.
Lemma after_add past c n x : after_mark c past n -> isdigit x = true -> after_mark c (past ++ [x]) (n * 10 + Z.of_N (x - 48)).
Proof.
  intros (a & ds & -> & F & ->) D. exists a, (ds ++ [x]). split; [rewrite <- app_assoc; reflexivity|]. unfold isdigit in D. split; [apply Forall_app; split; [exact F|constructor; [unfold digit; lia|constructor]]|].
  unfold number. rewrite fold_left_app. cbn [fold_left]. lia.
Qed.
Lemma digit_ok past c n x rest : after_mark c past n -> c = 116 \/ c = 123 -> isdigit x = true -> no_huge (past ++ x :: rest) -> add_digit n x = Ok (n * 10 + Z.of_N (x - 48))%Z.
Proof.
  intros A C D H. pose proof (after_add _ _ _ _ A D) as (a & ds & E & F & EQ). assert (L : number ds < 2 ^ 31).
  { apply (H a ds rest c); [|exact C|exact F]. replace (past ++ x :: rest) with ((past ++ [x]) ++ rest) by (rewrite <- app_assoc; reflexivity). rewrite E, <- app_assoc. reflexivity. }
  unfold add_digit. rewrite EQ. change (2 ^ 31) with 2147483648 in L. replace (_ <? _)%Z with true by lia. reflexivity.
Qed.
Lemma mark_here c past : after_mark c (past ++ [c]) 0.
Proof. exists past, []. split; [reflexivity|]. split; [constructor|reflexivity]. Qed.
Lemma step_safe tag past r c rest : safe past r -> no_huge (past ++ c :: rest) -> exists o, step tag r c = Ok o /\ match o with More r' => safe (past ++ [c]) r' | Done _ => True end.
Proof.
  intros SF H. unfold step. destruct (N.eqb_spec c 10) as [C10|C10]; cbn [andb].
  - subst c. destruct (r_state r <? 7) eqn:E7.
    + destruct (r_state r =? 4) eqn:E4; [|eexists; split; [reflexivity|exact I]]. unfold safe in SF. apply N.eqb_eq in E4. rewrite E4 in SF. destruct SF as [R B]. destruct (finish_safe T_atom r R (bounds_weak _ B)) as (r' & F & _). rewrite F. cbn [bind]. eexists; split; [reflexivity|exact I].
    + unfold safe in SF. destruct r as [st pl o n cur]. cbn [r_state r_open r_num r_cur] in *. destruct (N.eq_dec st 7) as [->|N7]; [|destruct (N.eq_dec st 8) as [->|N8]].
      * destruct SF as [R P]. cbn [N.eqb Pos.eqb with_cur r_num r_state r_open r_cur]. destruct (Z.eqb_spec n 0) as [->|NZ].
        -- destruct (finish_safe T_string (with_cur {| r_state := 7; r_plus := pl; r_open := o; r_num := 0; r_cur := cur |} (Some ([], Z.to_N 0))) R ltac:(cbn; lia)) as (r' & F & R' & C' & _). unfold with_cur in F |- *. cbn [r_state r_plus r_open r_num] in F |- *. rewrite F. cbn [bind]. eexists; split; [reflexivity|]. unfold safe. cbn [with_state r_state r_open r_cur]. rewrite C'. split; [exact R'|exact I].
        -- eexists; split; [reflexivity|]. unfold safe. cbn [with_state r_state r_open r_cur]. split; [exact R|]. eexists [], _. split; [reflexivity|]. cbn [length]. lia.
      * destruct SF as [R (s & max & -> & L)]. cbn [r_cur]. replace (_ <? max + 1) with true by lia. destruct (N.eqb_spec (N.of_nat (length s) + 1) max) as [E|E].
        -- destruct (finish_safe T_string (with_cur {| r_state := 8; r_plus := pl; r_open := o; r_num := n; r_cur := Some (s, max) |} (Some (s ++ [10], max))) R) as (r' & F & R' & C' & _); [cbn [with_cur r_cur]; rewrite app_length; cbn [length]; lia|]. rewrite F. cbn [bind]. eexists; split; [reflexivity|]. unfold safe. cbn [with_state r_state r_open r_cur]. rewrite C'. split; [exact R'|exact I].
        -- eexists; split; [reflexivity|]. unfold safe. cbn [with_cur r_state r_open r_cur]. split; [exact R|]. eexists _, _. split; [reflexivity|]. rewrite app_length. cbn [length]. lia.
      * exfalso. assert (X : 7 <= st) by lia. clear E7. destruct st as [|p]; [lia|]. do 4 (destruct p as [p|p|]; try (cbn in SF; exact SF); try lia).
  - destruct r as [st pl o n cur]. unfold safe in SF. cbn [r_state r_open r_num r_cur] in *.
    assert (ST : st = 0 \/ st = 1 \/ st = 2 \/ st = 3 \/ st = 4 \/ st = 5 \/ st = 6 \/ st = 7 \/ st = 8).
    { destruct st as [|p]; [auto|]. do 4 (destruct p as [p|p|]; try (cbn in SF; contradiction); auto 12). }
    destruct ST as [->|[->|[->|[->|[->|[->|[->|[->| ->]]]]]]]].
    + destruct SF as [-> ->]. eexists; split; [reflexivity|]. destruct (N.eqb_spec c 42); [subst; split; reflexivity|]. destruct (N.eqb_spec c 116); [subst; unfold safe; cbn; repeat split; apply mark_here|]. destruct (c =? 43); exact I.
    + destruct SF as [-> ->]. eexists; split; [reflexivity|]. destruct (c =? 32); [unfold safe; cbn; auto|exact I].
    + destruct SF as (-> & -> & A). destruct (c =? 32).
      * eexists; split; [reflexivity|]. destruct (n =? tag)%Z; [unfold safe; cbn; auto|exact I].
      * destruct (isdigit c) eqn:D; [|eexists; split; [reflexivity|exact I]]. rewrite (digit_ok _ _ _ _ _ A (or_introl eq_refl) D H). cbn [bind]. eexists; split; [reflexivity|]. unfold safe. cbn [with_num r_state r_open r_cur r_num]. repeat split. apply after_add; assumption.
    + eexists; split; [reflexivity|exact I].
    + destruct SF as [R B]. destruct (N.eqb_spec c 34); [eexists; split; [reflexivity|]; unfold safe; cbn; repeat split; [exact R|discriminate|lia|lia]|].
      destruct (N.eqb_spec c 123) as [->|]; [eexists; split; [reflexivity|]; unfold safe; cbn [with_num with_state r_state r_open r_num]; split; [exact R|apply mark_here]|].
      destruct ((c =? 91) && _).
      { destruct (rooted_list o T_sqlist R) as (o' & G & R'). rewrite G. cbn [bind]. eexists; split; [reflexivity|]. split; assumption. }
      destruct (c =? 40).
      { destruct (rooted_list o T_list R) as (o' & G & R'). rewrite G. cbn [bind]. eexists; split; [reflexivity|]. split; assumption. }
      destruct o as [|[ty ks] o]; [contradiction|]. destruct (finish_safe T_atom {| r_state := 4; r_plus := pl; r_open := (ty, ks) :: o; r_num := n; r_cur := cur |} R (bounds_weak _ B)) as (r' & F & R' & C' & S' & _ & _ & TOP). rewrite F.
      destruct (same_type ty T_list && (c =? 41) || same_type ty T_sqlist && (c =? 93)) eqn:CL.
      { cbn [bind]. destruct (TOP ty ks o eq_refl) as [k' EO]. rewrite EO in *. destruct (rooted_close ty k' o R') as (o' & G & R2); [unfold is_listy; destruct (same_type ty T_list), (same_type ty T_sqlist); try reflexivity; discriminate|]. rewrite G. cbn [bind]. eexists; split; [reflexivity|]. unfold safe. cbn [with_open r_state r_open r_cur]. rewrite S'. cbn [r_state]. rewrite C'. split; [exact R2|exact I]. }
      destruct ((c =? 32) || (c =? 9) || (c =? 13)).
      { cbn [bind]. eexists; split; [reflexivity|]. unfold safe. rewrite S'. cbn [r_state]. rewrite C'. split; [exact R'|exact I]. }
      destruct (extend_safe (match cur with Some c0 => c0 | None => ([], 25) end) c) as (c' & E & B'); [destruct cur as [x|]; [exact B|cbn; lia]|]. rewrite E. cbn [bind]. eexists; split; [reflexivity|]. split; assumption.
    + destruct SF as (R & NN & B). destruct cur as [x|]; [|contradiction]. destruct (c =? 34).
      * destruct (finish_safe T_string {| r_state := 5; r_plus := pl; r_open := o; r_num := n; r_cur := Some x |} R (bounds_weak _ B)) as (r' & F & R' & C' & _). rewrite F. cbn [bind]. eexists; split; [reflexivity|]. unfold safe. cbn [with_state r_state r_open r_cur]. rewrite C'. split; [exact R'|exact I].
      * destruct (extend_safe x c B) as (c' & E & B'). rewrite E. cbn [bind]. eexists; split; [reflexivity|]. unfold safe. cbn [with_cur r_state r_open r_cur]. repeat split; [exact R|discriminate|apply B'..].
    + destruct SF as (R & A). destruct (c =? 125); [eexists; split; [reflexivity|]; unfold safe; cbn [with_state r_state r_open r_num]; split; [exact R|destruct A as (a & ds & _ & _ & ->); lia]|].
      destruct (isdigit c) eqn:D; [|eexists; split; [reflexivity|exact I]]. rewrite (digit_ok _ _ _ _ _ A (or_intror eq_refl) D H). cbn [bind]. eexists; split; [reflexivity|]. unfold safe. cbn [with_num r_state r_open r_num]. split; [exact R|apply after_add; assumption].
    + destruct SF as [R P]. destruct (c =? 13); [eexists; split; [reflexivity|]; split; assumption|]. cbn [with_cur r_num r_state r_open r_cur]. destruct (Z.eqb_spec n 0) as [->|NZ].
      * destruct (finish_safe T_string (with_cur {| r_state := 7; r_plus := pl; r_open := o; r_num := 0; r_cur := cur |} (Some ([], Z.to_N 0))) R ltac:(cbn; lia)) as (r' & F & R' & C' & _). unfold with_cur in F |- *. cbn [r_state r_plus r_open r_num] in F |- *. rewrite F. cbn [bind]. eexists; split; [reflexivity|]. unfold safe. cbn [with_state r_state r_open r_cur]. rewrite C'. split; [exact R'|exact I].
      * eexists; split; [reflexivity|]. unfold safe. cbn [with_state r_state r_open r_cur]. split; [exact R|]. eexists [], _. split; [reflexivity|]. cbn [length]. lia.
    + destruct SF as [R (s & max & -> & L)]. cbn [r_cur]. replace (_ <? max + 1) with true by lia. destruct (N.eqb_spec (N.of_nat (length s) + 1) max) as [E|E].
      * destruct (finish_safe T_string (with_cur {| r_state := 8; r_plus := pl; r_open := o; r_num := n; r_cur := Some (s, max) |} (Some (s ++ [c], max))) R) as (r' & F & R' & C' & _); [cbn [with_cur r_cur]; rewrite app_length; cbn [length]; lia|]. rewrite F. cbn [bind]. eexists; split; [reflexivity|]. unfold safe. cbn [with_state r_state r_open r_cur]. rewrite C'. split; [exact R'|exact I].
      * eexists; split; [reflexivity|]. unfold safe. cbn [with_cur r_state r_open r_cur]. split; [exact R|]. eexists _, _. split; [reflexivity|]. rewrite app_length. cbn [length]. lia.
Qed.
Lemma eat_safe tag : forall t past r, safe past r -> no_huge (past ++ t) -> exists o, eat tag r t = Ok o.
Proof.
  induction t as [|c t IH]; intros past r SF H; [eexists; reflexivity|]. cbn [eat]. destruct (step_safe tag past r c t SF H) as ([r'|l] & E & SF'); rewrite E; cbn [bind]; [|eexists; reflexivity].
  apply (IH (past ++ [c])); [exact SF'|]. rewrite <- app_assoc. exact H.
Qed.
Lemma no_huge_tail a t : no_huge (a ++ t) -> no_huge t.
Proof. intros H a' ds b c -> C F. apply (H (a ++ a') ds b c); [rewrite <- app_assoc; reflexivity|exact C|exact F]. Qed.
Lemma eat_rest tag : forall t r l b, eat tag r t = Ok (inr (l, b)) -> exists a, t = a ++ b /\ a <> [].
Proof.
  induction t as [|c t IH]; intros r l b E; [discriminate|]. cbn [eat] in E. destruct (step tag r c) as [[r'|l']|e]; cbn [bind] in E; [|injection E as _ <-; exists [c]; split; [reflexivity|discriminate]|discriminate]. destruct (IH _ _ _ E) as (a & -> & _). exists (c :: a). split; [reflexivity|discriminate].
Qed.
Lemma wait_safe tag buf net : no_huge (buf ++ concat net) -> exists l b n, waitline tag reader0 buf net = Ok (l, b, n) /\ no_huge (b ++ concat n) /\ (l = None \/ (length (b ++ concat n) < length (buf ++ concat net))%nat).
Proof.
  intros H. destruct (eat_safe tag (buf ++ concat net) [] reader0 (conj eq_refl eq_refl) H) as (o & E). pose proof (wait_all tag net reader0 buf) as W. rewrite E in W. destruct (waitline tag reader0 buf net) as [[[l b] n]|e]; [|destruct o as [|[]]; discriminate W]. exists l, b, n. split; [reflexivity|].
  destruct o as [r|[l' b']]; cbn [rest_of] in W.
  - injection W as -> ->. split; [|auto]. intros a ds b0 c EQ. destruct a; discriminate EQ.
  - injection W as -> ->. destruct (eat_rest _ _ _ _ _ E) as (a & EQ & NE). rewrite EQ in *. split; [apply (no_huge_tail a); exact H|]. right. rewrite app_length. destruct a; [contradiction|cbn [length]; lia].
Qed.
Lemma collect_safe tag : forall fuel buf net sofar, no_huge (buf ++ concat net) -> (length (buf ++ concat net) < fuel)%nat -> exists l b n, collect fuel tag buf net sofar = Ok (l, b, n) /\ no_huge (b ++ concat n) /\ match l with Some ls => ls <> [] | None => True end.
Proof.
  induction fuel as [|f IH]; intros buf net sofar H L; [lia|]. cbn [collect]. destruct (wait_safe tag buf net H) as (l & b & n & E & H' & D). rewrite E. cbn [bind]. destruct l as [t|].
  - destruct D as [D|D]; [discriminate|]. destruct (same_type (t_type t) T_tagged).
    + exists (Some (sofar ++ [t])), b, n. split; [reflexivity|]. split; [exact H'|]. destruct sofar; discriminate.
    + apply IH; [exact H'|lia].
  - exists None, b, n. split; [reflexivity|]. split; [exact H'|exact I].
Qed.

Lemma status_safe ls : ls <> [] -> exists st, status (Some ls) = Ok st.
Proof.
  intros NE. unfold status. destruct (rev ls) as [|t r] eqn:E; [apply (f_equal (@rev tok)) in E; rewrite rev_involutive in E; contradiction|]. destruct (t_kids t); eexists; reflexivity.
Qed.
Lemma command_safe (S : Type) (serve : S -> bytes -> S * option (list bytes)) k cmd :
  (k_tag k + 1 < 2147483648)%Z -> (forall out, snd (serve (k_srv k) (format_cmd (k_tag k + 1) cmd ++ [13; 10])) = Some out -> no_huge (k_buf k ++ concat (k_net k) ++ concat out)) ->
  exists r k', command S serve k cmd = Ok (r, k') /\ match r with Some ls => ls <> [] | None => True end.
Proof.
  intros T H. unfold command. replace (_ <? _)%Z with true by lia. destruct (serve (k_srv k) _) as [s' [out|]]; [|eexists _, _; split; [reflexivity|exact I]].
  specialize (H out eq_refl). assert (H' : no_huge (k_buf k ++ concat (k_net k ++ out))) by (rewrite concat_app; exact H).
  destruct (collect_safe (k_tag k + 1) (1 + length (k_buf k) + length (concat (k_net k ++ out))) (k_buf k) (k_net k ++ out) [] H') as (l & b & n & E & _ & NE); [rewrite app_length; lia|]. rewrite E. cbn [bind]. eexists _, _. split; [reflexivity|exact NE].
Qed.
Lemma select_safe (S : Type) (serve : S -> bytes -> S * option (list bytes)) k f w :
  (k_tag k + 1 < 2147483648)%Z -> (forall s t out, snd (serve s t) = Some out -> no_huge (k_buf k ++ concat (k_net k) ++ concat out)) ->
  exists r, imap_select S serve k f w = Ok r.
Proof.
  intros T H. unfold imap_select. destruct (match k_sel k with Some s => _ | None => _ end); [eexists; reflexivity|].
  match goal with |- context [command S serve k ?c] => destruct (command_safe S serve k c T (fun out E => H _ _ out E)) as (r & k' & E & NE) end. rewrite E. cbn [bind]. destruct r as [ls|]; [|eexists; reflexivity].
  destruct (status_safe ls NE) as [st ST]. rewrite ST. cbn [bind]. destruct (negb _); [eexists; reflexivity|]. destruct (fold_left select_line (removelast ls) (None, 0%Z)) as [[v|] ex]; eexists; reflexivity.
Qed.
