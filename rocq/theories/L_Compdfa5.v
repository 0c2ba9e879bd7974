(* compress_dfa as a whole. *)
From Coq Require Import Permutation Sorted.
From Verif Require Import Base M_Charclass M_Dfasyn M_Compdfa S_Dfasyn L_Charclass L_Charclass2 L_Nfa2 L_Nfa3 L_Compdfa L_Compdfa2 L_Compdfa3 L_Compdfa4.
Local Open Scope nat_scope.

Definition matched (evs : list evaluator) (nodes nodes' : list dfa_node) (z z' : Z) : Prop :=
  (exists i a, z = Z.of_nat i /\ i < length nodes /\ live evs nodes i /\ z' = Z.of_nat a /\ a < length nodes' /\ alike evs (node nodes i) (node nodes' a)) \/
  (z' = (-1)%Z /\ (z = (-1)%Z \/ exists i, z = Z.of_nat i /\ i < length nodes /\ ~ live evs nodes i)).
Lemma compress_ok qsort evs nodes nt entries : sorts qsort -> (forall x, In x evs -> defattr x <> None) -> Forall (sane evs nt (length nodes)) nodes -> Forall (fun e => e < length nodes) entries ->
  exists entries' nodes', compress_dfa qsort evs nodes entries = Ok (entries', nodes') /\ Forall (sane evs nt (length nodes')) nodes' /\ length entries' = length entries /\
  (forall a b, a < length nodes' -> b < length nodes' -> a <> b -> apart evs nodes' (Z.of_nat a) (Z.of_nat b)) /\
  (forall j e, nth_error entries j = Some e -> exists e', nth_error entries' j = Some e' /\ forall ts, matched evs nodes nodes' (nrun nodes (Z.of_nat e) ts) (nrun nodes' e' ts)).
Proof.
  intros So Df G Fe. unfold compress_dfa. destruct nodes as [|d0 nodes0] eqn:EN.
  - exists (map Z.of_nat entries), []. split; [reflexivity|]. split; [constructor|]. split; [apply map_length|]. split; [intros a b H; cbn in H; lia|]. intros j e E. exfalso. apply nth_error_In in E. rewrite Forall_forall in Fe. specialize (Fe e E). cbn in Fe. lia.
  - rewrite <- EN in *. assert (Pos : 0 < length nodes) by (rewrite EN; cbn; lia). clear EN d0 nodes0.
    destruct (dead_ok evs nodes nt G) as (leads & E1 & Ll & Lk). rewrite E1. cbn [bind].
    assert (L1 : length (pruned nodes leads) = length nodes) by (unfold pruned; apply map_length).
    pose proof (sane1 evs nodes nt leads G) as G1. 
    assert (AL : forall i z, In i (seq 0 (length (pruned nodes leads))) -> In z (d_map (node (pruned nodes leads) i)) -> (0 <= z)%Z -> apart evs (pruned nodes leads) z (-1)).
    { intros. eapply all_live1; eauto. }
    destruct (initial_ok evs (pruned nodes leads) nt qsort G1 So AL ltac:(rewrite L1; exact Pos)) as (sq & eqc & last & E2 & Psq & P). rewrite L1 in E2. rewrite E2.
    destruct (refine_ok evs (pruned nodes leads) nt qsort G1 So AL ltac:(rewrite L1; exact Pos) (S (length nodes)) sq eqc last P Psq ltac:(rewrite L1; lia)) as (eqc' & last' & E3 & P' & St). rewrite E3. cbn [bind]. rewrite L1 in St.
    destruct (compress_states leads (pruned nodes leads) eqc' entries) as [entries' nodes'] eqn:E4. exists entries', nodes'. split; [reflexivity|].
    assert (En : entries' = fst (compress_states leads (pruned nodes leads) eqc' entries)) by (rewrite E4; reflexivity). assert (Nn : nodes' = snd (compress_states leads (pruned nodes leads) eqc' entries)) by (rewrite E4; reflexivity).
    clear E4. subst entries' nodes'. split; [eapply new_sane; eauto|]. split; [unfold compress_states; cbn [fst]; apply map_length|]. split; [intros; eapply new_apart; eauto|].
    intros j e Ej. assert (Le : e < length nodes) by (rewrite Forall_forall in Fe; apply Fe; eapply nth_error_In; exact Ej).
    assert (EI : fst (compress_states leads (pruned nodes leads) eqc' entries) = map (idx nodes leads eqc') entries) by (eapply entry_idx; eauto).
    rewrite EI. exists (idx nodes leads eqc' e). split; [apply map_nth_error; exact Ej|]. intros ts.
    assert (SS : sim evs nodes leads eqc' (Z.of_nat e) (idx nodes leads eqc' e)) by (eapply sim_start; eauto).
    assert (SR : sim evs nodes leads eqc' (nrun nodes (Z.of_nat e) ts) (nrun (snd (compress_states leads (pruned nodes leads) eqc' entries)) (idx nodes leads eqc' e) ts)) by (eapply sim_run; eauto).
    pose proof SR as SR'. destruct SR as [(i & Zi & Li & Hi & Za)|Q]; [|right; exact Q]. left.
    assert (IL : exists a, idx nodes leads eqc' i = Z.of_nat a /\ a < length (snd (compress_states leads (pruned nodes leads) eqc' entries))).
    { edestruct (idx_live evs nodes nt leads eqc' Df G Ll Lk last' P' St entries i Li Hi) as (a & A & B & _). exists a. split; [exact A|exact B]. }
    destruct IL as (a & A & B). exists i, a. split; [exact Zi|]. split; [exact Li|]. split; [exact Hi|]. split; [congruence|]. split; [exact B|].
    intros k. pose proof (sim_obs evs nodes nt leads eqc' Df G Ll Lk last' P' St entries _ _ k SR') as X. rewrite Zi, Za, A in X. unfold obs in X. replace (Z.of_nat i <? 0)%Z with false in X by lia. replace (Z.of_nat a <? 0)%Z with false in X by lia. rewrite !Nat2Z.id in X. exact X.
Qed.
