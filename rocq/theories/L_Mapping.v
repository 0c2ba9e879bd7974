(* Proofs for M_Mapping. *)
From Verif Require Import Base M_Mapping S_Mapping L_Mbox.
Local Open Scope N_scope.

Section Mapping.
Context (use_gz use_bz use_xz : bool) (files : bytes -> option node) (reads : compression -> bytes -> option (list (option bytes)))
  (room : bytes -> bool) (place : space -> N).
Hypothesis fresh : forall m, ~ In (place m) (map fst m).
Notation kind := (get_compression_type use_gz use_bz use_xz).
Notation compressed := (is_compressed use_gz use_bz use_xz).
Notation create := (create_ro_mapping use_gz use_bz use_xz files reads room place).
Notation use := (use_file use_gz use_bz use_xz files reads room place).
Notation uses := (use_files use_gz use_bz use_xz files reads room place).
Notation says := (says kind files reads).

Lemma munmap_other m a : ~ In a (map fst m) -> munmap m a = m.
Proof.
  unfold munmap. induction m as [|[b t] m IH]; intros H; [reflexivity|]. cbn [filter fst]. cbn [map fst In] in H.
  destruct (b =? a) eqn:E; [lia|]. cbn [negb]. rewrite IH by tauto. reflexivity.
Qed.
Lemma munmap_new m a t : ~ In a (map fst m) -> munmap ((a, t) :: m) a = m.
Proof. intros H. transitivity (munmap m a); [|exact (munmap_other m a H)]. unfold munmap. cbn [filter fst]. rewrite N.eqb_refl. reflexivity. Qed.

Lemma read_rest_whole rs t : delivers rs t -> read_rest rs = Ok t.
Proof.
  induction 1 as [c E|c rs t L D IH].
  - cbn [read_rest]. destruct c as [|x c]; [congruence|]. cbn [bind]. rewrite app_nil_r. reflexivity.
  - cbn [read_rest]. destruct c as [|x c]; [cbn in L; vm_compute in L; discriminate|]. rewrite IH. reflexivity.
Qed.
Lemma read_all_whole rs t : delivers rs t -> read_all rs = Ok (Some t).
Proof.
  destruct 1 as [c E|c rs t L D].
  - cbn [read_all]. destruct c as [|x c]; [congruence|]. destruct (_ <? _); [reflexivity|]. cbn [read_rest bind]. rewrite app_nil_r. reflexivity.
  - cbn [read_all]. rewrite L. destruct c as [|x c]; [cbn in L; vm_compute in L; discriminate|].
    rewrite N.ltb_irrefl. rewrite (read_rest_whole _ _ D). reflexivity.
Qed.

(* What holds between two uses. *)
Definition tidy (seen : list bytes) (M : memory) : Prop :=
  m_type M <> ALLOC_MALLOC /\
  match m_slot M with
  | None => m_space M = []
  | Some (n, a, l) => exists t, says n t /\ l = N.of_nat (length t) /\ m_space M = [(a, t)] /\
      exists before since, seen = before ++ n :: since /\ compressed n = true /\ Forall (fun x => compressed x = false) since /\ (m_type M = ALLOC_MMAP -> since <> [])
  end.

Lemma map_plain_says M n raw : files n = Some (Regular raw) -> mappable raw ->
  map_plain files place M n = Ok (Memory ALLOC_MMAP (m_slot M) ((place (m_space M), raw) :: m_space M), Some (place (m_space M), N.of_nat (length raw))).
Proof.
  intros F [E L]. unfold map_plain. rewrite F. destruct raw as [|x raw]; [congruence|].
  replace (2 ^ 31 <=? N.of_nat (length (x :: raw))) with false by lia. reflexivity.
Qed.
Lemma compressed_kind n : compressed n = match kind n with COMPRESSION_NONE => false | _ => true end.
Proof. reflexivity. Qed.
Lemma read_here M1 a t l : at_address (m_space M1) a = Some t -> l = N.of_nat (length t) ->
  match at_address (m_space M1) a with
  | Some t => if l <=? N.of_nat (length t) then let! M2 := free_ro_mapping M1 a in Ok (M2, Some (firstn (N.to_nat l) t)) else Err E_oob
  | None => Err E_oob
  end = let! M2 := free_ro_mapping M1 a in Ok (M2, Some t).
Proof. intros E ->. rewrite E, N.leb_refl, Nnat.Nat2N.id, firstn_all. reflexivity. Qed.

Lemma use_plain seen M n t : tidy seen M -> compressed n = false -> says n t -> exists M', use M n = Ok (M', Some t) /\ tidy (seen ++ [n]) M'.
Proof.
  intros (T & S0) C (Mt & raw & F & Mr & K). rewrite compressed_kind in C. destruct (kind n) eqn:KN; try discriminate. subst raw.
  unfold use_file, create_ro_mapping. rewrite F. rewrite compressed_kind, KN. rewrite (map_plain_says M n t F Mr). cbn [bind].
  erewrite read_here; [|cbn [at_address m_space]; rewrite N.eqb_refl; reflexivity|reflexivity].
  unfold free_ro_mapping. cbn [m_type m_slot m_space bind]. rewrite munmap_new by apply fresh.
  eexists. split; [reflexivity|]. split; [discriminate|]. cbn [m_slot m_space m_type].
  destruct (m_slot M) as [[[z a] l]|]; [|exact S0]. destruct S0 as (tz & Sz & L & E & b & s & -> & Cz & Fs & _).
  exists tz. repeat split; try assumption; try apply Sz. exists b, (s ++ [n]). rewrite <- app_assoc. repeat split; try assumption.
  - apply Forall_app. split; [assumption|]. constructor; [|constructor]. rewrite compressed_kind, KN. reflexivity.
  - intros _ H. destruct s; discriminate.
Qed.

Lemma kept_away seen M n : tidy seen M -> find_ro_cache M n = None -> match m_slot M with Some (_, a, _) => munmap (m_space M) a | None => m_space M end = [].
Proof.
  intros (T & S0) _. destruct (m_slot M) as [[[z a] l]|]; [|exact S0]. destruct S0 as (tz & Sz & L & E & _). rewrite E.
  unfold munmap. cbn [filter fst]. rewrite N.eqb_refl. reflexivity.
Qed.

Lemma use_compressed seen M n t : tidy seen M -> ~ returns compressed (seen ++ [n]) -> compressed n = true -> room n = true -> says n t ->
  exists M', use M n = Ok (M', Some t) /\ tidy (seen ++ [n]) M'.
Proof.
  intros TI NR C RM Sn. pose proof Sn as (Mt & raw & F & Mr & K). unfold use_file, create_ro_mapping. rewrite F, C.
  destruct (find_ro_cache M n) as [[a l]|] eqn:FC.
  - (* in the cache *)
    destruct TI as (T & S0). unfold find_ro_cache in FC. destruct (m_slot M) as [[[z a'] l']|] eqn:SL; [|discriminate].
    destruct (bytes_eqb n z) eqn:E; [|discriminate]. apply bytes_eqb_iff in E. subst z. injection FC as -> ->.
    destruct S0 as (tz & Sz & L & E & b & s & -> & Cz & Fs & Z). cbn [bind].
    assert (NM : m_type M <> ALLOC_MMAP).
    { intros H. apply NR. exists b, n, s, []. split; [rewrite <- app_assoc; reflexivity|]. repeat split; try assumption. exact (Z H). }
    assert (tz = t).
    { destruct Sz as (_ & raw' & F' & _ & K'). rewrite F in F'. injection F' as <-. rewrite compressed_kind in C.
      destruct (kind n); try discriminate; destruct K as (rs & R & D), K' as (rs' & R' & D'); rewrite R in R'; injection R' as <-;
        apply read_all_whole in D; apply read_all_whole in D'; congruence. }
    subst tz. erewrite read_here; [|rewrite E; cbn [at_address]; rewrite N.eqb_refl; reflexivity|exact L].
    assert (FR : free_ro_mapping M a = Ok M) by (unfold free_ro_mapping; destruct (m_type M); congruence).
    rewrite FR. cbn [bind]. exists M. split; [reflexivity|]. split; [exact T|]. rewrite SL.
    exists t. repeat split; try assumption; try apply Sn. exists (b ++ n :: s), []. repeat split; auto.
  - rewrite RM. cbn [negb]. rewrite compressed_kind in C.
    assert (GO : exists M1 rs inner, zopen use_gz use_bz use_xz files reads place M n = Ok (M1, Some (rs, inner)) /\ delivers rs t /\ m_slot M1 = m_slot M /\
       exists M2, match inner with Some a => free_ro_mapping M1 a | None => Ok M1 end = Ok M2 /\ m_slot M2 = m_slot M /\ m_space M2 = m_space M).
    { unfold zopen. destruct (kind n) eqn:KN; try discriminate; destruct K as (rs & R & D).
      - rewrite R. exists M, rs, None. repeat split; auto. exists M. auto.
      - rewrite R. exists M, rs, None. repeat split; auto. exists M. auto.
      - rewrite (map_plain_says M n raw F Mr). cbn [bind]. rewrite R. do 3 eexists. split; [reflexivity|]. split; [exact D|]. split; [reflexivity|].
        unfold free_ro_mapping. cbn [m_type m_slot m_space]. eexists. split; [reflexivity|]. cbn [m_slot m_space]. split; [reflexivity|].
        apply munmap_new, fresh. }
    destruct GO as (M1 & rs & inner & -> & D & S1 & M2 & G & S2 & P2). cbn [bind]. rewrite (read_all_whole _ _ D). cbn [bind].
    replace (2 ^ 31 <=? N.of_nat (length t)) with false by (destruct Mt; lia). rewrite G. cbn [bind].
    unfold add_ro_cache. cbn [m_slot m_space m_type]. rewrite S2, P2, (kept_away seen M n TI FC). cbn [bind].
    erewrite read_here; [|cbn [at_address m_space]; rewrite N.eqb_refl; reflexivity|reflexivity].
    unfold free_ro_mapping. cbn [m_type m_slot m_space bind]. eexists. split; [reflexivity|]. split; [discriminate|]. cbn [m_slot m_space m_type].
    exists t. split; [exact Sn|]. split; [reflexivity|]. split; [reflexivity|]. exists seen, []. split; [reflexivity|]. split; [rewrite compressed_kind; exact C|]. split; [constructor|discriminate].
Qed.

Lemma returns_app l x : returns compressed l -> returns compressed (l ++ x).
Proof. intros (b & z & m & a & -> & H). exists b, z, m, (a ++ x). split; [|exact H]. rewrite <- app_assoc. cbn [app]. rewrite <- app_assoc. reflexivity. Qed.

Lemma uses_tidy names : forall seen M texts, tidy seen M -> ~ returns compressed (seen ++ names) -> Forall (fun n => room n = true) names -> Forall2 says names texts ->
  exists M', uses M names = Ok (M', map Some texts) /\ tidy (seen ++ names) M'.
Proof.
  induction names as [|n ns IH]; intros seen M texts T NR RM F; inversion F; subst.
  - exists M. rewrite app_nil_r. split; [reflexivity|exact T].
  - replace (seen ++ n :: ns) with ((seen ++ [n]) ++ ns) in * by (rewrite <- app_assoc; reflexivity). inversion RM; subst.
    assert (exists M1, use M n = Ok (M1, Some y) /\ tidy (seen ++ [n]) M1) as (M1 & U & T1).
    { destruct (compressed n) eqn:C; [|apply use_plain; assumption]. apply use_compressed; try assumption. intros H. apply NR, returns_app, H. }
    destruct (IH _ _ l' T1 NR) as (M2 & U2 & T2); [assumption|assumption|]. exists M2. split; [|exact T2].
    cbn [use_files map]. rewrite U. cbn [bind]. rewrite U2. reflexivity.
Qed.

Lemma all_read names texts : ~ returns compressed names -> Forall (fun n => room n = true) names -> Forall2 says names texts ->
  exists M, uses start names = Ok (M, map Some texts) /\ (length (m_space M) <= 1)%nat.
Proof.
  intros NR RM F. destruct (uses_tidy names [] start texts) as (M & U & T); try assumption.
  - split; [discriminate|]. reflexivity.
  - exists M. split; [exact U|]. destruct T as (_ & T). destruct (m_slot M) as [[[z a] l]|].
    + destruct T as (t & _ & _ & -> & _). cbn. lia.
    + rewrite T. cbn. lia.
Qed.

Lemma use_cached z t (tz : bytes) a M : compressed z = true -> files z = Some t -> m_slot M = Some (z, a, N.of_nat (@length N tz)) -> use M z =
  match at_address (m_space M) a with
  | Some t => if N.of_nat (@length N tz) <=? N.of_nat (@length N t) then let! M2 := free_ro_mapping M a in Ok (M2, Some (firstn (N.to_nat (N.of_nat (@length N tz))) t)) else Err E_oob
  | None => Err E_oob
  end.
Proof.
  intros C F SL. unfold use_file, create_ro_mapping. rewrite F, C. unfold find_ro_cache. rewrite SL.
  replace (bytes_eqb z z) with true by (symmetry; apply bytes_eqb_iff; reflexivity). reflexivity.
Qed.

(* The cached mapping is given back, and then used. *)
Lemma crash z p tz tp : compressed z = true -> compressed p = false -> room z = true -> says z tz -> says p tp ->
  uses start [z; p; z; z] = Err E_oob.
Proof.
  intros Cz Cp RM Sz Sp.
  destruct (use_compressed [] start z tz) as (M1 & U1 & T1); try assumption.
  { split; [discriminate|reflexivity]. }
  { intros (b & y & m & a & E & _). apply (f_equal (@length bytes)) in E. rewrite !app_length in E. cbn [length] in E. rewrite !app_length in E. cbn [length] in E. lia. }
  cbn [use_files]. rewrite U1. cbn [bind].
  assert (SL : exists a, m_slot M1 = Some (z, a, N.of_nat (length tz)) /\ m_space M1 = [(a, tz)]).
  { destruct Sz as (Mt & raw & F & Mr & K). revert U1. unfold use_file, create_ro_mapping. rewrite F, Cz. cbn [find_ro_cache start m_slot]. rewrite RM. cbn [negb].
    rewrite compressed_kind in Cz. unfold zopen. destruct (kind z) eqn:KN; try discriminate; destruct K as (rs & R & D).
    1, 2: rewrite R; cbn [bind]; rewrite (read_all_whole _ _ D); cbn [bind]; replace (2 ^ 31 <=? N.of_nat (length tz)) with false by (destruct Mt; lia); cbn [bind];
      unfold add_ro_cache; cbn [m_slot m_space m_type start]; cbn [bind]; erewrite read_here; [|cbn [at_address m_space]; rewrite N.eqb_refl; reflexivity|reflexivity];
      unfold free_ro_mapping; cbn [m_type bind]; intros U1; injection U1 as <-; eexists; split; reflexivity.
    rewrite (map_plain_says start z raw F Mr). cbn [bind]. rewrite R. cbn [bind]. rewrite (read_all_whole _ _ D). cbn [bind].
    replace (2 ^ 31 <=? N.of_nat (length tz)) with false by (destruct Mt; lia). unfold free_ro_mapping at 1. cbn [m_type m_slot m_space start bind].
    rewrite munmap_new by (intros []).
    unfold add_ro_cache; cbn [m_slot m_space m_type start]; cbn [bind]; erewrite read_here; [|cbn [at_address m_space]; rewrite N.eqb_refl; reflexivity|reflexivity].
    unfold free_ro_mapping; cbn [m_type bind]. intros U1; injection U1 as <-; eexists; split; reflexivity. }
  destruct SL as (a & SL & SP). destruct Sz as (Mt & raw & F & Mr & K).
  assert (U2 : use M1 p = Ok (Memory ALLOC_MMAP (m_slot M1) (m_space M1), Some tp)).
  { destruct Sp as (Mp & rp & Fp & Mrp & Kp). unfold use_file, create_ro_mapping. rewrite Fp, Cp. rewrite (map_plain_says M1 p rp Fp Mrp). cbn [bind].
    erewrite read_here; [|cbn [at_address m_space]; rewrite N.eqb_refl; reflexivity|reflexivity].
    unfold free_ro_mapping. cbn [m_type m_slot m_space bind]. rewrite munmap_new by apply fresh.
    rewrite compressed_kind in Cp. destruct (kind p); try discriminate. subst rp. reflexivity. }
  rewrite U2. cbn [bind]. rewrite (use_cached z _ tz a _ Cz F) by exact SL. cbn [m_space]. rewrite SP. cbn [at_address]. rewrite N.eqb_refl.
  rewrite N.leb_refl. unfold free_ro_mapping. cbn [m_type m_slot m_space bind]. rewrite (munmap_new [] a tz) by (intros []).
  rewrite (use_cached z _ tz a _ Cz F) by exact SL. reflexivity.
Qed.

(* A read fails. *)
Lemma read_fails cs rest : Forall (fun c => N.of_nat (length c) = SIZE_STEP) cs -> read_all (map Some cs ++ None :: rest) = Err E_oob.
Proof.
  assert (R : forall cs, Forall (fun c => N.of_nat (length c) = SIZE_STEP) cs -> read_rest (map Some cs ++ None :: rest) = Err E_oob).
  { induction 1 as [|c l L _ IH]; [reflexivity|]. cbn [map app read_rest]. destruct c as [|x c]; [cbn in L; vm_compute in L; discriminate|]. rewrite IH. reflexivity. }
  destruct 1 as [|c l L F]; [reflexivity|]. cbn [map app read_all]. destruct c as [|x c]; [cbn in L; vm_compute in L; discriminate|].
  rewrite L, N.ltb_irrefl, (R _ F). reflexivity.
Qed.
Lemma damaged_crash name raw cs rest : files name = Some (Regular raw) -> mappable raw -> compressed name = true -> room name = true ->
  Forall (fun c => N.of_nat (length c) = SIZE_STEP) cs -> reads (kind name) name = Some (map Some cs ++ None :: rest) ->
  use start name = Err E_oob.
Proof.
  intros F Mr C RM L R. unfold use_file, create_ro_mapping. rewrite F, C. cbn [find_ro_cache start m_slot]. rewrite RM. cbn [negb].
  rewrite compressed_kind in C. unfold zopen. destruct (kind name) eqn:KN; try discriminate.
  - rewrite R. cbn [bind]. rewrite (read_fails _ _ L). reflexivity.
  - rewrite R. cbn [bind]. rewrite (read_fails _ _ L). reflexivity.
  - rewrite (map_plain_says start name raw F Mr). cbn [bind]. rewrite R. cbn [bind]. rewrite (read_fails _ _ L). reflexivity.
Qed.
End Mapping.
