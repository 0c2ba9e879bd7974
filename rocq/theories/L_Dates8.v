(* Lemmas about dates.c: searching by date, and the cases in which the manual is not followed. *)
From Coq Require Import Lia.
From Verif Require Import Base M_Encoding M_TokTable S_TokTable M_DbFile S_DbFile M_Search S_Search L_DbFile5 L_DbFile6 L_DbFile7 L_Search6
  M_Dates S_Dates S_Zone L_TokTable L_Dates2 L_Dates5 L_Dates6 L_Dates7 L_Calendar L_Zone.
Local Open Scope Z_scope.

Lemma digs_string : forall w, digs w -> c_string w.
Proof. intros w D. eapply Forall_impl; [|exact D]. intros c H. cbn beta in H. unfold c_char. lia. Qed.
Lemma months_letters : forall w c, In w months -> In c w -> (97 <= c <= 122)%N.
Proof.
  intros w c Hw Hc. assert (C : forallb (forallb (fun c => (97 <=? c)%N && (c <=? 122)%N)) months = true) by (vm_compute; reflexivity).
  rewrite forallb_forall in C. specialize (C _ Hw). rewrite forallb_forall in C. specialize (C _ Hc). apply andb_prop in C. rewrite !N.leb_le in C. exact C.
Qed.
Lemma month_string : forall m w, month_word m w -> c_string w.
Proof.
  intros m w [_ H]. apply nth_error_In in H. apply Forall_forall. intros c Hc. pose proof (months_letters _ (tolower c) H (in_map tolower w c Hc)) as L.
  unfold tolower in L. unfold c_char. destruct (isupper c) eqn:U in L; lia.
Qed.
Lemma spells_string : forall e w, spells e w -> c_string w.
Proof.
  assert (A : forall a b, c_string a -> c_string b -> c_string (a ++ b)) by (intros; now apply Forall_app).
  assert (D : forall d w, day_word d w -> c_string w) by (intros d w H; apply digs_string, (day_small d w H)).
  assert (Y : forall d w, year_word d w -> c_string w) by (intros d w H; apply digs_string, (year_small d w H)).
  assert (T : forall n, 0 <= n <= 99 -> c_string (two n)) by (intros n H; apply digs_string, (two_ok n H)).
  assert (F : forall n, 0 <= n <= 9999 -> c_string (four n)) by (intros n H; apply digs_string, (four_ok n H)).
  pose proof month_string as M. intros e w SP. destruct SP; eauto 6.
  apply A; [now apply digs_string|]. constructor; [|constructor]. destruct u; now vm_compute.
Qed.

Lemma search_days : forall localtime mktime now hashf db old F r e w, zone_ok localtime mktime -> db_ok hashf db -> write_database db old = Ok F -> open_db F = Ok r ->
  spells e w -> plain e (date_of localtime now) ->
  exists A B a b l, first_day e (date_of localtime now) A /\ last_day_of e (date_of localtime now) B /\ first_second localtime A a /\ last_second localtime B b /\
    search (dates localtime mktime now) F r false [bs "d:" ++ w] = Ok l /\
    forall i, In i l <-> live db i /\ exists m, message db i = Some m /\ let t := Z.of_N (M_DbFile.date m) in
      upto A (date_of localtime t) /\ upto (date_of localtime t) B /\ t <> a /\ t <> b.
Proof.
  intros localtime mktime now hashf db old F r e w Z0 OK W O SP P.
  destruct (period_main localtime mktime now Z0 e w SP P) as (A & B & a & b & FA & LB & SA & SB & E).
  assert (SD : dates localtime mktime now w = Some (Some a, Some b)) by (unfold dates; now rewrite E).
  destruct (search_one (dates localtime mktime now) hashf db old F r (A_date w) OK W O) as (l & L & IN).
  { split; [now apply (spells_string e)|]. rewrite SD. discriminate. }
  exists A, B, a, b, l. repeat (split; [assumption|]). intro i. rewrite (IN i). cbn [arg_sat].
  assert (U : upto A B). { apply (first_last e (date_of localtime now)); [exact FA|exact LB|]. destruct SA as [<- _]. apply (z_real _ _ Z0). }
  split; intros [LV H]; (split; [exact LV|]).
  - destruct H as (m & lo & hi & M & S & BT). rewrite SD in S. injection S as <- <-. exists m. split; [exact M|]. cbv zeta.
    now apply (days_between localtime mktime now Z0 A B a b).
  - destruct H as (m & M & H). exists m, (Some a), (Some b). split; [exact M|]. split; [exact SD|]. now apply (days_between localtime mktime now Z0 A B a b) in H.
Qed.

(* The manual's current date: 18 May 2003, noon. *)
Definition then_ : Z := 1053259200.
Definition utc_range (now : Z) (s : bytes) : option (option date * option date) :=
  option_map (fun r => (option_map (date_of utc_time) (fst r), option_map (date_of utc_time) (snd r))) (dates utc_time utc_mk now s).
Definition march_day : Z := 1046476800.
Definition march_db : database := mk_db 0 [mk_msg (S_file (bs "/m/new/1") 10 20) 1046476800 0] [] [(bs "bob", 0%N)] [] [].
Lemma march_ok : db_ok ex_h march_db.
Proof.
  apply mk_db_ok.
  - now vm_compute.
  - constructor; [|constructor]. split; [now vm_compute|]. split; [now vm_compute|]. split; [apply c_stringb_ok; now vm_compute|]. now split.
  - constructor.
  - intro b. exists 0%nat. reflexivity.
  - intros m fi mi [<-|[]] H. discriminate.
  - now vm_compute.
Qed.
Ltac dword := first [apply day2; lia | apply day1; lia].
Lemma spell_31 : spells (X_day 31) (bs "31").
Proof. apply sp_day. exact (day2 31 ltac:(lia)). Qed.
Lemma spell_month : forall m w, (1 <= m)%Z -> nth_error months (Z.to_nat (m - 1)) = Some (map tolower w) -> month_word m w.
Proof. intros m w H E. now split. Qed.
Lemma spell_29feb : spells (X_month_day 2 29) (bs "29feb").
Proof. apply (sp_dm 2 29 (bs "feb") (bs "29")); [split; [lia|now vm_compute]|exact (day2 29 ltac:(lia))]. Qed.
Lemma spell_feb2100 : spells (X_month_year 2 2100) (bs "feb2100").
Proof. apply (sp_my 2 2100 (bs "feb") (bs "2100")); [split; [lia|now vm_compute]|exact (year4 2100 ltac:(lia))]. Qed.
Lemma spell_mar1 : spells (X_month_day 3 1) (bs "mar1").
Proof. apply (sp_md 3 1 (bs "mar") (bs "1")); [split; [lia|now vm_compute]|exact (day1 1 ltac:(lia))]. Qed.
Lemma spell_apr25 : spells (X_month_day 4 25) (bs "Apr25").
Proof. apply (sp_md 4 25 (bs "Apr") (bs "25")); [split; [lia|now vm_compute]|exact (day2 25 ltac:(lia))]. Qed.
Lemma spell_6w : spells (X_ago 6 Weeks) (bs "6w").
Proof. apply (sp_ago Weeks (bs "6")); [discriminate|]. constructor; [now vm_compute|constructor]. Qed.
Lemma spell_69y : spells (X_ago 69 Years) (bs "69y").
Proof. apply (sp_ago Years (bs "69")); [discriminate|]. repeat (constructor; [now vm_compute|]). constructor. Qed.
Lemma spell_oct : spells (X_month 10) (bs "oct").
Proof. apply (sp_month 10 (bs "oct")). split; [lia|now vm_compute]. Qed.
Lemma range_is : forall localtime mktime now s a b, dates localtime mktime now s = Some (Some a, Some b) -> scan_date_string localtime mktime now s = Ok (Some (Some a, Some b)).
Proof. intros localtime mktime now s a b H. unfold dates in H. destruct (scan_date_string localtime mktime now s) as [r|]; [now rewrite H|discriminate]. Qed.
Definition utc_first (D : date) : Z := snd (utc_mk (at_ D 0 0 0 0)).
Definition utc_last (D : date) : Z := snd (utc_mk (at_ D 23 59 59 0)).
Lemma utc_last_ok : forall D, real D -> last_second utc_time D (utc_last D).
Proof. intros D R. unfold utc_last. rewrite (utc_mk_at D 23 59 59 0 R), <- (utc_mk_at D 23 59 59 (-1) R). now apply (z_last _ _ utc_ok). Qed.
Lemma midnight : exists db F r w m, db_ok ex_h db /\ write_database db [] = Ok F /\ open_db F = Ok r /\
  spells (X_month_day 3 1) w /\ live db 0 /\ message db 0 = Some m /\ date_of utc_time (Z.of_N (M_DbFile.date m)) = mk 2003 3 1 /\
  search (dates utc_time utc_mk then_) F r false [bs "d:" ++ w] = Ok [].
Proof.
  exists march_db, (file_of march_db), (exp_db march_db), (bs "mar1"). eexists.
  split; [exact march_ok|]. split; [now vm_compute|]. split; [now vm_compute|]. split; [exact spell_mar1|].
  split; [eexists; split; [reflexivity|discriminate]|]. split; [reflexivity|]. split; now vm_compute.
Qed.
Lemma start_late : exists a b, scan_date_string utc_time utc_mk then_ (bs "mar1-Apr25") = Ok (Some (Some a, Some b)) /\
  last_second utc_time (mk 2003 3 1) a /\ last_second utc_time (mk 2003 4 25) b.
Proof.
  exists (utc_last (mk 2003 3 1)), (utc_last (mk 2003 4 25)). split; [vm_compute; reflexivity|].
  split; apply utc_last_ok; apply realb_ok; reflexivity.
Qed.
Lemma day_31 : exists now a b, date_of utc_time now = mk 2003 3 18 /\ spells (X_day 31) (bs "31") /\
  scan_date_string utc_time utc_mk now (bs "31") = Ok (Some (Some a, Some b)) /\ date_of utc_time a = mk 2003 3 3.
Proof. exists 1047988800, (utc_first (mk 2003 3 3)), (utc_last (mk 2003 3 3)). split; [vm_compute; reflexivity|]. split; [exact spell_31|]. split; vm_compute; reflexivity. Qed.
Lemma leap_29 : exists a b, spells (X_month_day 2 29) (bs "29feb") /\
  scan_date_string utc_time utc_mk then_ (bs "29feb") = Ok (Some (Some a, Some b)) /\ date_of utc_time a = mk 2003 3 1.
Proof. exists (utc_first (mk 2003 3 1)), (utc_last (mk 2003 3 1)). split; [exact spell_29feb|]. split; vm_compute; reflexivity. Qed.
Lemma feb_2100 : exists a b, spells (X_month_year 2 2100) (bs "feb2100") /\
  scan_date_string utc_time utc_mk then_ (bs "feb2100") = Ok (Some (Some a, Some b)) /\ date_of utc_time b = mk 2100 3 1.
Proof. exists (utc_first (mk 2100 2 1)), (utc_last (mk 2100 3 1)). split; [exact spell_feb2100|]. split; vm_compute; reflexivity. Qed.
Lemma reversed : exists a b, scan_date_string utc_time utc_mk then_ (bs "2004-2002") = Ok (Some (Some a, Some b)) /\
  date_of utc_time a = mk 2004 1 1 /\ date_of utc_time b = mk 2002 12 31.
Proof. exists (utc_last (mk 2004 1 1)), (utc_last (mk 2002 12 31)). split; [|split]; vm_compute; reflexivity. Qed.
Lemma future : exists a b, scan_date_string utc_time utc_mk then_ (bs "2004") = Ok (Some (Some a, Some b)) /\ then_ < a /\ a < b.
Proof. exists (utc_first (mk 2004 1 1)), (utc_last (mk 2004 12 31)). split; [|split]; vm_compute; reflexivity. Qed.
Lemma ago_nothing : forall localtime mktime now, zone_ok localtime mktime ->
  forall n u w, spells (X_ago n u) w -> in_range (X_ago n u) ->
  exists a b, scan_date_string localtime mktime now w = Ok (Some (Some a, Some b)) /\ forall t, ~ between (Some a) (Some b) t.
Proof. intros localtime mktime now Z0 n u w SP R. eexists. eexists. split; [exact (ago_period localtime mktime now Z0 n u w SP R)|]. intros t H. unfold between in H. lia. Qed.
Lemma overflow : exists w, spells (X_ago 69 Years) w /\ forall localtime mktime now, scan_date_string localtime mktime now w = Err E_ub.
Proof. exists (bs "69y"). split; [exact spell_69y|]. intros. reflexivity. Qed.
Lemma date_hypotheses : zone_ok utc_time utc_mk /\ steady utc_time utc_mk /\ date_of utc_time then_ = mk 2003 5 18 /\
  spells (X_month 10) (bs "oct") /\ plain (X_month 10) (date_of utc_time then_) /\
  spells (X_month_day 4 25) (bs "Apr25") /\ plain (X_month_day 4 25) (date_of utc_time then_) /\
  spells (X_ago 6 Weeks) (bs "6w") /\ in_range (X_ago 6 Weeks).
Proof.
  split; [exact utc_ok|]. split; [exact utc_steady|]. split; [now vm_compute|]. split; [exact spell_oct|]. split; [discriminate|].
  split; [exact spell_apr25|]. split; [now apply Z.leb_le|]. split; [exact spell_6w|reflexivity].
Qed.
