(* Lemmas about the header of a message. *)
From Verif Require Import Base M_Header S_Header.
Local Open Scope N_scope.

Section H.
Context (isspc : N -> bool) (A : forall c, c < 128 -> isspc c = isspace c).

Lemma line_ok : forall l r acc b, in_line l -> header_line isspc (l ++ 10 :: r) acc b = L_line (rev acc ++ l) (b && forallb isspc l) r.
Proof using A.
  induction l as [|c l IH]; intros r acc b [I1 I2].
  - cbn [app header_line forallb]. change (10 =? 0) with false. change (10 =? 10) with true. cbv iota. now rewrite app_nil_r, andb_true_r.
  - cbn [app header_line forallb]. cbn [In] in *. destruct (N.eqb_spec c 0); [tauto|]. destruct (N.eqb_spec c 10); [tauto|].
    rewrite IH by (split; tauto). cbn [rev]. rewrite <- app_assoc. cbn [app]. f_equal. destruct (isspc c); cbn [andb]; [reflexivity|]. now rewrite andb_false_r.
Qed.
Lemma line_inv : forall s acc b t bl r, header_line isspc s acc b = L_line t bl r -> exists l, in_line l /\ s = l ++ 10 :: r /\ t = rev acc ++ l /\ bl = b && forallb isspc l.
Proof using A.
  induction s as [|c s IH]; intros acc b t bl r H; [discriminate|]. cbn [header_line] in H. destruct (N.eqb_spec c 0); [discriminate|]. destruct (N.eqb_spec c 10) as [->|].
  - injection H as <- <- <-. exists []. split; [split; auto|]. split; [reflexivity|]. split; [now rewrite app_nil_r|]. cbn. now rewrite andb_true_r.
  - destruct (IH _ _ _ _ _ H) as (l & [I1 I2] & -> & -> & ->). exists (c :: l). split; [split; cbn [In]; tauto|]. split; [reflexivity|]. split; [cbn [rev]; now rewrite <- app_assoc|].
    cbn [forallb]. destruct (isspc c); cbn [andb]; [reflexivity|]. now rewrite andb_false_r.
Qed.
Definition raw_line (l : bytes) : Prop := in_line l /\ forallb isspc l = false.
Definition text_of (raw : list bytes) : bytes := concat (map (fun l => l ++ [10]) raw).
Lemma lines_inv : forall fuel s acc ls body, header_lines isspc fuel s acc = Ok (Some (ls, body)) ->
  exists raw e, s = text_of raw ++ e /\ Forall raw_line raw /\ ends isspc e body /\ ls = rev acc ++ raw.
Proof using A.
  induction fuel as [|f IH]; intros s acc ls body H; [discriminate|]. cbn [header_lines] in H. destruct s as [|c s].
  - injection H as <- <-. exists [], []. split; [reflexivity|]. split; [constructor|]. split; [constructor|now rewrite app_nil_r].
  - destruct (N.eqb_spec c 0) as [->|].
    + injection H as <- <-. exists [], (0 :: s). split; [reflexivity|]. split; [constructor|]. split; [constructor|now rewrite app_nil_r].
    + destruct (header_line isspc (c :: s) [] true) as [| |t bl r] eqn:E; [discriminate|discriminate|]. destruct (line_inv _ _ _ _ _ _ E) as (l & I & ES & -> & ->). cbn [rev app andb] in *.
      destruct (forallb isspc l) eqn:B.
      * injection H as <- <-. exists [], (c :: s). split; [reflexivity|]. split; [constructor|]. split; [|now rewrite app_nil_r]. rewrite ES. constructor; [|apply I].
        apply Forall_forall. now apply forallb_forall.
      * destruct (IH _ _ _ _ H) as (raw & e & -> & R & EN & ->). exists (l :: raw), e. split; [rewrite ES; unfold text_of; cbn [map concat]; rewrite <- !app_assoc; reflexivity|].
        split; [constructor; [now split|exact R]|]. split; [exact EN|]. cbn [rev]. now rewrite <- app_assoc.
Qed.
Lemma lines_ok : forall raw e body, Forall raw_line raw -> ends isspc e body -> forall fuel acc, (length (text_of raw ++ e) < fuel)%nat ->
  header_lines isspc fuel (text_of raw ++ e) acc = Ok (Some (rev acc ++ raw, body)).
Proof using A.
  induction raw as [|l raw IH]; intros e body R EN fuel acc F; (destruct fuel as [|f]; [lia|]).
  - cbn [text_of map concat app] in *. rewrite app_nil_r. inversion EN as [w b W NW E1 E2| |r E1 E2]; subst.
    + assert (Z : in_line w) by (split; [exact NW|intro I0; rewrite Forall_forall in W; specialize (W 0 I0); rewrite A in W by lia; discriminate W]).
      assert (FB : forallb isspc w = true) by (apply forallb_forall; now apply Forall_forall).
      pose proof (line_ok w body [] true Z) as L. cbn [rev app] in L. rewrite FB in L. cbn [andb] in L.
      destruct w as [|c w]; cbn [app] in *; cbn [header_lines].
      * change (10 =? 0) with false. cbv iota. rewrite L. reflexivity.
      * destruct (N.eqb_spec c 0) as [->|]; [destruct Z as [_ Z]; cbn [In] in Z; tauto|]. rewrite L. reflexivity.
    + reflexivity.
    + reflexivity.
  - pose proof (Forall_inv R) as [I B]. unfold text_of in *. cbn [map concat] in *. rewrite <- !app_assoc in *. cbn [app] in *.
    pose proof (line_ok l (concat (map (fun l => l ++ [10]) raw) ++ e) [] true I) as L. cbn [rev app andb] in L. rewrite B in L.
    destruct l as [|c l]; [discriminate B|]. cbn [app] in *. cbn [header_lines]. destruct (N.eqb_spec c 0) as [->|]; [destruct I as [_ I]; cbn [In] in I; tauto|].
    rewrite L. rewrite (IH e body (Forall_inv_tail R) EN); [cbn [rev]; now rewrite <- app_assoc|].
    cbn [length] in F. rewrite app_length in F. cbn [length] in F. lia.
Qed.
Lemma lines_total : forall fuel s acc, (length s < fuel)%nat -> exists r, header_lines isspc fuel s acc = Ok r.
Proof using A.
  induction fuel as [|f IH]; intros s acc L; [lia|]. cbn [header_lines]. destruct s as [|c s]; [eauto|]. destruct (c =? 0); [eauto|].
  destruct (header_line isspc (c :: s) [] true) as [| |t bl r] eqn:E; [eauto|eauto|]. destruct bl; [eauto|]. apply IH.
  destruct (line_inv _ _ _ _ _ _ E) as (l & _ & E2 & _). apply (f_equal (@length N)) in E2. rewrite app_length in E2. cbn [length] in *. lia.
Qed.

Lemma prefix_ok : forall r s, prefix r s = true <-> exists t, s = r ++ t.
Proof using A.
  induction r as [|x r IH]; intro s; [split; [intros _; now exists s|reflexivity]|]. destruct s as [|y s]; [split; [discriminate|intros (t & E); discriminate E]|].
  cbn [prefix]. rewrite andb_true_iff, N.eqb_eq, IH. split; [intros [-> (t & ->)]; now exists t|intros (t & E); injection E as -> ->; split; [reflexivity|now exists t]].
Qed.
Lemma from_line_ok : forall s, (prefix (bs "From ") s || prefix (bs ">From ") s)%bool = true <-> from_line s.
Proof using A.
  intro s. rewrite orb_true_iff, !prefix_ok. unfold from_line. split; [intros [(t & E)|(t & E)]; exists t; auto|intros (t & [E|E]); [left|right]; now exists t].
Qed.
Lemma word_colon_ok : forall s saw, word_colon isspc s saw = true <-> exists n r, s = n ++ 58 :: r /\ (saw = true \/ n <> []) /\ Forall (fun c => c <> 58 /\ isspc c = false) n.
Proof using A.
  induction s as [|c s IH]; intro saw.
  - split; [discriminate|]. intros ([|? ?] & r & E & _); discriminate E.
  - cbn [word_colon]. destruct (N.eqb_spec c 58) as [->|NE].
    + split; [intro H; exists [], s; split; [reflexivity|]; split; [now left|constructor]|]. intros ([|d n] & r & E & H & F); [destruct H; [assumption|congruence]|].
      injection E as <- _. destruct (Forall_inv F) as [X _]. congruence.
    + destruct (isspc c) eqn:S.
      * split; [discriminate|]. intros ([|d n] & r & E & H & F); injection E as -> ->; [congruence|]. destruct (Forall_inv F) as [_ X]. congruence.
      * rewrite IH. split.
        -- intros (n & r & -> & _ & F). exists (c :: n), r. split; [reflexivity|]. split; [right; discriminate|]. constructor; auto.
        -- intros ([|d n] & r & E & _ & F); injection E as -> ->; [congruence|]. exists n, r. split; [reflexivity|]. split; [now left|]. exact (Forall_inv_tail F).
Qed.
Lemma named_ok : forall s, word_colon isspc s false = true <-> named_line isspc s.
Proof using A. intro s. rewrite word_colon_ok. unfold named_line. split; intros (n & r & E & H & F); exists n, r; [destruct H; [discriminate|auto]|auto]. Qed.
Lemma not_both : forall s, from_line s -> word_colon isspc s false = false.
Proof using A.
  intros s (r & [->| ->]); cbn [bs app word_colon]; vm_compute N_of_ascii; cbn [N.eqb Pos.eqb];
    rewrite ?(A 62), ?(A 70), ?(A 114), ?(A 111), ?(A 109), ?(A 32) by reflexivity; reflexivity.
Qed.

(* raw lines and fields *)
Definition join (x : bytes * bytes) : bytes := fst x ++ snd x.
Definition raw_of (f : field) : list bytes := first f :: map join (more f).
Definition raws (fs : list field) : list bytes := concat (map raw_of fs).
Definition more_ok (x : bytes * bytes) : Prop :=
  in_line (fst x) /\ in_line (snd x) /\ fst x <> [] /\ Forall (fun c => isspc c = true) (fst x) /\ exists c t, snd x = c :: t /\ isspc c = false.
Lemma raws_text : forall fs, text_of (raws fs) = concat (map folded fs).
Proof using A.
  induction fs as [|f fs IH]; [reflexivity|]. unfold text_of, raws in *. cbn [map concat]. rewrite map_app, concat_app. apply (f_equal2 (@app N)); [|exact IH]. unfold raw_of, folded. cbn [map concat].
  rewrite <- app_assoc. f_equal. f_equal. rewrite map_map. f_equal. apply map_ext. intros [w t]. unfold join. cbn [fst snd]. symmetry. apply app_assoc.
Qed.
Lemma first_char : forall s, from_line s \/ named_line isspc s -> exists c s', s = c :: s' /\ isspc c = false.
Proof using A.
  intros s [(r & [->| ->])|(n & r & -> & NN & F)].
  - exists 70, (bs "rom " ++ r). split; [reflexivity|]. now rewrite A.
  - exists 62, (bs "From " ++ r). split; [reflexivity|]. now rewrite A.
  - destruct n as [|c n]; [congruence|]. exists c, (n ++ 58 :: r). split; [reflexivity|]. apply (Forall_inv F).
Qed.
Lemma raw_fields : forall fs, Forall (field_ok isspc) fs -> Forall raw_line (raws fs).
Proof using A.
  induction fs as [|f fs IH]; intro F; [constructor|]. unfold raws in *. cbn [map concat]. apply Forall_app. split; [|apply IH; exact (Forall_inv_tail F)].
  destruct (Forall_inv F) as (I & K & M). unfold raw_of. constructor.
  - split; [exact I|]. destruct (first_char _ K) as (c & s & -> & S). cbn [forallb]. now rewrite S.
  - apply Forall_forall. intros l L. apply in_map_iff in L. destruct L as ([w t] & <- & X). rewrite Forall_forall in M. destruct (M _ X) as (Iw & It & _ & _ & c & s & E & S). cbn [fst snd] in *. unfold join. cbn [fst snd].
    split; [split; rewrite in_app_iff; unfold in_line in *; tauto|]. rewrite forallb_app, E. cbn [forallb]. rewrite S. apply andb_false_r.
Qed.
Lemma audit_more : forall ms rest, Forall more_ok ms -> audit_header isspc false (map join ms ++ rest) = audit_header isspc false rest.
Proof using A.
  induction ms as [|[w t] ms IH]; intros rest F; [reflexivity|]. destruct (Forall_inv F) as (_ & _ & NW & W & _). cbn [fst snd] in *. change (map join ((w, t) :: ms)) with ((w ++ t) :: map join ms). cbn [app audit_header].
  destruct w as [|c w]; [congruence|]. pose proof (Forall_inv W) as S. cbv beta in S.
  destruct (prefix (bs "From ") ((c :: w) ++ t) || prefix (bs ">From ") ((c :: w) ++ t))%bool eqn:P.
  - apply from_line_ok in P. destruct (first_char _ (or_introl P)) as (c' & s' & E & S'). injection E as <- _. congruence.
  - cbv zeta. cbn [app]. rewrite S. cbn [negb andb orb]. apply IH. exact (Forall_inv_tail F).
Qed.
Lemma audit_field : forall f rest, field_ok isspc f -> audit_header isspc false (raw_of f ++ rest) = audit_header isspc false rest.
Proof using A.
  intros f rest (_ & K & M). unfold raw_of. cbn [app audit_header].
  destruct (prefix (bs "From ") (first f) || prefix (bs ">From ") (first f))%bool eqn:P; [now apply audit_more|].
  destruct K as [K|K]; [apply from_line_ok in K; congruence|]. apply named_ok in K as W. rewrite W. destruct (first_char _ (or_intror K)) as (c & s & -> & S). cbv zeta. rewrite S. cbn [negb andb orb].
  now apply audit_more.
Qed.
Lemma audit_fields : forall fs, Forall (field_ok isspc) fs -> audit_header isspc false (raws fs) = true.
Proof using A. induction fs as [|f fs IH]; intro F; [reflexivity|]. unfold raws in *. cbn [map concat]. rewrite audit_field by exact (Forall_inv F). apply IH. exact (Forall_inv_tail F). Qed.
Lemma audit_header_ok : forall fs, header_ok isspc fs -> audit_header isspc true (raws fs) = true.
Proof using A.
  induction fs as [|f fs IH]; intros [F H]; [reflexivity|]. unfold raws in *. cbn [map concat]. pose proof (Forall_inv F) as FO. destruct FO as (I & K & M).
  destruct (prefix (bs "From ") (first f) || prefix (bs ">From ") (first f))%bool eqn:P.
  - apply from_line_ok in P as L. unfold raw_of. rewrite (H [] f fs eq_refl) by (constructor; [exact L|constructor]). cbn [map app audit_header]. rewrite P. apply IH. split; [exact (Forall_inv_tail F)|].
    intros a x b E Q. apply (H (f :: a) x b); [now rewrite E|]. cbn [app]. constructor; assumption.
  - destruct K as [K|K]; [apply from_line_ok in K; congruence|]. apply named_ok in K as W. destruct (first_char _ (or_intror K)) as (c & s & E & S).
    unfold raw_of. cbn [map app audit_header]. rewrite P, W, E. cbv zeta. rewrite S. cbn [negb andb orb]. rewrite audit_more by exact M. apply audit_fields. exact (Forall_inv_tail F).
Qed.
Lemma last_space_ok : forall w c t x s, Forall (fun c => isspc c = true) w -> t = x :: s -> isspc x = false -> last_space isspc c (w ++ t) = last (c :: w) 0 :: t.
Proof using A.
  induction w as [|d w IH]; intros c t x s W -> X; cbn [app last_space].
  - rewrite X. reflexivity.
  - rewrite (Forall_inv W). rewrite (IH d (x :: s) x s (Forall_inv_tail W) eq_refl X). reflexivity.
Qed.
Lemma splice_more : forall ms rest y done, Forall more_ok ms ->
  splice_header_lines isspc (map join ms ++ rest) (y :: done) = splice_header_lines isspc rest ((y ++ concat (map (fun x => last (fst x) 0 :: snd x) ms)) :: done).
Proof using A.
  induction ms as [|[w t] ms IH]; intros rest y done F; [cbn [map app concat]; now rewrite app_nil_r|]. destruct (Forall_inv F) as (_ & _ & NW & W & x & s & ET & X). cbn [fst snd] in *.
  cbn [map app concat]. unfold join at 1. cbn [fst snd]. destruct w as [|c w]; [congruence|]. cbn [app splice_header_lines]. rewrite (Forall_inv W).
  rewrite (last_space_ok w c t x s (Forall_inv_tail W) ET X). rewrite IH by exact (Forall_inv_tail F). rewrite <- app_assoc. reflexivity.
Qed.
Lemma splice_fields : forall fs done, Forall (field_ok isspc) fs -> splice_header_lines isspc (raws fs) done = Ok (rev done ++ map unfolded fs).
Proof using A.
  induction fs as [|f fs IH]; intros done F; [cbn; now rewrite app_nil_r|]. unfold raws in *. cbn [map concat]. destruct (Forall_inv F) as (_ & K & M). unfold raw_of. cbn [app splice_header_lines].
  destruct (first_char _ K) as (c & s & E & S). rewrite E, S, <- E. rewrite splice_more by exact M. rewrite IH by exact (Forall_inv_tail F). cbn [rev]. rewrite <- app_assoc. reflexivity.
Qed.

(* the other way round *)
Lemma split_spaces : forall l, forallb isspc l = false -> exists w c t, l = w ++ c :: t /\ Forall (fun c => isspc c = true) w /\ isspc c = false.
Proof using A.
  induction l as [|c l IH]; intro H; [discriminate|]. cbn [forallb] in H. destruct (isspc c) eqn:S.
  - destruct (IH H) as (w & d & t & -> & W & D). exists (c :: w), d, t. split; [reflexivity|]. split; [now constructor|exact D].
  - exists [], c, l. split; [reflexivity|]. split; [constructor|exact S].
Qed.
Lemma group : forall raw, Forall raw_line raw -> audit_header isspc false raw = true -> exists ms fs, raw = map join ms ++ raws fs /\ Forall more_ok ms /\ Forall (field_ok isspc) fs.
Proof using A.
  induction raw as [|x raw IH]; intros R H; [exists [], []; split; [reflexivity|split; constructor]|]. destruct (Forall_inv R) as [I B]. cbn [audit_header] in H.
  destruct (prefix (bs "From ") x || prefix (bs ">From ") x)%bool eqn:P.
  - apply from_line_ok in P. destruct (IH (Forall_inv_tail R) H) as (ms & fs & -> & M & F). exists [], ({| first := x; more := ms |} :: fs).
    split; [reflexivity|]. split; [constructor|]. constructor; [|exact F]. split; [exact I|]. split; [now left|exact M].
  - cbv zeta in H. destruct x as [|c x]; [discriminate|]. cbn [negb andb orb] in H.
    destruct (isspc c) eqn:S.
    + cbn [orb negb] in H. destruct (IH (Forall_inv_tail R) H) as (ms & fs & -> & M & F). destruct (split_spaces _ B) as (w & d & t & E & W & D).
      exists ((w, d :: t) :: ms), fs. split; [cbn [map app]; unfold join at 1; cbn [fst snd]; now rewrite E|]. split; [|exact F]. constructor; [|exact M].
      rewrite E in I. destruct I as [I1 I2]. rewrite in_app_iff in I1, I2. split; [split; cbn [fst]; tauto|]. split; [split; cbn [snd]; tauto|].
      split; [cbn [fst]; intro; subst w; cbn [app] in E; injection E as -> ->; congruence|]. split; [exact W|]. cbn [snd]. eauto.
    + destruct (word_colon isspc (c :: x) false) eqn:W; [|discriminate]. cbn [orb negb] in H. apply named_ok in W. destruct (IH (Forall_inv_tail R) H) as (ms & fs & -> & M & F).
      exists [], ({| first := c :: x; more := ms |} :: fs). split; [reflexivity|]. split; [constructor|]. constructor; [|exact F]. split; [exact I|]. split; [now right|exact M].
Qed.
Lemma group_first : forall raw, Forall raw_line raw -> audit_header isspc true raw = true -> exists fs, raw = raws fs /\ header_ok isspc fs.
Proof using A.
  induction raw as [|x raw IH]; intros R H.
  { exists []. split; [reflexivity|]. split; [apply Forall_nil|]. intros a f b E _. destruct a; discriminate E. }
  destruct (Forall_inv R) as [I B]. cbn [audit_header] in H.
  destruct (prefix (bs "From ") x || prefix (bs ">From ") x)%bool eqn:P.
  - apply from_line_ok in P. destruct (IH (Forall_inv_tail R) H) as (fs & -> & F & G). exists ({| first := x; more := [] |} :: fs).
    split; [reflexivity|]. split; [constructor; [|exact F]; split; [exact I|]; split; [now left|constructor]|].
    intros a f b E Q. destruct a as [|y a]; injection E as <- E; [reflexivity|]. apply (G a f b E). exact (Forall_inv_tail Q).
  - cbv zeta in H. destruct x as [|c x]; [discriminate|]. cbn [negb andb orb] in H.
    destruct (isspc c) eqn:S; [discriminate|]. destruct (word_colon isspc (c :: x) false) eqn:W; [|discriminate]. cbn [orb negb] in H.
    destruct (group raw (Forall_inv_tail R) H) as (ms & fs & -> & M & F). pose proof W as NM. apply named_ok in NM. exists ({| first := c :: x; more := ms |} :: fs). split; [reflexivity|].
    split; [constructor; [|exact F]; split; [exact I|]; split; [now right|exact M]|].
    intros a f b E Q. exfalso. assert (FL : from_line (c :: x)) by (destruct a as [|y a]; injection E as <- E; exact (Forall_inv Q)). rewrite (not_both _ FL) in W. discriminate W.
Qed.

Lemma header_main : forall data lines body, split_and_splice_header isspc data = Ok (Some (lines, body)) <->
  exists fs e, data = concat (map folded fs) ++ e /\ header_ok isspc fs /\ ends isspc e body /\ lines = map unfolded fs.
Proof using A.
  intros data lines body. unfold split_and_splice_header. split.
  - intro H. destruct (header_lines isspc (S (length data)) data []) as [[[ls b]|]|] eqn:E; [|discriminate|discriminate]. cbn [bind] in H.
    destruct (audit_header isspc true ls) eqn:AU; [|discriminate]. destruct (lines_inv _ _ _ _ _ E) as (raw & e & -> & R & EN & ->). cbn [rev app] in *.
    destruct (group_first raw R AU) as (fs & -> & HO). rewrite (splice_fields fs [] (proj1 HO)) in H. cbn [bind rev app] in H. injection H as <- <-.
    exists fs, e. rewrite raws_text. auto.
  - intros (fs & e & -> & HO & EN & ->). rewrite <- raws_text. rewrite (lines_ok _ _ _ (raw_fields fs (proj1 HO)) EN) by lia. cbn [bind rev app].
    rewrite (audit_header_ok fs HO), (splice_fields fs [] (proj1 HO)). reflexivity.
Qed.
Lemma header_total : forall data, exists r, split_and_splice_header isspc data = Ok r.
Proof using A.
  intro data. unfold split_and_splice_header. destruct (lines_total (S (length data)) data [] ltac:(lia)) as ([[ls b]|] & E); [|exists None; rewrite E; reflexivity].
  rewrite E. cbn [bind]. destruct (audit_header isspc true ls) eqn:AU; [|eexists; reflexivity]. destruct (lines_inv _ _ _ _ _ E) as (raw & e & _ & R & _ & ->). cbn [rev app] in *.
  destruct (group_first raw R AU) as (fs & -> & HO). rewrite (splice_fields fs [] (proj1 HO)). eexists. reflexivity.
Qed.
End H.

(* examples *)
Definition ex_header : list field :=
  [{| first := bs "From joe@here Mon Nov 16"; more := [] |};
   {| first := bs "Subject: one"; more := [([9; 32], bs "two"); ([32], bs "three")] |};
   {| first := bs "X-Empty:"; more := [] |}].
Lemma in_lineb : forall s, (negb (existsb (N.eqb 10) s) && negb (existsb (N.eqb 0) s))%bool = true -> in_line s.
Proof.
  intros s H. rewrite andb_true_iff, !negb_true_iff in H. destruct H as [H1 H2].
  split; intro I.
  - assert (X : existsb (N.eqb 10) s = true) by (apply existsb_exists; exists 10; split; [exact I|reflexivity]). congruence.
  - assert (X : existsb (N.eqb 0) s = true) by (apply existsb_exists; exists 0; split; [exact I|reflexivity]). congruence.
Qed.
Lemma ex_header_ok : header_ok isspace ex_header.
Proof.
  split.
  - constructor; [|constructor; [|constructor; [|constructor]]].
    + split; [now apply in_lineb|]. split; [left; exists (bs "joe@here Mon Nov 16"); now left|constructor].
    + split; [now apply in_lineb|]. split; [right; apply (named_ok isspace (fun c _ => eq_refl)); reflexivity|]. cbn [more]. constructor; [|constructor; [|constructor]].
      * split; [now apply in_lineb|]. split; [now apply in_lineb|]. split; [discriminate|]. split; [repeat (constructor; [reflexivity|]); constructor|]. exists 116, (bs "wo"). split; reflexivity.
      * split; [now apply in_lineb|]. split; [now apply in_lineb|]. split; [discriminate|]. split; [repeat (constructor; [reflexivity|]); constructor|]. exists 116, (bs "hree"). split; reflexivity.
    + split; [now apply in_lineb|]. split; [right; apply (named_ok isspace (fun c _ => eq_refl)); reflexivity|constructor].
  - intros a f b E Q. unfold ex_header in E. destruct a as [|x1 a]; injection E as <- E; [reflexivity|]. destruct a as [|x2 a]; injection E as <- E.
    + exfalso. apply Forall_app in Q. destruct Q as [_ Q]. destruct (Forall_inv Q) as (r & [X|X]); discriminate X.
    + exfalso. cbn [app] in Q. destruct (Forall_inv (Forall_inv_tail Q)) as (r & [X|X]); discriminate X.
Qed.
Definition ex_mail : bytes := concat (map folded ex_header) ++ ([32] ++ 10 :: bs "body").
Lemma ex_mail_parsed : split_and_splice_header isspace ex_mail = Ok (Some ([bs "From joe@here Mon Nov 16"; bs "Subject: one two three"; bs "X-Empty:"], bs "body")).
Proof. vm_compute. reflexivity. Qed.
Lemma ex_bad : split_and_splice_header isspace (bs "Subject: one" ++ [10] ++ bs "no colon" ++ [10; 10]) = Ok None.
Proof. vm_compute. reflexivity. Qed.
Lemma ex_ends : ends isspace ([32] ++ 10 :: bs "body") (bs "body").
Proof. constructor; [repeat constructor|intros [X|[]]; discriminate X]. Qed.
