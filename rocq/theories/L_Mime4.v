(* Parsing ends, whatever the data. *)
From Verif Require Import Base M_Tokens M_Decode M_Header M_Words M_Nvp M_Rfc822 S_Decode S_Header S_Words S_Nvp S_Rfc822 S_Multipart S_Mime
  L_Decode L_Header L_TokTable L_Words3 L_Nvp4 L_Multipart L_Multipart2 L_Output3 L_Rfc822 L_Rfc822b L_Rfc822c L_Rfc822d L_Mime L_Mime2 L_Mime3.
Local Open Scope N_scope.

Definition small (s : bytes) : Prop := Forall (fun c => c < 256) s.
Definition decoded_or_oob (r : res bytes) : Prop := r = Err E_oob \/ exists out, r = Ok out /\ small out.
Lemma put_cases : forall cap out c (f : bytes -> res bytes), (forall out', out' = c :: out -> decoded_or_oob (f out')) -> decoded_or_oob (bind (put cap out c) f).
Proof. intros cap out c f H. unfold put. destruct (_ <? _)%nat; cbn [bind]; [apply H; reflexivity|left; reflexivity]. Qed.
Lemma small_skip : forall n s, small s -> small (skipn n s).
Proof. intros n s F. unfold small in *. rewrite <- (firstn_skipn n s) in F. apply Forall_app in F. tauto. Qed.
Lemma small_first : forall n s, small s -> small (firstn n s).
Proof. intros n s F. unfold small in *. rewrite <- (firstn_skipn n s) in F. apply Forall_app in F. tauto. Qed.
Lemma zmod_small : forall z, Z.to_N (z mod 256) < 256.
Proof. intros z. pose proof (Z.mod_pos_bound z 256 ltac:(lia)). lia. Qed.
Lemma base64_cases : forall cap s reg nc eq out, small out -> decoded_or_oob (base64 cap s reg nc eq out).
Proof.
  induction s as [|c s IH]; intros reg nc eq out O; [right; exists out; auto|]. cbn [base64]. cbv zeta.
  destruct (nth_error base64_table (N.to_nat c)) as [dc|]; [|left; reflexivity]. destruct (nth_error equal_table (N.to_nat c)) as [e|]; [|left; reflexivity].
  destruct (0 <=? dc)%Z; [|apply IH; exact O]. destruct (S nc =? 4)%nat; [|apply IH; exact O].
  apply put_cases. intros o1 ->. assert (O1 : small (Z.to_N ((reg * 64 + dc) / 65536 mod 256) :: out)) by (apply Forall_cons; [apply zmod_small|exact O]).
  set (o1 := _ :: out) in *. clearbody o1.
  assert (G : forall o2, small o2 -> decoded_or_oob (let! out0 := if (eq + e <? 1)%Z then put cap o2 (Z.to_N ((reg * 64 + dc) mod 256)) else Ok o2 in (if (eq + e =? 0)%Z then base64 cap s 0 0 (eq + e) out0 else Ok out0))).
  { intros o2 O2. assert (K : forall o3, small o3 -> decoded_or_oob (if (eq + e =? 0)%Z then base64 cap s 0 0 (eq + e) o3 else Ok o3)) by (intros o3 O3; destruct (_ =? _)%Z; [apply IH; exact O3|right; exists o3; auto]).
    destruct (eq + e <? 1)%Z; [|exact (K o2 O2)]. apply put_cases. intros o3 ->. apply K. apply Forall_cons; [apply zmod_small|exact O2]. }
  destruct (eq + e <? 2)%Z; [|exact (G o1 O1)]. apply put_cases. intros o2 ->. apply G. apply Forall_cons; [apply zmod_small|exact O1].
Qed.
Lemma ws_cases : forall isspc s, ws_newline isspc s = Err E_oob \/ exists r, ws_newline isspc s = Ok r.
Proof.
  induction s as [|c s IH]; [left; reflexivity|]. cbn [ws_newline]. destruct (c =? 10); [eauto|]. destruct (isspc c); [|eauto].
  destruct IH as [->|[r ->]]; cbn [bind]; eauto.
Qed.
Lemma nmod_small : forall n, n mod 256 < 256.
Proof. intros n. apply N.mod_lt. discriminate. Qed.
Lemma qp_cases : forall isspc fuel cap rest togo out, (togo < fuel)%nat -> small rest -> small out -> decoded_or_oob (qp isspc fuel cap rest togo out).
Proof.
  induction fuel as [|f IH]; intros cap rest togo out L R O; [lia|]. cbn [qp]. destruct (Nat.eqb_spec togo 0) as [Z|NZ]; [right; exists out; auto|].
  destruct rest as [|c rest1]; [left; reflexivity|]. inversion R as [|? ? C R1]; subst. destruct (c =? 61).
  - destruct (ws_cases isspc rest1) as [->|[r ->]]; cbn [bind]; [left; reflexivity|]. destruct r as [k|].
    + apply IH; [lia|apply (small_skip (S k)); exact R1|exact O].
    + destruct rest1 as [|x [|y rest2]]; try (left; reflexivity). apply put_cases. intros o ->. inversion R1 as [|? ? _ R2]; subst. inversion R2 as [|? ? _ R3]; subst.
      apply IH; [lia|exact R3|]. apply Forall_cons; [apply nmod_small|exact O].
  - apply put_cases. intros o ->. apply IH; [lia|exact R1|]. apply Forall_cons; assumption.
Qed.
Lemma newline_cases : forall togo rest, small rest -> to_newline rest togo = Err E_oob \/ exists r t, to_newline rest togo = Ok (r, t) /\ small r /\ (t <= togo)%nat.
Proof.
  induction togo as [|t IH]; intros rest R; [right; exists rest, 0%nat; destruct rest; auto|]. destruct rest as [|c rest]; [left; reflexivity|]. cbn [to_newline]. destruct (c =? 10).
  - right. exists (c :: rest), (S t). auto.
  - inversion R; subst. destruct (IH rest H2) as [E|(r & u & E & S & L)]; rewrite E; [left; reflexivity|]. right. exists r, u. auto.
Qed.
Lemma begin_cases : forall rest togo, small rest -> uu_begin rest togo = Err E_oob \/ exists r t, uu_begin rest togo = Ok (r, t) /\ small r.
Proof.
  induction rest as [|c rest IH]; intros togo R; cbn [uu_begin]; destruct (6 <? togo)%nat; try (right; exists (c :: rest), togo; auto; fail); try (right; exists [], togo; auto; fail).
  - left. reflexivity.
  - destruct (bytes_eqb _ _); [right; exists (c :: rest), togo; auto|]. destruct togo as [|t]; [left; reflexivity|]. inversion R; subst. apply IH. assumption.
Qed.
Lemma groups_cases : forall cap k len rest togo out, (len <= k)%nat -> small rest -> small out ->
  uu_groups cap len rest togo out = Err E_oob \/ exists r t o, uu_groups cap len rest togo out = Ok (r, t, o) /\ small r /\ small o /\ (t <= togo)%nat.
Proof.
  assert (P : forall cap out n (X : Type) (f : bytes -> res X) (Q : X -> Prop), (forall o, o = n mod 256 :: out -> f o = Err E_oob \/ exists x, f o = Ok x /\ Q x) -> bind (put cap out (n mod 256)) f = Err E_oob \/ exists x, bind (put cap out (n mod 256)) f = Ok x /\ Q x).
  { intros cap out n X f Q H. unfold put. destruct (_ <? _)%nat; cbn [bind]; [apply H; reflexivity|left; reflexivity]. }
  intros cap. assert (G : forall k len rest togo out, (len <= k)%nat -> small rest -> small out -> uu_groups cap len rest togo out = Err E_oob \/
    exists x, uu_groups cap len rest togo out = Ok x /\ (small (fst (fst x)) /\ small (snd x) /\ (snd (fst x) <= togo)%nat)).
  - induction k as [|k IH]; intros len rest togo out L R O.
    + destruct len; [|lia]. right. exists (rest, togo, out). auto.
    + destruct len as [|[|[|len]]]; cbn [uu_groups].
      * right. exists (rest, togo, out). auto.
      * destruct rest as [|a [|b rest]]; try (left; reflexivity). apply P. intros o ->. right. eexists. split; [reflexivity|]. cbn [fst snd]. split; [apply (small_skip 4); exact R|]. split; [|lia]. apply Forall_cons; [apply nmod_small|exact O].
      * destruct rest as [|a [|b [|c rest]]]; try (left; reflexivity). apply P. intros o ->. apply P. intros o ->. right. eexists. split; [reflexivity|]. cbn [fst snd]. split; [apply (small_skip 4); exact R|]. split; [|lia].
        repeat (apply Forall_cons; [apply nmod_small|]). exact O.
      * destruct rest as [|a [|b [|c [|d rest]]]]; try (left; reflexivity). apply P. intros o ->. apply P. intros o ->. apply P. intros o ->.
        destruct (IH len rest (togo - 4)%nat (N.lor (dec c * 64) (dec d) mod 256 :: N.lor (dec b * 16) (dec c / 4) mod 256 :: N.lor (dec a * 4) (dec b / 16) mod 256 :: out)) as [E|(x & E & S1 & S2 & S3)].
        -- lia.
        -- exact (small_skip 4 _ R).
        -- repeat (apply Forall_cons; [apply nmod_small|]). exact O.
        -- left. exact E.
        -- right. exists x. split; [exact E|]. split; [exact S1|]. split; [exact S2|lia].
  - intros k len rest togo out L R O. destruct (G k len rest togo out L R O) as [E|([[r t] o] & E & S1 & S2 & S3)]; [left; exact E|right; exists r, t, o; auto].
Qed.
Lemma lines_cases : forall fuel cap rest togo out, (togo < fuel)%nat -> small rest -> small out -> decoded_or_oob (uu_lines fuel cap rest togo out).
Proof.
  induction fuel as [|f IH]; intros cap rest togo out L R O; [lia|]. cbn [uu_lines]. destruct (Nat.eqb_spec togo 0) as [Z|NZ]; [right; exists out; auto|]. destruct rest as [|c rest]; [left; reflexivity|]. cbv zeta.
  destruct (dec c =? 0); [right; exists out; auto|]. inversion R; subst.
  destruct (groups_cases cap (N.to_nat (dec c)) (N.to_nat (dec c)) rest (togo - 1) out (Nat.le_refl _) H2 O) as [E|(r & t & o & E & S1 & S2 & S3)]; rewrite E; cbn [bind]; [left; reflexivity|].
  destruct (newline_cases t r S1) as [F|(r2 & t2 & F & S4 & S5)]; rewrite F; cbn [bind]; [left; reflexivity|]. apply IH; [lia|exact S4|exact S2].
Qed.
Lemma uu_cases : forall cap mem len, small mem -> decoded_or_oob (uudecode cap mem len).
Proof.
  intros cap mem len M. unfold uudecode. destruct (begin_cases mem len M) as [E|(r & t & E & S)]; rewrite E; cbn [bind]; [left; reflexivity|].
  destruct (newline_cases (t - 6) (skipn 6 r) (small_skip 6 _ S)) as [F|(r2 & t2 & F & S4 & S5)]; rewrite F; cbn [bind]; [left; reflexivity|]. apply lines_cases; [lia|exact S4|apply Forall_nil].
Qed.
Lemma small_rev : forall s, small s -> small (rev s).
Proof. intros s F. apply Forall_rev. exact F. Qed.
Lemma unencode_cases : forall isspc mem len enc, small mem -> unencode_data isspc mem len enc = Err E_oob \/ exists s, unencode_data isspc mem len enc = Ok s /\ small s /\ (length s <= len)%nat.
Proof.
  intros isspc mem len enc M. unfold unencode_data. cbv zeta.
  match goal with |- bind ?a _ = _ \/ _ => assert (D : decoded_or_oob a) end.
  { assert (P : decoded_or_oob (if (len <=? length mem)%nat then Ok (rev (firstn len mem)) else Err E_oob)).
    { destruct (_ <=? _)%nat; [|left; reflexivity]. right. eexists. split; [reflexivity|]. apply small_rev, small_first. exact M. }
    destruct (decode_encoding_type isspc enc); try exact P.
    all: first [right; exists []; split; [reflexivity|apply Forall_nil] | apply qp_cases; [lia|exact M|apply Forall_nil] | apply uu_cases; exact M | destruct (_ <=? _)%nat; [apply base64_cases; apply Forall_nil|left; reflexivity]]. }
  destruct D as [->|(out & -> & SM)]; cbn [bind]; [left; reflexivity|]. unfold put. destruct (Nat.ltb_spec (length out) (S len)); cbn [bind]; [|left; reflexivity].
  right. eexists. split; [reflexivity|]. split; [apply small_rev; exact SM|]. rewrite rev_length. lia.
Qed.

(* parsing *)
Definition fair {X : Type} (r : res X) : Prop := match r with Ok _ => True | Err E_oob => True | Err E_ub => True | Err _ => False end.
Lemma fair_bind : forall (X Y : Type) (r : res X) (f : X -> res Y), fair r -> (forall x, r = Ok x -> fair (f x)) -> fair (bind r f).
Proof. intros X Y [x|e] f H G; cbn [bind]; [apply G; reflexivity|exact H]. Qed.
Section Ends.
Variable isspc : N -> bool.
Variable mktime : Z -> Z -> Z -> Z.
Hypothesis A : forall c, c < 128 -> isspc c = isspace c.
Lemma entries_fair : forall lines st, Forall c_string lines -> fair (header_entries isspc mktime st lines).
Proof.
  intros lines st C. revert st. induction C as [|x lines X C IH]; intros st; [exact Logic.I|]. cbn [header_entries]. apply fair_bind; [|intros; apply IH].
  destruct (entry_cases isspc mktime A st x X) as [[st' ->]|[-> _]]; exact Logic.I.
Qed.
Lemma split_view : forall p, small p -> split_and_splice_header isspc p = Ok None \/ exists lines body pre, split_and_splice_header isspc p = Ok (Some (lines, body)) /\ p = pre ++ body /\ Forall c_string lines /\ (lines <> [] -> pre <> []).
Proof.
  intros p S. destruct (header_total isspc A p) as [[[lines body]|] E]; [|left; exact E]. right. apply (header_main isspc A) in E as F. destruct F as (fs & e & P & HO & EN & L).
  assert (HD : headed isspc p lines body) by (subst; constructor; assumption). destruct (headed_view isspc A _ _ _ HD) as (_ & pre & P' & C & N). exists lines, body, pre. auto.
Qed.
Definition ready (ct : hdr) (len f : nat) : Prop := (1 <= f)%nat /\ (ct <> None -> (S (S len) <= f)%nat).
Definition good_body (f : nat) : Prop := forall mem len ct cte cd, small mem -> (len <= length mem)%nat -> ready ct len f -> fair (do_body isspc mktime f mem len ct cte cd).
Lemma message_fair : forall f mem len, good_body f -> small mem -> (len <= length mem)%nat -> (len < f)%nat -> fair (data_to_rfc822_by isspc mktime (do_body isspc mktime f) mem len).
Proof.
  intros f mem len G M L F. unfold data_to_rfc822_by. destruct (split_view _ (small_first len _ M)) as [E|(lines & body & pre & E & P & C & N)]; rewrite E; cbn [bind]; [exact Logic.I|].
  assert (LP : (len = length pre + length body)%nat) by (rewrite <- app_length, <- P, firstn_length; lia).
  apply fair_bind; [apply entries_fair; exact C|]. intros st ST. apply fair_bind; [|intros [? ?] _; exact Logic.I]. apply G.
  - apply small_skip. exact M.
  - rewrite skipn_length. lia.
  - split; [lia|]. intros CT. assert (NL : lines <> []) by (intros ->; cbn [header_entries] in ST; apply Ok_inj in ST; subst st; apply CT; reflexivity). specialize (N NL). destruct pre; [contradiction|]. cbn [length] in LP. lia.
Qed.
Lemma part_fair : forall f mem len, good_body f -> small mem -> (len <= length mem)%nat -> (S len < f)%nat -> fair (do_attachment_by isspc (do_body isspc mktime f) mem len).
Proof.
  intros f mem len G M L F. unfold do_attachment_by. destruct (split_view _ (small_first len _ M)) as [E|(lines & body & pre & E & P & C & N)]; rewrite E; cbn [bind]; [exact Logic.I|].
  assert (LP : (len = length pre + length body)%nat) by (rewrite <- app_length, <- P, firstn_length; lia).
  rewrite (part_view isspc A lines C). cbn [bind]. apply fair_bind; [|intros [? ?] _; exact Logic.I]. apply G.
  - apply small_skip. exact M.
  - rewrite skipn_length. lia.
  - split; [lia|]. lia.
Qed.
Lemma parts_fair : forall f d offs, good_body f -> small d -> (length d < f)%nat -> Forall (fun o => (fst o <= snd o < length d)%nat) offs -> fair (do_parts isspc (do_body isspc mktime f) d offs).
Proof.
  intros f d offs G D L O. induction O as [|[i j] offs O1 O2 IH]; [exact Logic.I|]. cbn [do_parts]. cbn [fst snd] in O1. apply fair_bind.
  - apply part_fair; [exact G| | |lia].
    + apply small_skip. apply Forall_app. split; [exact D|]. apply Forall_cons; [reflexivity|apply Forall_nil].
    + rewrite skipn_length, app_length. cbn [length]. lia.
  - intros x _. apply fair_bind; [exact IH|]. intros y _. exact Logic.I.
Qed.
Lemma body_fair : forall f, good_body f.
Proof.
  induction f as [|f IH]; intros mem len ct cte cd M L [R1 R2]; [lia|]. cbn [do_body].
  assert (B : forall enc, fair (let! decoded := unencode_data isspc mem len enc in
      match ct with
      | None => Ok ([(None, B_plain decoded)], None)
      | Some ct =>
        let t := parse_content_type ct in
        if is (ct_major t) (bs "multipart") then do_multipart_by isspc (do_body isspc mktime f) decoded (ct_boundary t)
        else
          let name := file_name ct cd in
          if is (ct_major t) (bs "text") then
            Ok ([(name, if is (ct_minor t) (bs "plain") then B_plain decoded else if is (ct_minor t) (bs "html") then B_html decoded else B_other decoded)], None)
          else if is (ct_major t) (bs "message") && is (ct_minor t) (bs "rfc822") then
            let! (m, e) := data_to_rfc822_by isspc mktime (do_body isspc mktime f) (decoded ++ [0]) (length decoded) in
            Ok ([(name, B_message m)], Some e)
          else Ok ([(name, B_other decoded)], None)
      end)).
  { intros enc. destruct (unencode_cases isspc mem len enc M) as [->|(d & -> & S & LD)]; cbn [bind]; [exact Logic.I|]. destruct ct as [ct|]; [|exact Logic.I]. specialize (R2 ltac:(discriminate)). cbv zeta.
    destruct (is _ (bs "multipart")).
    - unfold do_multipart_by. destruct (ct_boundary (parse_content_type ct)) as [b|]; [|exact Logic.I]. destruct (order_main b d) as (ps & e & E & O & _). rewrite E. cbn [bind].
      apply fair_bind; [|intros ? _; exact Logic.I]. apply parts_fair; [exact IH|exact S|lia|]. apply Forall_forall. intros p I. exact (proj1 (O p I)).
    - destruct (is _ (bs "text")); [exact Logic.I|]. destruct (_ && _); [|exact Logic.I]. apply fair_bind; [|intros [? ?] _; exact Logic.I]. apply message_fair; [exact IH| | |lia].
      + apply Forall_app. split; [exact S|]. apply Forall_cons; [reflexivity|apply Forall_nil].
      + rewrite app_length. lia. }
  destruct cte as [cte|]; [|apply B]. destruct (nvp_first cte); [apply B|exact Logic.I].
Qed.
Lemma ends_main : forall mem len, small mem -> (len <= length mem)%nat -> (exists m e, data_to_rfc822 isspc mktime mem len = Ok (m, e)) \/ data_to_rfc822 isspc mktime mem len = Err E_oob \/ data_to_rfc822 isspc mktime mem len = Err E_ub.
Proof.
  intros mem len M L. pose proof (message_fair (S (S len)) mem len (body_fair _) M L ltac:(lia)) as F. fold (data_to_rfc822 isspc mktime mem len) in F.
  destruct (data_to_rfc822 isspc mktime mem len) as [[m e]|[]]; cbn [fair] in F; try contradiction; eauto.
Qed.
End Ends.
