(* The languages of the blocks of fromcheck.nfa and the grammar of S_From. *)
From Verif Require Import Base M_From S_From L_From.
Local Open Scope N_scope.

(* ---- combining languages ---- *)
Lemma seq_i (A B : lang) x y : A x -> B y -> (A ;; B) (x ++ y).
Proof. intros P Q. exists x, y. auto. Qed.
Lemma one_i (p : N -> Prop) c : p c -> one p [c].
Proof. intros P. exists c. auto. Qed.
Lemma seq_c (p : N -> Prop) (B : lang) c u : p c -> B u -> (one p ;; B) (c :: u).
Proof. intros P Q. exists [c], u. split; [reflexivity|]. split; [now apply one_i|exact Q]. Qed.
Lemma seq_e (A B : lang) u : A [] -> B u -> (A ;; B) u.
Proof. intros P Q. exists [], u. auto. Qed.
Lemma seq_assoc (A B C : lang) u : ((A ;; B) ;; C) u <-> (A ;; B ;; C) u.
Proof.
  split.
  - intros (x & y & -> & (a & b & -> & P & Q) & R). exists a, (b ++ y). rewrite app_assoc. split; [reflexivity|]. split; [exact P|now apply seq_i].
  - intros (x & y & -> & P & (a & b & -> & Q & R)). exists (x ++ a), b. rewrite app_assoc. split; [reflexivity|]. split; [now apply seq_i|exact R].
Qed.
Lemma seq_mono (A A' B B' : lang) u : (forall x, A x -> A' x) -> (forall x, B x -> B' x) -> (A ;; B) u -> (A' ;; B') u.
Proof. intros P Q (x & y & -> & R & S). exists x, y. auto. Qed.
Lemma many_c (p : N -> Prop) (B : lang) c u : p c -> (many (one p) ;; B) u -> (many (one p) ;; B) (c :: u).
Proof. intros P (x & y & -> & Q & R). exists (c :: x), y. split; [reflexivity|]. split; [|exact R]. change (c :: x) with ([c] ++ x). constructor; [now apply one_i|exact Q]. Qed.
Lemma some_c (p : N -> Prop) (B : lang) c u : p c -> (many (one p) ;; B) u -> (some (one p) ;; B) (c :: u).
Proof. intros P Q. unfold some. apply seq_assoc. now apply seq_c. Qed.
Lemma some_more (p : N -> Prop) (B : lang) c u : p c -> (some (one p) ;; B) u -> (some (one p) ;; B) (c :: u).
Proof. intros P Q. apply some_c; [exact P|]. unfold some in Q. apply seq_assoc in Q. destruct Q as (x & y & -> & (c' & -> & P') & Q). now apply many_c. Qed.
Lemma some_many (p : N -> Prop) u : some (one p) u -> many (one p) u.
Proof. intros (x & y & -> & P & Q). now constructor. Qed.

(* ---- classes of characters ---- *)
Lemma range_ok lo hi c : range lo hi c = true <-> lo <= c <= hi.
Proof. unfold range. rewrite andb_true_iff, !N.leb_le. reflexivity. Qed.
Lemma one_of_ok s c : one_of s c = true <-> In c (bs s).
Proof. unfold one_of. rewrite existsb_exists. split; [intros (x & I & E); apply N.eqb_eq in E; now subst|intros I; exists c; split; [exact I|apply N.eqb_refl]]. Qed.
Lemma white_ok c : WHITE c = true <-> white c.
Proof. unfold WHITE, white. rewrite orb_true_iff, !N.eqb_eq. reflexivity. Qed.
Lemma digit_ok c : DIGIT c = true <-> digit c.
Proof. apply range_ok. Qed.
Lemma upper_ok c : UPPER c = true <-> upper c.
Proof. apply range_ok. Qed.
Lemma lower_ok c : LOWER c = true <-> lower c.
Proof. apply range_ok. Qed.
Lemma email_ok c : EMAIL c = true <-> atext c.
Proof.
  unfold EMAIL, atext, alnum. rewrite !orb_true_iff, lower_ok, upper_ok, digit_ok. unfold PLUSMINUS, OTHER_EMAIL. rewrite !one_of_ok.
  change (bs "+-.!#$%&'*/=?^_`{|}~") with (bs "+-" ++ bs ".!#$%&'*/=?^_`{|}~"). rewrite in_app_iff. tauto.
Qed.
Lemma domain_ok c : DOMAIN c = true <-> dtext c.
Proof. unfold DOMAIN, dtext, alnum. rewrite !orb_true_iff, lower_ok, upper_ok, digit_ok. unfold OTHER_DOMAIN. rewrite one_of_ok. tauto. Qed.
Lemma quoted_ok c : either EMAIL (either WHITE OTHER_QUOTED) c = true <-> qtext c.
Proof. unfold either, qtext. rewrite !orb_true_iff, email_ok, white_ok. unfold OTHER_QUOTED. rewrite one_of_ok. reflexivity. Qed.
Lemma quad_ok c : either DIGIT PERIOD c = true <-> digit c \/ c = 46.
Proof. unfold either, PERIOD. rewrite orb_true_iff, digit_ok, one_of_ok. cbn. intuition. Qed.
Lemma sign_ok c : PLUSMINUS c = true <-> c = 43 \/ c = 45.
Proof. unfold PLUSMINUS. rewrite one_of_ok. cbn. intuition. Qed.
Lemma colon_ok c : COLON c = true <-> 58 = c.
Proof. unfold COLON. rewrite one_of_ok. cbn. intuition. Qed.
Lemma comma_ok c : COMMA c = true <-> 44 = c.
Proof. unfold COMMA. rewrite one_of_ok. cbn. intuition. Qed.
Lemma at_ok c : AT c = true <-> 64 = c.
Proof. unfold AT. rewrite one_of_ok. cbn. intuition. Qed.
Lemma lt_ok c : LT c = true <-> 60 = c.
Proof. unfold LT. rewrite N.eqb_eq. intuition. Qed.
Lemma gt_ok c : GT c = true <-> 62 = c.
Proof. unfold GT. rewrite N.eqb_eq. intuition. Qed.
Lemma dquote_ok c : DQUOTE c = true <-> 34 = c.
Proof. unfold DQUOTE. rewrite N.eqb_eq. intuition. Qed.
Lemma left_ok c : LEFTSQUARE c = true <-> 91 = c.
Proof. unfold LEFTSQUARE. rewrite N.eqb_eq. intuition. Qed.
Lemma right_ok c : RIGHTSQUARE c = true <-> 93 = c.
Proof. unfold RIGHTSQUARE. rewrite N.eqb_eq. intuition. Qed.
Lemma letters_ok c : either UPPER LOWER c = true <-> upper c \/ lower c.
Proof. unfold either. now rewrite orb_true_iff, upper_ok, lower_ok. Qed.

(* ---- the transitions of a block as one list ---- *)
Definition flat (b : block) : list (string * list stim * list string) := flat_map (fun s => map (fun t => (fst s, fst t, snd t)) (snd s)) (states_of b).
Lemma trans_flat b l ss ts : In (ss, ts) (trans_of b l) -> In (l, ss, ts) (flat b).
Proof.
  unfold trans_of. destruct (find _ (states_of b)) as [[l' tr]|] eqn:F; [|intros []]. intros I. apply find_some in F as [F E]. apply String.eqb_eq in E. cbn [fst] in E. subst l'.
  unfold flat. apply in_flat_map. exists (l, tr). split; [exact F|]. apply in_map_iff. exists (ss, ts). auto.
Qed.
Ltac cases I := apply trans_flat in I; cbn in I; repeat (destruct I as [I|I]; [injection I as <- <- <-|]); [..|destruct I].
Ltac targets T := cbn in T; repeat (destruct T as [<-|T]; [|]); [..|destruct T].
Ltac open_rs R := unfold UPPER_, LOWER_, DIGIT_, WHITE_, COLON_ in R; repeat match type of R with
  | rs [] _ => inversion R; subst; clear R
  | rs (Cl _ :: _) _ => let c := fresh "c" in let u := fresh "u" in let P := fresh "P" in let R' := fresh "R" in
      inversion R as [|? ? c u P R'|]; subst; clear R; rename R' into R
  end.

(* ---- from the automaton to the grammar ---- *)
Definition E (l : string) : lang :=
  if String.eqb l "in" then address
  else if String.eqb l "domain_route" then many (one dtext) ;; lit 58 ;; address
  else if String.eqb l "quoted_before_at" then many (one qtext) ;; lit 34 ;; more_local
  else if String.eqb l "before_at" then more_local
  else if String.eqb l "start_of_domain" then host
  else if String.eqb l "dotted_quad" then many (one (fun c => digit c \/ c = 46)) ;; lit 93
  else if String.eqb l "after_at" then some (one dtext)
  else nothing.
Lemma local_more (A : lang) u v : A u -> (many A ;; perhaps (lit 64 ;; host)) v -> (many A ;; perhaps (lit 64 ;; host)) (u ++ v).
Proof. intros P (x & y & -> & Q & R). exists (u ++ x), y. rewrite app_assoc. split; [reflexivity|]. split; [now constructor|exact R]. Qed.
Lemma atext_address c u : atext c -> address u -> address (c :: u).
Proof.
  intros A (x & y & -> & M & R). destruct M as [|r m (p & q & -> & P & Q) M].
  - exists [], (c :: y). split; [reflexivity|]. split; [constructor|]. destruct R as (p & q & -> & P & Q). exists [c], (p ++ q). split; [reflexivity|]. split; [left; now apply one_i|].
    now apply local_more.
  - exists (((c :: p) ++ q) ++ m), y. split; [reflexivity|]. split; [|exact R]. constructor; [|exact M]. apply seq_i; [|exact Q]. change (c :: p) with ([c] ++ p). constructor; [now apply one_i|exact P].
Qed.
Lemma fst_local A u : alt (one atext) quoted A -> more_local u -> address (A ++ u).
Proof. intros P Q. exists [], (A ++ u). split; [reflexivity|]. split; [constructor|]. now apply seq_i. Qed.
Lemma quoted_rest u : (many (one qtext) ;; lit 34 ;; more_local) u -> exists q v, 34 :: u = q ++ v /\ quoted q /\ more_local v.
Proof.
  intros (x & y & -> & P & (a & b & -> & Q & R)). exists (34 :: x ++ a), b. cbn. rewrite app_assoc. split; [reflexivity|]. split; [|exact R].
  apply seq_c; [reflexivity|]. now apply seq_i.
Qed.
Lemma email_lang l u : rb email "out" l u -> E l u.
Proof.
  intros H. remember email as b eqn:B. remember "out"%string as fin eqn:F. induction H as [b fin|b fin l ss ts t u v I T R S IH]; subst; [reflexivity|]. specialize (IH eq_refl eq_refl). clear S.
  cases I; targets T; open_rs R; cbn [app]; unfold E in IH |- *; cbn [String.eqb Ascii.eqb Bool.eqb] in IH |- *.
  - apply email_ok in P. now apply atext_address.
  - apply email_ok in P. change (c :: v) with ([c] ++ v). apply fst_local; [left; now apply one_i|exact IH].
  - apply dquote_ok in P. subst c. apply quoted_rest in IH as (q & w & -> & Q & W). apply fst_local; [now right|exact W].
  - apply at_ok in P. subst c. destruct IH as (x & y & -> & P & (a & w & -> & Q & (m & z & -> & M & W))). exists ((64 :: x ++ a) ++ m), z. cbn. rewrite <- !app_assoc. split; [reflexivity|]. split; [|exact W].
    rewrite app_assoc. change (many route ((64 :: x ++ a) ++ m)). constructor; [|exact M]. apply seq_e; [constructor|]. apply seq_c; [reflexivity|]. now apply seq_i.
  - apply domain_ok in P. now apply many_c.
  - apply colon_ok in P. subst c. apply seq_e; [constructor|]. now apply seq_c.
  - apply quoted_ok in P. now apply many_c.
  - apply dquote_ok in P. subst c. apply seq_e; [constructor|]. now apply seq_c.
  - apply email_ok in P. change (c :: v) with ([c] ++ v). apply local_more; [left; now apply one_i|exact IH].
  - apply dquote_ok in P. subst c. apply quoted_rest in IH as (q & w & -> & Q & W). apply local_more; [now right|exact W].
  - red in IH. subst v. apply seq_e; [constructor|now right].
  - apply at_ok in P. subst c. apply seq_e; [constructor|]. left. now apply seq_c.
  - apply left_ok in P. subst c. right. now apply seq_c.
  - apply domain_ok in P. left. now apply seq_c.
  - apply quad_ok in P. now apply many_c.
  - apply right_ok in P. subst c. red in IH. subst v. apply seq_e; [constructor|now apply one_i].
  - apply domain_ok in P. change (c :: v) with ([c] ++ v). apply seq_i; [now apply one_i|now apply some_many].
  - apply domain_ok in P. red in IH. subst v. change [c] with ([c] ++ []). apply seq_i; [now apply one_i|constructor].
Qed.
