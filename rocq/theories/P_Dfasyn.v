(* The generator of scanners, dfasyn: properties C96 to C102. *)
From Verif Require Import Base M_Charclass M_Dfasyn M_Compdfa S_Dfasyn L_Charclass L_Dfasyn L_Dfasyn2 L_Outcome.
Local Open Scope nat_scope.

(* C96: a class has the characters that are written, when none of those with code 31, 63, ..., 255 is misread. *)
Theorem C96_class : forall k c, class_chars k -> never_misread k -> c < 256 -> cc_test_bit (make_class k) c = in_class c k.
Proof. exact class_exact. Qed.
Print Assumptions C96_class.
Example C96_example : class_ok most /\ in_class 94 most = true /\ in_class 95 most = false /\ in_class 96 most = true /\ in_class 128 most = false.
Proof. split; [exact most_ok|]. repeat split. Qed.
(* In general, the characters the program takes to be in a class are these. *)
Theorem C96_exact : forall k c, class_chars k -> c < 256 -> cc_test_bit (make_class k) c = in_class c k || misread c k.
Proof. exact class_test. Qed.
Print Assumptions C96_exact.
Example C96_exact_example : class_chars not_underscore /\ misread 95 not_underscore = true /\ misread 94 not_underscore = false.
Proof. split; [repeat constructor|]. split; reflexivity. Qed.
(* C96 without the condition is false: _ is in [^_]. *)
Theorem C96_negation_refuted : exists k c, class_chars k /\ c < 256 /\ in_class c k = false /\ cc_test_bit (make_class k) c = true.
Proof. exact not_underscore_refuted. Qed.
Print Assumptions C96_negation_refuted.

(* C97: characters get a token, none of the named ones, exactly if some class on a transition has them; and the same token
   exactly if no such class tells them apart. *)
Theorem C97_tokens : forall fuel qsort ud F sc, dfasyn fuel qsort ud F = Ok sc -> Forall class_ok (f_classes F) -> forall c, c < 256 ->
  (token_of sc (Chr c) = (-1)%Z <-> forall k, used F k -> in_class c k = false) /\
  (token_of sc (Chr c) = (-1)%Z \/ (Z.of_nat (f_ntokens F) <= token_of sc (Chr c) < Z.of_nat (sc_nt sc))%Z) /\
  forall d, d < 256 -> (token_of sc (Chr c) = token_of sc (Chr d) <-> forall k, used F k -> in_class c k = in_class d k).
Proof. exact tokens_ok. Qed.
Print Assumptions C97_tokens.
Example C97_example : dfasyn 20 isort false words_nfa = Ok (words_scanner false) /\ Forall class_ok (f_classes words_nfa) /\
  map (fun c => token_of (words_scanner false) (Chr c)) [48; 57; 58; 97; 95; 35; 36; 37] = [1; 1; -1; 2; 2; 0; -1; 0]%Z.
Proof. split; [apply words_scanner_ok|]. split; [exact words_classes|]. vm_compute. reflexivity. Qed.
(* No token can be given if there are only classes without characters: the program reads outside of an array. *)
Theorem C97_empty_refuted : forall F fuel qsort ud, (forall x, In x (r_evs (f_rules F)) -> defattr x <> None) -> Forall class_ok (f_classes F) ->
  (exists k, used F k) -> (forall k c, used F k -> c < 256 -> in_class c k = false) -> dfasyn fuel qsort ud F = Err E_oob.
Proof. exact no_chars. Qed.
Print Assumptions C97_empty_refuted.
Example C97_empty_example : (forall x, In x (r_evs (f_rules empty_nfa)) -> defattr x <> None) /\ Forall class_ok (f_classes empty_nfa) /\
  (exists k, used empty_nfa k) /\ (forall k c, used empty_nfa k -> c < 256 -> in_class c k = false).
Proof. exact empty_ok. Qed.

(* C98: a scanner made with -ud says, after any input, exactly what the description says; and it stops exactly where the
   description does not let one go on. *)
Theorem C98_scanner : forall fuel qsort F sc next j e w, dfasyn fuel qsort true F = Ok sc -> Forall class_ok (f_classes F) -> next_state sc next ->
  nth_error (f_entries F) j = Some e -> known F w ->
  exists e0 s, nth_error (sc_entries sc) j = Some e0 /\ scan next sc e0 w = Ok s /\
    (((0 <= s)%Z /\ tells F e w sc s) \/ (s = (-1)%Z /\ ~ readable F e w)).
Proof. exact scanner_ok. Qed.
Print Assumptions C98_scanner.
Example C98_example : dfasyn 20 isort true words_nfa = Ok (words_scanner true) /\ Forall class_ok (f_classes words_nfa) /\
  next_state (words_scanner true) (next_state_compressed 2 (sc_tables (words_scanner true))) /\ states (words_scanner true) = 5 /\
  map (answer true) [[48; 49]; [95; 49]; [48; 95]; [35; 35]] = [Some (bs "is_number"); Some (bs "is_word"); None; Some (bs "nothing")].
Proof. split; [apply words_scanner_ok|]. split; [exact words_classes|]. split; [apply words_next|]. split; vm_compute; reflexivity. Qed.

(* C99: a scanner made without -ud says the same, and it stops exactly where nothing but default values can come. *)
Theorem C99_compressed : forall fuel qsort F sc next j e w, sorts qsort -> dfasyn fuel qsort false F = Ok sc -> Forall class_ok (f_classes F) -> next_state sc next ->
  nth_error (f_entries F) j = Some e -> known F w ->
  exists e0 s, nth_error (sc_entries sc) j = Some e0 /\ scan next sc e0 w = Ok s /\
    (((0 <= s)%Z /\ tells F e w sc s /\ promising F e w) \/ (s = (-1)%Z /\ ~ promising F e w)).
Proof. exact compressed_scanner_ok. Qed.
Print Assumptions C99_compressed.
Example C99_example : sorts isort /\ dfasyn 20 isort false words_nfa = Ok (words_scanner false) /\ Forall class_ok (f_classes words_nfa) /\
  next_state (words_scanner false) (next_state_compressed 2 (sc_tables (words_scanner false))) /\ states (words_scanner false) = 3 /\
  map (answer false) [[48; 49]; [95; 49]; [48; 95]; [35; 35]] = [Some (bs "is_number"); Some (bs "is_word"); None; None].
Proof. split; [exact isort_sorts|]. split; [apply words_scanner_ok|]. split; [exact words_classes|]. split; [apply words_next|]. split; vm_compute; reflexivity. Qed.

(* C100: such a scanner has no more states than it needs: for any two there is some input after which it says different things. *)
Theorem C100_minimal : forall fuel qsort F sc next a b, sorts qsort -> dfasyn fuel qsort false F = Ok sc -> Forall class_ok (f_classes F) -> next_state sc next ->
  a < states sc -> b < states sc -> a <> b ->
  exists u i x sa sb, known F u /\ nth_error (r_evs (f_rules F)) i = Some x /\
    scan next sc (Z.of_nat a) u = Ok sa /\ scan next sc (Z.of_nat b) u = Ok sb /\ shown sc x i sa <> shown sc x i sb.
Proof. exact compressed_minimal. Qed.
Print Assumptions C100_minimal.
Example C100_example : sorts isort /\ dfasyn 20 isort false words_nfa = Ok (words_scanner false) /\ Forall class_ok (f_classes words_nfa) /\
  next_state (words_scanner false) (next_state_compressed 2 (sc_tables (words_scanner false))) /\ states (words_scanner false) = 3.
Proof. split; [exact isort_sorts|]. split; [apply words_scanner_ok|]. split; [exact words_classes|]. split; [apply words_next|]. vm_compute. reflexivity. Qed.

(* C101: the compressed tables and the others lead to the same states, and never out of the tables. *)
Theorem C101_tables : forall fuel qsort ud F sc, sorts qsort -> dfasyn fuel qsort ud F = Ok sc -> Forall class_ok (f_classes F) -> roomy_compressed sc ->
  forall fl a tk, 2 <= fl -> a < states sc ->
  exists z, next_state_uncompressed (sc_nt sc) (sc_trans sc) (Z.of_nat a) tk = Ok z /\ next_state_compressed fl (sc_tables sc) (Z.of_nat a) tk = Ok z /\
    (-1 <= z < Z.of_nat (states sc))%Z.
Proof. exact tables_agree. Qed.
Print Assumptions C101_tables.
Example C101_example : sorts isort /\ dfasyn 20 isort true words_nfa = Ok (words_scanner true) /\ Forall class_ok (f_classes words_nfa) /\ roomy_compressed (words_scanner true) /\
  map (fun tk => next_state_compressed 2 (sc_tables (words_scanner true)) 0 tk) [0; 1; 2; 3; -1]%Z = map Ok [1; 2; 3; -1; -1]%Z.
Proof. split; [exact isort_sorts|]. split; [apply words_scanner_ok|]. split; [exact words_classes|]. split; [apply words_roomy|]. vm_compute. reflexivity. Qed.
(* This is false with more than 256 tokens: the tables of tokens hold bytes, and nothing checks this. *)
Theorem C101_many_refuted : exists F sc, dfasyn 20 isort true F = Ok sc /\ Forall class_ok (f_classes F) /\ roomy sc /\ (N.of_nat (length (tb_token (sc_tables sc))) < 65536)%N /\
  exists tk, 0 <= tk < sc_nt sc /\ next_state_uncompressed (sc_nt sc) (sc_trans sc) 0 (Z.of_nat tk) = Ok 2%Z /\ next_state_compressed 2 (sc_tables sc) 0 (Z.of_nat tk) = Ok (-1)%Z.
Proof. exact too_many_tokens. Qed.
Print Assumptions C101_many_refuted.

(* C102: with enough stack the generator ends for every well made description; it makes a scanner if nothing that can be
   read is ambiguous, and otherwise it ends with code 2. *)
Theorem C102_outcome : forall F, well_made F -> exists d0 f0, forall stack fuel qsort ud, d0 <= stack -> f0 <= fuel -> sorts qsort ->
  (faultless F /\ exists sc, dfasyn fuel qsort ud (with_stack stack F) = Ok sc) \/
  (faulty F /\ dfasyn fuel qsort ud (with_stack stack F) = Err (E_exit 2)).
Proof. exact outcome. Qed.
Print Assumptions C102_outcome.
Example C102_example : well_made words_nfa /\ well_made twofold_nfa /\ faulty twofold_nfa /\ sorts isort.
Proof. split; [exact words_made|]. split; [exact twofold_made|]. split; [exact twofold_faulty|exact isort_sorts]. Qed.
(* An attribute without default value is reported. *)
Theorem C102_default : forall F fuel qsort ud, (exists x, In x (r_evs (f_rules F)) /\ defattr x = None) -> dfasyn fuel qsort ud F = Err (E_exit 1).
Proof. exact no_default. Qed.
Print Assumptions C102_default.
Example C102_default_example : exists x, In x (r_evs (f_rules (Nfa 0 [] [State [] []] [0] (Rules [Evaluator [] None] [] 5)))) /\ defattr x = None.
Proof. exists (Evaluator [] None). split; [left; reflexivity|reflexivity]. Qed.
(* But tags defined in a circle overrun any stack, and a class without characters beside others makes an assertion fail. *)
Theorem C102_circle_refuted : exists F, references_ok F /\ (forall x, In x (r_evs (f_rules F)) -> defattr x <> None) /\ f_classes F = [] /\
  forall stack fuel qsort ud, dfasyn fuel qsort ud (with_stack stack F) = Err E_ub.
Proof. exact circle_refuted. Qed.
Print Assumptions C102_circle_refuted.
Theorem C102_leftover_refuted : exists F, references_ok F /\ (forall x, In x (r_evs (f_rules F)) -> defattr x <> None) /\ Forall class_ok (f_classes F) /\ r_defs (f_rules F) = [] /\
  forall stack fuel qsort ud, dfasyn fuel qsort ud (with_stack stack F) = Err E_assert.
Proof. exact leftover_refuted. Qed.
Print Assumptions C102_leftover_refuted.
