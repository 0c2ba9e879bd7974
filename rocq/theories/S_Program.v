(* What is assumed of the machine and the disc; and which words a MIME message bears, apart from the code. *)
From Verif Require Import Base M_Encoding M_TokTable M_Tokens S_TokTable S_Tokens S_Words S_Nvp S_Rfc822 S_Multipart S_Mime M_DbFile S_DbFile M_Mbox S_Mbox M_Rfc822 M_Update S_Update M_Session M_Program.
From Verif Require M_Paths.
Local Open Scope N_scope.

(* White space in ASCII is the usual one; brackets, commas and spaces are not letters. *)
Record machine_ok (M : machine) : Prop := {
  mo_space : forall c, c < 128 -> m_isspc M c = isspace c;
  mo_alnum : forall c, In c (bs "<>, ") -> m_alnum M c = false;
  mo_stack : length (m_stack M) = 64%nat }.
(* Times and sizes fit the words of the index. *)
Record disc_ok (D : disc) : Prop := {
  do_stat : forall p k mt sz, d_stat D p = Some (k, mt, sz) -> word mt /\ word sz;
  do_lstat : forall p k mt sz, d_lstat D p = Some (k, mt, sz) -> word mt /\ word sz;
  do_map : forall p va, d_map D p = Mapped va -> word (N.of_nat (length va));
  do_junk : forall n, word (date (d_junk_msg D n)) /\ word (tid (d_junk_msg D n));
  do_sum : length (d_junk_sum D) = 16%nat }.
(* No text met in a session breaks the parser: on no file, no piece of whole lines of a mailbox and no
   message on the server does it run over the end of the text (C39, C74) or meet a date outside the range
   of an int (C81); and the server gives every message asked for. *)
Definition sound_text (M : machine) (t : bytes) : Prop :=
  Forall (fun c => c < 256) t /\ exists r, data_to_rfc822 (m_isspc M) (m_mktime M) t (length t) = Ok r.
Record sound (M : machine) (D : disc) (s : session) : Prop := {
  so_files : forall p va, In {| is_imap := false; fpath := p |} (s_found s) -> d_map D p = Mapped va -> sound_text M va;
  so_boxes : forall p va a t b, In p (s_paths s) -> d_map D p = Mapped va -> va = a ++ t ++ b -> whole_lines a -> whole_lines t \/ b = [] -> sound_text M t;
  so_server : forall p, In {| is_imap := true; fpath := p |} (s_found s) -> exists t, d_server D p = Some t /\ sound_text M t }.

(* The values of the address headers and of the subject can be read. *)
Inductive legible : list bytes -> list node -> Prop :=
| Legible lines ns : (forall name v, In name ["to"; "cc"; "from"; "subject"]%string -> In v (values name lines) -> exists r, reads v r /\ ~ In 0 r) ->
    (forall name lines' ns', In (Mail name lines' ns') ns -> legible lines' ns') -> legible lines ns.
Definition name_of (n : node) : option bytes := match n with Leaf name _ _ => name | Mail name _ _ => name end.
(* [w] is a word of the text of a header field with value [v]. *)
Definition in_value (v : bytes) (good : N -> Prop) (w : bytes) : Prop := exists r, reads v r /\ ~ In 0 r /\ is_run good r w.
(* The message of these header lines and nodes bears the word in part p. *)
Inductive bears (alnum : N -> bool) : list bytes -> list node -> part -> bytes -> Prop :=
| Be_many lines ns p name v w : p = To /\ name = "to"%string \/ p = Cc /\ name = "cc"%string -> In v (values name lines) ->
    in_value v (word_char alnum) w \/ in_value v (address_char alnum) w -> bears alnum lines ns p w
| Be_from lines ns v vs w : values "from" lines = v :: vs -> in_value v (word_char alnum) w \/ in_value v (address_char alnum) w -> bears alnum lines ns From_ w
| Be_subject lines ns v vs w : values "subject" lines = v :: vs -> in_value v (word_char alnum) w -> bears alnum lines ns Subject w
| Be_text lines ns name d t w : In (Leaf name Plain d) ns -> visible d t -> is_run (word_char alnum) t w -> bears alnum lines ns Body w
| Be_html lines ns name d t w : In (Leaf name Html d) ns -> visible d t -> is_run (word_char alnum) (blank_tags false t) w -> bears alnum lines ns Body w
| Be_name lines ns n w : In n ns -> name_of n = Some w -> bears alnum lines ns Attachment w
| Be_mail lines ns name lines' ns' p w : In (Mail name lines' ns') ns -> bears alnum lines' ns' p w -> bears alnum lines ns p w.
(* The text of an entry of the index: a file, a message on the server, or a piece of a mailbox. *)
Inductive text_of (D : disc) (db : database) (m : msg) (t : bytes) : Prop :=
| To_file p mt sz : src m = S_file p mt sz -> ~ hidden p -> d_map D p = Mapped t -> text_of D db m t
| To_server p : src m = S_imap p -> ~ hidden p -> d_server D p = Some t -> text_of D db m t
| To_mbox fi mi mb p a b : src m = S_mbox fi mi -> nth_error (mboxen db) (N.to_nat fi) = Some mb -> mb_path mb = Some p ->
    d_map D p = Mapped (a ++ t ++ b) -> nth_error (starts mb) (N.to_nat mi) = Some (Some (N.of_nat (length a))) ->
    nth_error (lens mb) (N.to_nat mi) = Some (Some (N.of_nat (length t))) -> text_of D db m t.
(* Every session was run by the program on this machine, on texts that do not break it. *)
Definition run_by (M : machine) (h : list (session * option bytes)) : Prop :=
  Forall (fun x => exists D, disc_ok D /\ s_world (fst x) = program_world M D /\ sound M D (fst x)) h.
