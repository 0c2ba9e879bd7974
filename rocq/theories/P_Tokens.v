(* The words of a text, of an HTML text and of a message: C31, C32, C56. *)
From Verif Require Import Base M_Tokens S_Tokens L_Tokens L_Tokens2 L_Tokens3.
Local Open Scope N_scope.

(* C31.  The words taken from a text are its maximal runs of word characters, from left to right;
   the scan for whole addresses uses the extended character set. *)
Theorem C31_words : forall alnum data,
  (exists ws, tokenise_string alnum data 1 = Ok ws /\ runs_of (word_char alnum) data ws)
  /\ (exists ws, tokenise_string alnum data 2 = Ok ws /\ runs_of (address_char alnum) data ws).
Proof. exact words_exact. Qed.
Print Assumptions C31_words.
Example C31_words_example : tokenise_string isalnum (bs "-joe.b@x.org, snake_case") 1 = Ok [bs "joe"; bs "b"; bs "x"; bs "org"; bs "snake_case"]
  /\ tokenise_string isalnum (bs "-joe.b@x.org, snake_case") 2 = Ok [bs "-joe.b@x.org"; bs "snake_case"].
Proof. split; vm_compute; reflexivity. Qed.

(* C31 for a whole message, nested messages included: what is recorded for it is exactly what it
   mentions, whatever isalnum() is, as long as it excludes "<" and ">". *)
Theorem C31_message : forall alnum, alnum (ch "<") = false -> alnum (ch ">") = false -> forall m,
  exists calls, tokenise_message alnum m = Ok calls
  /\ (forall p w, In (dest_of p, w) calls <-> mentions alnum m p w)
  /\ (forall own w, In (D_ids own, w) calls <-> carries m own w).
Proof. exact message_exact. Qed.
Print Assumptions C31_message.
Example C31_message_example : isalnum (ch "<") = false /\ isalnum (ch ">") = false /\
  tokenise_message isalnum ex_message = Ok
   [(D_to, bs "joe"); (D_to, bs "b"); (D_to, bs "x"); (D_to, bs "org"); (D_to, bs "Ann");
    (D_to, bs "joe.b@x.org"); (D_to, bs "Ann"); (D_subject, bs "Re"); (D_subject, bs "snake_case");
    (D_body, bs "one"); (D_body, bs "two"); (D_body, bs "x"); (D_body, bs "y"); (D_att, bs "a.htm");
    (D_body, bs "deep"); (D_ids true, bs "1@x"); (D_ids false, bs "0@y")].
Proof. repeat split; vm_compute; reflexivity. Qed.

(* C32.  Tags of an HTML text separate words and are not words themselves. *)
Theorem C32_html : forall alnum, alnum (ch "<") = false -> alnum (ch ">") = false -> forall data,
  exists ws, tokenise_html_string alnum data = Ok ws /\ runs_of (word_char alnum) (blank_tags false data) ws.
Proof. exact html_exact. Qed.
Print Assumptions C32_html.
Example C32_example : blank_tags false (bs "a<b c>d > e<f") = bs "a<<<<<d > e<<"
  /\ tokenise_html_string isalnum (bs "a<b c>d > e<f") = Ok [bs "a"; bs "d"; bs "e"].
Proof. split; vm_compute; reflexivity. Qed.

(* C56.  The message ids taken from a header are its terms in angle brackets, from left to right. *)
Theorem C56_angled : forall s, exists ws, angled_terms (Some s) = Ok ws /\ angled s ws
  /\ forall ws', angled s ws' -> ws' = ws.
Proof. exact angled_unique. Qed.
Print Assumptions C56_angled.
Example C56_example : angled_terms (Some (bs "x <a@b> > <<c> <d")) = Ok [bs "a@b"; bs "<c"].
Proof. vm_compute. reflexivity. Qed.
