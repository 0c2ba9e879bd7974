(* How a tree of tokens is given as a list of arguments. *)
From Verif Require Import Base M_Imap M_CmdBuild.
Local Open Scope N_scope.

(* A leaf: a C string and -1, or a length and a pointer to at least as many bytes. *)
Inductive bytes_given (s : bytes) : bytes -> option N -> Prop :=
| by_nul more : ~ In 0 s -> bytes_given s (s ++ 0 :: more) None
| by_length more : bytes_given s (s ++ more) (Some (N.of_nat (length s))).
Definition opener (ty : tltype) : option barg :=
  match ty with T_tagged => Some B_tagged | T_untagged => Some B_untagged | T_list => Some B_list | T_sqlist => Some B_sqlist | _ => None end.
(* A tree, or some of them one after the other. *)
Inductive given : list tok -> list barg -> Prop :=
| g_none : given [] []
| g_atom s p len ts l : bytes_given s p len -> given ts l -> given (Tok T_atom (Some s) [] :: ts) (B_atom p len :: l)
| g_string s p len ts l : bytes_given s p len -> given ts l -> given (Tok T_string (Some s) [] :: ts) (B_string p len :: l)
| g_sub t ts l : given ts l -> given (t :: ts) (B_sub t :: l)
| g_cont ts l : given ts l -> given (Tok T_continuation None [] :: ts) (B_cont :: l)
| g_group ty b ks m ts l : opener ty = Some b -> given ks m -> given ts l -> given (Tok ty None ks :: ts) (b :: m ++ B_pop :: l).
