(* Model of the bit-parallel substring matchers, search.c 80-243.  unsigned long is 64 bits. *)
From Verif Require Import Base.
Local Open Scope N_scope.

Definition ones64 : N := 2 ^ 64 - 1.
Definition not64 (x : N) : N := N.lxor x ones64.
(* x << 1 on unsigned long *)
Definition shl (x : N) : N := u64 (N.shiftl x 1).

(* search.c 93-95: clear bit i of the entry of the i-th pattern byte. *)
Fixpoint clear_bits (s : bytes) (i : N) (a : list N) : list N :=
  match s with
  | [] => a
  | c :: s' => clear_bits s' (i + 1)
      (set_nth a (N.to_nat c) (N.land (nth (N.to_nat c) a 0) (not64 (N.shiftl 1 i))))
  end.
(* search.c 80-97 build_match_vector *)
Definition build_match_vector (s : bytes) : res (list N * N) :=
  let len := N.of_nat (length s) in
  if (31 <? len) || (len =? 0) then Err (E_exit 2)
  else Ok (clear_bits s 0 (repeat ones64 256), not64 (N.shiftl 1 (len - 1))).

(* a[idx] for a byte idx *)
Definition ai (a : list N) (c : N) : N := nth (N.to_nat c) a 0.

(* search.c 99-122 substring_match_0, from the loop on; [anchor] is the value for this character. *)
Fixpoint loop_0 (a : list N) (hit anchor1 anchor r0 : N) (token : bytes) : bool :=
  match token with
  | [] => false
  | c :: token' =>
    let r0 := N.lor (N.lor (shl r0) anchor) (ai a c) in
    if negb (not64 (N.lor r0 hit) =? 0) then true else loop_0 a hit anchor1 anchor1 r0 token'
  end.
Definition anchor_bit (left_anchor : bool) : N := if left_anchor then 1 else 0.
Definition substring_match_0 (a : list N) (hit : N) (left_anchor : bool) (token : bytes) : bool :=
  loop_0 a hit (anchor_bit left_anchor) 0 ones64 token.

(* The right-hand side common to search.c 138, 168-169, 202-204, 230-232:
   ((r<<1) | anchor | a[idx]) & ((rp & nrp) << 1) & rp, with rp, nrp one error fewer. *)
Definition next (anchor x r rp nrp : N) : N :=
  N.land (N.land (N.lor (N.lor (shl r) anchor) x) (shl (N.land rp nrp))) rp.

(* search.c 123-149 substring_match_1 *)
Fixpoint loop_1 (a : list N) (hit anchor1 anchor r0 r1 : N) (token : bytes) : bool :=
  match token with
  | [] => false
  | c :: token' =>
    let nr0 := N.lor (N.lor (shl r0) anchor) (ai a c) in
    let r1 := next anchor (ai a c) r1 r0 nr0 in
    let r0 := nr0 in
    if negb (not64 (N.lor (N.land r0 r1) hit) =? 0) then true
    else loop_1 a hit anchor1 anchor1 r0 r1 token'
  end.
Definition substring_match_1 (a : list N) (hit : N) (left_anchor : bool) (token : bytes) : bool :=
  loop_1 a hit (anchor_bit left_anchor) 0 ones64 (shl ones64) token.

(* search.c 150-179 substring_match_2 *)
Fixpoint loop_2 (a : list N) (hit anchor1 anchor r0 r1 r2 : N) (token : bytes) : bool :=
  match token with
  | [] => false
  | c :: token' =>
    let nr0 := N.lor (N.lor (shl r0) anchor) (ai a c) in
    let nr1 := next anchor (ai a c) r1 r0 nr0 in
    let r2 := next anchor (ai a c) r2 r1 nr1 in
    let r0 := nr0 in
    let r1 := nr1 in
    if negb (not64 (N.lor (N.land (N.land r0 r1) r2) hit) =? 0) then true
    else loop_2 a hit anchor1 anchor1 r0 r1 r2 token'
  end.
Definition substring_match_2 (a : list N) (hit : N) (left_anchor : bool) (token : bytes) : bool :=
  loop_2 a hit (anchor_bit left_anchor) 0 ones64 (shl ones64) (shl (shl ones64)) token.

(* search.c 180-213 substring_match_3 *)
Fixpoint loop_3 (a : list N) (hit anchor1 anchor r0 r1 r2 r3 : N) (token : bytes) : bool :=
  match token with
  | [] => false
  | c :: token' =>
    let nr0 := N.lor (N.lor (shl r0) anchor) (ai a c) in
    let nr1 := next anchor (ai a c) r1 r0 nr0 in
    let nr2 := next anchor (ai a c) r2 r1 nr1 in
    let r3 := next anchor (ai a c) r3 r2 nr2 in
    let r0 := nr0 in
    let r1 := nr1 in
    let r2 := nr2 in
    if negb (not64 (N.lor (N.land (N.land (N.land r0 r1) r2) r3) hit) =? 0) then true
    else loop_3 a hit anchor1 anchor1 r0 r1 r2 r3 token'
  end.
Definition substring_match_3 (a : list N) (hit : N) (left_anchor : bool) (token : bytes) : bool :=
  loop_3 a hit (anchor_bit left_anchor) 0 ones64 (shl ones64) (shl (shl ones64)) (shl (shl (shl ones64))) token.

(* search.c 214-252 substring_match_general.  r[] and nr[] are lists of 1 + max_errors words. *)
(* lines 226-228 *)
Fixpoint init_r (max_errors : nat) (r : N) : list N :=
  match max_errors with O => [r] | S k => r :: init_r k (shl r) end.
(* lines 236-241: nr[1..], given r[d-1] and nr[d-1] *)
Fixpoint next_r (anchor x rp nrp : N) (rs : list N) : list N :=
  match rs with
  | [] => []
  | r :: rs' => let nr := next anchor x r rp nrp in nr :: next_r anchor x r nr rs'
  end.
(* compo is an unsigned int (line 233) *)
Definition compo (nr0 : N) (nrs : list N) : N := fold_left (fun c x => u32 (N.land c x)) nrs (u32 nr0).
Fixpoint loop_g (a : list N) (hit anchor1 anchor : N) (r : list N) (token : bytes) : bool :=
  match token with
  | [] => false
  | c :: token' =>
    match r with
    | [] => false   (* not reached: r[] has at least one word *)
    | r0 :: rs =>
      let nr0 := N.lor (N.lor (shl r0) anchor) (ai a c) in
      let nrs := next_r anchor (ai a c) r0 nr0 rs in
      if negb (not64 (N.lor (compo nr0 nrs) hit) =? 0) then true
      else loop_g a hit anchor1 anchor1 (nr0 :: nrs) token'
    end
  end.
Definition substring_match_general (a : list N) (hit : N) (left_anchor : bool) (token : bytes)
    (max_errors : nat) : bool :=
  loop_g a hit (anchor_bit left_anchor) 0 (init_r max_errors ones64) token.

(* The switch of search.c 275-292 and 328-343. *)
Definition substring_match (a : list N) (hit : N) (left_anchor : bool) (max_errors : nat) (token : bytes)
  : bool :=
  match max_errors with
  | 0 => substring_match_0 a hit left_anchor token
  | 1 => substring_match_1 a hit left_anchor token
  | 2 => substring_match_2 a hit left_anchor token
  | 3 => substring_match_3 a hit left_anchor token
  | _ => substring_match_general a hit left_anchor token max_errors
  end%nat.

(* One pattern against one word. *)
Definition match_word (left_anchor : bool) (max_errors : nat) (pattern word : bytes) : res bool :=
  let! (a, hit) := build_match_vector pattern in Ok (substring_match a hit left_anchor max_errors word).
