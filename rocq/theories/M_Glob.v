(* Wildcards and colon-separated lists: glob.c. *)
From Verif Require Import Base M_Search.
Local Open Scope N_scope.

(* glob.c 30-35 struct globber.  pat[256] is kept as a function of the index. *)
Record globber := { pat : N -> N; starpat : N; twostarpat : N; hit : N }.

(* A char, which is signed here, as an int. *)
Definition schar (c : N) : Z := if c <? 128 then Z.of_N c else (Z.of_N c - 256)%Z.
(* pat[index] |= mask *)
Definition or_pat (p : N -> N) (index mask : N) : N -> N := fun i => if i =? index then N.lor (p i) mask else p i.
(* glob.c 70-73: for i = lo to hi *)
Fixpoint or_range (k : nat) (i : Z) (p : N -> N) (mask : N) : N -> N :=
  match k with
  | O => p
  | S k' => or_range k' (i + 1)%Z (or_pat p (Z.to_N (i mod 256)) mask) mask
  end.
(* glob.c 42-87 parse_charclass, from after the '['.  Some rest: what follows the closing ']', where
   the caller's p++ leads.  None: the end of the string was reached; the caller's p++ then goes past it. *)
Fixpoint parse_charclass (first : bool) (prev : Z) (mask : N) (s : bytes) (p : N -> N) : option (bytes * (N -> N)) :=
  match s with
  | [] => None
  | c :: s' =>
    if c =? 93 then
      if first then parse_charclass false (schar c) mask s' (or_pat p 93 mask) else Some (s', p)
    else if c =? 45 then
      match s' with
      | [] => parse_charclass false (schar c) mask s' (or_pat p 45 mask)
      | d :: s'' =>
        if (prev <? 0)%Z || (d =? 93) then parse_charclass false (schar c) mask s' (or_pat p 45 mask)
        else
          let lo := Z.min prev (schar d) in
          let hi := Z.max prev (schar d) in
          (* prev = -1 is overwritten by line 82 *)
          parse_charclass false (schar d) mask s'' (or_range (Z.to_nat (hi - lo + 1)) lo p mask)
      end
    else parse_charclass false (schar c) mask s' (or_pat p c mask)
  end.
(* 1<<n in an int: undefined from n = 31 on. *)
Definition shl1 (n : N) : res N := if n <? 31 then Ok (2 ^ n) else Err E_ub.
(* glob.c 106-139, the loop of make_globber.  fuel bounds the characters left. *)
Fixpoint globber_loop (fuel : nat) (s : bytes) (n : N) (p : N -> N) (st ds : N) : res ((N -> N) * N * N * N) :=
  match fuel with
  | O => Err E_fuel
  | S fuel' =>
    match s with
    | [] => Ok (p, st, ds, n)
    | c :: s' =>
      let! mask := shl1 n in
      if c =? 42 then
        match s' with
        | d :: s'' => if d =? 42 then globber_loop fuel' s'' n p st (N.lor ds mask)
                      else globber_loop fuel' s' n p (N.lor st mask) ds
        | [] => globber_loop fuel' s' n p (N.lor st mask) ds
        end
      else if c =? 91 then
        match parse_charclass true (-1) mask s' p with
        | Some (rest, p') => globber_loop fuel' rest (n + 1) p' st ds
        | None => Err E_oob
        end
      else if c =? 63 then globber_loop fuel' s' (n + 1) (fun i => if i <? 256 then N.lor (p i) mask else p i) st ds
      else globber_loop fuel' s' (n + 1) (or_pat p c mask) st ds
    end
  end.
(* glob.c 90-144 make_globber *)
Definition make_globber (s : bytes) : res globber :=
  let! (x, n) := globber_loop (S (length s)) s 0 (fun _ => 0) 0 0 in
  let '(p, st, ds) := x in
  let! h := shl1 n in
  Ok {| pat := p; starpat := st; twostarpat := ds; hit := h |}.

(* glob.c 163-184: the registers are 32 bits wide. *)
Fixpoint glob_run (g : globber) (reg : N) (s : bytes) : N :=
  match s with
  | [] => reg
  | c :: s' =>
    let stars := N.land reg (starpat g) in
    let twostars := N.land reg (twostarpat g) in
    let stars2 := if c =? 47 then twostars else N.lor stars twostars in
    glob_run g (N.lor (u32 (N.shiftl (N.land reg (pat g c)) 1)) stars2) s'
  end.
(* glob.c 154-195 is_glob_match *)
Definition is_glob_match (g : globber) (s : bytes) : bool := negb (N.land (glob_run g 1 s) (hit g) =? 0).

(* glob.c 198-225: arrays of globbers; None is a null pointer. *)
Fixpoint make_globbers (l : list bytes) : res (list globber) :=
  match l with
  | [] => Ok []
  | s :: l' => let! g := make_globber s in let! gs := make_globbers l' in Ok (g :: gs)
  end.
Definition is_globber_array_match (ga : option (list globber)) (s : bytes) : bool :=
  match ga with None => false | Some gs => existsb (fun g => is_glob_match g s) gs end.

(* glob.c 237-266 copy_folder_name.  next is the character q[1] reads at the last position: the
   colon at 'end', or the NUL. *)
Fixpoint copy_folder_name (s : bytes) (next : N) : bytes :=
  match s with
  | [] => []
  | c :: s' =>
    if (c =? 92) && ((match s' with d :: _ => d | [] => next end) =? 58) then copy_folder_name s' next
    else c :: copy_folder_name s' next
  end.
(* glob.c 311-314: strchr again until a colon without a backslash before it.  seen is the text up to
   and including the last colon looked at. *)
Fixpoint more_colons (fuel : nat) (seen s : bytes) : res (option (bytes * bytes)) :=
  match fuel with
  | O => Err E_fuel
  | S fuel' =>
    match split_at 58 s with
    | None => Ok None
    | Some (b, a) =>
      if last (seen ++ b) 0 =? 92 then more_colons fuel' (seen ++ b ++ [58]) a else Ok (Some (seen ++ b, a))
    end
  end.
(* glob.c 307-315: the first colon that is not escaped, as the text before and after it *)
Definition find_colon (s : bytes) : res (option (bytes * bytes)) :=
  match split_at 58 s with
  | None => Ok None
  | Some (b, a) =>
    if negb (match b with [] => true | _ => false end) && (last b 0 =? 92)
    then more_colons (S (length a)) (b ++ [58]) a
    else Ok (Some (b, a))
  end.
(* glob.c 296-336 split_on_colons *)
Fixpoint split_loop (fuel : nat) (s : bytes) : res (list bytes) :=
  match fuel with
  | O => Err E_fuel
  | S fuel' =>
    let! o := find_colon s in
    match o with
    | Some (b, a) =>
      let x := copy_folder_name b 58 in
      match a with [] => Ok [x] | _ => let! xs := split_loop fuel' a in Ok (x :: xs) end
    | None => Ok [copy_folder_name s 0]
    end
  end.
Definition split_on_colons (s : bytes) : res (list bytes) := split_loop (S (length s)) s.

(* glob.c 198-215 colon_sep_string_to_globber_array *)
Definition colon_sep_string_to_globber_array (s : bytes) : res (list globber) :=
  let! l := split_on_colons s in make_globbers l.

(* mairix.c 149-168 add_folders *)
Definition add_folders (folders : option bytes) (extra : bytes) : option bytes :=
  match folders with
  | None => Some extra
  | Some old => Some (old ++ [58] ++ extra)
  end.
