(** Model of the formats of printf as far as the library uses them with format, format1, osprintf,
    sprintf and snprintf (Utils.cpp:117-194, Timeval.cpp:106-109, Configuration.cpp:909-914).

    The overloads of format for std::string (Utils.h:44-67) pass the C strings.

    Flags - and 0, width, precision, l and ll, and the conversions d i u x X c s %; the conversions
    g and p and the other flags are left out and count as undefined.  As in the C standard an
    argument that is missing or of another type is undefined, and so is a negative int for an
    unsigned conversion.  Characters are bytes; the length of the whole text fits in an int. *)
From Verif Require Import Base UtilsModel.
Local Open Scope Z_scope.

(** An argument: an int or an unsigned, a long or an unsigned long, a text ([None]: NULL), something else (a double, a pointer) (vsnprintf of Utils.cpp:122, 134 and 177). *)
Inductive arg := AInt (z : Z) | ALong (z : Z) | AStr (s : option (list Z)) | AOther.
(** The number in a format, or * (vsnprintf of Utils.cpp:122, 134 and 177) *)
Inductive number := Num (n : Z) | Star.
(** A conversion specification of printf (vsnprintf of Utils.cpp:122, 134 and 177). *)
Record directive := Directive { minus : bool; zero : bool; width : number; precision : option number; long : bool; conversion : Z }.

(** Helper of [parse]: the flags - and 0. *)
Fixpoint flags (s : list Z) (m z : bool) : bool * bool * list Z :=
  match s with
  | c :: t => if c =? 45 then flags t true z else if c =? 48 then flags t m true else (m, z, s)
  | [] => (m, z, [])
  end.
(** Helper of [parse]: a decimal number (vsnprintf of Utils.cpp:122, 134 and 177). *)
Fixpoint digits (s : list Z) (n : Z) : Z * list Z :=
  match s with
  | c :: t => if (48 <=? c) && (c <=? 57) then digits t (10 * n + (c - 48)) else (n, s)
  | [] => (n, [])
  end.
(** Helper of [parse]: a width or precision (vsnprintf of Utils.cpp:122, 134 and 177). *)
Definition number_of (s : list Z) : number * list Z :=
  match s with
  | c :: t => if c =? 42 then (Star, t) else let (n, r) := digits s 0 in (Num n, r)
  | [] => (Num 0, [])
  end.
(** Helper of [parse]: the modifiers l and ll (vsnprintf of Utils.cpp:122, 134 and 177). *)
Definition skip_l (s : list Z) : bool * list Z :=
  match s with
  | c :: t => if c =? 108 then match t with c' :: t' => if c' =? 108 then (true, t') else (true, t) | [] => (true, t) end else (false, s)
  | [] => (false, [])
  end.
(** What follows a percent sign (vsnprintf of Utils.cpp:122, 134 and 177). *)
Definition parse (s : list Z) : option (directive * list Z) :=
  let '(m, z, s1) := flags s false false in
  let (w, s2) := number_of s1 in
  let (p, s3) := match s2 with c :: t => if c =? 46 then let (p, r) := number_of t in (Some p, r) else (None, s2) | [] => (None, []) end in
  let (l, s4) := skip_l s3 in
  match s4 with c :: t => Some (Directive m z w p l c, t) | [] => None end.

(** The digits of a number; [letter]: the character of ten (vsnprintf of Utils.cpp:122, 134 and 177). *)
Definition digit_char (letter d : Z) : Z := if d <? 10 then 48 + d else letter + (d - 10).
(** The digits of a number in a base (vsnprintf of Utils.cpp:122, 134 and 177). *)
Fixpoint spell (fuel : nat) (base letter n : Z) : list Z :=
  match fuel with
  | O => []
  | S k => (if n <? base then [] else spell k base letter (n / base)) ++ [digit_char letter (n mod base)]
  end.
(** Helper: blanks to fill with (vsnprintf of Utils.cpp:122, 134 and 177). *)
Definition blanks (n : Z) : list Z := repeat 32 (Z.to_nat n).
(** Helper: zeros to fill with (vsnprintf of Utils.cpp:122, 134 and 177). *)
Definition zeros (n : Z) : list Z := repeat 48 (Z.to_nat n).
(** Filled up to the width (vsnprintf of Utils.cpp:122, 134 and 177). *)
Definition fill (m z : bool) (w : Z) (sign body : list Z) : list Z :=
  let missing := w - Z.of_nat (length (sign ++ body)) in
  if m then sign ++ body ++ blanks missing else if z then sign ++ zeros missing ++ body else blanks missing ++ sign ++ body.
(** The digits, at least as many as the precision says; none for 0 with precision 0. *)
Definition body_of (p : option Z) (base letter n : Z) : list Z :=
  match p with
  | None => spell 64 base letter n
  | Some p => let s := if (n =? 0) && (p =? 0) then [] else spell 64 base letter n in zeros (p - Z.of_nat (length s)) ++ s
  end.
(** The number an argument is for a conversion; the type must fit (vsnprintf of Utils.cpp:122, 134 and 177). *)
Definition integer (a : arg) (lng signed : bool) : res Z :=
  match a with
  | AInt z => if lng then UB else if (if signed then (- 2 ^ 31 <=? z) && (z <? 2 ^ 31) else (0 <=? z) && (z <? 2 ^ 32)) then Ok z else UB
  | ALong z => if lng then if (if signed then (- 2 ^ 63 <=? z) && (z <? 2 ^ 63) else (0 <=? z) && (z <? 2 ^ 64)) then Ok z else UB else UB
  | AStr _ | AOther => UB
  end.
(** The next argument (va_arg of vsnprintf, Utils.cpp:122 and 134); it must exist. *)
Definition take (args : list arg) : res (arg * list arg) := match args with a :: r => Ok (a, r) | [] => UB end.
(** A width or precision: [None] for a precision that does not count (vsnprintf of Utils.cpp:122, 134 and 177). *)
Definition value_of (n : number) (args : list arg) : res (Z * list arg) :=
  match n with
  | Num n => Ok (n, args)
  | Star => do (a, r) <- take args; do z <- integer a false true; Ok (z, r)
  end.
(** The precision; a negative one does not count (vsnprintf of Utils.cpp:122, 134 and 177). *)
Definition precision_of (p : option number) (args : list arg) : res (option Z * list arg) :=
  match p with
  | None => Ok (None, args)
  | Some n => do (z, r) <- value_of n args; Ok (if z <? 0 then None else Some z, r)
  end.
(** The text of a directive and the arguments left (vsnprintf of Utils.cpp:122, 134 and 177). *)
Definition convert (d : directive) (args : list arg) : res (list Z * list arg) :=
  do (w, args) <- value_of (width d) args;
  do (p, args) <- precision_of (precision d) args;
  let m := minus d || (w <? 0) in
  let w := Z.abs w in
  let c := conversion d in
  let num base letter signed :=
    do (a, args) <- take args;
    do z <- integer a (long d) signed;
    Ok (fill m (zero d && match p with None => true | Some _ => false end) w (if z <? 0 then [45] else []) (body_of p base letter (Z.abs z)), args) in
  if (c =? 100) || (c =? 105) then num 10 97 true
  else if c =? 117 then num 10 97 false
  else if c =? 120 then num 16 97 false
  else if c =? 88 then num 16 65 false
  else if (c =? 99) && negb (long d) && negb (zero d) && match p with None => true | Some _ => false end then
    do (a, args) <- take args;
    do z <- integer a false true;
    Ok (fill m false w [] [u8 z], args)
  else if (c =? 115) && negb (long d) && negb (zero d) then
    do (a, args) <- take args;
    match a with
    | AStr (Some s) => Ok (fill m false w [] (match p with Some p => firstn (Z.to_nat p) (c_str s) | None => c_str s end), args)
    | _ => UB
    end
  else UB.
(** The text of a format, from left to right, for vsnprintf (Utils.cpp:122, 134 and 177). *)
Fixpoint print (fuel : nat) (fmt : list Z) (args : list arg) : res (list Z) :=
  match fuel with
  | O => Ok []
  | S k =>
      match fmt with
      | [] => Ok []
      | c :: t =>
          if c =? 37 then
            match t with
            | [] => UB
            | c' :: t' =>
                if c' =? 37 then do r <- print k t' args; Ok (37 :: r)
                else match parse t with
                     | None => UB
                     | Some (d, rest) => do (s, args) <- convert d args; do r <- print k rest args; Ok (s ++ r)
                     end
            end
          else do r <- print k t args; Ok (c :: r)
      end
  end.
(** What a format and its arguments denote (vsnprintf of Utils.cpp:122, 134 and 177). *)
Definition denotes (fmt : list Z) (args : list arg) : res (list Z) := let f := c_str fmt in print (S (length f)) f args.
(** format, Utils.cpp:129-151, and osprintf, Utils.cpp:117-126, with the format they are given. *)
Definition format_ (fmt : list Z) (args : list arg) : res (list Z) := do text <- denotes fmt args; Ok (format text).
(** osprintf, Utils.cpp:117-126 *)
Definition osprintf_ (fmt : list Z) (args : list arg) : res (list Z) := do text <- denotes fmt args; Ok (osprintf text).
(** Mutex::mutext, Threads.cpp:133-148: the lock count and for each lock the place; maxLocks is 5 (Threads.h:84). *)
Fixpoint places (n : nat) (files : list (option (list Z))) (lines : list Z) : res (list Z) :=
  match n with
  | O => Ok []
  | S n =>
      match files, lines with
      | f :: files, l :: lines =>
          do s <- match f with Some f => format_ (lit " %s:%u") [AStr (Some f); AInt l] | None => Ok (lit " ?") end;
          do r <- places n files lines; Ok (s ++ r)
      | _, _ => UB
      end
  end.
(** Mutex::mutext, Threads.cpp:133-148 *)
Definition mutext (mLockCnt : Z) (files : list (option (list Z))) (lines : list Z) : res (list Z) :=
  do s <- format_ (lit "lockcnt=%d") [AInt mLockCnt];
  do r <- places (Z.to_nat (Z.min mLockCnt 5)) files lines;
  Ok (s ++ r).
