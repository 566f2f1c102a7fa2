(** Model of the string and number helpers of Utils.cpp and Utils.h.

    Characters are numbers 0..255, a std::string is a list of characters, a C string in
    memory is a list containing a 0.  Simplified: strings are shorter than 2^32 - 1
    characters, memory never runs out, [isspace] of a char outside ASCII is false. *)
From Verif Require Import Base.
Local Open Scope Z_scope.

(** ** gcd, Utils.cpp:345-352.  [fuel] bounds the depth of the recursion; a call that is
    [Diverge] for every fuel never returns. *)
Fixpoint gcd_ (fuel : nat) (x y : Z) : res Z :=
  match fuel with
  | O => Diverge
  | S n =>
      if y <? x then
        if y =? 0 then UB else if Z.rem x y =? 0 then Ok y else gcd_ n y (Z.rem x y)
      else
        if x =? 0 then UB else if Z.rem y x =? 0 then Ok x else gcd_ n x (Z.rem y x)
  end.

(** ** std::string::find(sub, pos) *)
(** std::string::find, Utils.cpp:484 *)
Fixpoint prefix (p s : list Z) : bool :=
  match p, s with
  | [], _ => true
  | x :: p', y :: s' => (x =? y) && prefix p' s'
  | _ :: _, [] => false
  end.
(** std::string::find from the beginning, as in Utils.cpp:484. *)
Fixpoint find_ (s sub : list Z) : option nat :=
  if prefix sub s then Some O
  else match s with [] => None | _ :: t => option_map S (find_ t sub) end.
(** std::string::find(sub, pos), as in Utils.cpp:484 and 578. *)
Definition find_from (s sub : list Z) (pos : nat) : option nat :=
  if (pos <=? length s)%nat then option_map (Nat.add pos) (find_ (skipn pos s) sub) else None.

(** ** replaceAll, Utils.cpp:477-499.  When nothing is found, [index1] is npos cut to 32
    bits, the comparison with npos fails on a 64-bit machine, string::replace throws
    out_of_range and the handler leaves the loop: the same result by another way. *)
Fixpoint replace_loop (fuel : nat) (search rep output : list Z) (index1 : nat) : res (list Z) :=
  match fuel with
  | O => Diverge
  | S n =>
      if (index1 <? length output)%nat then
        match find_from output search index1 with
        | None => Ok output
        | Some i =>
            replace_loop n search rep (firstn i output ++ rep ++ skipn (i + length search) output) (i + length rep)
        end
      else Ok output
  end.
(** replaceAll, Utils.cpp:477-499 *)
Definition replaceAll (fuel : nat) (input search rep : list Z) : res (list Z) :=
  replace_loop fuel search rep input 0.

(** ** cstrSplit, Utils.cpp:367-380.  [buf] is the memory holding the string, a char* is
    an index into it. *)
Definition in_set (set : list Z) (c : Z) : bool := existsb (fun x => x =? c) set.

(** [while ( *in && strchr(splitchars, *in)) in++] (Utils.cpp:372) *)
Fixpoint skip_sep (fuel : nat) (sep : Z -> bool) (buf : list Z) (p : nat) : res nat :=
  do c <- rd buf p;
  if (c =? 0) || negb (sep c) then Ok p
  else match fuel with O => Diverge | S n => skip_sep n sep buf (S p) end.
(** strpbrk(in, splitchars) (Utils.cpp:375) *)
Fixpoint strpbrk_ (fuel : nat) (sep : Z -> bool) (buf : list Z) (p : nat) : res (option nat) :=
  do c <- rd buf p;
  if c =? 0 then Ok None
  else if sep c then Ok (Some p)
  else match fuel with O => Diverge | S n => strpbrk_ n sep buf (S p) end.

(** [slots] is maxargc - argc; the result is the memory and the pointers stored (Utils.cpp:371-378). *)
Fixpoint split_loop (slots : nat) (sep : Z -> bool) (buf : list Z) (p : nat) : res (list Z * list nat) :=
  match slots with
  | O => Ok (buf, [])
  | S k =>
      do p <- skip_sep (length buf) sep buf p;
      do c <- rd buf p;
      if c =? 0 then Ok (buf, [])
      else
        do e <- strpbrk_ (length buf) sep buf p;
        match e with
        | None => Ok (buf, [p])
        | Some q =>
            do buf <- wr buf q 0;
            do (buf, argv) <- split_loop k sep buf (S q);
            Ok (buf, p :: argv)
        end
  end.
(** The default of splitchars, Utils.cpp:369 *)
Definition default_split : list Z := [32; 9; 13; 10].
(** cstrSplit, Utils.cpp:367-380 *)
Definition cstrSplit (buf : list Z) (p : nat) (maxargc : Z) (splitchars : option (list Z)) : res (list Z * list nat) :=
  let set := match splitchars with Some l => l | None => default_split end in
  split_loop (Z.to_nat maxargc) (in_set set) buf p.

(** The string at a char*: the characters up to the NUL (Utils.cpp:367-399). *)
Fixpoint c_str (m : list Z) : list Z :=
  match m with
  | [] => []
  | c :: t => if c =? 0 then [] else c :: c_str t
  end.
(** Helper: the text an element of argv points to (Utils.cpp:367-380). *)
Definition str_at (buf : list Z) (p : nat) : list Z := c_str (skipn p buf).

(** stringSplit, Utils.cpp:402-414 *)
Definition stringSplit (result : list (list Z)) (input : list Z) : res (list (list Z)) :=
  do (buf, argv) <- cstrSplit (c_str input ++ [0]) 0 40 None;
  Ok (result ++ map (str_at buf) argv).

(** ** cstrGetArg, Utils.cpp:385-399: pointer and length, or NULL. *)
Fixpoint scan_while (fuel : nat) (ok : Z -> bool) (buf : list Z) (p : nat) : res nat :=
  do c <- rd buf p;
  if (c =? 0) || negb (ok c) then Ok p
  else match fuel with O => Diverge | S n => scan_while n ok buf (S p) end.
(** [nth] counts down; the loop runs while [*cp && nth-- > 0]. *)
Fixpoint getarg_loop (nth : nat) (buf : list Z) (cp : nat) : res (option (nat * nat)) :=
  do c <- rd buf cp;
  if c =? 0 then Ok None
  else match nth with
  | O => Ok None
  | S k =>
      do r <- scan_while (length buf) isspace buf cp;
      do e <- scan_while (length buf) (fun c => negb (isspace c)) buf r;
      match k with
      | O => Ok (if (e - r =? 0)%nat then None else Some (r, (e - r)%nat))
      | S _ => getarg_loop k buf e
      end
  end.
(** cstrGetArg, Utils.cpp:385-399 *)
Definition cstrGetArg (buf : list Z) (p : nat) (nth : Z) : res (option (nat * nat)) :=
  getarg_loop (Z.to_nat nth) buf p.

(** ** uintToString, Utils.cpp:547-569, stringToUint, Utils.cpp:534-544 *)
Definition lowhex (d : Z) : Z := if d <? 10 then 48 + d else 87 + d.
(** What [os << hex << n] writes, without the padding (Utils.cpp:547-569). *)
Fixpoint hex_digits (fuel : nat) (n : Z) : list Z :=
  match fuel with
  | O => []
  | S k => (if n <? 16 then [] else hex_digits k (n / 16)) ++ [lowhex (n mod 16)]
  end.
(** setw and setfill, as in Utils.cpp:550-551. *)
Definition pad_left (w : nat) (fill : Z) (s : list Z) : list Z := repeat fill (w - length s) ++ s.
(** uintToString of two words, Utils.cpp:547-557 *)
Definition uintToString (h l : Z) : list Z :=
  pad_left 16 48 (hex_digits 16 h) ++ pad_left 16 48 (hex_digits 16 l).
(** uintToString of a word of 32 bits, Utils.cpp:560-569 *)
Definition uintToString32 (x : Z) : list Z := pad_left 8 48 (hex_digits 8 x).
(** [ss >> n] in hex: the value of the leading hex digits (signs, white space and a 0x
    prefix are not modelled); more than 64 bits store the greatest value. *)
Fixpoint parse_hex (s : list Z) (v : Z) : Z :=
  match s with
  | [] => v
  | c :: t => match hexval c with Some d => parse_hex t (16 * v + d) | None => v end
  end.
(** The extraction of Utils.cpp:541 and 544 into a uint64_t. *)
Definition stream_hex64 (s : list Z) : Z := Z.min (2 ^ 64 - 1) (parse_hex s 0).
(** stringToUint, Utils.cpp:534-544 *)
Definition stringToUint (s : list Z) : res (Z * Z) :=
  do _ <- assert_ (length s =? 32)%nat;
  Ok (stream_hex64 (firstn 16 s), stream_hex64 (firstn 16 (skipn 16 s))).

(** ** format, Utils.cpp:129-151 (format1, 172-194, is the same) and osprintf, 117-127.
    [text] is what the format and the arguments denote; vsnprintf(buf,size) stores its
    first size-1 characters and a NUL and returns the length of the whole. *)
Definition vsnprintf_buf (size : nat) (text : list Z) : list Z := firstn (size - 1) text ++ [0].
(** format, Utils.cpp:129-151 *)
Definition format (text : list Z) : list Z :=
  let n := Z.of_nat (length text) in
  if n <=? 199 then c_str (vsnprintf_buf 199 text)
  else let n := if 5000 <? n then 5000 else n in
       c_str (vsnprintf_buf (Z.to_nat (n + 1)) text).
(** [strcpy(&buf[296],"...")] overwrites positions 296 to 299. *)
Definition osprintf (text : list Z) : list Z :=
  let buf := vsnprintf_buf 300 text in
  let buf := if 300 - 4 <=? Z.of_nat (length text) then firstn (Z.to_nat (300 - 4)) buf ++ lit "..." ++ [0] else buf in
  c_str buf.

(** ** Statistic<int>, Utils.h:118-165.  [mSum] is a double; a sum is rounded to 53
    significant bits, halves to even. *)
Definition round_even (a k : Z) : Z :=   (* a / 2^k to the nearest integer *)
  let q := a / 2 ^ k in
  let r := a mod 2 ^ k in
  if 2 * r <? 2 ^ k then q else if 2 ^ k <? 2 * r then q + 1 else if Z.even q then q else q + 1.
(** An integer converted to double, as mSum (Utils.h:121) is. *)
Definition to_double (z : Z) : Z :=
  let k := Z.log2 (Z.abs z) + 1 - 53 in
  if k <=? 0 then z else round_even z k * 2 ^ k.
Record stat := Stat { mCurrent : Z; mMin : Z; mMax : Z; mCnt : Z; mSum : Z }.
Definition stat0 : stat := Stat 0 0 0 0 0.                  (* Utils.h:124 *)
Definition addPoint (s : stat) (val : Z) : stat :=          (* Utils.h:126-133 *)
  Stat val
    (if (mCnt s =? 0) || (val <? mMin s) then val else mMin s)
    (if (mCnt s =? 0) || (mMax s <? val) then val else mMax s)
    (u32 (mCnt s + 1))
    (to_double (mSum s + val)).
Definition getCurrent (s : stat) : Z := if mCnt s =? 0 then 0 else mCurrent s.   (* Utils.h:134-136 *)
(** Utils.h:137-139: the quotient mSum/mCnt, here as a numerator and denominator (the
    rounding of the division is left out). *)
Definition getAvg (s : stat) : Z * Z := if mCnt s =? 0 then (0, 1) else (mSum s, mCnt s).

(** ** BitSet, Utils.h:106-115; shifting an int by 32 or more is undefined. *)
Definition bit_ (which : Z) : res Z := if which <? 32 then Ok (2 ^ which) else UB.
(** setBit, Utils.h:108 *)
Definition setBit (bits which : Z) : res Z := do m <- bit_ which; Ok (Z.lor bits m).
(** clearBit, Utils.h:109 *)
Definition clearBit (bits which : Z) : res Z := do m <- bit_ which; Ok (Z.land bits (u32 (Z.lnot m))).
(** getBit, Utils.h:110 *)
Definition getBit (bits which : Z) : res Z := do m <- bit_ which; Ok (Z.land bits m).
(** isSet, Utils.h:111 *)
Definition isSet (bits which : Z) : res bool := do m <- bit_ which; Ok (negb (Z.land bits m =? 0)).

(** ** stringcat with seven arguments, Utils.cpp:502-514 *)
Definition stringcat7 (a b c d e f g : list Z) : list Z :=
  ((((((([] ++ a) ++ b) ++ c) ++ d) ++ e) ++ f) ++ g).
(** emptystring, Utils.cpp:516 *)
Definition emptystring : list Z := [].
(** Utils.cpp:518-520 *)
Definition stringcat2 (a b : list Z) : list Z := stringcat7 a b emptystring emptystring emptystring emptystring emptystring.
(** Utils.cpp:521-523 *)
Definition stringcat3 (a b c : list Z) : list Z := stringcat7 a b c emptystring emptystring emptystring emptystring.
(** Utils.cpp:524-526 *)
Definition stringcat4 (a b c d : list Z) : list Z := stringcat7 a b c d emptystring emptystring emptystring.
(** Utils.cpp:527-529 *)
Definition stringcat5 (a b c d e : list Z) : list Z := stringcat7 a b c d e emptystring emptystring.
(** Utils.cpp:530-532 *)
Definition stringcat6 (a b c d e f : list Z) : list Z := stringcat7 a b c d e f emptystring.

(** ** firstlines, Utils.cpp:573-584.  [None] is npos. *)
Definition past (msg : list Z) (pos : option nat) : option nat :=
  match pos with
  | Some p => if (p <? length msg)%nat then Some (S p) else pos
  | None => None
  end.
(** The loop of firstlines, Utils.cpp:577-580 *)
Fixpoint firstlines_loop (n : nat) (msg : list Z) (pos : option nat) : option nat :=
  match n with
  | O => pos
  | S k =>
      match pos with
      | None => None
      | Some p => if (p <? length msg)%nat then firstlines_loop k msg (past msg (find_from msg [10] p)) else pos
      end
  end.
(** firstlines, Utils.cpp:573-584 *)
Definition firstlines (msg : list Z) (n : Z) : list Z :=
  match firstlines_loop (Z.to_nat (n - 1)) msg (past msg (find_from msg [10] 0)) with
  | None => msg
  | Some p => firstn p msg
  end.

(** ** printPrettyTable, Utils.cpp:421-468 *)
Definition maxcols : nat := 30.
(** The width of a cell, Utils.cpp:431-432: at most 100. *)
Definition colwidth (cell : list Z) : nat := Nat.min 100 (length cell).
(** Helper: a cell of a row (Utils.cpp:431). *)
Definition cell_at (row : list (list Z)) (col : nat) : list Z := nth col row [].
(** The greatest width of a column, Utils.cpp:427-436 *)
Definition widths (tab : list (list (list Z))) (col : nat) : nat :=
  fold_left (fun w row => if (col <? length row)%nat then Nat.max w (colwidth (cell_at row col)) else w) tab O.
(** strcmp(val,"_") on the C string of the cell (Utils.cpp:452) *)
Definition shown (cell : list Z) : list Z :=
  let v := c_str cell in if list_eq_dec Z.eq_dec v (lit "_") then [] else v.
(** snprintf(buf,250,"%-*s ",width,val) *)
Definition padded (w : nat) (v : list Z) : list Z := firstn 249 (v ++ repeat 32 (w - length v) ++ [32]).
(** The cells of a row, Utils.cpp:449-464 *)
Fixpoint print_cells (tabSeparated : bool) (w : nat -> nat) (col : nat) (cells : list (list Z)) : list Z :=
  match cells with
  | [] => []
  | cell :: t =>
      (if tabSeparated then (if (col =? 0)%nat then [] else [9]) ++ shown cell else padded (w col) (shown cell))
      ++ print_cells tabSeparated w (S col) t
  end.
(** A row, Utils.cpp:439-465 *)
Definition print_row (tab : list (list (list Z))) (tabSeparated : bool) (row : list (list Z)) : list Z :=
  print_cells tabSeparated (if tabSeparated then fun _ => O else widths tab) 0 (firstn maxcols row) ++ [10].
(** printPrettyTable, Utils.cpp:421-468 *)
Definition printPrettyTable (tab : list (list (list Z))) (tabSeparated : bool) : list Z :=
  flat_map (print_row tab tabSeparated) tab ++ [10].
