(** Model of regular expressions: regcomp with REG_EXTENDED and regexec without flags, as
    Regexp.h:43-62 and Configuration.cpp:432-445,465-480,579-612,617-634 use them, and class Regexp.

    The C library is modelled after POSIX and, where POSIX leaves an expression undefined, after the GNU C
    library: a repetition without something to repeat is an error, an unmatched closing parenthesis
    stands for itself, empty alternatives are allowed, {,n} is {0,n}.  Not modelled, and answered by
    [Beyond]: back references and the other GNU escapes, collating symbols and equivalence classes,
    two hyphens side by side in brackets, and backslashes in intervals.  The locale is "C" (nothing in
    /repo calls setlocale), so a character is a byte.  Memory suffices. *)
From Verif Require Import Base UtilsModel SqlModel.
Local Open Scope Z_scope.

(** The classes of characters of POSIX (for regcomp, called at Regexp.h:47 and Configuration.cpp:435). *)
Inductive cclass := Alnum | Alpha | Blank | Cntrl | Digit | Graph | Lower | Print | Punct | Space | Upper | Xdigit.
(** An item of a bracket expression (regcomp of Regexp.h:47). *)
Inductive bitem := IChar (c : Z) | IRange (a b : Z) | IClass (k : cclass).
(** A set of characters: one of the items, or with [neg] none of them (regcomp of Regexp.h:47). *)
Record bset := BSet { neg : bool; bitems : list bitem }.
(** [Rep a lo hi]: [lo] to [hi] times [a], without limit if [hi] is [None] (regcomp of Regexp.h:47). *)
Inductive re := Eps | Chars (f : bset) | Bol | Eol | Seq (a b : re) | Alt (a b : re) | Rep (a : re) (lo : nat) (hi : option nat).

(** ** regcomp *)
(** regcomp of Regexp.h:47 *)
Inductive pr (A : Type) := Good (a : A) | Bad | Beyond | Deep.
Arguments Good {A} a. Arguments Bad {A}. Arguments Beyond {A}. Arguments Deep {A}.
(** Helper: sequencing of results of the parser (regcomp of Regexp.h:47). *)
Definition pbind {A B} (x : pr A) (f : A -> pr B) : pr B :=
  match x with Good a => f a | Bad => Bad | Beyond => Beyond | Deep => Deep end.

(** Helper: is this the next character? (regcomp of Regexp.h:47) *)
Definition begins (c : Z) (p : list Z) : bool := match p with d :: _ => d =? c | [] => false end.
(** Helper: the expression for one character (regcomp of Regexp.h:47). *)
Definition one (c : Z) : re := Chars (BSet false [IChar c]).
(** The class with a name (regcomp of Regexp.h:47). *)
Definition class_of (n : list Z) : option cclass :=
  if weqb n (lit "alnum") then Some Alnum else if weqb n (lit "alpha") then Some Alpha else if weqb n (lit "blank") then Some Blank
  else if weqb n (lit "cntrl") then Some Cntrl else if weqb n (lit "digit") then Some Digit else if weqb n (lit "graph") then Some Graph
  else if weqb n (lit "lower") then Some Lower else if weqb n (lit "print") then Some Print else if weqb n (lit "punct") then Some Punct
  else if weqb n (lit "space") then Some Space else if weqb n (lit "upper") then Some Upper else if weqb n (lit "xdigit") then Some Xdigit
  else None.
(** The name of a class behind "[:", and what comes behind ":]" (regcomp of Regexp.h:47). *)
Fixpoint class_name (p acc : list Z) : option (list Z * list Z) :=
  match p with
  | [] => None
  | c :: t => if (c =? 58) && begins 93 t then Some (rev acc, tl t) else class_name t (c :: acc)
  end.
(** A bracket expression behind its "[" or "[^"; [first]: nothing read yet (regcomp of Regexp.h:47). *)
Fixpoint items (n : nat) (first : bool) (p : list Z) : pr (list bitem * list Z) :=
  match n with
  | O => Deep
  | S n =>
      match p with
      | [] => Bad
      | c :: t =>
          if (c =? 93) && negb first then Good ([], t)
          else if (c =? 91) && (begins 46 t || begins 61 t) then Beyond
          else if (c =? 91) && begins 58 t then
            match class_name (tl t) [] with
            | Some (name, t) =>
                match class_of name with
                | Some k => pbind (items n false t) (fun '(l, rest) => Good (IClass k :: l, rest))
                | None => Bad
                end
            | None => Bad
            end
          else if (c =? 45) && begins 45 t then Beyond
          else if (c =? 45) && negb first then (if begins 93 t then Good ([IChar 45], tl t) else Bad)
          else
            match (if begins 45 t then tl t else []) with
            | e :: t' =>
                if e =? 93 then pbind (items n false t) (fun '(l, rest) => Good (IChar c :: l, rest))
                else if e =? 45 then Beyond
                else if (e =? 91) && (begins 46 t' || begins 61 t') then Beyond
                else if (e =? 91) && begins 58 t' then Bad
                else if c <=? e then pbind (items n false t') (fun '(l, rest) => Good (IRange c e :: l, rest))
                else Bad
            | [] => pbind (items n false t) (fun '(l, rest) => Good (IChar c :: l, rest))
            end
      end
  end.
(** A bracket expression behind its opening bracket, for regcomp (Regexp.h:47). *)
Definition bracket (p : list Z) : pr (re * list Z) :=
  let ng := begins 94 p in
  let p := if ng then tl p else p in
  pbind (items (S (length p)) true p) (fun '(l, rest) => Good (Chars (BSet ng l), rest)).

(** A number in an interval: -1 without a digit, -2 with something else, limited to RE_DUP_MAX + 1; and the
    comma or brace that ends it. *)
Fixpoint number (p : list Z) (num : Z) : pr (Z * Z * list Z) :=
  match p with
  | [] => Bad
  | c :: t =>
      if (c =? 125) || (c =? 44) then Good (num, c, t)
      else if c =? 92 then Beyond
      else number t (if (c <? 48) || (57 <? c) || (num =? -2) then -2 else if num =? -1 then c - 48 else Z.min 32768 (num * 10 + (c - 48)))
  end.
(** An interval behind its "{" (regcomp of Regexp.h:47). *)
Definition interval (p : list Z) : pr (nat * option nat * list Z) :=
  pbind (number p (-1)) (fun '(start, d, t) =>
  if start =? -2 then Bad
  else if (start =? -1) && (d =? 125) then Bad
  else
    let start := if start =? -1 then 0 else start in
    if d =? 125 then (if 32767 <? start then Bad else Good (Z.to_nat start, Some (Z.to_nat start), t))
    else
      pbind (number t (-1)) (fun '(end_, d, t) =>
      if end_ =? -2 then Bad
      else if d =? 44 then Bad
      else if end_ =? -1 then (if 32767 <? start then Bad else Good (Z.to_nat start, None, t))
      else if end_ <? start then Bad
      else if 32767 <? end_ then Bad
      else Good (Z.to_nat start, Some (Z.to_nat end_), t))).
(** The repetitions behind something: *, +, ? and intervals, for regcomp (Regexp.h:47). *)
Fixpoint quants (n : nat) (r : re) (p : list Z) : pr (re * list Z) :=
  match n with
  | O => Deep
  | S n =>
      match p with
      | [] => Good (r, [])
      | c :: t =>
          if c =? 42 then quants n (Rep r 0 None) t
          else if c =? 43 then quants n (Rep r 1 None) t
          else if c =? 63 then quants n (Rep r 0 (Some 1%nat)) t
          else if c =? 123 then pbind (interval t) (fun '(lo, hi, t) => quants n (Rep r lo hi) t)
          else Good (r, p)
      end
  end.
(** \1 to \9, \<, \>, \b, \B, \w, \W, \s, \S, \` and \' *)
Definition gnu (c : Z) : bool := existsb (Z.eqb c) (lit "123456789<>bBwWsS`" ++ [39]).
(** Alternatives, sequences and single expressions, for regcomp (Regexp.h:47); [nested]: up to a closing
    parenthesis. *)
Fixpoint alts (n : nat) (nested : bool) (p : list Z) : pr (re * list Z) :=
  match n with
  | O => Deep
  | S n =>
      pbind (branch n nested p) (fun '(b, rest) =>
      if begins 124 rest then pbind (alts n nested (tl rest)) (fun '(a, rest) => Good (Alt b a, rest)) else Good (b, rest))
  end
with branch (n : nat) (nested : bool) (p : list Z) : pr (re * list Z) :=
  match n with
  | O => Deep
  | S n =>
      match p with
      | [] => Good (Eps, [])
      | c :: t =>
          if (c =? 124) || nested && (c =? 41) then Good (Eps, p)
          else pbind (expr n c t) (fun '(e, rest) => pbind (branch n nested rest) (fun '(b, rest) => Good (Seq e b, rest)))
      end
  end
with expr (n : nat) (c : Z) (t : list Z) : pr (re * list Z) :=
  match n with
  | O => Deep
  | S n =>
      if c =? 94 then Good (Bol, t)
      else if c =? 36 then Good (Eol, t)
      else if (c =? 42) || (c =? 43) || (c =? 63) || (c =? 123) then Bad
      else
        pbind (if c =? 40 then pbind (alts n true t) (fun '(a, rest) => if begins 41 rest then Good (a, tl rest) else Bad)
               else if c =? 91 then bracket t
               else if c =? 92 then match t with [] => Bad | e :: t => if gnu e then Beyond else Good (one e, t) end
               else if c =? 46 then Good (Chars (BSet true []), t)
               else Good (one c, t))
          (fun '(a, rest) => quants (S (length rest)) a rest)
  end.
(** The result of regcomp (Regexp.h:47): an expression, an error, or outside the model. *)
Inductive compiled := Compiled (r : re) | Invalid | Outside.
(** regcomp with REG_EXTENDED, called at Regexp.h:47 and Configuration.cpp:435, 469, 582, 602, 619 and 621. *)
Definition regcomp (p : list Z) : compiled :=
  let p := c_str p in
  match alts (3 * length p + 3) false p with
  | Good (r, []) => Compiled r
  | Good (_, _ :: _) | Bad => Invalid
  | Beyond | Deep => Outside
  end.

(** ** regexec *)
(** regexec of Regexp.h:60 *)
Definition in_class (k : cclass) (c : Z) : bool :=
  let between a b := (a <=? c) && (c <=? b) in
  match k with
  | Alnum => between 48 57 || between 65 90 || between 97 122
  | Alpha => between 65 90 || between 97 122
  | Blank => (c =? 9) || (c =? 32)
  | Cntrl => between 0 31 || (c =? 127)
  | Digit => between 48 57
  | Graph => between 33 126
  | Lower => between 97 122
  | Print => between 32 126
  | Punct => between 33 47 || between 58 64 || between 91 96 || between 123 126
  | Space => between 9 13 || (c =? 32)
  | Upper => between 65 90
  | Xdigit => between 48 57 || between 65 70 || between 97 102
  end.
(** Helper: does the item contain the character? (regexec of Regexp.h:60) *)
Definition in_item (i : bitem) (c : Z) : bool :=
  match i with IChar d => c =? d | IRange a b => (a <=? c) && (c <=? b) | IClass k => in_class k c end.
(** Helper: does the set contain the character? (regexec of Regexp.h:60) *)
Definition in_set (f : bset) (c : Z) : bool := xorb (neg f) (existsb (fun i => in_item i c) (bitems f)).
(** Sets of positions in the text, 0 to its length. *)
Definition join (a b : list bool) : list bool := map (fun '(x, y) => x || y) (combine a b).
(** Helper of [img]: one character further where it is in the set (regexec of Regexp.h:60). *)
Definition advance_ (f : bset) (t : list Z) (P : list bool) : list bool :=
  false :: map (fun '(p, c) => p && in_set f c) (combine P t).
(** The positions [r] leads to from those of [P]: all states are followed at once (regexec of Regexp.h:60). *)
Fixpoint img (t : list Z) (r : re) (P : list bool) : list bool :=
  match r with
  | Eps => P
  | Chars f => advance_ f t P
  | Bol => match P with [] => [] | p :: P => p :: map (fun _ => false) P end
  | Eol => match rev P with [] => [] | p :: P => map (fun _ => false) P ++ [p] end
  | Seq a b => img t b (img t a P)
  | Alt a b => join (img t a P) (img t b P)
  | Rep a lo hi =>
      let more Y := join Y (img t a Y) in
      Nat.iter (match hi with Some h => h - lo | None => S (length t) end) more (Nat.iter lo (img t a) P)
  end.
(** regexec without flags, called at Regexp.h:60 and Configuration.cpp:441, 475, 608 and 628. *)
Definition regexec (r : re) (text : list Z) : bool :=
  let t := c_str text in existsb (fun b => b) (img t r (repeat true (S (length t)))).

(** ** class Regexp, Regexp.h:36-62; the constructor, 45-54 *)
Definition Regexp (p : list Z) : res re := match regcomp p with Compiled r => Ok r | Invalid => Abort | Outside => UB end.
(** Regexp::match, Regexp.h:59-60 *)
Definition match_ (r : re) (text : list Z) : bool := regexec r text.

(** What isValidValue asks for (ValidModel); [other] for what is not modelled (Configuration.cpp:361-640). *)
Definition regex (other : list Z -> list Z -> option bool) (p text : list Z) : option bool :=
  match regcomp p with Compiled r => Some (regexec r text) | Invalid => None | Outside => other p text end.
