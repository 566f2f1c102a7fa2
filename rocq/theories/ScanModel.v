(** Model of myscanf (Utils.cpp:197-245) and, by its description in C11 7.21.6.2 and glibc's
    vfscanf-internal.c, of the part of sscanf that fits its arguments.

    Modelled: white space, other characters, %%, %s, %[...] and %c, each with * and a width below
    2^31.  Any other conversion needs an argument of another type than the buffers passed here,
    which is undefined.  The strings are distinct objects; the stack is large enough for alloca. *)
From Verif Require Import Base.
Local Open Scope Z_scope.

(** ** The format *)
(** the sscanf of Utils.cpp:201, 210, 223 and 238 *)
Inductive kind :=
| KStr                                        (* %s *)
| KSet (neg : bool) (ranges : list (Z * Z))   (* %[...] *)
| KOpen                                       (* a set without its end *)
| KChr                                        (* %c *)
| KPct.                                       (* %% *)
(** the sscanf of Utils.cpp:201, 210, 223 and 238 *)
Inductive dir :=
| White
| Char (c : Z)
| Conv (sup : bool) (width : Z) (k : kind)    (* width: -1 for none *)
| Bad.
(** The characters of a set up to its bracket.  A dash between two characters in order adds those
    from the one before it up to, not including, the one after it, which adds itself next (the sscanf of Utils.cpp:201, 210, 223 and 238). *)
Fixpoint set_body (prev : Z) (f : list Z) (acc : list (Z * Z)) : option (list (Z * Z) * list Z) :=
  match f with
  | [] => None
  | c :: f' =>
      if c =? 93 then Some (acc, f')
      else match f' with
           | d :: _ => if (c =? 45) && negb (d =? 93) && (prev <=? d) then set_body c f' ((prev, d - 1) :: acc)
                       else set_body c f' ((c, c) :: acc)
           | [] => set_body c f' ((c, c) :: acc)
           end
  end.
(** %[ up to the end of the set: ^, and a ] or - in front, count as C11 7.21.6.2 says (the sscanf of
    Utils.cpp:201, 210, 223 and 238). *)
Definition set_of (f : list Z) : kind * list Z :=
  let '(neg, f) := match f with c :: f' => if c =? 94 then (true, f') else (false, f) | [] => (false, f) end in
  let r := match f with
           | c :: f' => if (c =? 93) || (c =? 45) then set_body c f' [(c, c)] else set_body 0 f []
           | [] => None
           end in
  match r with Some (s, f) => (KSet neg s, f) | None => (KOpen, []) end.
(** The width in a conversion (the sscanf of Utils.cpp:201, 210, 223 and 238). *)
Fixpoint number_of (f : list Z) (acc : Z) : Z * list Z :=
  match f with
  | c :: f' => if (48 <=? c) && (c <=? 57) then number_of f' (10 * acc + (c - 48)) else (acc, f)
  | [] => (acc, [])
  end.
(** After the percent sign (the sscanf of Utils.cpp:201, 210, 223 and 238). *)
Definition conv_of (f : list Z) : dir * list Z :=
  let '(sup, f) := match f with c :: f' => if c =? 42 then (true, f') else (false, f) | [] => (false, f) end in
  let '(w, f) := number_of f 0 in
  let w := if w =? 0 then -1 else w in
  match f with
  | c :: f' =>
      if c =? 115 then (Conv sup w KStr, f')
      else if c =? 91 then let '(k, f') := set_of f' in (Conv sup w k, f')
      else if c =? 99 then (Conv sup w KChr, f')
      else if c =? 37 then (Conv true w KPct, f')
      else (Bad, f')
  | [] => (Bad, [])
  end.
(** The format as a list of directives, character by character (the sscanf of Utils.cpp:201, 210, 223 and 238). *)
Fixpoint dirs_ (fuel : nat) (f : list Z) : list dir :=
  match fuel with
  | O => []
  | S n =>
      match f with
      | [] => []
      | c :: f' =>
          if isspace c then White :: dirs_ n f'
          else if c =? 37 then let '(d, f') := conv_of f' in d :: dirs_ n f'
          else Char c :: dirs_ n f'
      end
  end.
(** The whole format (the sscanf of Utils.cpp:201, 210, 223 and 238). *)
Definition dirs (fmt : list Z) : list dir := dirs_ (length fmt) fmt.

(** ** Matching *)
(** the sscanf of Utils.cpp:201, 210, 223 and 238 *)
Fixpoint skip_white (s : list Z) : list Z :=
  match s with
  | c :: s' => if isspace c then skip_white s' else s
  | [] => []
  end.
(** Is a character in the set? (the sscanf of Utils.cpp:201, 210, 223 and 238) *)
Definition in_ranges (l : list (Z * Z)) (c : Z) : bool := existsb (fun '(a, b) => (a <=? c) && (c <=? b)) l.
(** Which characters a conversion takes (the sscanf of Utils.cpp:201, 210, 223 and 238). *)
Definition accepts (k : kind) (c : Z) : bool :=
  match k with
  | KStr => negb (isspace c)
  | KSet neg l => xorb neg (in_ranges l c)
  | KChr => true
  | KOpen => false
  | KPct => c =? 37
  end.
(** %[ and %c do not skip white space (the sscanf of Utils.cpp:201, 210, 223 and 238). *)
Definition skips (k : kind) : bool := match k with KStr | KPct => true | _ => false end.
(** How many characters a conversion takes: %c one if there is no width, -1 for any number. *)
Definition limit (k : kind) (w : Z) : Z :=
  match k with KChr => if w =? -1 then 1 else w | KPct => 1 | _ => w end.
(** The characters taken, and the rest (the sscanf of Utils.cpp:201, 210, 223 and 238). *)
Fixpoint take (p : Z -> bool) (w : Z) (s : list Z) : list Z * list Z :=
  match s with
  | c :: s' => if negb (w =? 0) && p c then let '(t, r) := take p (w - 1) s' in (c :: t, r) else ([], s)
  | [] => ([], [])
  end.

(** ** Memory: a buffer of alloca, None where nothing was written *)
(** Utils.cpp:200, 208-209, 220-222 and 234-237 *)
Definition buf := list (option Z).
(** Writing characters from a place on in the buffer of alloca, Utils.cpp:200, 208-209, 220-222 and 234-237. *)
Fixpoint put (b : buf) (i : nat) (t : list Z) : res buf :=
  match t with
  | [] => Ok b
  | c :: t => do b <- wr b i (Some c); put b (S i) t
  end.
(** string::assign(const char* ) (Utils.cpp:202, 212-213, 225-227 and 240-243) *)
Fixpoint assign (b : buf) : res (list Z) :=
  match b with
  | Some c :: b => if c =? 0 then Ok [] else do t <- assign b; Ok (c :: t)
  | _ => UB
  end.

(** ** sscanf: the number of arguments written and their contents; EOF is -1 *)
Definition at_end (done : Z) : Z := if done =? 0 then -1 else done.
(** The directives one after the other; [done] arguments are written (the sscanf of Utils.cpp:201, 210, 223 and 238). *)
Fixpoint sscanf_ (ds : list dir) (s : list Z) (done : nat) (bufs : list buf) : res (Z * list buf) :=
  match ds with
  | [] => Ok (Z.of_nat done, bufs)
  | White :: ds => sscanf_ ds (skip_white s) done bufs
  | Char c :: ds =>
      match s with
      | [] => Ok (at_end (Z.of_nat done), bufs)
      | x :: s => if x =? c then sscanf_ ds s done bufs else Ok (Z.of_nat done, bufs)
      end
  | Bad :: _ => UB
  | Conv sup w k :: ds =>
      if negb sup && (length bufs <=? done)%nat then UB        (* no such argument *)
      else
        let s := if skips k then skip_white s else s in
        match s with
        | [] => Ok (at_end (Z.of_nat done), bufs)
        | _ =>
            let '(t, s) := take (accepts k) (limit k w) s in
            match t with
            | [] => Ok (Z.of_nat done, bufs)
            | _ =>
                if sup then sscanf_ ds s done bufs
                else
                  do b <- rd bufs done;
                  do b <- put b 0 (match k with KChr => t | _ => t ++ [0] end);
                  sscanf_ ds s (S done) (upd bufs done b)
            end
        end
  end.
(** The call of sscanf in Utils.cpp:201, 210, 223 and 238. *)
Definition sscanf (str fmt : list Z) (bufs : list buf) : res (Z * list buf) := sscanf_ (dirs fmt) str 0 bufs.

(** myscanf with one string, Utils.cpp:197-204 *)
Definition myscanf1 (str fmt : list Z) (s1 : list Z) : res (Z * list Z) :=
  let maxlen := S (length str) in
  do (n, bufs) <- sscanf str fmt [repeat None maxlen];
  do a1 <- rd bufs 0;
  do s1 <- assign a1;
  Ok (n, s1).
(** The switch of the other three: strings number n, n-1, ... 1 are assigned, if there are n. *)
Fixpoint assign_first (n : nat) (bufs : list buf) (ss : list (list Z)) : res (list (list Z)) :=
  match n, bufs, ss with
  | O, _, _ => Ok ss
  | S n, b :: bufs, s :: ss => do ss <- assign_first n bufs ss; do s <- assign b; Ok (s :: ss)
  | _, _, _ => Ok ss
  end.
(** myscanf with two, three or four strings, Utils.cpp:205-245: ss are the strings before. *)
Definition myscanf (str fmt : list Z) (ss : list (list Z)) : res (Z * list (list Z)) :=
  let maxlen := S (length str) in
  do (n, bufs) <- sscanf str fmt (repeat (repeat None maxlen) (length ss));
  if (1 <=? n) && (n <=? Z.of_nat (length ss)) then
    do ss <- assign_first (Z.to_nat n) bufs ss; Ok (n, ss)
  else Ok (n, ss).
