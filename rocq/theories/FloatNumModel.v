(** Model of ConfigurationRecord::floatNumber and number with their warnings
    (Configuration.cpp:55-92) and of getFloat (Configuration.cpp:753-763).

    strtof and strtol(,,0) as the C standard has them, in the C locale, rounding to nearest,
    ties to even.  Floats as in F16Float.v, so the sign of zero is dropped. *)
From Verif Require Import Base UtilsModel SqlModel ConfigModel F16Float.
Local Open Scope Z_scope.

(** The quotient n/d (n >= 0, d > 0) rounded to a single number. *)
Definition flog (n d : Z) : Z :=
  let k := Z.log2 n - Z.log2 d in
  if 0 <=? k then if d * 2 ^ k <=? n then k else k - 1 else if d <=? n * 2 ^ (- k) then k else k - 1.
(** n/d as a float: rounded to 24 bits, denormal below, infinite above (strtof, called at
    Configuration.cpp:86). *)
Definition round (n d : Z) : float :=
  if n =? 0 then Fin 0 0
  else
    let e := Z.max (-149) (flog n d - 23) in
    if 0 <=? e then finish (rhe n (d * 2 ^ e)) e else finish (rhe (n * 2 ^ (- e)) d) e.
(** m * b^e (strtof of Configuration.cpp:86) *)
Definition scaled (m b e : Z) : float := if 0 <=? e then round (m * b ^ e) 1 else round m (b ^ (- e)).

(** The digits at the beginning and what follows (strtof of Configuration.cpp:86). *)
Fixpoint scan (base : Z) (s : list Z) : list Z * list Z :=
  match s with
  | [] => ([], [])
  | c :: t => match digit_val base c with Some d => let (ds, r) := scan base t in (d :: ds, r) | None => ([], s) end
  end.
(** The value of digits in a base (strtof of Configuration.cpp:86). *)
Definition num (base : Z) (ds : list Z) : Z := fold_left (fun v d => base * v + d) ds 0.
(** Digits with at most one point among them, and at least one digit (strtof of Configuration.cpp:86). *)
Definition mantissa (base : Z) (s : list Z) : option (list Z * list Z * list Z) :=
  let (a, s1) := scan base s in
  let '(b, s2) := match s1 with c :: t => if c =? 46 then scan base t else ([], s1) | [] => ([], []) end in
  match a ++ b with [] => None | _ => Some (a, b, s2) end.
(** e or p, a sign and decimal digits; nothing if there are no digits (strtof of Configuration.cpp:86). *)
Definition exponent (letter : Z) (s : list Z) : Z * list Z :=
  match s with
  | x :: t =>
      if (x =? letter) || (x =? letter - 32) then
        let '(sg, t1) := match t with c :: t' => if c =? 45 then (-1, t') else if c =? 43 then (1, t') else (1, t) | [] => (1, []) end in
        match scan 10 t1 with ([], _) => (0, s) | (ds, r) => (sg * num 10 ds, r) end
      else (0, s)
  | [] => (0, [])
  end.
(** A decimal number: mantissa and exponent, and what follows (strtof, called at Configuration.cpp:86). *)
Definition decimal (s : list Z) : option (float * list Z) :=
  match mantissa 10 s with
  | Some (a, b, r) => let (e, r') := exponent 101 r in Some (scaled (num 10 (a ++ b)) 10 (e - Z.of_nat (length b)), r')
  | None => None
  end.
(** Lower case of a character, for INF and NAN (strtof of Configuration.cpp:86). *)
Definition lower (c : Z) : Z := if (65 <=? c) && (c <=? 90) then c + 32 else c.
(** The rest of [s] after the word [w], in any case (strtof of Configuration.cpp:86). *)
Fixpoint after (w s : list Z) : option (list Z) :=
  match w, s with
  | [], _ => Some s
  | x :: w', c :: s' => if lower c =? x then after w' s' else None
  | _, [] => None
  end.
(** The characters in parentheses after nan, and what follows them (strtof of Configuration.cpp:86). *)
Fixpoint nan_chars (s : list Z) : option (list Z) :=
  match s with
  | [] => None
  | c :: t => if c =? 41 then Some t else match digit_val 36 c with Some _ => nan_chars t | None => if c =? 95 then nan_chars t else None end
  end.
(** What strtof takes after the sign: infinity, nan, a hexadecimal or a decimal number (strtof of Configuration.cpp:86). *)
Definition unsigned (s : list Z) : option (float * list Z) :=
  match after (lit "infinity") s with
  | Some r => Some (Inf false, r)
  | None =>
  match after (lit "inf") s with
  | Some r => Some (Inf false, r)
  | None =>
  match after (lit "nan") s with
  | Some r => Some (NaN, match r with c :: t => if c =? 40 then match nan_chars t with Some r' => r' | None => r end else r | [] => r end)
  | None =>
  match s with
  | z :: x :: t =>
      if (z =? 48) && (lower x =? 120) then
        match mantissa 16 t with
        | Some (a, b, r) => let (e, r') := exponent 112 r in Some (scaled (num 16 (a ++ b)) 2 (e - 4 * Z.of_nat (length b)), r')
        | None => decimal s
        end
      else decimal s
  | _ => decimal s
  end end end end.
(** strtof(s,&endptr), Configuration.cpp:86: the value and what endptr points to; 0 and the start if there is
    no number. *)
Definition strtof (s : list Z) : float * list Z :=
  let t := skip_space s in
  match (match t with
         | c :: t' => if c =? 45 then option_map (fun x => (fneg (fst x), snd x)) (unsigned t') else if c =? 43 then unsigned t' else unsigned t
         | [] => None
         end) with
  | Some x => x
  | None => (Fin 0 0, s)
  end.

(** What strtol(s,&end,0) leaves at end; its value is [strtol] of ConfigModel. *)
Definition strtol_unsigned (s : list Z) : option (list Z) :=
  match s with
  | z :: x :: h :: t =>
      if (z =? 48) && (lower x =? 120) && match digit_val 16 h with Some _ => true | None => false end then Some (snd (scan 16 (h :: t)))
      else if z =? 48 then Some (snd (scan 8 s))
      else match scan 10 s with ([], _) => None | (_, r) => Some r end
  | z :: _ => if z =? 48 then Some (snd (scan 8 s)) else match scan 10 s with ([], _) => None | (_, r) => Some r end
  | [] => None
  end.
(** What endptr points to after strtol, Configuration.cpp:67. *)
Definition strtol_rest (s : list Z) : list Z :=
  match (match skip_space s with
         | c :: t' => if (c =? 45) || (c =? 43) then strtol_unsigned t' else strtol_unsigned (c :: t')
         | [] => None
         end) with
  | Some r => r
  | None => s
  end.

(** A ConfigurationRecord, Configuration.h:74-115: its value and mCRWarned. *)
Record record := Record_ { value : list Z; warned : bool }.
(** What is logged (LOGNOW): that the value is null or that it could not be fully converted (Configuration.cpp:63-70 and 81-89). *)
Inductive message := Null | Partly.
(** number, Configuration.cpp:59-74 *)
Definition number_ (r : record) : Z * record * list message :=
  match value r, warned r with
  | [], false => (0, Record_ [] true, [Null])
  | _, _ =>
      let s := c_str (value r) in
      match strtol_rest s, warned r with
      | _ :: _, false => (strtol s, Record_ (value r) true, [Partly])
      | _, _ => (strtol s, r, [])
      end
  end.
(** floatNumber, Configuration.cpp:77-92 *)
Definition floatNumber (r : record) : float * record * list message :=
  match value r, warned r with
  | [], false => (Fin 0 0, Record_ [] true, [Null])
  | _, _ =>
      let (f, rest) := strtof (c_str (value r)) in
      match rest, warned r with
      | _ :: _, false => (f, Record_ (value r) true, [Partly])
      | _, _ => (f, r, [])
      end
  end.
(** Requests for the same cached record, one after the other (Configuration.cpp:59-92). *)
Inductive request := AsNumber | AsFloat.
(** Calls of number and floatNumber on one record, Configuration.cpp:59-92. *)
Fixpoint requests (r : record) (l : list request) : record * list message :=
  match l with
  | [] => (r, [])
  | q :: t =>
      let '(r1, m) := match q with AsNumber => let '(_, r1, m) := number_ r in (r1, m) | AsFloat => let '(_, r1, m) := floatNumber r in (r1, m) end in
      let '(r2, m2) := requests r1 t in (r2, m ++ m2)
  end.
(** getFloat, Configuration.cpp:753-763, given what lookup finds ([None]: KeyNotFound). *)
Definition getFloat (v : option (list Z)) : option float := option_map (fun x => fst (fst (floatNumber (Record_ x false)))) v.
