(** Model of times as numbers of seconds: Timeval::seconds and printing (Timeval.cpp:66-69, 84-96),
    timef and sleepf (Utils.cpp:274-279, 309-313), msleep (Timeval.h:38).

    Doubles as m * 2^e; every operation rounds to 53 bits, to nearest, ties to even (no wider
    registers, no fused operations).  Exponents are not limited: the values here stay within the
    range of a double, except in sleepf, whose argument may be anything. *)
From Verif Require Import Base TimevalModel ConfigModel IsoModel F16Float FloatNumModel.
Local Open Scope Z_scope.

(** A double m * 2^e as a pair (the type used in Timeval.cpp:66-69 and Utils.cpp:274-313). *)
Definition double := (Z * Z)%type.
(** n/d rounded to 53 bits (d > 0). *)
Definition round53 (n d : Z) : double :=
  if n =? 0 then (0, 0)
  else
    let e := flog n d - 52 in
    if 0 <=? e then (rhe n (d * 2 ^ e), e) else (rhe (n * 2 ^ (- e)) d, e).
(** The same for a numerator of any sign (Timeval.cpp:66-69 and Utils.cpp:274-313). *)
Definition dquot (n d : Z) : double := if n <? 0 then let (m, e) := round53 (- n) d in (- m, e) else round53 n d.
(** m * 2^e rounded. *)
Definition dround (m e : Z) : double := if 0 <=? e then dquot (m * 2 ^ e) 1 else dquot m (2 ^ (- e)).
(** Conversion of an integer, and + * /  (Timeval.cpp:66-69 and Utils.cpp:274-313). *)
Definition of_z (z : Z) : double := dquot z 1.
(** + of doubles, Timeval.cpp:68 and Utils.cpp:278 *)
Definition dadd (x y : double) : double := let e := Z.min (snd x) (snd y) in dround (fst x * 2 ^ (snd x - e) + fst y * 2 ^ (snd y - e)) e.
(** * of doubles, Timeval.cpp:68 and Utils.cpp:312 *)
Definition dmul (x y : double) : double := dround (fst x * fst y) (snd x + snd y).
(** A double divided by an integer constant, Utils.cpp:278 *)
Definition ddiv_z (x : double) (d : Z) : double := if 0 <=? snd x then dquot (fst x * 2 ^ snd x) d else dquot (fst x) (d * 2 ^ (- snd x)).
(** x <= y (Timeval.cpp:66-69 and Utils.cpp:274-313) *)
Definition dle (x y : double) : bool := let e := Z.min (snd x) (snd y) in fst x * 2 ^ (snd x - e) <=? fst y * 2 ^ (snd y - e).
(** A constant such as 1e-6 is the double nearest to it. *)
Definition const (n d : Z) : double := dquot n d.

(** Timeval::seconds, Timeval.cpp:66-69 *)
Definition seconds (t : timeval) : double := dadd (of_z (tv_sec t)) (dmul (const 1 1000000) (of_z (tv_usec t))).
(** timef, Utils.cpp:274-279 *)
Definition timef (now : timeval) : double := dadd (ddiv_z (of_z (tv_usec now)) 1000000) (of_z (tv_sec now)).

(** A stream: what was written, its precision and whether numbers are written without exponents (Timeval.cpp:66-69 and Utils.cpp:274-313). *)
Record stream := Stream { written : list Z; precision : nat; is_fixed : bool }.
(** The digits of %.<prec>f: the double times 10^prec, rounded to a whole number. *)
Definition units (prec : nat) (x : double) : Z :=
  if 0 <=? snd x then fst x * 2 ^ snd x * 10 ^ Z.of_nat prec else rhe (fst x * 10 ^ Z.of_nat prec) (2 ^ (- snd x)).
(** The text of %.<prec>f, as the stream of Timeval.cpp:84-89 writes a double. *)
Definition fixed_text (prec : nat) (x : double) : list Z :=
  let n := units prec x in
  let a := Z.abs n in
  (if n <? 0 then lit "-" else []) ++ sprintf_ld (a / 10 ^ Z.of_nat prec) ++
  match prec with O => [] | _ => lit "." ++ pad0 prec (a mod 10 ^ Z.of_nat prec) end.
(** Characters written to a stream, Timeval.cpp:84-96; nothing else changes. *)
Definition put (os : stream) (s : list Z) : stream := Stream (written os ++ s) (precision os) (is_fixed os).
(** operator<< of a Timeval, Timeval.cpp:84-89 (setf stays) *)
Definition put_timeval (os : stream) (t : timeval) : stream :=
  let os := Stream (written os) (precision os) true in
  put os (fixed_text (precision os) (seconds t)).
(** operator<< of a timespec, Timeval.cpp:92-96 *)
Definition put_timespec (os : stream) (ts : Z * Z) : stream := put (put (put os (sprintf_ld (fst ts))) (lit ",")) (sprintf_ld (snd ts)).

(** sleepf, Utils.cpp:309-313: the microseconds given to usleep ([None]: not called); converting a
    double to unsigned is undefined outside 0..2^32-1. *)
Inductive number := Number (x : double) | Infinite (neg : bool) | NotANumber.
(** The whole part of a double, towards zero (Timeval.cpp:66-69 and Utils.cpp:274-313). *)
Definition truncate (x : double) : Z := if 0 <=? snd x then fst x * 2 ^ snd x else Z.quot (fst x) (2 ^ (- snd x)).
(** Conversion of a double to the unsigned of usleep, Utils.cpp:312. *)
Definition to_unsigned (x : double) : res Z := let z := truncate x in if (0 <=? z) && (z <? 2 ^ 32) then Ok z else UB.
(** sleepf, Utils.cpp:309-313 *)
Definition sleepf (howlong : number) : res (option Z) :=
  match howlong with
  | Number x => if dle x (const 1 100000) then Ok None else do us <- to_unsigned (dmul (of_z 1000000) x); Ok (Some us)
  | Infinite true => Ok None
  | Infinite false | NotANumber => UB
  end.
(** msleep, Timeval.h:38: the product is a long, the argument of usleep unsigned *)
Definition msleep (v : Z) : res Z := let p := v * 1000 in if (- 2 ^ 63 <=? p) && (p <? 2 ^ 63) then Ok (p mod 2 ^ 32) else UB.
