(** Model of the float operations of F16.h.

    Floats are IEEE single numbers, computed with as written (no excess precision), rounding
    to nearest, ties to even.  A finite one is a pair [Fin m e] for m * 2^e; the sign of zero is
    dropped, as no operation of F16.h shows it. *)
From Verif Require Import Base F16Model.
Local Open Scope Z_scope.

Inductive float := Fin (m e : Z) | Inf (neg : bool) | NaN.
(** Every finite single number can be written so. *)
Definition single (f : float) : Prop := match f with Fin m e => Z.abs m < 2 ^ 24 /\ -149 <= e <= 104 | _ => True end.
Definition fneg (f : float) : float := match f with Fin m e => Fin (- m) e | Inf b => Inf (negb b) | NaN => NaN end.

(** n/d rounded to nearest, ties to even *)
Definition rhe (n d : Z) : Z :=
  let q := n / d in let r := n mod d in
  if 2 * r <? d then q else if d <? 2 * r then q + 1 else if Z.even q then q else q + 1.
(** A result with at most 24 bits (or 2^24): put into range, or infinite. *)
Definition finish (m e : Z) : float :=
  if 104 <? e then if m * 2 ^ (e - 104) <? 2 ^ 24 then Fin (m * 2 ^ (e - 104)) 104 else Inf false
  else if m =? 2 ^ 24 then if e =? 104 then Inf false else Fin (2 ^ 23) (e + 1) else Fin m e.
(** The exact result m * 2^e rounded to a single number: 24 bits, last bit not below 2^-149. *)
Definition rnd_pos (m e : Z) : float :=
  if m =? 0 then Fin 0 0
  else
    let k := Z.max (Z.log2 m - 23) (-149 - e) in
    if k <=? 0 then finish m e else finish (rhe m (2 ^ k)) (e + k).
Definition rnd (m e : Z) : float := if m <? 0 then fneg (rnd_pos (- m) e) else rnd_pos m e.

Definition f_of_int (i : Z) : float := rnd i 0.
(** (float)d for a double: the same kind of pair, with up to 53 bits. *)
Definition f_of_double (d : float) : float := match d with Fin m e => rnd m e | _ => d end.
Definition fadd (a b : float) : float :=
  match a, b with
  | Fin m x, Fin n y => let z := Z.min x y in rnd (m * 2 ^ (x - z) + n * 2 ^ (y - z)) z
  | Inf s, Inf t => if eqb s t then a else NaN
  | NaN, _ | _, NaN => NaN
  | Inf _, _ => a
  | _, Inf _ => b
  end.
Definition neg_of (f : float) : bool := match f with Fin m _ => m <? 0 | Inf b => b | NaN => false end.
Definition fmul (a b : float) : float :=
  match a, b with
  | NaN, _ | _, NaN => NaN
  | Fin m x, Fin n y => rnd (m * n) (x + y)
  | Fin m _, Inf _ | Inf _, Fin m _ => if m =? 0 then NaN else Inf (xorb (neg_of a) (neg_of b))
  | Inf s, Inf t => Inf (xorb s t)
  end.
(** The quotient with 36 bits or more and a last bit that says whether something is left, rounded. *)
Definition fdiv (a b : float) : float :=
  match a, b with
  | NaN, _ | _, NaN => NaN
  | Fin m x, Fin n y =>
      if n =? 0 then if m =? 0 then NaN else Inf (neg_of a)
      else
        let p := Z.abs m * 2 ^ 60 in
        let q := 2 * (p / Z.abs n) + (if p mod Z.abs n =? 0 then 0 else 1) in
        rnd (if xorb (m <? 0) (n <? 0) then - q else q) (x - y - 61)
  | Fin _ _, Inf _ => Fin 0 0
  | Inf s, Fin n _ => Inf (xorb s (n <? 0))
  | Inf _, Inf _ => NaN
  end.
(** Conversion to int32_t: toward zero; undefined if the result does not fit. *)
Definition to_int (f : float) : res Z :=
  match f with Fin m e => int_ (if 0 <=? e then m * 2 ^ e else Z.quot m (2 ^ (- e))) | _ => UB end.
Definition fcompare (a b : float) : option comparison :=
  match a, b with
  | Fin m x, Fin n y => let z := Z.min x y in Some (m * 2 ^ (x - z) ?= n * 2 ^ (y - z))
  | NaN, _ | _, NaN => None
  | Inf s, Inf t => Some (if eqb s t then Eq else if s then Lt else Gt)
  | Inf s, _ => Some (if s then Lt else Gt)
  | _, Inf t => Some (if t then Gt else Lt)
  end.
Definition flt (a b : float) : bool := match fcompare a b with Some Lt => true | _ => false end.
Definition fgt (a b : float) : bool := match fcompare a b with Some Gt => true | _ => false end.
Definition feq (a b : float) : bool := match fcompare a b with Some Eq => true | _ => false end.

(** _f16_round, F16.h:36-41 *)
Definition f16_round (f : float) : res Z :=
  if fgt f (Fin 0 0) then to_int (fadd f (Fin 1 (-1)))
  else if flt f (Fin 0 0) then to_int (fadd f (Fin (-1) (-1)))
  else Ok 0.
(** F16(float), F16.h:59 and assignment, F16.h:70-74 *)
Definition f16_of_float (f : float) : res Z := f16_round (fmul f (Fin 1 16)).
(** F16(double), F16.h:60 *)
Definition f16_of_double (d : float) : res Z := f16_round (fmul (f_of_double d) (Fin 1 16)).
(** f(), F16.h:65 *)
Definition f16_f (v : Z) : float := fdiv (f_of_int v) (Fin 1 16).
(** operator* and *= of a float, F16.h:129-140 *)
Definition f16_mulf (v : Z) (f : float) : res Z := to_int (fmul (f_of_int v) f).
(** operator/ and /= of a float, F16.h:157-168 *)
Definition f16_divf (v : Z) (f : float) : res Z := to_int (fdiv (f_of_int v) f).
(** Comparisons with a float, F16.h:185-198 *)
Definition f16_gtf (v : Z) (f : float) : bool := fgt (f16_f v) f.
Definition f16_ltf (v : Z) (f : float) : bool := flt (f16_f v) f.
Definition f16_eqf (v : Z) (f : float) : bool := feq (f16_f v) f.
