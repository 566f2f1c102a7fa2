(** Model of SoftVector::getEnergy and getSNR (BitVector.cpp:306-349).

    Floats as in F16Float.v.  Some operations are in double: rounded to 53 bits.  All numbers
    that occur are far inside the range of double (squares of floats, and sums of them), so its
    limits are left out.  The length fits in an int. *)
From Verif Require Import Base F16Float.
Local Open Scope Z_scope.

(** ** double *)
(** BitVector.cpp:306-349 *)
Definition rnd53 (m e : Z) : float :=
  if m =? 0 then Fin 0 0
  else
    let k := Z.log2 (Z.abs m) - 52 in
    if k <=? 0 then Fin m e else Fin (rhe m (2 ^ k)) (e + k).
(** + in double, BitVector.cpp:313 and 335-341 *)
Definition dadd (a b : float) : float :=
  match a, b with
  | Fin m x, Fin n y => let z := Z.min x y in rnd53 (m * 2 ^ (x - z) + n * 2 ^ (y - z)) z
  | Inf s, Inf t => if eqb s t then a else NaN
  | NaN, _ | _, NaN => NaN
  | Inf _, _ => a
  | _, Inf _ => b
  end.
(** - in double, BitVector.cpp:313 and 335-341 *)
Definition dsub (a b : float) : float := dadd a (fneg b).
(** * in double, BitVector.cpp:313 and 335-341 *)
Definition dmul (a b : float) : float :=
  match a, b with
  | NaN, _ | _, NaN => NaN
  | Fin m x, Fin n y => rnd53 (m * n) (x + y)
  | Fin m _, Inf _ | Inf _, Fin m _ => if m =? 0 then NaN else Inf (xorb (neg_of a) (neg_of b))
  | Inf s, Inf t => Inf (xorb s t)
  end.
(** 0.5, BitVector.cpp:313 *)
Definition half : float := Fin 1 (-1).
(** 1, BitVector.cpp:310 *)
Definition one : float := Fin 1 0.
(** 0, BitVector.cpp:310 *)
Definition zero : float := Fin 0 0.

(** ** getEnergy, BitVector.cpp:306-319 *)
(** BitVector.cpp:313 *)
Definition energy (bit : float) : float := f_of_double (dmul (Fin 2 0) (if flt bit half then dsub half bit else dsub bit half)).
(** BitVector.cpp:311-316: avg and low *)
Fixpoint energy_loop (len : Z) (v : list float) (avg low : float) : float * float :=
  match v with
  | [] => (avg, low)
  | bit :: v =>
      let e := energy bit in
      energy_loop len v (fadd avg (fdiv e (f_of_int len))) (if flt e low then e else low)
  end.
(** getEnergy, BitVector.cpp:306-319: what is returned and *plow. *)
Definition getEnergy (v : list float) : float * float := energy_loop (Z.of_nat (length v)) v zero one.

(** ** getSNR, BitVector.cpp:328-349 *)
(** BitVector.cpp:335-341 *)
Definition noise_step (sum bit : float) : float :=
  let d := if flt bit half then dsub bit zero else dsub bit one in
  f_of_double (dadd sum (dmul d d)).
(** The loop of getSNR, BitVector.cpp:334-343 *)
Definition noise (v : list float) : float := fold_left noise_step v zero.
(** getSNR, BitVector.cpp:328-349 *)
Definition getSNR (v : list float) : float :=
  let len := Z.of_nat (length v) in
  if len =? 0 then zero
  else
    let sumSquaresNoise := noise v in
    let sumSquaresSignal := f_of_double (dmul (dmul half half) (Fin len 0)) in
    if flt (fmul sumSquaresNoise (Fin 1000 0)) sumSquaresSignal then Fin 999 0
    else fdiv sumSquaresSignal sumSquaresNoise.
