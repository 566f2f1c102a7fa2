(** Model of F16.h: F15.16 fixed point numbers.  A value is its raw 32-bit word.
    Signed left shift wraps, as gcc documents it (before C++20 the standard leaves
    shifts of negative numbers and overflowing shifts undefined); conversion of a
    64-bit value to int32_t keeps the low 32 bits.  The float operations are in F16Float.v. *)
From Verif Require Import Base.
Open Scope Z_scope.

(** F16.h:58 (constructor) and F16.h:76-80 (assignment): mV = i<<16 *)
Definition f16_of_int (i : Z) : res Z := Ok (s32 (i * 65536)).

(** F16.h:88-99, operator+ and +=; signed overflow is undefined *)
Definition f16_add (a b : Z) : res Z := int_ (a + b).
(** F16.h:101-112, operator- and -= *)
Definition f16_sub (a b : Z) : res Z := int_ (a - b).

(** F16.h:114-127, operator* and *=: 64-bit product, arithmetic shift, truncation *)
Definition f16_mul (a b : Z) : res Z := Ok (s32 (Z.shiftr (a * b) 16)).

(** F16.h:142-155, operator/ and /=: C division truncates toward zero *)
Definition f16_div (a b : Z) : res Z := if b =? 0 then UB else Ok (s32 (Z.quot (a * 65536) b)).

(** F16.h:170-183 *)
Definition f16_gt (a b : Z) : bool := b <? a.
(** operator<, F16.h:175-178 *)
Definition f16_lt (a b : Z) : bool := a <? b.
(** operator==, F16.h:180-183 *)
Definition f16_eq (a b : Z) : bool := a =? b.

(** F16.h:82-86: copy assignment stores the word and returns [mV], an int, which
    converts to the result type through F16(int).  Result: (new word, returned word). *)
Definition f16_assign (other : Z) : res (Z * Z) :=
  do r <- f16_of_int other; Ok (other, r).

(** The statement [a = b = c;]: new words of a and b (F16.h:82-86). *)
Definition f16_chain (c : Z) : res (Z * Z) :=
  do (b, r) <- f16_assign c;
  do (a, _) <- f16_assign r;
  Ok (a, b).
