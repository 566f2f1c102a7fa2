(** Model of printing numbers of class F16 (F16.h:204-208) and vectors (Vector.h:392-397) on a stream
    with any precision, fixed or not (SecondsModel; other flags as they are at the start). *)
From Verif Require Import Base ConfigModel F16Float SecondsModel StatTextModel.
Local Open Scope Z_scope.

(** os << float, F16.h:206 and Vector.h:395: the float is converted to a double, without loss, and written with %g
    or, if fixed, %f. *)
Definition put_float (os : stream) (f : float) : stream :=
  match f with
  | Fin m e => put_double os (m, e)
  | Inf neg => put os ((if neg then [45] else []) ++ lit "inf")
  | NaN => put os (lit "nan")
  end.
(** operator<< of an F16, F16.h:204-208 *)
Definition put_f16 (os : stream) (v : Z) : stream := put_float os (f16_f v).
(** operator<< of a Vector whose elements are written by [put1], Vector.h:392-397; operator[] of 304-308 is in range. *)
Fixpoint put_vector {A : Type} (put1 : stream -> A -> stream) (os : stream) (v : list A) : stream :=
  match v with
  | [] => os
  | x :: v => put_vector put1 (put (put1 os x) (lit " ")) v
  end.
