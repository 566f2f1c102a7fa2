(** Common vocabulary of the model: outcomes of C++ calls, fixed-width integers,
    array access with bounds, characters. *)
From Coq Require Import Ascii String.
From Coq Require Export ZArith NArith List Bool Lia Arith.
From Coq Require Export ZifyBool ZifyNat ZifyN.
Export ListNotations.
Export String.StringSyntax.

(** Outcome of a C++ call.
    [Ok a]    the call returns [a];
    [Abort]   an [assert] fails (the program core-dumps);
    [UB]      undefined behaviour (out-of-bounds access, use after free, signed
              overflow, bad shift, division by zero, ...);
    [Diverge] the call never returns (not in the source). *)
Inductive res (A : Type) : Type :=
| Ok (a : A)
| Abort
| UB
| Diverge.
Arguments Ok {A} a.
Arguments Abort {A}.
Arguments UB {A}.
Arguments Diverge {A}.

(** Statements in sequence: what follows is not reached if the first does not return (all of /repo) (not in the source). *)
Definition bind {A B} (x : res A) (f : A -> res B) : res B :=
  match x with
  | Ok a => f a
  | Abort => Abort
  | UB => UB
  | Diverge => Diverge
  end.

Notation "'do' x <- e ; k" := (bind e (fun x => k))
  (at level 200, x pattern, e at level 100, k at level 200, right associativity).

(** [assert(b)] (as in Vector.h:300) *)
Definition assert_ (b : bool) : res unit := if b then Ok tt else Abort.

(** Reading and writing an element of an array of known size; an access outside
    the array is undefined behaviour (as in Vector.h:298-308). *)
Definition rd {A} (v : list A) (i : nat) : res A :=
  match nth_error v i with
  | Some x => Ok x
  | None => UB
  end.

(** v[i] = x for an index inside the array (as in Vector.h:298-308). *)
Fixpoint upd {A} (v : list A) (i : nat) (x : A) : list A :=
  match v, i with
  | [], _ => []
  | _ :: t, O => x :: t
  | h :: t, S j => h :: upd t j x
  end.

(** v[i] = x; outside the array it is undefined (as in Vector.h:298-308). *)
Definition wr {A} (v : list A) (i : nat) (x : A) : res (list A) :=
  if Nat.ltb i (length v) then Ok (upd v i x) else UB.

(** Fixed-width conversions (as in BitVector.cpp:365-376). *)
Definition u8 (z : Z) : Z := (z mod 2 ^ 8)%Z.
(** Conversion to unsigned and uint32_t. *)
Definition u32 (z : Z) : Z := (z mod 2 ^ 32)%Z.
(** Conversion to size_t and uint64_t. *)
Definition u64 (z : Z) : Z := (z mod 2 ^ 64)%Z.
(** Conversion to char, which is signed (x86). *)
Definition s8 (z : Z) : Z := ((z + 2 ^ 7) mod 2 ^ 8 - 2 ^ 7)%Z.
(** Conversion to int and int32_t: the low 32 bits, as gcc has it. *)
Definition s32 (z : Z) : Z := ((z + 2 ^ 31) mod 2 ^ 32 - 2 ^ 31)%Z.
(** Conversion to long and int64_t. *)
Definition s64 (z : Z) : Z := ((z + 2 ^ 63) mod 2 ^ 64 - 2 ^ 63)%Z.

(** Is the number in the range of int? (for [int_]) *)
Definition fits32 (z : Z) : bool := ((- 2 ^ 31 <=? z) && (z <? 2 ^ 31))%Z.
(** Signed [int] arithmetic: a result that does not fit is undefined behaviour (as in F16.h:88-112). *)
Definition int_ (z : Z) : res Z := if fits32 z then Ok z else UB.

(** Characters are numbers 0..255; a C string is a list of non-zero characters. *)
Definition lit (s : string) : list Z :=
  map (fun c => Z.of_N (N_of_ascii c)) (list_ascii_of_string s).

(** [isspace] in the C locale: space, \t \n \v \f \r (Utils.cpp:663 and 701). *)
Definition isspace (c : Z) : bool := ((c =? 32) || ((9 <=? c) && (c <=? 13)))%Z.

(** Value of a hexadecimal digit character (BitVector.cpp:427-447). *)
Definition hexval (c : Z) : option Z :=
  (if (48 <=? c) && (c <=? 57) then Some (c - 48)
   else if (97 <=? c) && (c <=? 102) then Some (c - 87)
   else if (65 <=? c) && (c <=? 70) then Some (c - 55)
   else None)%Z.
Arguments lit s%string.
