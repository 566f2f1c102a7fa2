(** Model of the bit fields of BitVector (BitVector.cpp:59-82, 107-132) in machine arithmetic.

    Pointers are 64-bit addresses, size_t has 64 bits and unsigned 32; pointer arithmetic wraps as in
    VectorBoundsModel.v.  Memory is flat: every address can be read and written, what is there is a char.
    BitVectorModel.v has the same functions on the contents alone. *)
From Verif Require Import Base BitVectorModel VectorBoundsModel.
Local Open Scope Z_scope.

(** What is at an address (BitVector.cpp:59-132). *)
Definition memory := Z -> Z.
(** *dp = x, BitVector.cpp:110-131 *)
Definition store (m : memory) (a x : Z) : memory := fun b => if b =? a then x else m b.

(** BitVector.cpp:64-66: *dp++ *)
Fixpoint peek_up (m : memory) (dp : Z) (n : nat) (accum : Z) : Z :=
  match n with O => accum | S k => peek_up m (u64 (dp + 1)) k (u64 (Z.lor (Z.shiftl accum 1) (bitof (m dp)))) end.
(** peekField, BitVector.cpp:59-68 *)
Definition peekField_at (m : memory) (r : range) (readIndex length : Z) : res Z :=
  Ok (peek_up m (ptr_add 1 (first r) readIndex) (Z.to_nat length) 0).
(** BitVector.cpp:75-81; the counter is an int that starts at length-1. *)
Fixpoint peek_down (m : memory) (dp : Z) (n : nat) (accum : Z) : Z :=
  match n with O => accum | S k => peek_down m (u64 (dp - 1)) k (u64 (Z.lor (Z.shiftl accum 1) (bitof (m dp)))) end.
(** peekFieldReversed, BitVector.cpp:71-82 *)
Definition peekFieldReversed_at (m : memory) (r : range) (readIndex length : Z) : res Z :=
  let dp := u64 (first r + readIndex + length - 1) in
  do _ <- assert_ (dp <? past r);
  Ok (peek_down m dp (Z.to_nat (s32 (u32 (length - 1)) + 1)) 0).
(** BitVector.cpp:109-117 *)
Fixpoint fill_down (fuel : nat) (m : memory) (dp dpBase value : Z) : res memory :=
  match fuel with
  | O => Diverge
  | S k => if dpBase <=? dp then fill_down k (store m dp (Z.land value 1)) (u64 (dp - 1)) dpBase (Z.shiftr value 1) else Ok m
  end.
(** fillField, BitVector.cpp:107-118 *)
Definition fillField_at (fuel : nat) (m : memory) (r : range) (writeIndex value length : Z) : res memory :=
  if length =? 0 then Ok m
  else
    let dpBase := ptr_add 1 (first r) writeIndex in
    let dp := u64 (dpBase + length - 1) in
    do _ <- assert_ (dp <? past r);
    fill_down fuel m dp dpBase value.
(** BitVector.cpp:123-131 *)
Fixpoint fill_up (fuel : nat) (m : memory) (dp dpEnd value : Z) : res memory :=
  match fuel with
  | O => Diverge
  | S k => if dp <=? dpEnd then fill_up k (store m dp (Z.land value 1)) (u64 (dp + 1)) dpEnd (Z.shiftr value 1) else Ok m
  end.
(** fillFieldReversed, BitVector.cpp:121-132 *)
Definition fillFieldReversed_at (fuel : nat) (m : memory) (r : range) (writeIndex value length : Z) : res memory :=
  if length =? 0 then Ok m
  else
    let dp := ptr_add 1 (first r) writeIndex in
    let dpEnd := u64 (dp + length - 1) in
    do _ <- assert_ (dpEnd <? past r);
    fill_up fuel m dp dpEnd value.
