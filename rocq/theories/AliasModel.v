(** The operations of BitVector and SoftVector that read one vector and write another, when
    both vectors (or the vector and the byte array) are windows of one block of memory.
    The models of BitVectorModel keep the operands in separate lists; here every read and
    every write goes to the one list [M] of memory cells, in the order of the code.  A window
    is given by the index of its first cell.  The cells of bit vectors are signed chars;
    a byte stored through an [unsigned char *] appears as the signed char with the same bits. *)
From Coq Require Import ZArith List Bool.
From Verif Require Import Base BitVectorModel.
Import ListNotations.
Local Open Scope Z_scope.

(** BitVector.cpp:226-231  map: [dest.mStart[i] = mStart[map[i]]]; the source starts at cell
    [s], the destination at cell [d]. *)
Fixpoint map_in (M : list Z) (s d : nat) (i : nat) (mp : list nat) : res (list Z) :=
  match mp with
  | [] => Ok M
  | m :: t =>
      do c <- rd M (s + m)%nat;
      do M' <- wr M (d + i)%nat c;
      map_in M' s d (S i) t
  end.

(** BitVector.cpp:236-241  unmap: [dest.mStart[map[i]] = mStart[i]]. *)
Fixpoint unmap_in (M : list Z) (s d : nat) (i : nat) (mp : list nat) : res (list Z) :=
  match mp with
  | [] => Ok M
  | m :: t =>
      do c <- rd M (s + i)%nat;
      do M' <- wr M (d + m)%nat c;
      unmap_in M' s d (S i) t
  end.

(** BitVector.cpp:365-371  the whole bytes of pack; the bits start at cell [s], the bytes at
    cell [t]. *)
Fixpoint pack_in_loop (M : list Z) (s t : nat) (i n : nat) : res (list Z) :=
  match n with
  | O => Ok M
  | S n' =>
      do b <- peekField M (s + i * 8)%nat 8;
      do M' <- wr M (t + i)%nat (s8 b);
      pack_in_loop M' s t (S i) n'
  end.

(** BitVector.cpp:365-376  pack of the [n] bits at cell [s] into the bytes at cell [t]. *)
Definition pack_in (M : list Z) (s n t : nat) : res (list Z) :=
  let bytes := (n / 8)%nat in
  do M' <- pack_in_loop M s t 0 bytes;
  let whole := (bytes * 8)%nat in
  let rem := (n - whole)%nat in
  match rem with
  | O => Ok M'
  | _ =>
      do b <- peekField M' (s + whole)%nat rem;
      wr M' (t + bytes)%nat (s8 (Z.shiftl b (Z.of_nat (8 - rem))))
  end.

(** BitVector.cpp:107-118  fillField on the window of [n] cells at [s]. *)
Definition fill_in_field (M : list Z) (s n : nat) (writeIndex : nat) (value : Z) (len : nat) : res (list Z) :=
  match len with
  | O => Ok M
  | _ =>
      do _ <- assert_ (Z.of_nat writeIndex + Z.of_nat len - 1 <? Z.of_nat n);
      fill_loop M (s + writeIndex) len value
  end.

(** BitVector.cpp:395-401  the whole bytes of unpack: the byte is read as an unsigned char
    before the eight cells are written. *)
Fixpoint unpack_in_loop (M : list Z) (s n u : nat) (i k : nat) : res (list Z) :=
  match k with
  | O => Ok M
  | S k' =>
      do c <- rd M (u + i)%nat;
      do M' <- fill_in_field M s n (i * 8) (u8 c) 8;
      unpack_in_loop M' s n u (S i) k'
  end.

(** BitVector.cpp:395-406  unpack of the bytes at cell [u] into the [n] bits at cell [s]. *)
Definition unpack_in (M : list Z) (s n u : nat) : res (list Z) :=
  let bytes := (n / 8)%nat in
  do M' <- unpack_in_loop M s n u 0 bytes;
  let whole := (bytes * 8)%nat in
  let rem := (n - whole)%nat in
  match rem with
  | O => Ok M'
  | _ =>
      do c <- rd M' (u + bytes)%nat;
      fill_in_field M' s n whole (Z.shiftr (u8 c) (Z.of_nat (8 - rem))) rem
  end.

(** Vector.h:272-276  fill of the [n] cells at [s], where the argument is a reference to the
    cell [a] of the same block, read again for every element. *)
Fixpoint fill_in (M : list Z) (s n a : nat) : res (list Z) :=
  match n with
  | O => Ok M
  | S n' =>
      do c <- rd M a;
      do M' <- wr M s c;
      fill_in M' (S s) n' a
  end.

(** BitVector.cpp:466-469 / 491-494  [n] elements from [*srcp++] to [*dstp++], with the
    assertion; the source has [sl] cells from [s], the destination [dl] cells from [d]. *)
Fixpoint copy_in {A} (M : list A) (s sl d dl : nat) (n srcp dstp : nat) : res (nat * nat * list A) :=
  match n with
  | O => Ok (srcp, dstp, M)
  | S n' =>
      do _ <- assert_ (Nat.ltb srcp sl && Nat.ltb dstp dl);
      do c <- rd M (s + srcp)%nat;
      do M' <- wr M (d + dstp)%nat c;
      copy_in M' s sl d dl n' (S srcp) (S dstp)
  end.

(** BitVector.cpp:471-474 / 496-499  the rest of the source. *)
Fixpoint rest_in {A} (M : list A) (s d dl : nat) (n srcp dstp : nat) : res (nat * nat * list A) :=
  match n with
  | O => Ok (srcp, dstp, M)
  | S n' =>
      do _ <- assert_ (Nat.ltb dstp dl);
      do c <- rd M (s + srcp)%nat;
      do M' <- wr M (d + dstp)%nat c;
      rest_in M' s d dl n' (S srcp) (S dstp)
  end.

(** BitVector.cpp:461-477  the loop of copyPunctured. *)
Fixpoint punct_in_loop {A} (M : list A) (s sl d dl : nat) (srcp dstp : nat) (punct : list Z) : res (list A) :=
  if Nat.ltb srcp sl then
    match punct with
    | p :: ps =>
        let n := s32 (p - Z.of_nat srcp) in
        do _ <- assert_ (0 <=? n);
        do st <- copy_in M s sl d dl (Z.to_nat n) srcp dstp;
        let '(srcp', dstp', M') := st in
        punct_in_loop M' s sl d dl (S srcp') dstp' ps
    | [] =>
        do st <- rest_in M s d dl (sl - srcp) srcp dstp;
        let '(_, dstp', M') := st in
        do _ <- assert_ (Nat.eqb dstp' dl);
        Ok M'
    end
  else
    do _ <- assert_ (Nat.eqb dstp dl && match punct with [] => true | _ => false end);
    Ok M.

(** BitVector.cpp:455-478  copyPunctured. *)
Definition punct_in {A} (M : list A) (s sl d dl : nat) (punct : list Z) : res (list A) :=
  do _ <- assert_ (u64 (Z.of_nat sl - Z.of_nat (length punct)) =? Z.of_nat dl);
  punct_in_loop M s sl d dl 0 0 punct.

(** BitVector.cpp:486-502  the loop of copyUnPunctured; [e] is 0.5. *)
Fixpoint unpunct_in_loop {A} (e : A) (M : list A) (s sl d dl : nat) (srcp dstp : nat) (punct : list Z) : res (list A) :=
  if Nat.ltb dstp dl then
    match punct with
    | p :: ps =>
        let n := s32 (p - Z.of_nat dstp) in
        do _ <- assert_ (0 <=? n);
        do st <- copy_in M s sl d dl (Z.to_nat n) srcp dstp;
        let '(srcp', dstp', M') := st in
        do M'' <- wr M' (d + dstp')%nat e;
        unpunct_in_loop e M'' s sl d dl srcp' (S dstp') ps
    | [] =>
        do st <- rest_in M s d dl (sl - srcp) srcp dstp;
        let '(_, dstp', M') := st in
        if Nat.ltb dstp' dl then Diverge
        else
          do _ <- assert_ (Nat.eqb dstp' dl);
          Ok M'
    end
  else
    do _ <- assert_ (Nat.eqb dstp dl && match punct with [] => true | _ => false end);
    Ok M.

(** BitVector.cpp:480-503  copyUnPunctured. *)
Definition unpunct_in {A} (e : A) (M : list A) (s sl d dl : nat) (punct : list Z) : res (list A) :=
  do _ <- assert_ (u64 (Z.of_nat sl + Z.of_nat (length punct)) =? Z.of_nat dl);
  unpunct_in_loop e M s sl d dl 0 0 punct.
