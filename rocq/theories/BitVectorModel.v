(** Model of BitVector.h / BitVector.cpp: bit fields, parity generator, packing,
    hex text, puncturing, permutations.

    A BitVector's contents are the list of its [char] elements, each a signed
    8-bit number (-128..127); only bit 0 of an element is "the bit".  Storage and
    aliasing are the subject of [VectorHeapModel].
    Simplifications: sizes, indices and lengths are natural numbers (no wrap of
    [size_t]); forming a pointer outside an array without accessing it is not
    counted as undefined behaviour. *)
From Verif Require Import Base.
Local Open Scope Z_scope.

(** The elements of a BitVector, a VectorBase<char>: BitVector.h:120. *)
Definition bv := list Z.

(** [c & 0x01] for a [char c]. *)
Definition bitof (c : Z) : Z := Z.land c 1.

(** BitVector.cpp:41-56  BitVector(const char* valString) *)
Definition bv_of_string (s : list Z) : bv :=
  map (fun c => if c =? 49 then 1 else 0) s.

(** BitVector.cpp:59-68  peekField.  The loop body of lines 64-66; [dp] is the
    index of the element read, [accum] a uint64_t. *)
Fixpoint peek_loop (v : bv) (dp : nat) (len : nat) (accum : Z) : res Z :=
  match len with
  | O => Ok accum
  | S k =>
      do c <- rd v dp;
      peek_loop v (S dp) k (u64 (Z.lor (Z.shiftl accum 1) (bitof c)))
  end.

(** peekField, BitVector.cpp:59-68 *)
Definition peekField (v : bv) (readIndex : nat) (len : nat) : res Z :=
  peek_loop v readIndex len 0.

(** BitVector.cpp:73-82  peekFieldReversed; [assert(dp<mEnd)] with
    dp = readIndex+length-1, then [len] reads going down. *)
Fixpoint peekrev_loop (v : bv) (base : nat) (len : nat) (accum : Z) : res Z :=
  match len with
  | O => Ok accum
  | S k =>
      do c <- rd v (base + k)%nat;
      peekrev_loop v base k (u64 (Z.lor (Z.shiftl accum 1) (bitof c)))
  end.

(** peekFieldReversed, BitVector.cpp:73-82 *)
Definition peekFieldReversed (v : bv) (readIndex : nat) (len : nat) : res Z :=
  do _ <- assert_ (Z.of_nat readIndex + Z.of_nat len - 1 <? Z.of_nat (length v));
  peekrev_loop v readIndex len 0.

(** readField, BitVector.cpp:87-92: result and the advanced index. *)
Definition readField (v : bv) (readIndex : nat) (len : nat) : res (Z * nat) :=
  do r <- peekField v readIndex len;
  Ok (r, (readIndex + len)%nat).

(** readFieldReversed, BitVector.cpp:95-102 *)
Definition readFieldReversed (v : bv) (readIndex : nat) (len : nat) : res (Z * nat) :=
  do r <- peekFieldReversed v readIndex len;
  Ok (r, (readIndex + len)%nat).

(** BitVector.cpp:107-118  fillField: writes from the last position down. *)
Fixpoint fill_loop (v : bv) (base : nat) (k : nat) (value : Z) : res bv :=
  match k with
  | O => Ok v
  | S k' =>
      do v' <- wr v (base + k')%nat (Z.land value 1);
      fill_loop v' base k' (Z.shiftr value 1)
  end.

(** fillField, BitVector.cpp:107-118 *)
Definition fillField (v : bv) (writeIndex : nat) (value : Z) (len : nat) : res bv :=
  match len with
  | O => Ok v
  | _ =>
      do _ <- assert_ (Z.of_nat writeIndex + Z.of_nat len - 1 <? Z.of_nat (length v));
      fill_loop v writeIndex len value
  end.

(** BitVector.cpp:121-132  fillFieldReversed: writes upward. *)
Fixpoint fillrev_loop (v : bv) (dp : nat) (k : nat) (value : Z) : res bv :=
  match k with
  | O => Ok v
  | S k' =>
      do v' <- wr v dp (Z.land value 1);
      fillrev_loop v' (S dp) k' (Z.shiftr value 1)
  end.

(** fillFieldReversed, BitVector.cpp:121-132 *)
Definition fillFieldReversed (v : bv) (writeIndex : nat) (value : Z) (len : nat) : res bv :=
  match len with
  | O => Ok v
  | _ =>
      do _ <- assert_ (Z.of_nat writeIndex + Z.of_nat len - 1 <? Z.of_nat (length v));
      fillrev_loop v writeIndex len value
  end.

(** writeField, BitVector.cpp:137-143: new contents and the advanced index. *)
Definition writeField (v : bv) (writeIndex : nat) (value : Z) (len : nat) : res (bv * nat) :=
  match len with
  | O => Ok (v, writeIndex)
  | _ =>
      do v' <- fillField v writeIndex value len;
      Ok (v', (writeIndex + len)%nat)
  end.

(** writeFieldReversed, BitVector.cpp:146-152 *)
Definition writeFieldReversed (v : bv) (writeIndex : nat) (value : Z) (len : nat) : res (bv * nat) :=
  match len with
  | O => Ok (v, writeIndex)
  | _ =>
      do v' <- fillFieldReversed v writeIndex value len;
      Ok (v', (writeIndex + len)%nat)
  end.

(** write0, BitVector.h:230 *)
Definition write0 (v : bv) (i : nat) := writeField v i 0 1.
(** write1, BitVector.h:231 *)
Definition write1 (v : bv) (i : nat) := writeField v i 1 1.

(** BitVector.h:282-288  bit(index) *)
Definition bit (v : bv) (i : nat) : res bool :=
  do _ <- assert_ (Nat.ltb i (length v));
  do c <- rd v i;
  Ok (negb (bitof c =? 0)).

(** BitVector.h:303-308  settfb(index,value): stores the int into a char. *)
Definition settfb (v : bv) (i : nat) (value : Z) : res bv :=
  do _ <- assert_ (Nat.ltb i (length v));
  wr v i (s8 value).

(** BitVector.cpp:155-160  invert: [~] on a char. *)
Definition invert (v : bv) : bv := map (fun c => s8 (Z.lnot c)) v.

(** BitVector.cpp:165-184  reverse8 on the vector itself. *)
Definition swap (v : bv) (i j : nat) : res bv :=
  do a <- rd v i;
  do b <- rd v j;
  do v1 <- wr v i b;
  wr v1 j a.

(** reverse8, BitVector.cpp:165-184 *)
Definition reverse8 (v : bv) : res bv :=
  do _ <- assert_ (Nat.leb 8 (length v));
  do v0 <- swap v 0 7;
  do v1 <- swap v0 1 6;
  do v2 <- swap v1 2 5;
  swap v2 3 4.

(** BitVector.cpp:188-194  LSB8MSB.  [segment(i,8).reverse8()] works in place on
    positions i..i+7 (segment is an alias, BitVector.h:160-170, whose own
    assertion is wEnd<=end()). *)
Definition reverse8_at (v : bv) (i : nat) : res bv :=
  do _ <- assert_ (Nat.leb (i + 8) (length v));
  do seg <- reverse8 (firstn 8 (skipn i v));
  Ok (firstn i v ++ seg ++ skipn (i + 8) v).

(** The loop of LSB8MSB, BitVector.cpp:193 *)
Fixpoint lsb8msb_loop (v : bv) (i : nat) (n : nat) : res bv :=
  match n with
  | O => Ok v
  | S n' => do v' <- reverse8_at v i; lsb8msb_loop v' (i + 8)%nat n'
  end.

(** LSB8MSB, BitVector.cpp:188-194 *)
Definition LSB8MSB (v : bv) : res bv :=
  if Nat.ltb (length v) 8 then Ok v
  else lsb8msb_loop v 0 (length v / 8)%nat.

(** BitVector.h:42-91  Generator. All fields are uint64_t except the lengths. *)
Record generator := mkGen {
  g_coeff : N;
  g_state : N;
  g_mask : N;
  g_len : N;
  g_len_1 : N   (* unsigned wLen-1: wraps to 2^32-1 for wLen=0 *)
}.

(** Wrap to uint64_t, the type of the fields of BitVector.h:44-50. *)
Definition w64 (x : N) : N := (x mod 2 ^ 64)%N.

(** uint64 shifts; a shift count of 64 or more is undefined. *)
Definition shl64 (x n : N) : res N := if (n <? 64)%N then Ok (w64 (N.shiftl x n)) else UB.
(** Shift to the right of a uint64_t, as in BitVector.h:74 and 85. *)
Definition shr64 (x n : N) : res N := if (n <? 64)%N then Ok (N.shiftr x n) else UB.

(** BitVector.h:54-58.  [(1ULL<<wLen)-1] is evaluated before the assertion. *)
Definition mk_generator (wCoeff wLen : N) : res generator :=
  do one <- shl64 1 wLen;
  do _ <- assert_ (wLen <? 64)%N;
  Ok (mkGen wCoeff 0 (one - 1) wLen ((wLen + 2 ^ 32 - 1) mod 2 ^ 32)%N).

(** Generator::clear, BitVector.h:60 *)
Definition gen_clear (g : generator) : generator :=
  mkGen (g_coeff g) 0 (g_mask g) (g_len g) (g_len_1 g).
(** Generator::state, BitVector.h:64 *)
Definition gen_state (g : generator) : N := N.land (g_state g) (g_mask g).
(** Assignment to mState, as in BitVector.h:60, 76 and 87. *)
Definition with_state (g : generator) (s : N) : generator :=
  mkGen (g_coeff g) s (g_mask g) (g_len g) (g_len_1 g).

(** The [char] element passed as [unsigned inBit] (BitVector.cpp:202 and 211). *)
Definition inbit (c : Z) : N := Z.to_N (u32 c).

(** BitVector.h:72-77 *)
Definition syndromeShift (g : generator) (inBit : N) : res generator :=
  do top <- shr64 (g_state g) (g_len_1 g);
  let fb := N.land top 1 in
  let s := N.lxor (w64 (N.shiftl (g_state g) 1)) (N.land inBit 1) in
  Ok (with_state g (if (fb =? 0)%N then s else N.lxor s (g_coeff g))).

(** BitVector.h:83-88 *)
Definition encoderShift (g : generator) (inBit : N) : res generator :=
  do top <- shr64 (g_state g) (g_len_1 g);
  let fb := N.land (N.lxor top inBit) 1 in
  let s := w64 (N.shiftl (g_state g) 1) in
  Ok (with_state g (if (fb =? 0)%N then s else N.lxor s (g_coeff g))).

(** The loop over the elements, BitVector.cpp:202 and 211. *)
Fixpoint gen_run (f : generator -> N -> res generator) (g : generator) (v : bv) : res generator :=
  match v with
  | [] => Ok g
  | c :: t => do g' <- f g (inbit c); gen_run f g' t
  end.

(** BitVector::syndrome, BitVector.cpp:198-204 (called by Parity::syndrome, 261-264) *)
Definition bv_syndrome (v : bv) (g : generator) : res N :=
  do g' <- gen_run syndromeShift (gen_clear g) v; Ok (gen_state g').
(** BitVector::parity, BitVector.cpp:207-213 *)
Definition bv_parity (v : bv) (g : generator) : res N :=
  do g' <- gen_run encoderShift (gen_clear g) v; Ok (gen_state g').

(** [~pWord] of BitVector.cpp:270 *)
Definition not64 (x : N) : N := N.lxor x (2 ^ 64 - 1).
(** Parity::writeParityWord, BitVector.cpp:267-272 *)
Definition writeParityWord (g : generator) (data target : bv) (inv : bool) : res bv :=
  do pWord <- bv_parity data g;
  let pWord := if inv then not64 pWord else pWord in
  fillField target 0 (Z.of_N pWord) (N.to_nat (g_len g)).

(** BitVector.cpp:216-221  sum: an unsigned accumulator. *)
Definition bv_sum (v : bv) : Z := fold_left (fun s c => u32 (s + bitof c)) v 0.

(** BitVector.cpp:226-231  map.  [dest] is assumed not to alias the source. *)
Fixpoint map_loop (src : bv) (mp : list nat) (i : nat) (dest : bv) : res bv :=
  match mp with
  | [] => Ok dest
  | m :: t =>
      do c <- rd src m;
      do d <- wr dest i c;
      map_loop src t (S i) d
  end.
(** map, BitVector.cpp:226-231 *)
Definition bv_map (src : bv) (mp : list nat) (dest : bv) : res bv := map_loop src mp 0 dest.

(** BitVector.cpp:236-241  unmap *)
Fixpoint unmap_loop (src : bv) (mp : list nat) (i : nat) (dest : bv) : res bv :=
  match mp with
  | [] => Ok dest
  | m :: t =>
      do c <- rd src i;
      do d <- wr dest m c;
      unmap_loop src t (S i) d
  end.
(** unmap, BitVector.cpp:236-241 *)
Definition bv_unmap (src : bv) (mp : list nat) (dest : bv) : res bv := unmap_loop src mp 0 dest.

(** BitVector.cpp:249-256  operator<< *)
Definition bv_print (v : bv) : list Z :=
  map (fun c => if bitof c =? 0 then 48 else 49) v.

(** BitVector.cpp:365-376  pack: [targ] is the caller's buffer of unsigned char. *)
Fixpoint pack_loop (v : bv) (i : nat) (n : nat) (targ : list Z) : res (list Z) :=
  match n with
  | O => Ok targ
  | S n' =>
      do b <- peekField v (i * 8)%nat 8;
      do t <- wr targ i (u8 b);
      pack_loop v (S i) n' t
  end.

(** pack, BitVector.cpp:365-376; the bits that remain are put to the left (371-375). *)
Definition pack (v : bv) (targ : list Z) : res (list Z) :=
  let bytes := (length v / 8)%nat in
  do t <- pack_loop v 0 bytes targ;
  let whole := (bytes * 8)%nat in
  let rem := (length v - whole)%nat in
  match rem with
  | O => Ok t
  | _ =>
      do b <- peekField v whole rem;
      wr t bytes (u8 (Z.shiftl b (Z.of_nat (8 - rem))))
  end.

(** BitVector.cpp:378-392  packToString (the characters as unsigned bytes). *)
Fixpoint packstr_loop (v : bv) (i : nat) (n : nat) (out : list Z) : res (list Z) :=
  match n with
  | O => Ok out
  | S n' =>
      do b <- peekField v (i * 8)%nat 8;
      packstr_loop v (S i) n' (out ++ [u8 b])
  end.

(** packToString, BitVector.cpp:378-392 *)
Definition packToString (v : bv) : res (list Z) :=
  let bytes := (length v / 8)%nat in
  do t <- packstr_loop v 0 bytes [];
  let whole := (bytes * 8)%nat in
  let rem := (length v - whole)%nat in
  match rem with
  | O => Ok t
  | _ =>
      do b <- peekField v whole rem;
      Ok (t ++ [u8 (Z.shiftl b (Z.of_nat (8 - rem)))])
  end.

(** BitVector.cpp:395-406  unpack *)
Fixpoint unpack_loop (v : bv) (i : nat) (n : nat) (src : list Z) : res bv :=
  match n with
  | O => Ok v
  | S n' =>
      do b <- rd src i;
      do v' <- fillField v (i * 8)%nat b 8;
      unpack_loop v' (S i) n' src
  end.

(** unpack, BitVector.cpp:395-406 *)
Definition unpack (v : bv) (src : list Z) : res bv :=
  let bytes := (length v / 8)%nat in
  do v' <- unpack_loop v 0 bytes src;
  let whole := (bytes * 8)%nat in
  let rem := (length v - whole)%nat in
  match rem with
  | O => Ok v'
  | _ =>
      do b <- rd src bytes;
      fillField v' whole (Z.shiftr b (Z.of_nat (8 - rem))) rem
  end.

(** BitVector.cpp:408-424  hex / hexstr: [os << std::hex << value] prints a value
    below 16 as one lower-case digit. *)
Definition hexdigit (d : Z) : Z := if d <? 10 then 48 + d else 87 + d.

(** The loop of hex, BitVector.cpp:408-415: four bits at a time. *)
Fixpoint hex_loop (v : bv) (wp : nat) (n : nat) (out : list Z) : res (list Z) :=
  match n with
  | O => Ok out
  | S n' =>
      do r <- readField v wp 4;
      hex_loop v (snd r) n' (out ++ [hexdigit (fst r)])
  end.

(** hexstr, BitVector.cpp:418-424 *)
Definition hexstr (v : bv) : res (list Z) := hex_loop v 0 (length v / 4)%nat [].

(** sscanf(s,"%1x",&val): skip white space, then exactly one hex digit.
    [None] stands for a return value below 1. *)
Fixpoint scan1x (s : list Z) : option Z :=
  match s with
  | [] => None
  | c :: t => if isspace c then scan1x t else hexval c
  end.

(** [src + i] for a C string: fine up to and including the terminator (BitVector.cpp:427-447). *)
Definition cstr_at (s : list Z) (i : nat) : res (list Z) :=
  if Nat.leb i (length s) then Ok (skipn i s) else UB.

(** BitVector.cpp:427-447  unhex.  Result: new contents and the return value; on
    failure the fields already filled stay filled. *)
Fixpoint unhex_loop (v : bv) (i : nat) (n : nat) (src : list Z) : res (bv * bool) :=
  match n with
  | O => Ok (v, true)
  | S n' =>
      do s <- cstr_at src i;
      match scan1x s with
      | None => Ok (v, false)
      | Some val =>
          do v' <- fillField v (i * 4)%nat val 4;
          unhex_loop v' (S i) n' src
      end
  end.

(** unhex, BitVector.cpp:427-447 *)
Definition unhex (v : bv) (src : list Z) : res (bv * bool) :=
  let digits := (length v / 4)%nat in
  do r <- unhex_loop v 0 digits src;
  if snd r then
    let v' := fst r in
    let whole := (digits * 4)%nat in
    let rem := (length v - whole)%nat in
    match rem with
    | O => Ok (v', true)
    | _ =>
        do s <- cstr_at src digits;
        match scan1x s with
        | None => Ok (v', false)
        | Some val =>
            do v'' <- fillField v' whole val rem;
            Ok (v'', true)
        end
    end
  else Ok r.

(** BitVector.cpp:449-453  operator==: memcmp of the raw elements. *)
Fixpoint bv_eqb (a b : bv) : bool :=
  match a, b with
  | [], [] => true
  | x :: s, y :: t => (x =? y) && bv_eqb s t
  | _, _ => false
  end.

(** Element-wise copy used by the puncturing loops:
    [assert(srcp<mEnd && dstp<dst.mEnd); *dstp++ = *srcp++;] *)
Section Puncture.
  Context {A : Type}.
  Fixpoint copy_n (src : list A) (n : nat) (srcp dstp : nat) (dst : list A)
    : res (nat * nat * list A) :=
    match n with
    | O => Ok (srcp, dstp, dst)
    | S n' =>
        do _ <- assert_ (Nat.ltb srcp (length src) && Nat.ltb dstp (length dst));
        do c <- rd src srcp;
        do d <- wr dst dstp c;
        copy_n src n' (S srcp) (S dstp) d
    end.

  (** BitVector.cpp:471-474 / 496-499: copy the rest of the source. *)
  Fixpoint copy_rest (src : list A) (n : nat) (srcp dstp : nat) (dst : list A)
    : res (nat * nat * list A) :=
    match n with
    | O => Ok (srcp, dstp, dst)
    | S n' =>
        do _ <- assert_ (Nat.ltb dstp (length dst));
        do c <- rd src srcp;
        do d <- wr dst dstp c;
        copy_rest src n' (S srcp) (S dstp) d
    end.

  (** BitVector.cpp:461-477  the loop of copyPunctured.  [n] is an int:
      unsigned index minus ptrdiff_t, converted.  Result: the destination. *)
  Fixpoint punct_loop (src : list A) (srcp dstp : nat) (dst : list A) (punct : list Z)
    : res (list A) :=
    if Nat.ltb srcp (length src) then
      match punct with
      | p :: ps =>
          let n := s32 (p - Z.of_nat srcp) in
          do _ <- assert_ (0 <=? n);
          do st <- copy_n src (Z.to_nat n) srcp dstp dst;
          let '(srcp', dstp', dst') := st in
          punct_loop src (S srcp') dstp' dst' ps
      | [] =>
          do st <- copy_rest src (length src - srcp) srcp dstp dst;
          let '(_, dstp', dst') := st in
          do _ <- assert_ (Nat.eqb dstp' (length dst'));
          Ok dst'
      end
    else
      do _ <- assert_ (Nat.eqb dstp (length dst) && match punct with [] => true | _ => false end);
      Ok dst.

  (** BitVector.cpp:455-478  copyPunctured; size_t arithmetic in the first assertion. *)
  Definition copyPunctured (src dst : list A) (punct : list Z) : res (list A) :=
    do _ <- assert_ (u64 (Z.of_nat (length src) - Z.of_nat (length punct)) =? Z.of_nat (length dst));
    punct_loop src 0 0 dst punct.

  (** BitVector.cpp:486-502  the loop of copyUnPunctured; [erasure] is 0.5.  When the
      indices are exhausted, the source is exhausted and the destination is not
      full, the outer loop would never end. *)
  Fixpoint unpunct_loop (erasure : A) (src : list A) (srcp dstp : nat) (dst : list A) (punct : list Z)
    : res (list A) :=
    if Nat.ltb dstp (length dst) then
      match punct with
      | p :: ps =>
          let n := s32 (p - Z.of_nat dstp) in
          do _ <- assert_ (0 <=? n);
          do st <- copy_n src (Z.to_nat n) srcp dstp dst;
          let '(srcp', dstp', dst') := st in
          do d <- wr dst' dstp' erasure;
          unpunct_loop erasure src srcp' (S dstp') d ps
      | [] =>
          do st <- copy_rest src (length src - srcp) srcp dstp dst;
          let '(_, dstp', dst') := st in
          if Nat.ltb dstp' (length dst') then Diverge
          else
            do _ <- assert_ (Nat.eqb dstp' (length dst'));
            Ok dst'
      end
    else
      do _ <- assert_ (Nat.eqb dstp (length dst) && match punct with [] => true | _ => false end);
      Ok dst.

  (** BitVector.cpp:480-503 *)
  Definition copyUnPunctured (erasure : A) (src dst : list A) (punct : list Z) : res (list A) :=
    do _ <- assert_ (u64 (Z.of_nat (length src) + Z.of_nat (length punct)) =? Z.of_nat (length dst));
    unpunct_loop erasure src 0 0 dst punct.
End Puncture.

(** IEEE single precision values as seen by comparisons: NaN, the infinities, and
    finite values by their exact rational value. *)
From Coq Require Import QArith.
(** A float, the element of a SoftVector (BitVector.h:329). *)
Inductive fl := FNaN | FInf (neg : bool) | FFin (q : Q).

(** The comparison of floats, as in BitVector.cpp:297 and 356-357; false with NaN. *)
Definition flt (a b : fl) : bool :=   (* a < b *)
  match a, b with
  | FNaN, _ | _, FNaN => false
  | FInf true, FInf true => false
  | FInf true, _ => true
  | FInf false, _ => false
  | FFin _, FInf neg => negb neg
  | FFin x, FFin y => negb (Qle_bool y x)
  end.

(** The constant 0.5F of BitVector.cpp:297. *)
Definition fhalf := FFin (1 # 2).

(** BitVector.cpp:282-289  SoftVector(const BitVector&) *)
Definition soft_of_bv (v : bv) : list fl :=
  map (fun c => if (bitof c =? 0)%Z then FFin 0 else FFin 1) v.

(** BitVector.cpp:292-301  sliced *)
Definition sliced (v : list fl) : bv :=
  map (fun x => if flt fhalf x then 1%Z else 0%Z) v.

(** BitVector.cpp:353-361  operator<< for SoftVector: '0' below 0.25, '1' above 0.75,
    otherwise '-'. *)
Definition soft_print (v : list fl) : list Z :=
  map (fun x => if flt x (FFin (1 # 4)) then 48%Z
                else if flt (FFin (3 # 4)) x then 49%Z else 45%Z) v.

(** BitVector.h:393-398  SoftVector::bit *)
Definition soft_bit (v : list fl) (i : nat) : res bool :=
  do _ <- assert_ (Nat.ltb i (length v));
  do x <- rd v i; Ok (flt fhalf x).
(** BitVector.h:407-412  softbit *)
Definition softbit (v : list fl) (i : nat) : res fl :=
  do _ <- assert_ (Nat.ltb i (length v));
  rd v i.
(** BitVector.h:415-420  SoftVector::settfb *)
Definition soft_settfb (v : list fl) (i : nat) (value : fl) : res (list fl) :=
  do _ <- assert_ (Nat.ltb i (length v));
  wr v i value.
(** BitVector.h:390  unknown *)
Definition soft_unknown (v : list fl) : list fl := map (fun _ => fhalf) v.
