(** C106: bit vector operations whose operands share storage.  The yardstick is what the
    same operation does when the operands are apart: the models of C07, C09 and C10 applied
    to a copy of the source window, the result put into the destination window. *)
From Coq Require Import ZArith List Bool Lia.
From Verif Require Import Base BaseFacts BitVectorModel BitVectorSpec BitFieldProofs BitPackProofs BitMiscProofs
  BitVectorProps AliasModel AliasProofs.
Import ListNotations.
Local Open Scope nat_scope.

(** Spec: all cells are 0 or 1. *)
Definition all_bits (M : list Z) : Prop := Forall (fun c => c = 0%Z \/ c = 1%Z) M.
(** Spec: all cells are signed chars. *)
Definition all_chars (M : list Z) : Prop := Forall (fun c => (-128 <= c < 128)%Z) M.
(** Spec: a permutation of the indices 0..n-1. *)
Definition permutation (n : nat) (mp : list nat) : Prop :=
  NoDup mp /\ Forall (fun m => m < n) mp /\ length mp = n.

(** ** map *)
Theorem C106_map : forall M s n d k mp,
  s + n <= length M -> d + k <= length M -> Forall (fun m => m < n) mp -> length mp <= k ->
  (forall i j mi mj, j < i -> nth_error mp i = Some mi -> nth_error mp j = Some mj -> d + j = s + mi -> mj = mi) ->
  map_in M s d 0 mp = (do D <- bv_map (slice s n M) mp (slice d k M); Ok (splice d D M)).
Proof. exact map_right. Qed.
Print Assumptions C106_map.

Theorem C106_map_only : forall L s n d k mp,
  s + n <= L -> d + k <= L -> Forall (fun m => m < n) mp -> length mp <= k ->
  (forall M, length M = L -> all_bits M ->
     map_in M s d 0 mp = (do D <- bv_map (slice s n M) mp (slice d k M); Ok (splice d D M))) ->
  forall i j mi mj, j < i -> nth_error mp i = Some mi -> nth_error mp j = Some mj -> d + j = s + mi -> mj = mi.
Proof. exact map_only. Qed.
Print Assumptions C106_map_only.

Theorem C106_map_in_place : forall L s n mp, s + n <= L -> permutation n mp ->
  ((forall M, length M = L -> all_bits M ->
      map_in M s s 0 mp = (do D <- bv_map (slice s n M) mp (slice s n M); Ok (splice s D M)))
   <-> mp = seq 0 n).
Proof. intros L s n mp H (N & F & E). apply map_in_place; assumption. Qed.
Print Assumptions C106_map_in_place.

Example C106_map_ex :
  map_in [10; 11; 12; 13]%Z 0 0 0 [1; 2; 3; 0] = Ok [11; 12; 13; 11]%Z /\
  bv_map [10; 11; 12; 13]%Z [1; 2; 3; 0] [10; 11; 12; 13]%Z = Ok [11; 12; 13; 10]%Z /\
  map_in [10; 11; 12; 13; 0; 0; 0; 0]%Z 0 4 0 [1; 2; 3; 0] = Ok [10; 11; 12; 13; 11; 12; 13; 10]%Z.
Proof. vm_compute. repeat split. Qed.

(** ** unmap *)
Theorem C106_unmap : forall M s n d k mp,
  s + n <= length M -> d + k <= length M -> NoDup mp -> Forall (fun m => m < k) mp -> length mp <= n ->
  (forall i j mj, j < i -> i < length mp -> nth_error mp j = Some mj -> d + mj <> s + i) ->
  unmap_in M s d 0 mp = (do D <- bv_unmap (slice s n M) mp (slice d k M); Ok (splice d D M)).
Proof. exact unmap_right. Qed.
Print Assumptions C106_unmap.

Theorem C106_unmap_only : forall L s n d k mp,
  s + n <= L -> d + k <= L -> NoDup mp -> Forall (fun m => m < k) mp -> length mp <= n ->
  (forall M, length M = L -> all_bits M ->
     unmap_in M s d 0 mp = (do D <- bv_unmap (slice s n M) mp (slice d k M); Ok (splice d D M))) ->
  forall i j mj, j < i -> i < length mp -> nth_error mp j = Some mj -> d + mj <> s + i.
Proof. exact unmap_only. Qed.
Print Assumptions C106_unmap_only.

Theorem C106_unmap_in_place : forall L s n mp, s + n <= L -> permutation n mp ->
  ((forall M, length M = L -> all_bits M ->
      unmap_in M s s 0 mp = (do D <- bv_unmap (slice s n M) mp (slice s n M); Ok (splice s D M)))
   <-> mp = seq 0 n).
Proof. intros L s n mp H (N & F & E). apply unmap_in_place; assumption. Qed.
Print Assumptions C106_unmap_in_place.

Example C106_unmap_ex :
  unmap_in [10; 11; 12; 13]%Z 0 0 0 [1; 2; 3; 0] = Ok [10; 10; 10; 10]%Z /\
  bv_unmap [10; 11; 12; 13]%Z [1; 2; 3; 0] [10; 11; 12; 13]%Z = Ok [13; 10; 11; 12]%Z /\
  unmap_in [10; 11; 12; 0]%Z 0 1 0 [2; 1; 0] = Ok [10; 11; 11; 10]%Z.
Proof. vm_compute. repeat split. Qed.

(** ** pack and unpack *)
Theorem C106_pack : forall L s n t, s + n <= L -> t + (n + 7) / 8 <= L ->
  ((t <= s + 7 \/ s + n <= t) ->
     forall M, length M = L -> pack_in M s n t = Ok (splice t (map s8 (packed (bits_of (slice s n M)))) M)) /\
  ((forall M, length M = L -> all_bits M ->
      pack_in M s n t = Ok (splice t (map s8 (packed (bits_of (slice s n M)))) M)) ->
   t <= s + 7 \/ s + n <= t).
Proof.
  intros L s n t Hs Ht. split.
  - intros C M <-. apply pack_right; assumption.
  - intros H. eapply pack_only; eassumption.
Qed.
Print Assumptions C106_pack.

Theorem C106_unpack : forall L s n u, s + n <= L -> u + (n + 7) / 8 <= L ->
  ((u + (n + 7) / 8 <= s \/ s + 7 * ((n + 7) / 8 - 1) <= u) ->
     forall M, length M = L ->
     unpack_in M s n u = Ok (splice s (unpacked n (map u8 (slice u ((n + 7) / 8) M))) M)) /\
  ((forall M, length M = L -> all_chars M ->
      unpack_in M s n u = Ok (splice s (unpacked n (map u8 (slice u ((n + 7) / 8) M))) M)) ->
   u + (n + 7) / 8 <= s \/ s + 7 * ((n + 7) / 8 - 1) <= u).
Proof.
  intros L s n u Hs Ht. split.
  - intros C M <-. apply unpack_right; assumption.
  - intros H. eapply unpack_only; eassumption.
Qed.
Print Assumptions C106_unpack.

(** Packing in place, and unpacking in place only up to eight bits. *)
Theorem C106_pack_in_place : forall M s n, s + n <= length M ->
  pack_in M s n s = Ok (splice s (map s8 (packed (bits_of (slice s n M)))) M) /\
  ((forall N, length N = length M -> all_chars N ->
      unpack_in N s n s = Ok (splice s (unpacked n (map u8 (slice s ((n + 7) / 8) N))) N))
   <-> n <= 8).
Proof.
  intros M s n H. split; [apply pack_right; lia|]. split.
  - intros U. apply unpack_only in U; lia.
  - intros Hn N LN _. apply unpack_right; lia.
Qed.
Print Assumptions C106_pack_in_place.

Example C106_pack_ex :
  pack_in [1; 0; 0; 0; 0; 0; 0; 1; 1; 1]%Z 0 10 0 = Ok [-127; -64; 0; 0; 0; 0; 0; 1; 1; 1]%Z /\
  pack_in [0; 0; 0; 0; 0; 0; 0; 1; 0; 0]%Z 0 10 8 = Ok [0; 0; 0; 0; 0; 0; 0; 1; 1; -128]%Z /\
  packed (bits_of [0; 0; 0; 0; 0; 0; 0; 1; 0; 0]%Z) = [1; 0]%Z /\
  unpack_in [0; 0; 0; 0; 0; 0; 0; 0; -127; -64]%Z 0 10 8 = Ok [1; 0; 0; 0; 0; 0; 0; 1; 1; 1]%Z /\
  unpack_in [-127; -64; 0; 0; 0; 0; 0; 0; 0; 0]%Z 0 10 0 = Ok [1; 0; 0; 0; 0; 0; 0; 1; 0; 0]%Z.
Proof. vm_compute. repeat split. Qed.

(** ** Puncturing *)
Theorem C106_punctured : forall (M : bv) s sl d dl ps, s + sl <= length M -> d + dl <= length M ->
  d <= s \/ s + sl <= d ->
  punct_in M s sl d dl ps = (do D <- copyPunctured (slice s sl M) (slice d dl M) ps; Ok (splice d D M)).
Proof. exact (punct_sim Z). Qed.
Print Assumptions C106_punctured.

Theorem C106_punctured_in_place : forall (M : bv) s sl dl ps, s + sl <= length M ->
  (Z.of_nat sl < 2 ^ 31)%Z -> Forall (fun p => (0 <= p < 2 ^ 32)%Z) ps ->
  sl = dl + length ps -> increasing_from 0 ps (Z.of_nat sl) ->
  punct_in M s sl s dl ps = Ok (splice s (without 0 ps (slice s sl M)) M).
Proof.
  intros M s sl dl ps H Hl F E I. rewrite punct_sim by lia.
  rewrite copyPunctured_ok; try assumption; rewrite ?slice_length by lia; auto.
Qed.
Print Assumptions C106_punctured_in_place.

Theorem C106_unpunctured : forall (M : list fl) s sl d dl ps, s + sl <= length M -> d + dl <= length M ->
  (Z.of_nat sl < 2 ^ 31)%Z -> (Z.of_nat dl < 2 ^ 31)%Z -> (Z.of_nat (length ps) < 2 ^ 31)%Z ->
  Forall (fun p => (0 <= p < 2 ^ 32)%Z) ps ->
  d + length ps <= s \/ s + sl <= d ->
  unpunct_in fhalf M s sl d dl ps
  = (do D <- copyUnPunctured fhalf (slice s sl M) (slice d dl M) ps; Ok (splice d D M)).
Proof.
  intros M s sl d dl ps Hs Hd H1 H2 H3 F C. apply unpunct_sim; try assumption.
  assert (Ls : length (slice s sl M) = sl) by (apply slice_length; exact Hs).
  assert (Ld : length (slice d dl M) = dl) by (apply slice_length; exact Hd).
  destruct (C09_unpunctured (slice s sl M) (slice d dl M) ps) as (A & B);
    rewrite ?Ls, ?Ld; try assumption.
  rewrite Ls, Ld in A, B.
  destruct (Nat.eq_dec dl (sl + length ps)) as [E|N].
  - intros U. assert (X : ~ increasing_from 0 ps (Z.of_nat dl)).
    { intros I. rewrite A in U by (split; assumption). discriminate. }
    rewrite B in U; [discriminate|]. intros (_ & Y). contradiction.
  - rewrite B; [discriminate|]. intros (Y & _). contradiction.
Qed.
Print Assumptions C106_unpunctured.

(** Defect: unpuncturing a vector into a longer one that starts at the same place erases
    everything from the first index on. *)
Theorem C106_unpunctured_in_place_refuted : forall (M : list fl) d dl sl p ps, d + dl <= length M ->
  (Z.of_nat dl < 2 ^ 31)%Z -> dl = sl + length (p :: ps) -> increasing_from 0 (p :: ps) (Z.of_nat dl) ->
  unpunct_in fhalf M d sl d dl (p :: ps)
  = Ok (splice (d + Z.to_nat p) (repeat fhalf (dl - Z.to_nat p)) M).
Proof. exact (unpunct_in_place fl fhalf). Qed.
Print Assumptions C106_unpunctured_in_place_refuted.

Example C106_punct_ex :
  punct_in [1; 2; 3; 4; 5]%Z 0 5 0 3 [1; 3]%Z = Ok [1; 3; 5; 4; 5]%Z /\
  punct_in [1; 2; 3; 4; 5; 6]%Z 0 5 1 3 [1; 3]%Z = Ok [1; 1; 3; 5; 5; 6]%Z /\
  punct_in [1; 2; 3; 4; 5; 6; 7]%Z 0 5 1 4 [4]%Z = Ok [1; 1; 1; 1; 1; 6; 7]%Z /\
  copyPunctured [1; 2; 3; 4; 5]%Z [0; 0; 0; 0]%Z [4]%Z = Ok [1; 2; 3; 4]%Z /\
  unpunct_in 9%Z [0; 0; 1; 2; 3]%Z 2 3 0 5 [1; 3]%Z = Ok [1; 9; 2; 9; 3]%Z /\
  unpunct_in 9%Z [1; 2; 3; 0; 0]%Z 0 3 0 5 [1; 3]%Z = Ok [1; 9; 9; 9; 9]%Z.
Proof. vm_compute. repeat split. Qed.

(** ** fill *)
Theorem C106_fill : forall M s n a x, s + n <= length M -> nth_error M a = Some x ->
  fill_in M s n a = Ok (splice s (repeat x n) M).
Proof. intros. apply fill_in_spec; assumption. Qed.
Print Assumptions C106_fill.

Example C106_fill_ex : fill_in [1; 2; 3; 4]%Z 0 4 2 = Ok [3; 3; 3; 3]%Z /\ fill_in [1; 2; 3; 4]%Z 1 2 3 = Ok [1; 4; 4; 4]%Z.
Proof. vm_compute. repeat split. Qed.
