(** Specification vocabulary for bit vectors; it does not mention the model. *)
From Verif Require Import Base.
Local Open Scope Z_scope.

(** The bits of a list of elements (bit 0 of each). *)
Definition bits_of (v : list Z) : list bool := map Z.odd v.

(** Value of a bit string, most significant bit first. *)
Definition be_value (l : list bool) : Z := fold_left (fun a b => 2 * a + Z.b2z b) l 0.

(** The [n] low bits of [x], most significant first, as 0/1 elements. *)
Definition field_bits (n : nat) (x : Z) : list Z :=
  map (fun k => Z.b2z (Z.testbit x (Z.of_nat (n - 1 - k)))) (seq 0 n).

(** Elements [i .. i+n-1] of a list. *)
Definition slice {A} (i n : nat) (v : list A) : list A := firstn n (skipn i v).

(** The list [v] with elements [i .. i+length w-1] replaced by [w]. *)
Definition splice {A} (i : nat) (w v : list A) : list A :=
  firstn i v ++ w ++ skipn (i + length w) v.

(** The [n]-bit reversal of [x]. *)
Definition reverse_bits (n : nat) (x : Z) : Z := be_value (rev (bits_of (field_bits n x))).

(** Polynomials over GF(2) as numbers: bit k is the coefficient of x^k. *)
Fixpoint pmul_pos (a : positive) (b : N) : N :=
  match a with
  | xH => b
  | xO a' => N.double (pmul_pos a' b)
  | xI a' => N.lxor b (N.double (pmul_pos a' b))
  end.
Definition pmul (a b : N) : N := match a with N0 => 0%N | Npos p => pmul_pos p b end.

(** [r] is the remainder of [p] divided by the monic polynomial x^n + c. *)
Definition is_remainder (n : N) (c : N) (p r : N) : Prop :=
  (r < 2 ^ n)%N /\ exists q, p = N.lxor (pmul q (2 ^ n + c mod 2 ^ n)) r.

(** The polynomial of a bit string, first bit = highest power. *)
Definition poly_of (l : list bool) : N := Z.to_N (be_value l).

(** Element-wise sum over GF(2) of two bit strings. *)
Fixpoint xor_bits (a b : list bool) : list bool :=
  match a, b with
  | x :: s, y :: t => xorb x y :: xor_bits s t
  | _, _ => []
  end.

(** Strictly increasing list of indices, all below [bound]. *)
Fixpoint increasing_from (lo : Z) (l : list Z) (bound : Z) : Prop :=
  match l with
  | [] => True
  | p :: t => lo <= p < bound /\ increasing_from (p + 1) t bound
  end.

(** The elements whose position (counted from [k]) is not listed. *)
Fixpoint without {A} (k : nat) (l : list Z) (v : list A) : list A :=
  match v with
  | [] => []
  | x :: t => if existsb (Z.eqb (Z.of_nat k)) l then without (S k) l t else x :: without (S k) l t
  end.

(** [w] with an erasure inserted at each listed position: the list of length [n]
    (positions counted from [k]) whose listed positions hold [e] and whose other
    positions hold the elements of [w] in order. *)
Fixpoint with_erasures {A} (e : A) (k : nat) (n : nat) (l : list Z) (w : list A) : list A :=
  match n with
  | O => []
  | S n' =>
      if existsb (Z.eqb (Z.of_nat k)) l then e :: with_erasures e (S k) n' l w
      else match w with
           | [] => []
           | x :: t => x :: with_erasures e (S k) n' l t
           end
  end.

(** [v] with every listed position overwritten by [e]. *)
Fixpoint erased {A} (e : A) (k : nat) (l : list Z) (v : list A) : list A :=
  match v with
  | [] => []
  | x :: t => (if existsb (Z.eqb (Z.of_nat k)) l then e else x) :: erased e (S k) l t
  end.

(** Number of set bits. *)
Definition popcount (l : list bool) : Z := fold_right (fun b s => Z.b2z b + s) 0 l.

(** Groups of [k] consecutive elements reversed, an incomplete last group kept. *)
Definition byte_reversed {A} (v : list A) (i : nat) : nat :=
  if Nat.ltb i (8 * (length v / 8))%nat then (8 * (i / 8) + (7 - i mod 8))%nat else i.

(** MSB-first packing into bytes, the last byte padded with zero bits. *)
Definition packed (l : list bool) : list Z :=
  map (fun k => be_value (firstn 8 (skipn (8 * k) l ++ repeat false 7)))
      (seq 0 ((length l + 7) / 8)).

(** The first [n] bits of a byte array, MSB first, as 0/1 elements. *)
Definition unpacked (n : nat) (src : list Z) : list Z :=
  map (fun i => Z.b2z (Z.testbit (nth (i / 8) src 0) (Z.of_nat (7 - i mod 8)))) (seq 0 n).

(** The lower-case hexadecimal digit of 0..15. *)
Definition lower_hex (d : Z) : Z := nth (Z.to_nat d) (lit "0123456789abcdef") 0.

(** The first character at or after position [i] that is not white space is a hex digit. *)
Definition digit_reachable (s : list Z) (i : nat) : Prop :=
  exists j c, (i <= j)%nat /\ nth_error s j = Some c /\ hexval c <> None /\
    (forall k, (i <= k < j)%nat -> exists d, nth_error s k = Some d /\ isspace d = true).

(** A field of a message layout: reversed?, value, width. *)
Record field := mkField { f_rev : bool; f_val : Z; f_width : nat }.
Definition total_width (fs : list field) : nat := fold_right (fun f s => (f_width f + s)%nat) 0%nat fs.
