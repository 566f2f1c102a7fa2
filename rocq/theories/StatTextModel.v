(** Model of printing a Statistic: Statistic<int>::text and Statistic<unsigned>::text (Utils.h:144-160), operator<<
    (Utils.cpp:472-473) on a stream with any precision, fixed or not (SecondsModel; other flags as they are at
    the start), and the conversion %g they rest on.  Statistic<float> and Statistic<double> are in StatFloatModel. *)
From Verif Require Import Base UtilsModel ConfigModel IsoModel F16Float SecondsModel.
Local Open Scope Z_scope.

(** ** %g of the C library: the nearest number with [p] digits, halves to even *)
(** The power of ten of the first digit of n/d: of a quotient of at least 1, and of one below 1. *)
Fixpoint tens (fuel : nat) (q : Z) : Z :=
  match fuel with O => 0 | S fuel => if q <? 10 then 0 else 1 + tens fuel (q / 10) end.
(** The same for a quotient below 1. *)
Fixpoint tenths (fuel : nat) (n d : Z) : Z :=
  match fuel with O => 0 | S fuel => if d <=? n then 0 else tenths fuel (n * 10) d - 1 end.
(** The exponent of %g (Utils.h:152). *)
Definition tlog (n d : Z) : Z :=
  if d <=? n then tens (Z.to_nat (Z.log2 (n / d))) (n / d) else tenths (Z.to_nat (Z.log2 d + 1)) n d.
(** The digits as a number, and the power of ten of the first of them (Utils.h:145-154). *)
Definition digits_of (p : nat) (n d : Z) : Z * Z :=
  let x := tlog n d in
  let k := Z.of_nat p - 1 - x in
  let m := if 0 <=? k then rhe (n * 10 ^ k) d else rhe n (d * 10 ^ (- k)) in
  if m =? 10 ^ Z.of_nat p then (10 ^ (Z.of_nat p - 1), x + 1) else (m, x).
(** Zeros at the end are left out, and the point if nothing follows it (Utils.h:145-154). *)
Fixpoint no_zeros (l : list Z) : list Z :=
  match l with
  | [] => []
  | c :: l => match no_zeros l with [] => if c =? 48 then [] else [c] | t => c :: t end
  end.
(** Whole part and fraction of a number (Utils.h:152). *)
Definition pointed (whole part : list Z) : list Z := whole ++ match no_zeros part with [] => [] | t => 46 :: t end.
(** %g of a positive number: with an exponent if that is below -4 or not below the precision (C11 7.21.6.1).
    *)
Definition general_pos (p : nat) (n d : Z) : list Z :=
  let (m, x) := digits_of p n d in
  let s := dec_digits p m in
  if (x <? -4) || (Z.of_nat p <=? x) then
    pointed (firstn 1 s) (skipn 1 s) ++ 101 :: (if x <? 0 then 45 else 43) :: pad0 2 (Z.abs x)
  else if 0 <=? x then pointed (firstn (Z.to_nat (x + 1)) s) (skipn (Z.to_nat (x + 1)) s)
  else pointed [48] (repeat 48 (Z.to_nat (- x - 1)) ++ s).
(** %.<prec>g of a double: Utils.h:152, and what operator<< of a double writes when not fixed. *)
Definition general (prec : nat) (x : double) : list Z :=
  let p := match prec with O => 1%nat | _ => prec end in
  if fst x =? 0 then [48]
  else
    let n := if 0 <=? snd x then Z.abs (fst x) * 2 ^ snd x else Z.abs (fst x) in
    let d := if 0 <=? snd x then 1 else 2 ^ (- snd x) in
    (if fst x <? 0 then [45] else []) ++ general_pos p n d.

(** Statistic::getAvg, Utils.h:137-139, with the rounding of the division *)
Definition average (s : stat) : double := if mCnt s =? 0 then of_z 0 else dquot (mSum s) (mCnt s).
(** os << double, Utils.h:145-154 *)
Definition put_double (os : stream) (x : double) : stream := put os (if is_fixed os then fixed_text (precision os) x else general (precision os) x).
(** os << integer, Utils.h:145-154 *)
Definition put_int (os : stream) (z : Z) : stream := put os (sprintf_ld z).
(** sprintf into char[10], strchr and strcpy, Utils.h:151-153.  strcpy between places that overlap is
    undefined; [front] is a library that copies from the front. *)
Fixpoint from (c : Z) (s : list Z) : option (list Z * list Z) :=
  match s with
  | [] => None
  | x :: s => if x =? c then Some ([], x :: s) else match from c s with Some (a, b) => Some (x :: a, b) | None => None end
  end.
(** The text of the count, Utils.h:150-155. *)
Definition short (front : bool) (cnt : Z) : res (list Z) :=
  let buf := general 3 (of_z cnt) in
  if (10 <=? length buf)%nat then UB
  else match from 101 buf with
       | Some (a, e :: 43 :: r) => match r with [] => Ok (a ++ [e]) | _ => if front then Ok (a ++ e :: r) else UB end
       | _ => Ok buf
       end.
(** Statistic::text, Utils.h:144-160, LOGVAR2, Logger.h:91 *)
Definition text (front : bool) (os : stream) (s : stat) : res stream :=
  let os := put_int (put os (lit "(")) (mCurrent s) in
  do os <- (if mMin s =? mMax s then Ok os
            else
              let os := put_int (put os (lit " min=")) (mMin s) in
              let os := put_int (put os (lit " max=")) (mMax s) in
              let os := put_double (put os (lit " avg=")) (average s) in
              let os := put os (lit " N=") in
              if mCnt s <=? 999999 then Ok (put_int os (mCnt s))
              else do n <- short front (mCnt s); Ok (put os n));
  Ok (put os (lit ")")).
