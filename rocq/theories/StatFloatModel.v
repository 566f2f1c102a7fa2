(** Model of Statistic<float> and Statistic<double> (Utils.h:118-160) and of printing them (Utils.cpp:474-475).

    Numbers as in F16Float.v, so the sign of zero is dropped; a double is rounded to 53 bits, denormal below and
    infinite above, ties to even.  A float is made a double without loss. *)
From Verif Require Import Base UtilsModel F16Float FloatNumModel SecondsModel StatTextModel PrintModel.
Local Open Scope Z_scope.

(** ** double with its limits *)
(** n/d (n >= 0, d > 0) rounded to a double (+= of Utils.h:131 and / of Utils.h:138) *)
Definition q64_pos (n d : Z) : float :=
  if n =? 0 then Fin 0 0
  else
    let e := Z.max (-1074) (flog n d - 52) in
    let m := if 0 <=? e then rhe n (d * 2 ^ e) else rhe (n * 2 ^ (- e)) d in
    if (971 <? e) || ((e =? 971) && (m =? 2 ^ 53)) then Inf false else Fin m e.
(** The same for a numerator of any sign (Utils.h:131, 138). *)
Definition q64 (n d : Z) : float := if n <? 0 then fneg (q64_pos (- n) d) else q64_pos n d.
(** A number m * 2^e divided by d > 0 (Utils.h:138); rounded if d is 1 (Utils.h:131) *)
Definition over64 (m e d : Z) : float := if 0 <=? e then q64 (m * 2 ^ e) d else q64 m (d * 2 ^ (- e)).
(** + of doubles, Utils.h:131 *)
Definition add64 (a b : float) : float :=
  match a, b with
  | Fin m x, Fin n y => let z := Z.min x y in over64 (m * 2 ^ (x - z) + n * 2 ^ (y - z)) z 1
  | Inf s, Inf t => if eqb s t then a else NaN
  | NaN, _ | _, NaN => NaN
  | Inf _, _ => a
  | _, Inf _ => b
  end.

(** ** Statistic, Utils.h:118-124 *)
Record fstat := FStat { fCur : float; fMin : float; fMax : float; fCnt : Z; fSum : float }.
(** Statistic(), Utils.h:124 *)
Definition fnew : fstat := FStat (Fin 0 0) (Fin 0 0) (Fin 0 0) 0 (Fin 0 0).
(** addPoint, Utils.h:126-133 *)
Definition fadd_point (s : fstat) (v : float) : fstat :=
  FStat v (if (fCnt s =? 0) || flt v (fMin s) then v else fMin s) (if (fCnt s =? 0) || fgt v (fMax s) then v else fMax s)
    (u32 (fCnt s + 1)) (add64 (fSum s) v).
(** A new object after these calls of addPoint (Utils.h:124-133). *)
Definition fpoints (l : list float) : fstat := fold_left fadd_point l fnew.
(** getCurrent, Utils.h:134-136 *)
Definition fcurrent (s : fstat) : float := if fCnt s =? 0 then Fin 0 0 else fCur s.
(** getAvg, Utils.h:137-139; the count becomes a double without loss *)
Definition favg (s : fstat) : float :=
  if fCnt s =? 0 then Fin 0 0 else match fSum s with Fin m e => over64 m e (fCnt s) | x => x end.
(** text, Utils.h:144-160, and operator<<, Utils.cpp:474-475 *)
Definition ftext (front : bool) (os : stream) (s : fstat) : res stream :=
  let os := put_float (put os (lit "(")) (fCur s) in
  do os <- (if feq (fMin s) (fMax s) then Ok os
            else
              let os := put_float (put os (lit " min=")) (fMin s) in
              let os := put_float (put os (lit " max=")) (fMax s) in
              let os := put_float (put os (lit " avg=")) (favg s) in
              let os := put os (lit " N=") in
              if fCnt s <=? 999999 then Ok (put_int os (fCnt s))
              else do n <- short front (fCnt s); Ok (put os n));
  Ok (put os (lit ")")).
