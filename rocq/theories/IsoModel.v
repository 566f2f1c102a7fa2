(** Model of the texts of times: Timeval::isoTime (Timeval.cpp:98-115) and timestr (Utils.cpp:281-305).

    gmtime_r is the Gregorian calendar without leap seconds; it fails if tm_year does not fit in
    an int.  localtime_r is the same for the time shifted by the offset of the time zone at that
    time, off. *)
From Verif Require Import Base ConfigModel UtilsModel.
Local Open Scope Z_scope.

(** ** The calendar of gmtime_r *)
(** gmtime_r of Timeval.cpp:105 and localtime_r of 103 and Utils.cpp:286 *)
Definition leap (y : Z) : bool := (y mod 4 =? 0) && (negb (y mod 100 =? 0) || (y mod 400 =? 0)).
(** The lengths of the months of year y (gmtime_r of Timeval.cpp:105 and localtime_r of 103 and Utils.cpp:286). *)
Definition months (y : Z) : list Z := [31; if leap y then 29 else 28; 31; 30; 31; 30; 31; 31; 30; 31; 30; 31].
(** Days from 1970-01-01 to the first day of year y. *)
Definition days_before (y : Z) : Z :=
  365 * (y - 1970) + ((y - 1) / 4 - 1969 / 4) - ((y - 1) / 100 - 1969 / 100) + ((y - 1) / 400 - 1969 / 400).
(** The year of a day (gmtime_r of Timeval.cpp:105 and localtime_r of 103 and Utils.cpp:286). *)
Definition year_of (day : Z) : Z :=
  let y := 1970 + 400 * day / 146097 in
  if day <? days_before y then y - 1 else if days_before (y + 1) <=? day then y + 1 else y.
(** The month and the day in it (gmtime_r of Timeval.cpp:105 and localtime_r of 103 and Utils.cpp:286). *)
Fixpoint month_of (l : list Z) (m yday : Z) : Z * Z :=
  match l with
  | [] => (m, yday + 1)
  | len :: l => if yday <? len then (m, yday + 1) else month_of l (m + 1) (yday - len)
  end.
(** Year, month and day (gmtime_r of Timeval.cpp:105 and localtime_r of 103 and Utils.cpp:286). *)
Definition date_of (day : Z) : Z * Z * Z :=
  let y := year_of day in
  let '(m, d) := month_of (months y) 1 (day - days_before y) in (y, m, d).

(** struct tm (gmtime_r of Timeval.cpp:105 and localtime_r of 103 and Utils.cpp:286) *)
Record tm := Tm { tm_year : Z; tm_mon : Z; tm_mday : Z; tm_hour : Z; tm_min : Z; tm_sec : Z }.
(** gmtime_r: None if it fails, which leaves the caller's struct as it was (gmtime_r of Timeval.cpp:105 and localtime_r of 103 and Utils.cpp:286). *)
Definition gmtime_r (t : Z) : option tm :=
  let '(y, m, d) := date_of (t / 86400) in
  let s := t mod 86400 in
  if fits32 (y - 1900) then Some (Tm (y - 1900) (m - 1) d (s / 3600) (s / 60 mod 60) (s mod 60)) else None.
(** localtime_r, Timeval.cpp:103 and Utils.cpp:286 *)
Definition localtime_r (off : Z -> Z) (t : Z) : option tm := gmtime_r (t + off t).

(** ** Printing *)
(** %0<k>d: the sign counts. *)
Definition pad0 (k : nat) (v : Z) : list Z :=
  let d := dec_digits 20 (Z.abs v) in
  let k := if v <? 0 then (k - 1)%nat else k in
  (if v <? 0 then [45] else []) ++ repeat 48 (k - length d) ++ d.
(** Timeval::isoTime, Timeval.cpp:98-110; the struct is not initialised, so it is undefined
    behaviour to print it if the conversion failed; snprintf is given 99 bytes. *)
Definition isoTime (off : Z -> Z) (t : Z) (isLocal : bool) : res (list Z) :=
  match (if isLocal then localtime_r off t else gmtime_r t) with
  | None => UB
  | Some b =>
      do year <- int_ (tm_year b + 1900); do mon <- int_ (tm_mon b + 1);
      Ok (c_str (vsnprintf_buf 99 (pad0 4 year ++ lit "-" ++ pad0 2 mon ++ lit "-" ++ pad0 2 (tm_mday b) ++ lit "T" ++
           pad0 2 (tm_hour b) ++ lit ":" ++ pad0 2 (tm_min b) ++ lit ":" ++ pad0 2 (tm_sec b) ++
           (if Bool.eqb isLocal false then lit "Z" else []))))
  end.
(** timestr, Utils.cpp:281-296, at the time sec, usec *)
Definition timestr (off : Z -> Z) (sec usec : Z) (fieldwidth : Z) (addDate : bool) : res (list Z) :=
  match localtime_r off sec with
  | None => UB
  | Some b =>
      let tenths := u32 (Z.quot usec 100000) in
      do result <-
        (if addDate then
           do year <- int_ (tm_year b + 1900); do mon <- int_ (tm_mon b + 1);
           Ok (format (lit " " ++ pad0 4 year ++ lit "-" ++ pad0 2 mon ++ lit "-" ++ pad0 2 (tm_mday b) ++ lit "T" ++
             pad0 2 (tm_hour b) ++ lit ":" ++ pad0 2 (tm_min b) ++ lit ":" ++ pad0 2 (tm_sec b) ++ lit "." ++ pad0 1 tenths))
         else Ok (format (lit " " ++ pad0 2 (tm_hour b) ++ lit ":" ++ pad0 2 (tm_min b) ++ lit ":" ++ pad0 2 (tm_sec b) ++ lit "." ++ pad0 1 tenths)));
      let size := Z.of_nat (length result) in
      Ok (skipn (Z.to_nat (if size <=? fieldwidth then 0 else size - fieldwidth)) result)
  end.
(** Utils.cpp:305; addDate is false by default, Utils.h:35 *)
Definition timestr_default (off : Z -> Z) (sec usec : Z) : res (list Z) := timestr off sec usec 12 false.
