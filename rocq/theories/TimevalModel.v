(** Model of Timeval (Timeval.h, Timeval.cpp).

    A time is a pair of struct timeval fields; the clock (gettimeofday) is an
    argument.  [long] is 64 bits and no sum comes near its end, so tv_sec and tv_usec
    are unbounded numbers; the 32-bit computations of delta and addMinutes are exact.
    Left out: seconds(), printing, isoTime. *)
From Verif Require Import Base.
Local Open Scope Z_scope.

(** class Timeval, Timeval.h:41-46: a struct timeval. *)
Record timeval := TV { tv_sec : Z; tv_usec : Z }.

(** Timeval.cpp:34-45, with the clock value in [now] and 0 <= offset < 2^32. *)
Definition future (now : timeval) (offset : Z) : timeval :=
  let sec := offset / 1000 in
  let msec := offset mod 1000 in
  let us := tv_usec now + msec * 1000 in
  let s := tv_sec now + sec in
  if 1000000 <? us then TV (s + 1) (us - 1000000) else TV s us.

(** Timeval.cpp:48-54: seconds and nanoseconds. *)
Definition timespec (t : timeval) : Z * Z := (tv_sec t, 1000 * tv_usec t).

(** Timeval.cpp:57-64. *)
Definition passed (t now : timeval) : bool :=
  if tv_sec now <? tv_sec t then false
  else if tv_sec t <? tv_sec now then true
  else if tv_usec t <? tv_usec now then true
  else false.

(** Timeval.h:80-81: sec() and usec() are uint32_t. *)
Definition sec_ (t : timeval) : Z := u32 (tv_sec t).
(** usec(), Timeval.h:81 *)
Definition usec_ (t : timeval) : Z := u32 (tv_usec t).

(** Timeval.cpp:73-79: differences taken in uint32_t and stored in int32_t; the
    product and the sum are computed in int. *)
Definition delta (t other : timeval) : res Z :=
  let deltaS := s32 (sec_ other - sec_ t) in
  let deltaUs := s32 (usec_ other - usec_ t) in
  do a <- int_ (1000 * deltaS);
  int_ (a + Z.quot deltaUs 1000).

(** Timeval.h:87, 90. *)
Definition elapsed (t now : timeval) : res Z := delta t now.
(** remaining(), Timeval.h:90 *)
Definition remaining (t now : timeval) : res Z := do d <- elapsed t now; Ok (- d).

(** Timeval.h:96: minutes*60 is unsigned. *)
Definition addMinutes (t : timeval) (minutes : Z) : timeval := TV (tv_sec t + u32 (minutes * 60)) (tv_usec t).
