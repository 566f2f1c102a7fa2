(** Model of the calls of Interthread.h that wait up to a number of milliseconds, with the clock.

    One thread executes the call.  Everything else is its surroundings: the clock (gettimeofday,
    which pthread_cond_timedwait uses too) is set, other threads lock the mutex, change the
    contents while they have it and release it, and the sleeping thread is woken by a signal or
    for no reason.  Monitor.v has the same calls with any number of threads and an arbitrary
    answer of the clock; here the answer is computed.

    Simplified: the thread does not have the mutex when it makes the call; a wait whose time has
    already passed falls asleep and can be woken at once.  iqWaitForEither with timeout 0, which
    has no deadline, is left out. *)
From Verif Require Import Base TimevalModel.
Local Open Scope Z_scope.

(** gettimeofday, the clock being in microseconds since 1970. *)
Definition tod (c : Z) : timeval := TV (c / 1000000) (c mod 1000000).

(** [KQueue]: read(timeout) of InterthreadQueue, InterthreadQueueWithWait and
    InterthreadPriorityQueue, Interthread.h:269-283, 382-400, 701-714, which read the clock before they lock;
    [KMap]: InterthreadMap1::get(key,result,timeout), Interthread.h:504-520, which locks first;
    [KEither]: iqWaitForEither(other,timeout), Interthread.h:220-226. *)
Inductive kind := KQueue | KMap | KEither.
(** The mutex of the queue or map (Interthread.h:119, 333, 448 and 648): free, with the thread, with another
    one. *)
Inductive holder := Free | Mine | Others.
(** What the thread does next (Interthread.h:220-283, 382-400, 504-520 and 701-714). *)
Inductive stage :=
| SClock                       (* Timeval waitTime(timeout) *)
| SLock                        (* ScopedLock lock *)
| STest                        (* is there something to take? *)
| SRest                        (* waitTime.remaining() *)
| SWait (r : Z)                (* Signal::wait(mutex,r) *)
| SAsleep (t : Z * Z)          (* until the time t in seconds and nanoseconds *)
| SRelock                      (* woken, needs the mutex again *)
| SDone (r : option Z).
(** [contents]: what the queue or map holds; [seen] is only for statements: the clock when the thread last computed the rest (Interthread.h:220-283, 382-400, 504-520 and 701-714). *)
Record world (T : Type) := W { clock : Z; mutex : holder; contents : T; at_ : stage; deadline : timeval; seen : Z }.
Arguments W {T}. Arguments clock {T}. Arguments mutex {T}. Arguments contents {T}. Arguments at_ {T}. Arguments deadline {T}. Arguments seen {T}.
(** The thread is at another place of Interthread.h:220-283, 382-400, 504-520 and 701-714. *)
Definition goto {T} (w : world T) (s : stage) : world T := W (clock w) (mutex w) (contents w) s (deadline w) (seen w).
(** The mutex changes hands (Interthread.h:220-283, 382-400, 504-520 and 701-714). *)
Definition with_mutex {T} (w : world T) (m : holder) : world T := W (clock w) m (contents w) (at_ w) (deadline w) (seen w).
(** The end of the call: the ScopedLock releases the mutex (Interthread.h:220-283, 382-400, 504-520 and 701-714). *)
Definition finish {T} (w : world T) (s : T) (r : option Z) : world T := W (clock w) Free s (SDone r) (deadline w) (seen w).

(** Signal::wait, Threads.cpp:271-277: the time up to which to sleep, or none if it returns at once:
    time not positive, or pthread_cond_timedwait answers EINVAL. *)
Definition sleep_until (c r : Z) : option (Z * Z) :=
  if r <=? 0 then None
  else let t := timespec (future (tod c) (u32 r)) in
       if (0 <=? snd t) && (snd t <? 1000000000) then Some t else None.
(** Is the time of pthread_cond_timedwait, in nanoseconds, over (Threads.cpp:271-277)? *)
Definition reached (t : Z * Z) (c : Z) : bool := 1000000000 * fst t + snd t <=? 1000 * c.

(** One step of the thread.  [take]: what the call finds and what it leaves (Interthread.h:220-283, 382-400, 504-520 and 701-714). *)
Definition mine {T} (take : T -> option (Z * T)) (k : kind) (ms : Z) (w : world T) : res (world T) :=
  match at_ w with
  | SClock => Ok (W (clock w) (mutex w) (contents w) (match k with KQueue => SLock | _ => STest end) (future (tod (clock w)) ms) (seen w))
  | SLock => match mutex w with
             | Free => Ok (goto (with_mutex w Mine) (if ms =? 0 then STest else match k with KQueue => STest | _ => SClock end))
             | _ => Diverge
             end
  | STest => match take (contents w) with
             | Some (r, s) => Ok (finish w s (Some r))
             | None => Ok (if ms =? 0 then finish w (contents w) None else goto w SRest)
             end
  | SRest =>
      do r <- remaining (deadline w) (tod (clock w));
      let w := W (clock w) (mutex w) (contents w) (SWait r) (deadline w) (clock w) in
      Ok (match k with KEither => w | _ => if r <? 2 then finish w (contents w) None else w end)
  | SWait r => match sleep_until (clock w) r with
               | Some t => Ok (goto (with_mutex w Free) (SAsleep t))
               | None => Ok (goto w STest)
               end
  | SAsleep t => if reached t (clock w) then Ok (goto w SRelock) else Diverge
  | SRelock => match mutex w with Free => Ok (goto (with_mutex w Mine) STest) | _ => Diverge end
  | SDone _ => Diverge
  end.

(** [Me]: the thread; the others: the clock is set, another thread locks, changes the contents, unlocks; a wake-up (Interthread.h:220-283, 382-400, 504-520 and 701-714). *)
Inductive event (T : Type) := Me | Clock (c : Z) | Lock | Change (s : T) | Unlock | Wake.
Arguments Me {T}. Arguments Clock {T}. Arguments Lock {T}. Arguments Change {T}. Arguments Unlock {T}. Arguments Wake {T}.
(** One event: a step of the thread (Interthread.h:220-283, 382-400, 504-520, 701-714), or of its
    surroundings. *)
Definition step {T} (take : T -> option (Z * T)) (k : kind) (ms : Z) (w : world T) (e : event T) : res (world T) :=
  match e with
  | Me => mine take k ms w
  | Clock c => Ok (W c (mutex w) (contents w) (at_ w) (deadline w) (seen w))
  | Lock => match mutex w with Free => Ok (with_mutex w Others) | _ => Diverge end
  | Change s => match mutex w with Others => Ok (W (clock w) Others s (at_ w) (deadline w) (seen w)) | _ => Diverge end
  | Unlock => match mutex w with Others => Ok (with_mutex w Free) | _ => Diverge end
  | Wake => Ok (match at_ w with SAsleep _ => goto w SRelock | _ => w end)
  end.
(** Events one after the other (Interthread.h:220-283, 382-400, 504-520 and 701-714). *)
Fixpoint runs {T} (take : T -> option (Z * T)) (k : kind) (ms : Z) (w : world T) (l : list (event T)) : res (world T) :=
  match l with
  | [] => Ok w
  | e :: l => do w <- step take k ms w e; runs take k ms w l
  end.
(** The call with timeout [ms] is about to begin (Interthread.h:220-283, 382-400, 504-520 and 701-714). *)
Definition start {T} (k : kind) (ms c : Z) (m : holder) (s : T) : world T :=
  W c m s (if ms =? 0 then SLock else match k with KQueue => SClock | _ => SLock end) (TV 0 0) c.

(** What the calls take.  Queues, Interthread.h:281 and 397: the first element. *)
Definition take_first (q : list Z) : option (Z * list Z) := match q with [] => None | x :: t => Some (x, t) end.
(** Maps, Interthread.h:509-514. *)
Fixpoint find_key (m : list (Z * Z)) (key : Z) : option Z :=
  match m with [] => None | (j, v) :: t => if j =? key then Some v else find_key t key end.
(** mMap.erase, Interthread.h:513 *)
Fixpoint drop_key (m : list (Z * Z)) (key : Z) : list (Z * Z) :=
  match m with [] => [] | (j, v) :: t => if j =? key then t else (j, v) :: drop_key t key end.
(** get of a map, Interthread.h:509-514: the value, and the map without it if [remove]. *)
Definition take_key (key : Z) (remove : bool) (m : list (Z * Z)) : option (Z * list (Z * Z)) :=
  match find_key m key with Some v => Some (v, if remove then drop_key m key else m) | None => None end.
(** iqWaitForEither, Interthread.h:224: it takes nothing. *)
Definition either (s : list Z * list Z) : option (Z * (list Z * list Z)) := match s with ([], []) => None | _ => Some (0, s) end.
