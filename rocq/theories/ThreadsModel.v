(** Model of Mutex (Threads.h:74-115, Threads.cpp:89-189), of the timed lock and of
    ScopedLockMultiple (Threads.h:178-223, Threads.cpp:208-265).

    POSIX calls are modelled by their specification: a recursive mutex has an owner and a
    depth; pthread_cond_wait gives up one level of the mutex and takes it again before it
    returns (glibc); pthread_mutex_timedlock answers EINVAL for an invalid deadline when
    it would have to block.  mLockCnt is an unbounded integer (no program nests 2^31
    locks).  Left out: LOCKLOG output, backtraces, mLockerLine (written and read with
    mLockerFile). *)
From Verif Require Import Base TimevalModel.

(** ** One mutex, any number of threads *)

(** Where a thread is: outside any call; in lock()/trylock() with the pthread mutex
    taken and the site still to be noted; in unlock() after mLockCnt-- and before
    pthread_mutex_unlock; asleep in Signal::wait on this mutex (Threads.cpp:89-189). *)
Inductive tpc := TOut | TRec (file : Z) | TRel | TWait.

(** [t_sites]: sites of the lock calls the thread has made and not yet undone, last one
    first (a ghost: what the client did) (Threads.cpp:89-189). *)
Record thr := Thr { t_pc : tpc; t_sites : list Z }.

Record mtx := Mtx {
  m_own : option nat;         (* owner of the pthread mutex *)
  m_dep : nat;                (* its recursion depth *)
  m_cnt : Z;                  (* mLockCnt, Threads.h:80 *)
  m_file : list Z             (* mLockerFile, Threads.h:85 *)
}.
Definition maxLocks : nat := 5.   (* Threads.h:84 *)

Record mstate := MS { s_m : mtx; s_t : list thr }.

(** What a thread does next: steps of lock (Threads.cpp:159-181), trylock (110-121), unlock (183-189) and of
    Signal::wait (267-277). *)
Inductive mevent :=
| Acquire (t : nat) (file : Z)    (* the pthread call in lock or trylock gets the mutex *)
| TryFail (t : nat)               (* pthread_mutex_trylock says EBUSY *)
| Note (t : nat)                  (* rest of lock / trylock *)
| Uncount (t : nat)               (* unlock: up to and with mLockCnt-- *)
| Release (t : nat)               (* unlock: pthread_mutex_unlock *)
| Sleep (t : nat)                 (* Signal::wait begins *)
| Wake (t : nat).                 (* Signal::wait returns *)

(** May thread [t] take the pthread mutex now? (Threads.cpp:89-189) *)
Definition avail (m : mtx) (t : nat) : bool :=
  match m_own m with None => true | Some u => Nat.eqb u t end.

(** pthread_mutex_lock when [avail] (Threads.cpp:89-189). *)
Definition take (m : mtx) (t : nat) : mtx := Mtx (Some t) (S (m_dep m)) (m_cnt m) (m_file m).

(** pthread_mutex_unlock by the owner (Threads.cpp:89-189). *)
Definition give (m : mtx) : mtx :=
  match m_dep m with
  | O => m
  | S O => Mtx None O (m_cnt m) (m_file m)
  | S d => Mtx (m_own m) d (m_cnt m) (m_file m)
  end.

(** Threads.cpp:113-116 and 175-178. *)
Definition note (m : mtx) (file : Z) : res mtx :=
  do f <- (if ((0 <=? m_cnt m) && (m_cnt m <? Z.of_nat maxLocks))%Z
           then wr (m_file m) (Z.to_nat (m_cnt m)) file else Ok (m_file m));
  Ok (Mtx (m_own m) (m_dep m) (m_cnt m + 1) f).

(** Threads.h:87: lockerFile(). *)
Definition lockerFile (m : mtx) : res Z :=
  let i := (m_cnt m - 1)%Z in
  if ((0 <=? i) && (i <? Z.of_nat maxLocks))%Z then rd (m_file m) (Z.to_nat i) else Ok 0%Z.

(** Threads.cpp:185-187. *)
Definition uncount (m : mtx) : res mtx :=
  do _ <- lockerFile m;
  Ok (Mtx (m_own m) (m_dep m) (m_cnt m - 1) (m_file m)).

(** Threads.cpp:134-148: the sites mutext() prints (0 prints as "?"). *)
Definition mutext (m : mtx) : list Z := firstn (Z.to_nat (m_cnt m)) (firstn maxLocks (m_file m)).

(** The mutex and one thread changed; not in the source. *)
Definition with_t (s : mstate) (t : nat) (m : mtx) (x : thr) : mstate := MS m (upd (s_t s) t x).

(** [None]: the event cannot happen in this state (Threads.cpp:89-189 and 267-277). *)
Definition mstep (s : mstate) (e : mevent) : option (res mstate) :=
  match e with
  | Acquire t file =>
      match nth_error (s_t s) t with
      | Some (Thr TOut l) => if avail (s_m s) t then Some (Ok (with_t s t (take (s_m s) t) (Thr (TRec file) l))) else None
      | _ => None
      end
  | TryFail t =>
      match nth_error (s_t s) t with
      | Some (Thr TOut l) => if avail (s_m s) t then None else Some (Ok s)
      | _ => None
      end
  | Note t =>
      match nth_error (s_t s) t with
      | Some (Thr (TRec file) l) => Some (do m <- note (s_m s) file; Ok (with_t s t m (Thr TOut (file :: l))))
      | _ => None
      end
  | Uncount t =>     (* duty of the client: only a thread that holds a lock calls unlock *)
      match nth_error (s_t s) t with
      | Some (Thr TOut (f :: l)) => Some (do m <- uncount (s_m s); Ok (with_t s t m (Thr TRel l)))
      | _ => None
      end
  | Release t =>
      match nth_error (s_t s) t with
      | Some (Thr TRel l) => Some (Ok (with_t s t (give (s_m s)) (Thr TOut l)))
      | _ => None
      end
  | Sleep t =>       (* duty of the client: wait is called with the mutex held *)
      match nth_error (s_t s) t with
      | Some (Thr TOut (f :: l)) => Some (Ok (with_t s t (give (s_m s)) (Thr TWait (f :: l))))
      | _ => None
      end
  | Wake t =>
      match nth_error (s_t s) t with
      | Some (Thr TWait l) => if avail (s_m s) t then Some (Ok (with_t s t (take (s_m s) t) (Thr TOut l))) else None
      | _ => None
      end
  end.

(** Mutex::Mutex, Threads.cpp:89-100. *)
Definition minit (n : nat) : mstate := MS (Mtx None 0 0 (repeat 0%Z maxLocks)) (repeat (Thr TOut []) n).

(** The states after any sequence of events in any order of the threads (Threads.cpp:89-189). *)
Inductive mreach (n : nat) : list mevent -> mstate -> Prop :=
| mreach0 : mreach n [] (minit n)
| mreachS : forall tr s e s', mreach n tr s -> mstep s e = Some (Ok s') -> mreach n (tr ++ [e]) s'.

(** ** Timed lock *)

(** Threads.cpp:124-129 *)
Inductive errno := E0 | ETIMEDOUT | EINVAL.

(** pthread_mutex_timedlock: [now] the mutex can be taken at once; [later] it becomes
    free for us before the deadline (Threads.cpp:124-129). *)
Definition pthread_mutex_timedlock (now later : bool) (ts : Z * Z) : errno :=
  if now then E0
  else if ((0 <=? snd ts) && (snd ts <? 1000000000))%Z then (if later then E0 else ETIMEDOUT)
  else EINVAL.

(** Threads.cpp:124-129: the value returned and whether the caller has the mutex.
    [msecs] is converted to unsigned by Timeval(unsigned offset). *)
Definition timedlock (clock : timeval) (msecs : Z) (now later : bool) : bool * bool :=
  let r := pthread_mutex_timedlock now later (timespec (future clock (u32 msecs))) in
  (match r with ETIMEDOUT => false | _ => true end, match r with E0 => true | _ => false end).

(** Threads.cpp:159-174: how lock(file,line) comes to have the mutex when it goes on to
    note the site; _lock() returns only with the mutex. *)
Definition lock_has_mutex (file : bool) (clock : timeval) (now later : bool) : bool :=
  if file then let (r, got) := timedlock clock 1000 now later in if r then got else true
  else true.

(** ** ScopedLockMultiple: any number of threads and mutexes *)

(** One statement of _lockAll (Threads.cpp:245-265) or of the destructor. *)
Inductive instr :=
| ILock (w next : nat)            (* _lock(w) *)
| ITry (w yes no : nat)           (* _trylock(w) *)
| IUnlock (w next : nat)          (* _unlock(w) *)
| IBody (next : nat)              (* the constructor has returned; the scope ends *)
| IRestore (w next : nat)         (* one iteration of _restoreState *)
| IEnd.

(** _lockAll as a program, Threads.cpp:245-265 (0-14), the scope (15) and the destructor with _restoreState
    (16-18), 239-243. *)
Definition prog (pc : nat) : instr :=
  match pc with
  | 0 => ILock 0 1
  | 1 => ITry 1 2 3
  | 2 => ITry 2 15 3
  | 3 => IUnlock 1 4
  | 4 => IUnlock 0 5
  | 5 => ILock 1 6
  | 6 => ITry 0 7 8
  | 7 => ITry 2 15 8
  | 8 => IUnlock 0 9
  | 9 => IUnlock 1 10
  | 10 => ILock 2 11
  | 11 => ITry 0 12 13
  | 12 => ITry 1 15 13
  | 13 => IUnlock 0 14
  | 14 => IUnlock 2 0
  | 15 => IBody 16
  | 16 => IRestore 0 17
  | 17 => IRestore 1 18
  | 18 => IRestore 2 19
  | _ => IEnd
  end.

(** Threads.h:180-182. *)
Record sthr := ST { st_pc : nat; st_m : list nat; st_own : list bool; st_state : list bool }.

(** The mutexes: [None] free, [Some (t, d)] held by t with depth d (Threads.h:180). *)
Definition mutexes := list (option (nat * nat)).
(** The mutexes and the threads with their ScopedLockMultiple objects (Threads.h:178-223). *)
Record sstate := SS { ss_mx : mutexes; ss_t : list sthr }.

(** Mutex::lock / trylock: [None] when another thread has it (Threads.cpp:89-189). *)
Definition acq (mx : mutexes) (j t : nat) : option mutexes :=
  match nth_error mx j with
  | Some None => Some (upd mx j (Some (t, 1)))
  | Some (Some (u, d)) => if Nat.eqb u t then Some (upd mx j (Some (t, S d))) else None
  | None => None
  end.

(** Mutex::unlock; without effect on the pthread mutex when the caller is not the owner (Threads.cpp:89-189). *)
Definition rel (mx : mutexes) (j t : nat) : mutexes :=
  match nth_error mx j with
  | Some (Some (u, S d)) => if Nat.eqb u t then upd mx j (match d with O => None | _ => Some (t, d) end) else mx
  | _ => mx
  end.

(** mOwn[w] or mState[w], Threads.h:180-182 *)
Definition bit (l : list bool) (w : nat) : bool := nth w l false.
(** *mA[w], Threads.h:180: which mutex it is. *)
Definition mid (x : sthr) (w : nat) : nat := nth w (st_m x) 0.
(** The next statement of Threads.cpp:245-265. *)
Definition goto (x : sthr) (pc : nat) : sthr := ST pc (st_m x) (st_own x) (st_state x).
(** mState[w] = b, Threads.cpp:213-226 *)
Definition setst (x : sthr) (w : nat) (b : bool) (pc : nat) : sthr := ST pc (st_m x) (st_own x) (upd (st_state x) w b).

(** One statement by thread [t]; [None]: it blocks (or has ended) (Threads.cpp:208-265). *)
Definition sexec (mx : mutexes) (t : nat) (x : sthr) : option (mutexes * sthr) :=
  match prog (st_pc x) with
  | ILock w next =>          (* Threads.cpp:213-217 *)
      if bit (st_state x) w then Some (mx, goto x next)
      else match acq mx (mid x w) t with
           | Some mx' => Some (mx', setst x w true next)
           | None => None
           end
  | ITry w yes no =>         (* Threads.cpp:218-222 *)
      if bit (st_state x) w then Some (mx, goto x yes)
      else match acq mx (mid x w) t with
           | Some mx' => Some (mx', setst x w true yes)
           | None => Some (mx, goto x no)
           end
  | IUnlock w next =>        (* Threads.cpp:223-226 *)
      if bit (st_state x) w then Some (rel mx (mid x w) t, setst x w false next)
      else Some (mx, setst x w false next)
  | IBody next => Some (mx, goto x next)
  | IRestore w next =>       (* Threads.cpp:239-243 *)
      if negb (bit (st_own x) w) && bit (st_state x) w then Some (rel mx (mid x w) t, setst x w false next)
      else if bit (st_own x) w && negb (bit (st_state x) w) then
        match acq mx (mid x w) t with
        | Some mx' => Some (mx', setst x w true next)
        | None => None
        end
      else Some (mx, goto x next)
  | IEnd => None
  end.

(** Threads.cpp:208-212, 227-236: _init and _saveState. *)
Definition sinit (own : list bool) (ms : list nat) : sthr := ST 0 ms own own.

(** A thread runs one statement, or, having ended with nothing owned, builds another
    ScopedLockMultiple over other mutexes (Threads.cpp:208-265). *)
Inductive sevent := SRun (t : nat) | SAgain (t : nat) (ms : list nat).

(** One event: a statement of Threads.cpp:208-265, or a new ScopedLockMultiple of a thread that is done. *)
Definition sstep (s : sstate) (e : sevent) : option sstate :=
  match e with
  | SRun t =>
      match nth_error (ss_t s) t with
      | Some x => match sexec (ss_mx s) t x with
                  | Some (mx, x') => Some (SS mx (upd (ss_t s) t x'))
                  | None => None
                  end
      | None => None
      end
  | SAgain t ms =>
      match nth_error (ss_t s) t with
      | Some x =>
          if (Nat.eqb (st_pc x) 19 && Nat.eqb (length ms) 3 && forallb (fun j => Nat.ltb j (length (ss_mx s))) ms
              && negb (existsb (fun b => b) (st_own x)))%bool
          then Some (SS (ss_mx s) (upd (ss_t s) t (sinit [false; false; false] ms)))
          else None
      | None => None
      end
  end.
