(** Model of the end of an object of Interthread.h that writers share with one reader: the reader reads the messages it
    expects, and then destroys the object. The question is what the writers still do to it (Interthread.h:296-321 write and
    write_front of InterthreadQueue, 415-422 of InterthreadQueueWithWait, 724-730 of InterthreadPriorityQueue, 469-481 of
    InterthreadMap, 752-757 post of Semaphore).

    Simplified: one order of messages for all queues, as it does not matter here; the mutex may be destroyed once it is
    unlocked, as POSIX has it, though the thread that unlocked it has not yet returned. *)
From Verif Require Import Base.
Local Open Scope nat_scope.

(** The class: a queue (any of three), a map, a semaphore (Interthread.h:113, 328, 440, 642, 738). *)
Inductive kind := Queue | Map | Sem.
(** Is the signal given with the mutex locked? Interthread.h:307-310 and 724-729: no; 471-480 and 754-756: yes *)
Definition under (k : kind) : bool := match k with Queue => false | _ => true end.
(** A writer in write or post: not in it, with the mutex, the message put, signalled with the mutex locked, unlocked and yet to
    signal (Interthread.h:307-310, 471-481, 754-757). *)
Inductive wstage := WIdle | WLocked | WPut | WSignalled | WUnlocked.
Record writer := T { todo : list nat; at_ : wstage }.
(** The reader: between calls, with the mutex, asleep, woken, has taken a message (Interthread.h:246-255, 759-764); in the destructor
    with the mutex, past clear (Interthread.h:663-677), done. *)
Inductive rstage := RIdle | RLocked | RAsleep | RWoken | RTook | RClosing | RClosed | RDone.
(** Who has the mutex (Threads.h:78). *)
Inductive owner := Free | Reader | Writer (i : nat).
(** The object, the threads, what the reader got and what it still waits for (keys, for a map; else only their number); whether
    it joins the writers before it destroys the object (not in the source). *)
Record state := State { sort : kind; join : bool; contents : list nat; mutex : owner; dead : bool;
                        writers : list writer; stage : rstage; left : list nat; got : list nat }.
(** Is a key there? (Interthread.h:473) *)
Definition is_in (x : nat) (l : list nat) : bool := existsb (Nat.eqb x) l.
(** erase of one key, Interthread.h:494 *)
Fixpoint erase (x : nat) (l : list nat) : list nat := match l with [] => [] | y :: l => if x =? y then l else y :: erase x l end.
(** mQ.put, Interthread.h:308; mMap of key, 473-479; mFlag, 755 *)
Definition put (k : kind) (m : nat) (c : list nat) : list nat :=
  match k with Queue => c ++ [m] | Map => if is_in m c then c else m :: c | Sem => [m] end.
(** mQ.get, Interthread.h:249; find and erase, 491-494; mFlag, 762-763 *)
Definition take (k : kind) (want : nat) (c : list nat) : option (nat * list nat) :=
  match k with
  | Queue => match c with [] => None | x :: c => Some (x, c) end
  | Map => if is_in want c then Some (want, erase want c) else None
  | Sem => match c with [] => None | x :: _ => Some (x, []) end
  end.
(** The state with other fields (not in the source). *)
Definition setw (s : state) (c : list nat) (o : owner) (i : nat) (w : writer) (r : rstage) : state :=
  State (sort s) (join s) c o (dead s) (upd (writers s) i w) r (left s) (got s).
(** See [setw] (not in the source). *)
Definition setr (s : state) (c : list nat) (o : owner) (r : rstage) (l g : list nat) : state :=
  State (sort s) (join s) c o (dead s) (writers s) r l g.
(** signal and broadcast: the reader wakes if it is asleep (Interthread.h:310, 480, 756) *)
Definition wake (r : rstage) : rstage := match r with RAsleep => RWoken | _ => r end.
(** A writer goes on, Interthread.h:307-310, 471-481, 752-757; anything done to the object once it is destroyed is undefined; [Diverge]
    if it has to wait or is done. *)
Definition wstep (s : state) (i : nat) (w : writer) : res state :=
  match todo w with
  | [] => Diverge
  | m :: r =>
      if dead s then UB else
      match at_ w with
      | WIdle => match mutex s with Free => Ok (setw s (contents s) (Writer i) i (T (m :: r) WLocked) (stage s)) | _ => Diverge end
      | WLocked => Ok (setw s (put (sort s) m (contents s)) (mutex s) i (T (m :: r) WPut) (stage s))
      | WPut => if under (sort s) then Ok (setw s (contents s) (mutex s) i (T (m :: r) WSignalled) (wake (stage s)))
                else Ok (setw s (contents s) Free i (T (m :: r) WUnlocked) (stage s))
      | WSignalled => Ok (setw s (contents s) Free i (T r WIdle) (stage s))
      | WUnlocked => Ok (setw s (contents s) (mutex s) i (T r WIdle) (wake (stage s)))
      end
  end.
(** Have all writers returned? (Threads.h:299) *)
Definition finished (s : state) : bool := forallb (fun w => match todo w with [] => true | _ => false end) (writers s).
(** The reader goes on: read, Interthread.h:246-255; the destructor, 663-677, where the semaphore has no clear; then the mutex and
    the signal are destroyed, Threads.cpp:103-108. *)
Definition rstep (s : state) : res state :=
  match stage s, left s with
  | RIdle, _ :: _ | RWoken, _ => match mutex s with Free => Ok (setr s (contents s) Reader RLocked (left s) (got s)) | _ => Diverge end
  | RLocked, k :: l =>
      match take (sort s) k (contents s) with
      | Some (x, c) => Ok (setr s c (mutex s) RTook l (got s ++ [x]))
      | None => Ok (setr s (contents s) Free RAsleep (left s) (got s))
      end
  | RTook, _ => Ok (setr s (contents s) Free RIdle (left s) (got s))
  | RIdle, [] =>
      if join s && negb (finished s) then Diverge else
      match sort s with
      | Sem => Ok (setr s (contents s) (mutex s) RClosed [] (got s))
      | _ => match mutex s with Free => Ok (setr s [] Reader RClosing [] (got s)) | _ => Diverge end
      end
  | RClosing, _ => Ok (setr s (contents s) Free RClosed (left s) (got s))
  | RClosed, _ => match mutex s with
                  | Free => Ok (State (sort s) (join s) (contents s) Free true (writers s) RDone (left s) (got s))
                  | _ => UB
                  end
  | _, _ => Diverge
  end.
(** The steps: of the reader, of a writer, a wake-up without a signal (Threads.h:243). *)
Inductive label := R | L (i : nat) | Spurious.
(** One step, Interthread.h:246-757 *)
Definition step (s : state) (l : label) : res state :=
  match l with
  | R => rstep s
  | L i => match nth_error (writers s) i with Some w => wstep s i w | None => Diverge end
  | Spurious => match stage s with RAsleep => Ok (setr s (contents s) (mutex s) RWoken (left s) (got s)) | _ => Diverge end
  end.
(** Several (not in the source). *)
Fixpoint run (s : state) (ls : list label) : res state := match ls with [] => Ok s | l :: ls => do s <- step s l; run s ls end.
(** The start: the messages each writer has to write, and what the reader waits for (not in the source). *)
Definition start (k : kind) (j : bool) (progs : list (list nat)) (wants : list nat) : state :=
  State k j [] Free false (map (fun p => T p WIdle) progs) RIdle wants [].
