(** Model of a chain of threads joined by InterthreadQueues (Interthread.h:113-322): producers write to queue 0, the
    workers of stage [i] do  for (;;) q[i+1].write(q[i].read());  and the last queue collects the results.

    write puts under the lock and signals after it has released the lock (Interthread.h:296-311); read takes under the
    lock and sleeps when it gets NULL (246-255).  These are the steps here.

    Simplified: producers are counted between putting and signalling, not named; a signal wakes at most one thread,
    more may wake without cause; pointers are numbers, NULL is 0. *)
From Verif Require Import Base.
Local Open Scope Z_scope.

(** Where a worker is: about to call read(), asleep in read(), awakened there, between read() and write(), between
    the put and the signal of write() (Interthread.h:246-255, 296-311). *)
Inductive phase := Idle | Asleep | Woken | Hand (x : Z) | After.
(** The contents of the queues, the workers with the number of the queue they read, and the producers that have put
    but not signalled (Interthread.h:116-120, 296-311). *)
Record world := W { qs : nat -> list Z; workers : list (nat * phase); pend : nat }.
(** A queue with other contents (Interthread.h:116). *)
Definition set_q (q : nat -> list Z) (i : nat) (l : list Z) : nat -> list Z := fun j => if (j =? i)%nat then l else q j.
(** A worker in another phase (not in the source). *)
Definition to_phase (w : world) (t i : nat) (p : phase) : list (nat * phase) := upd (workers w) t (i, p).
(** One round of the loop of read(), Interthread.h:249-253 *)
Definition read (w : world) (t i : nat) : world :=
  match qs w i with
  | [] => W (qs w) (to_phase w t i Asleep) (pend w)
  | x :: r => W (set_q (qs w) i r) (to_phase w t i (if x =? 0 then Asleep else Hand x)) (pend w)
  end.
(** A worker asleep at queue [i] (Interthread.h:251). *)
Definition sleeps_at (i : nat) (p : nat * phase) : bool := (fst p =? i)%nat && match snd p with Asleep => true | _ => false end.
(** signal(), Interthread.h:310, Threads.h:254: one of those asleep at the queue is awakened, if there are any. *)
Definition signal (w : world) (i : nat) (u : option nat) : option world :=
  match u with
  | None => if existsb (sleeps_at i) (workers w) then None else Some w
  | Some v => match nth_error (workers w) v with
              | Some p => if sleeps_at i p then Some (W (qs w) (to_phase w v i Woken) (pend w)) else None
              | None => None
              end
  end.
(** Steps: a producer puts, a producer signals, a worker calls or goes on in read(), it is awakened without cause, it
    puts, it signals (Interthread.h:246-255, 296-311). *)
Inductive event := Put (x : Z) | PSignal (u : option nat) | Read (t : nat) | Spurious (t : nat) | Pass (t : nat) | Signal (t : nat) (u : option nat).
(** One step, [None] if it is not possible (Interthread.h:246-255, 296-311). *)
Definition step (w : world) (e : event) : option world :=
  match e with
  | Put x => Some (W (set_q (qs w) 0 (qs w 0%nat ++ [x])) (workers w) (S (pend w)))
  | PSignal u => match pend w with O => None | S n => signal (W (qs w) (workers w) n) 0 u end
  | Read t => match nth_error (workers w) t with Some (i, Idle) | Some (i, Woken) => Some (read w t i) | _ => None end
  | Spurious t => match nth_error (workers w) t with Some (i, Asleep) => Some (W (qs w) (to_phase w t i Woken) (pend w)) | _ => None end
  | Pass t => match nth_error (workers w) t with
              | Some (i, Hand x) => Some (W (set_q (qs w) (S i) (qs w (S i) ++ [x])) (to_phase w t i After) (pend w))
              | _ => None
              end
  | Signal t u => match nth_error (workers w) t with
                  | Some (i, After) => signal (W (qs w) (to_phase w t i Idle) (pend w)) (S i) u
                  | _ => None
                  end
  end.
(** A schedule (not in the source). *)
Fixpoint run (w : world) (es : list event) : option world :=
  match es with [] => Some w | e :: es => match step w e with Some w => run w es | None => None end end.
(** Empty queues and the workers of the given stages before their first read() (not in the source). *)
Definition start (stages : list nat) : world := W (fun _ => []) (map (fun i => (i, Idle)) stages) 0.
