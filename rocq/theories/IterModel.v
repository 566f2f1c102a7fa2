(** Model of iterating an InterthreadQueue under qGetLock (Interthread.h:134-141) while other threads use it, and
    of iqConnect (129-132), which replaces the mutex a queue uses.

    Queues are numbers; queue [q] has its own mutex mLock, number [q], and a pointer to the mutex in use,
    mLockPointer.  The default container PtrList is a std::list: its elements sit in nodes that stay where they
    are until they are erased; an iterator is a node, or the end.  Using the iterator of an erased node is
    undefined.  Pointers to elements are numbers, 0 is NULL.

    Simplified: a member function is one step, from getting the mutex to releasing it or to going to sleep; the
    signal of a write is the event [Wake] of a sleeping thread, which may also come without cause; a thread that
    unlocks a mutex it does not hold is counted as undefined. *)
From Verif Require Import Base.
Local Open Scope Z_scope.

(** The elements of the list: node and pointer (Interthread.h:47-71). *)
Definition nodes := list (nat * Z).
(** get() and pop_frontr(), Interthread.h:54-59 and 70. *)
Definition c_get (l : nodes) : Z * nodes := match l with [] => (0, []) | (_, p) :: t => (p, t) end.

(** The member functions that do not wait, Interthread.h:189-211, 258-262 and 289-321. *)
Inductive op := Write (v : Z) | WriteFront (v : Z) | ReadNB | Clear | Size | Front.
(** What a step gives: nothing, a pointer, a number (what the functions of Interthread.h:136-321 return). *)
Inductive out := Nothing | Ptr (p : Z) | Count (n : nat).

(** The queues and their mutexes, Interthread.h:116-120; the iterator of each thread; the threads asleep in read()
    with their queue and the mutex they wait with; [fresh] is the next node. *)
Record world := W {
  list_of : nat -> nodes;
  lockp : nat -> nat;                     (* mLockPointer *)
  own : nat -> option (nat * nat);        (* holder of a mutex and how often it has locked it *)
  cnt : nat -> Z;                         (* mLockCnt, Threads.h:80 *)
  iter : nat -> option (nat * option nat);
  sleepers : list (nat * nat * nat);
  fresh : nat }.
(** What a thread does: the calls of Interthread.h:136-321 and a range loop (not in the source: the loop is done by the user). *)
Inductive event :=
| Lock (t q : nat) | Unlock (t q : nat)   (* q.qGetLock().lock(), unlock() *)
| Call (t q : nat) (o : op) | Read (t q : nat) | Wake (t : nat)
| Begin (t q : nat) | Deref (t : nat) | Next (t : nat)   (* it = q.begin(), *it, ++it *)
| Connect (t a b : nat).                  (* a.iqConnect(b) *)
(** Whose step it is (not in the source). *)
Definition thread (e : event) : nat :=
  match e with Lock t _ | Unlock t _ | Call t _ _ | Read t _ | Wake t | Begin t _ | Deref t | Next t | Connect t _ _ => t end.

(** Functions changed at one place (for the state of Interthread.h:116-120). *)
Definition at_ {A} (f : nat -> A) (i : nat) (x : A) : nat -> A := fun j => if (j =? i)%nat then x else f j.
(** A queue with other elements (Interthread.h:116). *)
Definition with_list (w : world) (q : nat) (l : nodes) : world := W (at_ (list_of w) q l) (lockp w) (own w) (cnt w) (iter w) (sleepers w) (fresh w).
(** A mutex with another holder and count (Threads.cpp:158-187). *)
Definition with_mutex (w : world) (m : nat) (o : option (nat * nat)) (n : Z) : world := W (list_of w) (lockp w) (at_ (own w) m o) (at_ (cnt w) m n) (iter w) (sleepers w) (fresh w).
(** A thread with another iterator (Interthread.h:138). *)
Definition with_iter (w : world) (t : nat) (i : option (nat * option nat)) : world := W (list_of w) (lockp w) (own w) (cnt w) (at_ (iter w) t i) (sleepers w) (fresh w).
(** Other threads asleep (Interthread.h:246-255). *)
Definition with_sleepers (w : world) (l : list (nat * nat * nat)) : world := W (list_of w) (lockp w) (own w) (cnt w) (iter w) l (fresh w).

(** The mutex is free or the thread's own: it is recursive, Threads.cpp:96. *)
Definition can (w : world) (m t : nat) : bool := match own w m with None => true | Some (h, _) => (h =? t)%nat end.
(** The thread is in read(), Interthread.h:246-255. *)
Definition asleep (w : world) (t : nat) : option (nat * nat) :=
  option_map (fun s => (snd (fst s), snd s)) (find (fun s => (fst (fst s) =? t)%nat) (sleepers w)).
(** The thread leaves read(), Interthread.h:254. *)
Definition awake (l : list (nat * nat * nat)) (t : nat) : list (nat * nat * nat) := filter (fun s => negb (fst (fst s) =? t)%nat) l.

(** One member function with the mutex held: Interthread.h:189-193 (clear), 196-200, 207-211 (size), 258-262 (front),
    289-293 (readNoBlock), 296-311 (write), 314-321 (write_front). *)
Definition call (w : world) (q : nat) (o : op) : out * world :=
  let l := list_of w q in
  match o with
  | Write v => (Nothing, W (at_ (list_of w) q (l ++ [(fresh w, v)])) (lockp w) (own w) (cnt w) (iter w) (sleepers w) (S (fresh w)))
  | WriteFront v => (Nothing, W (at_ (list_of w) q ((fresh w, v) :: l)) (lockp w) (own w) (cnt w) (iter w) (sleepers w) (S (fresh w)))
  | ReadNB => (Ptr (fst (c_get l)), with_list w q (snd (c_get l)))
  | Clear => (Nothing, with_list w q [])
  | Size => (Count (length l), w)
  | Front => (Ptr (fst (c_get l)), w)
  end.

(** The node after [n], [None]: the end (operator++ of the iterator of Interthread.h:136-139). *)
Fixpoint after (l : nodes) (n : nat) : option (option nat) :=
  match l with
  | [] => None
  | (x, _) :: t => if (x =? n)%nat then Some (match t with [] => None | (y, _) :: _ => Some y end) else after t n
  end.
(** The pointer in node [n] (operator* of the iterator of Interthread.h:136-139). *)
Fixpoint value_at (l : nodes) (n : nat) : option Z :=
  match l with
  | [] => None
  | (x, p) :: t => if (x =? n)%nat then Some p else value_at t n
  end.

(** One step; [Diverge]: the thread has to wait (Interthread.h:129-141 and 189-321, Threads.cpp:158-187). *)
Definition step (w : world) (e : event) : res (out * world) :=
  match e, asleep w (thread e) with
  | Wake t, Some (q, m) =>                       (* Interthread.h:250-254 *)
      if can w m t then
        let (p, l) := c_get (list_of w q) in
        if p =? 0 then if (lockp w q =? m)%nat then Ok (Nothing, with_list w q l) else UB
        else Ok (Ptr p, with_sleepers (with_mutex (with_list w q l) m (own w m) (cnt w m - 1)) (awake (sleepers w) t))
      else Diverge
  | Wake _, None | _, Some _ => Diverge
  | Lock t q, None =>                            (* Threads.cpp:158-180 *)
      match own w q with
      | None => Ok (Nothing, with_mutex w q (Some (t, 1%nat)) (cnt w q + 1))
      | Some (h, d) => if (h =? t)%nat then Ok (Nothing, with_mutex w q (Some (t, S d)) (cnt w q + 1)) else Diverge
      end
  | Unlock t q, None =>                          (* Threads.cpp:182-187 *)
      match own w q with
      | Some (h, S d) => if (h =? t)%nat then Ok (Nothing, with_mutex w q (match d with O => None | _ => Some (t, d) end) (cnt w q - 1)) else UB
      | _ => UB
      end
  | Call t q o, None => if can w (lockp w q) t then Ok (call w q o) else Diverge
  | Read t q, None =>                            (* Interthread.h:246-255; the wait releases the mutex once *)
      if can w (lockp w q) t then
        let (p, l) := c_get (list_of w q) in
        if p =? 0 then Ok (Nothing, with_sleepers (with_mutex (with_list w q l) (lockp w q) (own w (lockp w q)) (cnt w (lockp w q) + 1)) ((t, q, lockp w q) :: sleepers w))
        else Ok (Ptr p, with_list w q l)
      else Diverge
  | Begin t q, None =>                           (* Interthread.h:138; the assertion is about mLock; end() of 139 has the same *)
      do _ <- assert_ (negb (cnt w q =? 0));
      Ok (Nothing, with_iter w t (Some (q, match list_of w q with [] => None | (n, _) :: _ => Some n end)))
  | Deref t, None =>
      match iter w t with
      | Some (q, Some n) => match value_at (list_of w q) n with Some p => Ok (Ptr p, w) | None => UB end
      | _ => UB
      end
  | Next t, None =>
      match iter w t with
      | Some (q, Some n) => match after (list_of w q) n with Some i => Ok (Nothing, with_iter w t (Some (q, i))) | None => UB end
      | _ => UB
      end
  | Connect _ a b, None => Ok (Nothing, W (list_of w) (at_ (lockp w) a (lockp w b)) (own w) (cnt w) (iter w) (sleepers w) (fresh w))   (* Interthread.h:129-132 *)
  end.
(** Steps one after the other, with what they give (Interthread.h:129-321). *)
Fixpoint run (w : world) (l : list event) : res (list (event * out) * world) :=
  match l with
  | [] => Ok ([], w)
  | e :: t => do (o, w) <- step w e; do (os, w) <- run w t; Ok ((e, o) :: os, w)
  end.
(** New queues, Interthread.h:125. *)
Definition world0 : world := W (fun _ => []) (fun q => q) (fun _ => None) (fun _ => 0) (fun _ => None) [] 0.
