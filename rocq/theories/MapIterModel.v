(** Model of iterating an InterthreadMap under qGetLock (Interthread.h:600-605) while the loop and other threads
    use the map (467-573).

    The container is a std::map: its elements sit in nodes in the order of their keys that stay where they are until
    they are erased; an iterator is a node, or the end.  Using the iterator of an erased node is undefined.  Keys and
    data are numbers.

    Simplified: a member function is one step, from getting the mutex to releasing it or to going to sleep; the
    signal of a write is the event [Wake] of a sleeping thread, which may also come without cause; a thread that
    unlocks a mutex it does not hold is counted as undefined.  The timeouts are in C103, deleting data in C25. *)
From Verif Require Import Base.
Local Open Scope Z_scope.

(** The elements: key, node and data (Interthread.h:443-447). *)
Definition entries := list (Z * nat * Z).
(** find, Interthread.h:473, 491, 531 *)
Fixpoint lookup (l : entries) (k : Z) : option Z :=
  match l with [] => None | (j, _, v) :: l => if j =? k then Some v else lookup l k end.
(** iter->second = wData for a key that is there, or mMap[key] = wData, in a new node (Interthread.h:474-479) *)
Fixpoint insert (l : entries) (k : Z) (n : nat) (v : Z) : entries :=
  match l with
  | [] => [(k, n, v)]
  | (j, i, x) :: r => if k <? j then (k, n, v) :: l else if k =? j then (j, i, v) :: r else (j, i, x) :: insert r k n v
  end.
(** mMap.erase(iter), Interthread.h:494, 536 *)
Fixpoint erase (l : entries) (k : Z) : entries :=
  match l with [] => [] | (j, i, x) :: r => if j =? k then r else (j, i, x) :: erase r k end.
(** The element of a node: what operator* of the iterator of Interthread.h:603 gives. *)
Fixpoint at_node (l : entries) (n : nat) : option (Z * Z) :=
  match l with [] => None | (j, i, x) :: r => if (i =? n)%nat then Some (j, x) else at_node r n end.
(** The first node, [None]: the end (begin, Interthread.h:604). *)
Definition first (l : entries) : option nat := match l with [] => None | (_, i, _) :: _ => Some i end.
(** The node after [n] (operator++ of the iterator of Interthread.h:603). *)
Fixpoint after (l : entries) (n : nat) : option (option nat) :=
  match l with [] => None | (_, i, _) :: r => if (i =? n)%nat then Some (first r) else after r n end.

(** The member functions that do not wait: write (Interthread.h:470-482), getNoBlock with and without removal
    (489-496) and remove (549-558). *)
Inductive op := Write (k v : Z) | Take (k : Z) | Look (k : Z) | Remove (k : Z).
(** What a step gives (what the functions of Interthread.h:470-605 return). *)
Inductive out := Nothing | Data (v : option Z) | Entry (k v : Z) | Is (b : bool).
(** The map and its mutex, Interthread.h:447-449; the iterator of each thread; the threads asleep in get() with the
    key they wait for and whether they remove it; [fresh] is the next node. *)
Record world := W {
  items : entries;
  own : option (nat * nat);               (* holder of mLock and how often it has locked it *)
  iter : nat -> option (option nat);
  sleepers : list (nat * (Z * bool));
  fresh : nat }.
(** What a thread does: the calls of Interthread.h:470-605 and a loop (done by the user, not in the source). *)
Inductive event :=
| Lock (t : nat) | Unlock (t : nat)       (* qGetLock().lock(), unlock() *)
| Call (t : nat) (o : op) | Get (t : nat) (k : Z) (rm : bool) | Wake (t : nat)
| Begin (t : nat) | Deref (t : nat) | Next (t : nat) | AtEnd (t : nat).  (* it = begin(), *it, ++it, it == end() *)
(** Whose step it is (not in the source). *)
Definition thread (e : event) : nat :=
  match e with Lock t | Unlock t | Call t _ | Get t _ _ | Wake t | Begin t | Deref t | Next t | AtEnd t => t end.
(** The mutex is free or the thread's own: it is recursive, Threads.cpp:96. *)
Definition can (w : world) (t : nat) : bool := match own w with None => true | Some (h, _) => (h =? t)%nat end.
(** The thread is in get(), Interthread.h:528-539. *)
Definition asleep (w : world) (t : nat) : option (Z * bool) := option_map snd (find (fun s => (fst s =? t)%nat) (sleepers w)).
(** The thread leaves get(), Interthread.h:538. *)
Definition awake (l : list (nat * (Z * bool))) (t : nat) : list (nat * (Z * bool)) := filter (fun s => negb (fst s =? t)%nat) l.
(** Parts of the state replaced (Interthread.h:447-449). *)
Definition with_items (w : world) (l : entries) : world := W l (own w) (iter w) (sleepers w) (fresh w).
(** The mutex with another holder (Threads.cpp:159-189). *)
Definition with_own (w : world) (o : option (nat * nat)) : world := W (items w) o (iter w) (sleepers w) (fresh w).
(** A thread with another iterator (Interthread.h:603). *)
Definition with_iter (w : world) (t : nat) (i : option nat) : world :=
  W (items w) (own w) (fun u => if (u =? t)%nat then Some i else iter w u) (sleepers w) (fresh w).
(** Other threads asleep (Interthread.h:533). *)
Definition with_sleepers (w : world) (l : list (nat * (Z * bool))) : world := W (items w) (own w) (iter w) l (fresh w).
(** One member function with the mutex held (Interthread.h:470-482, 489-496, 549-558). *)
Definition call (w : world) (o : op) : out * world :=
  match o with
  | Write k v => (Nothing, W (insert (items w) k (fresh w) v) (own w) (iter w) (sleepers w) (S (fresh w)))
  | Take k => (Data (lookup (items w) k), with_items w (erase (items w) k))
  | Look k => (Data (lookup (items w) k), w)
  | Remove k => (Is (match lookup (items w) k with Some _ => true | None => false end), with_items w (erase (items w) k))
  end.
(** One step.  [Diverge]: the thread has to wait for the mutex, or is asleep.
    Mutex: Threads.cpp:159-189; get: Interthread.h:528-539; wait gives the mutex back once (Threads.h:251-252), so it is
    afterwards as it was before the call; iterators: Interthread.h:603-605, which take no lock. *)
Definition step (w : world) (e : event) : res (out * world) :=
  let t := thread e in
  match asleep w t with
  | Some (k, rm) =>
      match e with
      | Wake _ => if can w t then
                    match lookup (items w) k with
                    | Some v => let w' := with_sleepers w (awake (sleepers w) t) in
                                Ok (Data (Some v), if rm then with_items w' (erase (items w) k) else w')
                    | None => Ok (Nothing, w)
                    end
                  else Diverge
      | _ => Diverge
      end
  | None =>
      match e with
      | Lock _ => if can w t then Ok (Nothing, with_own w (Some (t, match own w with None => 1%nat | Some (_, d) => S d end))) else Diverge
      | Unlock _ => match own w with
                    | Some (h, d) => if (h =? t)%nat then Ok (Nothing, with_own w (match d with S (S d) => Some (h, S d) | _ => None end)) else UB
                    | None => UB
                    end
      | Call _ o => if can w t then Ok (call w o) else Diverge
      | Get _ k rm => if can w t then
                        match lookup (items w) k with
                        | Some v => Ok (Data (Some v), if rm then with_items w (erase (items w) k) else w)
                        | None => Ok (Nothing, with_sleepers w ((t, (k, rm)) :: sleepers w))
                        end
                      else Diverge
      | Wake _ => Diverge
      | Begin _ => Ok (Nothing, with_iter w t (first (items w)))
      | Deref _ => match iter w t with
                   | Some (Some n) => match at_node (items w) n with Some (k, v) => Ok (Entry k v, w) | None => UB end
                   | _ => UB
                   end
      | Next _ => match iter w t with
                  | Some (Some n) => match after (items w) n with Some i => Ok (Nothing, with_iter w t i) | None => UB end
                  | _ => UB
                  end
      | AtEnd _ => match iter w t with
                   | Some None => Ok (Is true, w)
                   | Some (Some n) => match at_node (items w) n with Some _ => Ok (Is false, w) | None => UB end
                   | None => UB
                   end
      end
  end.
(** A program: the steps of all threads, with what they gave (not in the source). *)
Fixpoint run (w : world) (es : list event) : res (list (event * out) * world) :=
  match es with
  | [] => Ok ([], w)
  | e :: es => do r <- step w e; do q <- run (snd r) es; Ok ((e, fst r) :: fst q, snd q)
  end.
(** A new map, Interthread.h:447-449 *)
Definition world0 : world := W [] None (fun _ => None) [] 0%nat.
