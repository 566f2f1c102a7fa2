(** Model of the life of InterthreadQueues: construction, iqConnect, copies, destruction, and who deletes the elements
    (Interthread.h:113-136, 189-204).

    A queue has its elements and a pointer to the mutex it locks, its own or that of another queue (116-125).  Mutexes
    die with the queue they are in.  Every member function and the destructor lock first, which is undefined if the
    mutex is gone.  Deleting what has been deleted is undefined.

    Simplified: one thread, calls that do not wait; numbers for the queues in the order of construction, and for the
    elements in the order in which they are made; a copy is the implicit one, member by member; the signal goes the
    way of the mutex; the elements' destructors do nothing. *)
From Verif Require Import Base.
Local Open Scope nat_scope.

(** mQ and mLockPointer, Interthread.h:116-120 *)
Record queue := Q { items : list nat; lockof : nat }.
(** The queues, [None] if destroyed, and the elements, whether they are there (Interthread.h:116-120). *)
Record world := W { queues : list (option queue); heap : list bool }.
(** What a program does (Interthread.h:125-132, 189-204, 246-311); [Make] and [Delete] are new and delete of an element
    by the user. *)
Inductive op := New | Copy (j : nat) | Assign (i j : nat) | Connect (i j : nat) | Destroy (i : nat) | Clear (i : nat) | Flush (i : nat)
  | Write (i x : nat) | Take (i : nat) | Size (i : nat) | Make | Delete (x : nat).
(** What it gets (Interthread.h:208, 288). *)
Inductive out := Nothing | Number (n : nat) | Item (x : option nat).
(** The object is there (not in the source). *)
Definition find_queue (w : world) (i : nat) : res queue := match nth_error (queues w) i with Some (Some q) => Ok q | _ => UB end.
(** ScopedLock lock of the mutex pointed to, Interthread.h:191, 198, 210, 248, 290, 307 *)
Definition locked (w : world) (i : nat) : res queue := do q <- find_queue w i; do _ <- find_queue w (lockof q); Ok q.
(** delete, Interthread.h:192 *)
Definition delete (h : list bool) (x : nat) : res (list bool) := match nth_error h x with Some true => Ok (upd h x false) | _ => UB end.
(** while (mQ.size()>0) delete mQ.get(), Interthread.h:192 *)
Fixpoint delete_all (h : list bool) (l : list nat) : res (list bool) := match l with [] => Ok h | x :: l => do h <- delete h x; delete_all h l end.
(** A queue replaced (not in the source). *)
Definition set_queue (w : world) (i : nat) (q : option queue) : world := W (upd (queues w) i q) (heap w).
(** One call.  Constructor Interthread.h:125, iqConnect 129-132, clear 189-193, flushNoDelete 196-200, destructor
    203-204, size 207-211, readNoBlock 288-292, write 296-311. *)
Definition step (w : world) (o : op) : res (out * world) :=
  match o with
  | New => Ok (Number (length (queues w)), W (queues w ++ [Some (Q [] (length (queues w)))]) (heap w))
  | Copy j => do q <- find_queue w j; Ok (Number (length (queues w)), W (queues w ++ [Some q]) (heap w))
  | Assign i j => do _ <- find_queue w i; do q <- find_queue w j; Ok (Nothing, set_queue w i (Some q))
  | Connect i j => do p <- find_queue w i; do q <- find_queue w j; Ok (Nothing, set_queue w i (Some (Q (items p) (lockof q))))
  | Destroy i => do q <- locked w i; do h <- delete_all (heap w) (items q); Ok (Nothing, W (upd (queues w) i None) h)
  | Clear i => do q <- locked w i; do h <- delete_all (heap w) (items q); Ok (Nothing, W (upd (queues w) i (Some (Q [] (lockof q)))) h)
  | Flush i => do q <- locked w i; Ok (Nothing, set_queue w i (Some (Q [] (lockof q))))
  | Write i x => do q <- locked w i; Ok (Nothing, set_queue w i (Some (Q (items q ++ [x]) (lockof q))))
  | Take i => do q <- locked w i;
              match items q with
              | [] => Ok (Item None, w)
              | x :: l => Ok (Item (Some x), set_queue w i (Some (Q l (lockof q))))
              end
  | Size i => do q <- locked w i; Ok (Number (length (items q)), w)
  | Make => Ok (Number (length (heap w)), W (queues w) (heap w ++ [true]))
  | Delete x => do h <- delete (heap w) x; Ok (Nothing, W (queues w) h)
  end.
(** A program (not in the source). *)
Fixpoint run (w : world) (os : list op) : res (list out * world) :=
  match os with [] => Ok ([], w) | o :: os => do r <- step w o; do s <- run (snd r) os; Ok (fst r :: fst s, snd s) end.
(** Nothing there yet (not in the source). *)
Definition world0 : world := W [] [].
