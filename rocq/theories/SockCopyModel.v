(** Model of socket objects that are copied, assigned, closed and used (Sockets.h:59-139, Sockets.cpp:116-240), down to the
    descriptor each call uses and the open file the kernel finds under it; of read with a timeout, also the fd_set
    (Sockets.cpp:221-236).

    Simplified: socket() and bind do not fail; calls are in the order in which they reach the kernel, so that a read
    with a timeout is two of them, select and recvfrom, which other threads can come between. *)
From Verif Require Import Base.
Local Open Scope nat_scope.

(** An open file: the socket made by the n-th constructor, or the n-th file of other code (Sockets.cpp:270). *)
Inductive file := Sock (s : nat) | File (k : nat).
(** The descriptors of the process; mSocketFD of the objects, [None] once destroyed; the descriptors other code
    remembers; the number of sockets made (Sockets.h:63). *)
Record world := W { table : list (option file); objects : list (option nat); others : list nat; made : nat }.
(** Calls: a constructor that opens (Sockets.cpp:247-257, 317-324), the copy constructor and the assignment the compiler
    makes (Sockets.h:59-65), any call that uses the descriptor once (Sockets.cpp:127-211), select in a read with a timeout
    (Sockets.cpp:221-228), close and the destructor (Sockets.cpp:137-146), and what other code does with its files. *)
Inductive op := New | Copy (i : nat) | Assign (i j : nat) | Use (i : nat) | Select (i : nat) | Close (i : nat) | Destroy (i : nat)
  | OtherOpen | OtherUse (k : nat) | OtherClose (k : nat).
(** What happens: nothing to see, a call that reaches an open file or fails with EBADF, a close likewise (Sockets.cpp:139-211). *)
Inductive out := Unit | Through (f : option file) | Closed (f : option file).
(** socket and open give the lowest descriptor that is free (Sockets.cpp:270, 328). *)
Fixpoint lowest (t : list (option file)) : nat := match t with Some _ :: t => S (lowest t) | _ => 0 end.
(** A file gets it (Sockets.cpp:270, 328). *)
Definition install (t : list (option file)) (f : file) : list (option file) :=
  if lowest t <? length t then upd t (lowest t) (Some f) else t ++ [Some f].
(** What is open under a descriptor (Sockets.cpp:139-228). *)
Definition under (t : list (option file)) (fd : nat) : option file := match nth_error t fd with Some x => x | None => None end.
(** ::close, Sockets.cpp:139 *)
Definition close (t : list (option file)) (fd : nat) : list (option file) := upd t fd None.
(** mSocketFD of an object that exists (Sockets.h:63) *)
Definition fd_of (w : world) (i : nat) : res nat := match nth_error (objects w) i with Some (Some fd) => Ok fd | _ => UB end.
(** The descriptor other code remembers (not in the source). *)
Definition other_fd (w : world) (k : nat) : res nat := rd (others w) k.
(** FD_SETSIZE: the bits of an fd_set (Sockets.cpp:222) *)
Definition FD_SETSIZE : nat := Z.to_nat 1024.
(** One call, Sockets.h:59-139, Sockets.cpp:116-240 *)
Definition step (w : world) (o : op) : res (out * world) :=
  match o with
  | New => Ok (Unit, W (install (table w) (Sock (made w))) (objects w ++ [Some (lowest (table w))]) (others w) (S (made w)))
  | Copy i => do fd <- fd_of w i; Ok (Unit, W (table w) (objects w ++ [Some fd]) (others w) (made w))
  | Assign i j => do _ <- fd_of w i; do fd <- fd_of w j; Ok (Unit, W (table w) (upd (objects w) i (Some fd)) (others w) (made w))
  | Use i => do fd <- fd_of w i; Ok (Through (under (table w) fd), w)
  | Select i => do fd <- fd_of w i; if fd <? FD_SETSIZE then Ok (Through (under (table w) fd), w) else UB
  | Close i => do fd <- fd_of w i; Ok (Closed (under (table w) fd), W (close (table w) fd) (objects w) (others w) (made w))
  | Destroy i => do fd <- fd_of w i; Ok (Closed (under (table w) fd), W (close (table w) fd) (upd (objects w) i None) (others w) (made w))
  | OtherOpen => Ok (Unit, W (install (table w) (File (length (others w)))) (objects w) (others w ++ [lowest (table w)]) (made w))
  | OtherUse k => do fd <- other_fd w k; Ok (Through (under (table w) fd), w)
  | OtherClose k => do fd <- other_fd w k; Ok (Closed (under (table w) fd), W (close (table w) fd) (objects w) (others w) (made w))
  end.
(** Several (not in the source). *)
Fixpoint run (w : world) (os : list op) : res (list out * world) :=
  match os with [] => Ok ([], w) | o :: os => do r <- step w o; do s <- run (snd r) os; Ok (fst r :: fst s, snd s) end.
(** A process with nothing open (not in the source). *)
Definition world0 : world := W [] [] [] 0.
