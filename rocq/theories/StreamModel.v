(** Model of COUT and CERR (Threads.h:55-56) with lockCout, unlockCout, lockCerr and unlockCerr
    (Threads.cpp:56-84).

    Threads are interleaved at every character.  cout is buffered: its buffer goes to the
    terminal with std::endl, when something is written to cerr (cerr is tied to cout), or at any
    other moment.  gStreamLock is recursive, as in ThreadsModel.v. *)
From Verif Require Import Base.

(** What appears: characters, and the time and thread at the start of a line (Threads.cpp:59 and 74), taken as one unit. *)
Inductive out := Ch (c : Z) | Stamp (time : nat) (thread : nat).
(** The stream of COUT or CERR, Threads.h:55-56. *)
Inductive stream := Cout | Cerr.
(** The statements the macros consist of (Threads.h:55-56, Threads.cpp:55-81). *)
Inductive action :=
| ALock                           (* gStreamLock.lock() *)
| AStamp (o : stream)             (* Timeval entryTime; cout << entryTime << " " << pthread_self() << ": " *)
| APut (o : stream) (c : Z)       (* cout << text *)
| AEndl (o : stream)              (* cout << dec << endl << flush *)
| AUnlock.                        (* gStreamLock.unlock() *)
(** A use of COUT or CERR (with its file and line as part of the text): Threads.h:55-56 *)
Definition line := (stream * list Z)%type.
(** COUT(text) or CERR(text), Threads.h:55-56: lock, the stamp (Threads.cpp:56-84), the text, endl, unlock. *)
Definition macro (l : line) : list action :=
  [ALock; AStamp (fst l)] ++ map (APut (fst l)) (snd l) ++ [AEndl (fst l); AUnlock].
(** The same with a text whose value is found by code that uses the macro itself, after [a] was written (Threads.h:55-56, Threads.cpp:55-81). *)
Definition nested (o : stream) (a : list Z) (inner : line) (b : list Z) : list action :=
  [ALock; AStamp o] ++ map (APut o) a ++ macro inner ++ map (APut o) b ++ [AEndl o; AUnlock].
(** The same with a text whose evaluation throws after [a] (Threads.h:55-56, Threads.cpp:55-81). *)
Definition thrown (o : stream) (a : list Z) : list action := [ALock; AStamp o] ++ map (APut o) a.

(** Owner of gStreamLock with its count; terminal; buffer of cout; what each thread has yet to do; clock (Threads.h:55-56, Threads.cpp:55-81). *)
Record state := State { owner : option (nat * nat); term : list out; buf : list out; todo : nat -> list action; now : nat }.
(** The start: lock free, nothing written (Threads.h:55-56, Threads.cpp:55-81). *)
Definition init (p : nat -> list action) : state := State None [] [] p 0.

(** The rest of a thread (not in the source). *)
Definition set_ (f : nat -> list action) (t : nat) (l : list action) : nat -> list action := fun u => if Nat.eqb u t then l else f u.
(** A character or stamp to cout goes to its buffer; one to cerr to the terminal, cerr being tied to cout
    (Threads.cpp:59 and 74). *)
Definition emit (o : stream) (s : state) (x : out) : state :=
  match o with
  | Cout => State (owner s) (term s) (buf s ++ [x]) (todo s) (now s)
  | Cerr => State (owner s) (term s ++ buf s ++ [x]) [] (todo s) (now s)
  end.
(** std::flush, Threads.cpp:65 and 79. *)
Definition flush (s : state) : state := State (owner s) (term s ++ buf s) [] (todo s) (now s).
(** A thread's next statement (Threads.h:55-56), the clock, the buffer of cout written out. *)
Inductive event := Go (t : nat) | Tick | Spill.        (* a thread's next statement, the clock, the buffer of cout *)
(** Threads.h:55-56, Threads.cpp:55-81 *)
Definition advance (s : state) (t : nat) (r : list action) : state := State (owner s) (term s) (buf s) (set_ (todo s) t r) (now s).
(** gStreamLock changes hands, Threads.cpp:57, 66, 72 and 80. *)
Definition with_owner (s : state) (o : option (nat * nat)) : state := State o (term s) (buf s) (todo s) (now s).
(** [None]: not possible now (Threads.h:55-56, Threads.cpp:55-81). *)
Definition step (s : state) (e : event) : option state :=
  match e with
  | Tick => Some (State (owner s) (term s) (buf s) (todo s) (S (now s)))
  | Spill => Some (flush s)
  | Go t =>
      match todo s t with
      | [] => None
      | ALock :: r =>
          match owner s with
          | None => Some (with_owner (advance s t r) (Some (t, 1)))
          | Some (u, n) => if Nat.eqb u t then Some (with_owner (advance s t r) (Some (u, S n))) else None
          end
      | AStamp o :: r => Some (emit o (advance s t r) (Stamp (now s) t))
      | APut o c :: r => Some (emit o (advance s t r) (Ch c))
      | AEndl o :: r => Some (match o with Cout => flush (emit o (advance s t r) (Ch 10)) | Cerr => emit o (advance s t r) (Ch 10) end)
      | AUnlock :: r =>
          match owner s with
          | Some (u, n) => Some (if Nat.eqb u t then with_owner (advance s t r) (match n with S (S k) => Some (u, S k) | _ => None end) else advance s t r)
          | None => Some (advance s t r)
          end
      end
  end.
(** Events one after the other, threads in any order (Threads.h:55-56, Threads.cpp:55-81). *)
Fixpoint run (s : state) (l : list event) : option state :=
  match l with
  | [] => Some s
  | e :: l => match step s e with Some s => run s l | None => None end
  end.
