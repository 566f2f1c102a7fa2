(** Model of the life of reporting tables: the constructor, the committer threads and
    reportShutdown (Reporting.cpp:41-62, 208-218, Reporting.h:44-98).

    The tables are numbered in the order in which they are constructed, and gReports is the
    first of them.  What a table holds is the [rstate] of ReportModel.  The committer threads
    all run reportingBatchCommitter, numbered in the order in which they are started; one step
    of a thread is a [Step] event, so that everything interleaves with everything else.  Reads
    and writes of mReportRunning are taken to be atomic.  [ok] says whether a command to the
    database succeeds.  sleep(10) may take any time. *)
From Verif Require Import Base UtilsModel SqlModel ConfigModel ReportModel.
Local Open Scope Z_scope.

(** Where a committer is: before line 211, before the test of line 212, in sleep, before
    commit has the lock, in the second loop of commit, or at an end. *)
Inductive pc := Start | Check | Sleep | Take_ | Write_ | Done.
(** [running] is mReportRunning, which the constructor leaves unset (Reporting.h:43-53, Reporting.cpp:41-62). *)
Record tab := Tab { opened : bool; running : option bool; content : rstate }.
(** The tables in the order of construction and the committer threads, Reporting.cpp:41-62 and 209-218. *)
Record world := World { tabs : list tab; threads : list pc }.
(** A table constructed (Reporting.cpp:41-62), create (65-82) and incr (86-93) of a table, reportShutdown
    (Reporting.h:96), a step of a thread (Reporting.cpp:209-218). *)
Inductive ev :=
| Open (d : counters) (ok : bool)
| Create (i : nat) (name : list Z) (now : Z) (ok : bool)
| Incr (i : nat) (name : list Z)
| Shutdown (i : nat)
| Step (t : nat) (now : Z) (ok : bool).

(** The constructor, Reporting.cpp:41-62: [d] is what the database has. *)
Definition open (w : world) (d : counters) (ok : bool) : world :=
  World (tabs w ++ [Tab ok None (RState [] d [])]) (if ok then threads w ++ [Start] else threads w).
(** The commands of a table with mDB = NULL fail (Reporting.cpp:65-82). *)
Definition create_ (g : tab) (name : list Z) (now : Z) (ok : bool) : res (tab * bool) :=
  do s <- create (content g) name now (ok && opened g);
  Ok (Tab (opened g) (running g) s, ok && opened g).
(** incr, Reporting.cpp:86-93: it does not need the database. *)
Definition incr_ (g : tab) (name : list Z) : tab * bool := (Tab (opened g) (running g) (incr (content g) name), true).
(** reportShutdown, Reporting.h:96 *)
Definition shutdown (g : tab) : tab := Tab (opened g) (Some false) (content g).
(** A call of table [i]; undefined if there is none (Reporting.cpp:41-218). *)
Definition on (w : world) (i : nat) (f : tab -> res (tab * option bool)) : res (world * option bool) :=
  match nth_error (tabs w) i with
  | Some g => do (g', r) <- f g; Ok (World (upd (tabs w) i g') (threads w), r)
  | None => UB
  end.
(** One step of thread [t], Reporting.cpp:209-218: all of them work on gReports. *)
Definition advance (g : tab) (p : pc) (t : nat) (now : Z) (ok : bool) : res (tab * pc) :=
  match p with
  | Start => Ok (Tab (opened g) (Some true) (content g), Check)
  | Check => match running g with Some true => Ok (g, Sleep) | Some false => Ok (g, Done) | None => UB end
  | Sleep => Ok (g, Take_)
  | Take_ => Ok (Tab (opened g) (running g) (take (content g) t), Write_)
  | Write_ =>
      match next t (inflight (content g)) with
      | None => Ok (g, Check)
      | Some _ => do s <- write (content g) t now (ok && opened g); Ok (Tab (opened g) (running g) s, Write_)
      end
  | Done => Ok (g, Done)
  end.
(** One event (Reporting.cpp:41-218). *)
Definition step (w : world) (e : ev) : res (world * option bool) :=
  match e with
  | Open d ok => Ok (open w d ok, None)
  | Create i name now ok => on w i (fun g => do (g', r) <- create_ g name now ok; Ok (g', Some r))
  | Incr i name => on w i (fun g => let (g', r) := incr_ g name in Ok (g', Some r))
  | Shutdown i => on w i (fun g => Ok (shutdown g, None))
  | Step t now ok =>
      match nth_error (threads w) t, tabs w with
      | Some p, g :: rest => do (g', p') <- advance g p t now ok; Ok (World (g' :: rest) (upd (threads w) t p'), None)
      | _, _ => UB
      end
  end.
(** Events one after the other (Reporting.cpp:41-218). *)
Fixpoint run (w : world) (l : list ev) : res world :=
  match l with
  | [] => Ok w
  | e :: t => do (w', _) <- step w e; run w' t
  end.
