(** Threads, one mutex, condition variables.

    All classes of Interthread.h are monitors: a member function locks the mutex
    (ScopedLock), runs its body on the shared data, waits on a condition variable as
    often as it has to, runs signal()/broadcast() either before or after releasing
    the mutex, and returns.  This file models the execution of any number of threads
    calling member functions in any order, under any schedule; the bodies are given
    per class in InterthreadModel.v.

    pthread facts taken as given: a mutex has at most one holder; pthread_cond_wait
    (Threads.h:251-252) releases the mutex and goes to sleep in one step and holds
    the mutex again when it returns; signal (Threads.h:254) wakes one sleeper if
    there is one, any one of them; broadcast (Threads.h:256) wakes all; a sleeper
    may also wake for no reason, which includes the expiry of a timed wait
    (Threads.cpp:271-277).  Memory is sequentially consistent under the mutex. *)
From Verif Require Import Base.

Inductive sig := Sig (c : nat) | Bcast (c : nat).
Definition sig_cond (g : sig) : nat := match g with Sig c | Bcast c => c end.

(** What a body does from taking the mutex until it gives it up:
    [OWait s c]  new shared data [s], then wait on condition [c] and run again;
    [OSpin s]    run again without giving up the mutex;
    [ODone s r ins aft]  return [r]; fire [ins] before and [aft] after unlocking. *)
Inductive outcome (St Res : Type) :=
| OWait (s : St) (c : nat)
| OSpin (s : St)
| ODone (s : St) (r : Res) (ins aft : list sig).
Arguments OWait {St Res}. Arguments OSpin {St Res}. Arguments ODone {St Res}.

(** Where a thread is. *)
Inductive pc (Op Res : Type) :=
| PIdle
| PLock (op : Op)                       (* called, wants the mutex *)
| PWoken (op : Op)                      (* woken up, wants the mutex *)
| PBody (op : Op)                       (* holds the mutex *)
| PSleep (op : Op) (c : nat)
| PIn (op : Op) (r : Res) (ins aft : list sig)   (* holds the mutex, [ins] still to fire *)
| PAft (op : Op) (r : Res) (aft : list sig).     (* has released the mutex *)
Arguments PIdle {Op Res}. Arguments PLock {Op Res}. Arguments PWoken {Op Res}. Arguments PBody {Op Res}.
Arguments PSleep {Op Res}. Arguments PIn {Op Res}. Arguments PAft {Op Res}.

(** What a timed operation finds out from the clock and from the attempt to wait:
    time left and asleep; deadline passed (or less than 2 ms left); time left, but
    the wait returned at once with EINVAL without giving up the mutex (see C29, C31). *)
Inductive clk := Early | Late | Glitch.

(** Schedule events.  [EBody t e]: [e] is what the clock says.
    [EFire t u]: [u] is the thread woken. *)
Inductive event (Op : Type) :=
| ECall (t : nat) (op : Op)
| ELock (t : nat)
| EBody (t : nat) (e : clk)
| EFire (t : nat) (u : option nat)
| EUnlock (t : nat)
| EReturn (t : nat)
| EWake (t : nat).
Arguments ECall {Op}. Arguments ELock {Op}. Arguments EBody {Op}. Arguments EFire {Op}.
Arguments EUnlock {Op}. Arguments EReturn {Op}. Arguments EWake {Op}.

(** The record of an execution (newest first). *)
Inductive hevent (Op Res : Type) :=
| HCall (t : nat) (op : Op)
| HPass (t : nat) (op : Op) (e : clk)               (* body ran and did not finish *)
| HDone (t : nat) (op : Op) (e : clk) (r : Res)     (* body finished with [r] *)
| HRet (t : nat) (r : Res).
Arguments HCall {Op Res}. Arguments HPass {Op Res}. Arguments HDone {Op Res}. Arguments HRet {Op Res}.

Section Mon.
Context {St Op Res : Type}.
Variable body : St -> Op -> clk -> outcome St Res.

Record mstate := mkM {
  sh : St;
  holder : option nat;
  pcs : list (pc Op Res);
  hist : list (hevent Op Res)
}.

Definition init (s : St) (n : nat) : mstate := mkM s None (repeat PIdle n) [].

Definition setpc (m : mstate) (t : nat) (p : pc Op Res) : mstate := mkM (sh m) (holder m) (upd (pcs m) t p) (hist m).
Definition asleep (c : nat) (p : pc Op Res) : bool := match p with PSleep _ d => Nat.eqb d c | _ => false end.
Definition wake (p : pc Op Res) : pc Op Res := match p with PSleep op _ => PWoken op | _ => p end.
Definition wake_all (c : nat) (l : list (pc Op Res)) : list (pc Op Res) := map (fun p => if asleep c p then wake p else p) l.

(** Effect of a signal on the sleepers; [None] if the choice [u] is not possible. *)
Definition fire (g : sig) (u : option nat) (l : list (pc Op Res)) : option (list (pc Op Res)) :=
  match g with
  | Bcast c => Some (wake_all c l)
  | Sig c =>
      match u with
      | Some v => match nth_error l v with
                  | Some p => if asleep c p then Some (upd l v (wake p)) else None
                  | None => None
                  end
      | None => if existsb (asleep c) l then None else Some l
      end
  end.

Definition step (m : mstate) (ev : event Op) : option mstate :=
  match ev with
  | ECall t op =>
      match nth_error (pcs m) t with
      | Some PIdle => Some (mkM (sh m) (holder m) (upd (pcs m) t (PLock op)) (HCall t op :: hist m))
      | _ => None
      end
  | ELock t =>
      match holder m, nth_error (pcs m) t with
      | None, Some (PLock op) | None, Some (PWoken op) => Some (mkM (sh m) (Some t) (upd (pcs m) t (PBody op)) (hist m))
      | _, _ => None
      end
  | EBody t e =>
      match nth_error (pcs m) t with
      | Some (PBody op) =>
          Some (match body (sh m) op e with
                | OWait s c => mkM s None (upd (pcs m) t (PSleep op c)) (HPass t op e :: hist m)
                | OSpin s => mkM s (holder m) (pcs m) (HPass t op e :: hist m)
                | ODone s r ins aft => mkM s (holder m) (upd (pcs m) t (PIn op r ins aft)) (HDone t op e r :: hist m)
                end)
      | _ => None
      end
  | EFire t u =>
      match nth_error (pcs m) t with
      | Some (PIn op r (g :: ins) aft) =>
          match fire g u (pcs m) with
          | Some l => Some (mkM (sh m) (holder m) (upd l t (PIn op r ins aft)) (hist m))
          | None => None
          end
      | Some (PAft op r (g :: aft)) =>
          match fire g u (pcs m) with
          | Some l => Some (mkM (sh m) (holder m) (upd l t (PAft op r aft)) (hist m))
          | None => None
          end
      | _ => None
      end
  | EUnlock t =>
      match nth_error (pcs m) t with
      | Some (PIn op r [] aft) => Some (mkM (sh m) None (upd (pcs m) t (PAft op r aft)) (hist m))
      | _ => None
      end
  | EReturn t =>
      match nth_error (pcs m) t with
      | Some (PAft op r []) => Some (mkM (sh m) (holder m) (upd (pcs m) t PIdle) (HRet t r :: hist m))
      | _ => None
      end
  | EWake t =>
      match nth_error (pcs m) t with
      | Some (PSleep op c) => Some (setpc m t (PWoken op))
      | _ => None
      end
  end.

Fixpoint run (m : mstate) (evs : list (event Op)) : option mstate :=
  match evs with
  | [] => Some m
  | e :: t => match step m e with Some m1 => run m1 t | None => None end
  end.

(** ** Vocabulary *)
Definition reach (s : St) (m : mstate) : Prop := exists n evs, run (init s n) evs = Some m.

(** Nobody can do anything more unless a new call or a causeless wake-up happens. *)
Definition at_rest (m : mstate) : Prop :=
  forall ev, (match ev with ECall _ _ | EWake _ => False | _ => True end) -> step m ev = None.
(** Thread [t] sleeps inside [op] on condition [c]. *)
Definition sleeps (m : mstate) (t : nat) (op : Op) (c : nat) : Prop := nth_error (pcs m) t = Some (PSleep op c).

(** The events of one thread, oldest first. *)
Definition thread_of (h : hevent Op Res) : nat := match h with HCall t _ | HPass t _ _ | HDone t _ _ _ | HRet t _ => t end.
Definition history (m : mstate) : list (hevent Op Res) := rev (hist m).
Definition of_thread (t : nat) (l : list (hevent Op Res)) : list (hevent Op Res) := filter (fun h => Nat.eqb (thread_of h) t) l.

(** A thread's history: calls follow one another; the operation takes effect once,
    after the call and before the return, with the result that is returned. *)
Inductive stage := Outside | Inside (op : Op) | Effective (op : Op) (r : Res).
Inductive well_formed : list (hevent Op Res) -> stage -> Prop :=
| wf_nil : well_formed [] Outside
| wf_call : forall l t op, well_formed l Outside -> well_formed (l ++ [HCall t op]) (Inside op)
| wf_pass : forall l t op e, well_formed l (Inside op) -> well_formed (l ++ [HPass t op e]) (Inside op)
| wf_done : forall l t op e r, well_formed l (Inside op) -> well_formed (l ++ [HDone t op e r]) (Effective op r)
| wf_ret : forall l t op r, well_formed l (Effective op r) -> well_formed (l ++ [HRet t r]) Outside.

(** Execution one at a time, in the order of the [HPass]/[HDone] events, by a
    sequential object given by two relations. *)
Section Seq.
Variable passes : St -> Op -> clk -> St -> Prop.
Variable does : St -> Op -> clk -> Res -> St -> Prop.
Inductive seq_run : St -> list (hevent Op Res) -> St -> Prop :=
| seq_nil : forall s, seq_run s [] s
| seq_call : forall s l s' t op, seq_run s l s' -> seq_run s (HCall t op :: l) s'
| seq_ret : forall s l s' t r, seq_run s l s' -> seq_run s (HRet t r :: l) s'
| seq_pass : forall s s1 l s' t op e, passes s op e s1 -> seq_run s1 l s' -> seq_run s (HPass t op e :: l) s'
| seq_done : forall s s1 l s' t op e r, does s op e r s1 -> seq_run s1 l s' -> seq_run s (HDone t op e r :: l) s'.
End Seq.

(** The class is linearizable with respect to a sequential object. *)
Definition linearizable (s0 : St) (passes : St -> Op -> clk -> St -> Prop) (does : St -> Op -> clk -> Res -> St -> Prop) : Prop :=
  forall m, reach s0 m ->
    seq_run passes does s0 (history m) (sh m) /\
    forall t, exists st, well_formed (of_thread t (history m)) st.
End Mon.
Arguments mstate : clear implicits.
Arguments mkM {St Op Res}.
