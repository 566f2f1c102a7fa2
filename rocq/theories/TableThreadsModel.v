(** Model of threads that use configuration tables at the same time (Configuration.cpp:344-362,
    644-724,827-839,892-944), step by step.

    A step is what a thread does between two points where others may come in: taking and giving back
    mLock, reading or writing the cache, the static timeOfLastPurge or mSchema, and a statement of the
    database.  SQLite serialises its statements; another process may change the database between any
    two steps.  getNum, getBool, getFloat, getVector and defines differ from getStr only in what they
    make of the record while they hold mLock, and getSimilarKeys, isStatic and keyDefinedInSchema
    only read mSchema like isValidValue of a known name.  The update hook is not set (it is part of C90). *)
From Verif Require Import Base UtilsModel SqlModel ConfigModel.
Local Open Scope Z_scope.

(** getStr (Configuration.cpp:713-724), set (892-907), remove (827-839), purge (935-944) and isValidValue
    (361-364). *)
Inductive call := CGet (k : list Z) | CSet (k v : list Z) | CRemove (k : list Z) | CPurge | CValid (k : list Z).
(** Where a thread is, with the number of the table (Configuration.cpp:344-364, 658-724, 827-839 and 892-944). *)
Inductive place :=
| Idle
| Want (t : nat) (c : call)                          (* at the beginning, before ScopedLock lock(mLock) *)
| GAge (t : nat) (k : list Z)                        (* checkCacheAge, Configuration.cpp:916-923 *)
| GStamp (t : nat) (k : list Z) (n : Z)              (* 924 *)
| GErase (t : nat) (k : list Z)                      (* 926-931 *)
| GFind (t : nat) (k : list Z)                       (* lookup, 667-671 *)
| GQuery (t : nat) (k : list Z)                      (* 675-677 *)
| GDefault (t : nat) (k : list Z)                    (* 685-690 *)
| GStore (t : nat) (k : list Z) (v : option (list Z))  (* 683, 686 or 689 *)
| GCopy (t : nat) (k : list Z)                       (* the value of the referenced record, 718 *)
| SSchema (t : nat) (k v : list Z)                   (* set, 897-901 *)
| SCommand (t : nat) (k v cmd : list Z)              (* 903 *)
| SStore (t : nat) (k v : list Z)                    (* 905 *)
| RErase (t : nat) (k : list Z)                      (* remove, 833-834 *)
| RCommand (t : nat) (k : list Z)                    (* 836-837 *)
| PErase (t : nat)                                   (* purge, 938-943 *)
| VRead (t : nat) (k : list Z)                       (* isValidValue, 364 *)
| Leave (t : nat) (o : output).                      (* the end of the scope of the lock *)
(** A call that is over: thread, table, call, result, and the numbers of its first and last step (Configuration.cpp:344-364, 658-724, 827-839 and 892-944). *)
Record finished := Finished { who : nat; where_ : nat; what : call; result : output; begun : nat; ended : nat }.
(** The clock; the static timeOfLastPurge (Configuration.cpp:919); the tables with their caches and databases;
    their schemas; the owners of mLock; where each thread is and what it executes since which step; the number
    of steps; the calls that are over. *)
Record sys := Sys { clock : Z; stamp : Z; tab : nat -> ctable; sch : nat -> schema; owner : nat -> option nat;
  at_ : nat -> place; cur : nat -> nat * call; count : nat; past : list finished }.

(** What happens next: a thread begins a call of a table, a thread goes on (Configuration.cpp:344-362,
    658-724, 827-839, 892-944), the clock goes on, another process changes the database. *)
Inductive label :=
| LCall (i t : nat) (c : call)
| LStep (i : nat) (up : bool)     (* [up]: the database answers, if it is asked in this step *)
| LTick (d : Z)
| LExternal (t : nat) (r : rows).

(** A function changed at one place; not in the source. *)
Definition setf {A} (f : nat -> A) (i : nat) (x : A) : nat -> A := fun j => if (j =? i)%nat then x else f j.
(** The thread is at the next place of Configuration.cpp:658-944. *)
Definition goto (s : sys) (i : nat) (p : place) : sys :=
  Sys (clock s) (stamp s) (tab s) (sch s) (owner s) (setf (at_ s) i p) (cur s) (S (count s)) (past s).
(** Writing mCache, Configuration.cpp:683, 686, 689, 834, 905, 928-931 and 940-943. *)
Definition put_cache (s : sys) (t : nat) (c : cache) : sys :=
  Sys (clock s) (stamp s) (setf (tab s) t (CTable c (tdb (tab s t)))) (sch s) (owner s) (at_ s) (cur s) (count s) (past s).
(** Writing the database, Configuration.cpp:837 and 903, or by another process. *)
Definition put_rows (s : sys) (t : nat) (r : rows) : sys :=
  Sys (clock s) (stamp s) (setf (tab s) t (CTable (tcache (tab s t)) r)) (sch s) (owner s) (at_ s) (cur s) (count s) (past s).
(** timeOfLastPurge = now, Configuration.cpp:924 *)
Definition put_stamp (s : sys) (n : Z) : sys :=
  Sys (clock s) n (tab s) (sch s) (owner s) (at_ s) (cur s) (count s) (past s).
(** Taking and giving back mLock, Configuration.cpp:717, 831, 895 and 937. *)
Definition put_owner (s : sys) (t : nat) (o : option nat) : sys :=
  Sys (clock s) (stamp s) (tab s) (sch s) (setf (owner s) t o) (at_ s) (cur s) (count s) (past s).
(** mSchema[name] in isValidValue, Configuration.cpp:364, inserts a key that is not there. *)
Definition put_schema (s : sys) (t : nat) (k : list Z) : sys :=
  Sys (clock s) (stamp s) (tab s) (setf (sch s) t (fun x => if weqb x k then Some ([], []) else sch s t x)) (owner s) (at_ s) (cur s) (count s) (past s).
(** The end of a call, with its result (Configuration.cpp:344-364, 658-724, 827-839 and 892-944). *)
Definition finish (s : sys) (i t : nat) (o : output) : sys :=
  Sys (clock s) (stamp s) (tab s) (sch s) (owner s) (at_ s) (cur s) (count s) (past s ++ [Finished i t (snd (cur s i)) o (fst (cur s i)) (count s)]).

(** One step of thread [i]; [Diverge]: it has to wait, or has nothing to do (Configuration.cpp:344-364, 658-724, 827-839 and 892-944). *)
Definition micro (s : sys) (i : nat) (up : bool) : res sys :=
  match at_ s i with
  | Idle => Diverge
  | Want t c =>
      let locked p := match owner s t with Some _ => Diverge | None => Ok (goto (put_owner s t (Some i)) i p) end in
      match c with
      | CGet k => locked (GAge t k)
      | CSet k v => locked (SSchema t k v)
      | CRemove k => locked (RErase t k)
      | CPurge => locked (PErase t)
      | CValid k => Ok (goto s i (VRead t k))
      end
  | GAge t k => Ok (goto s i (if clock s - stamp s <? 3 then GFind t k else GStamp t k (clock s)))
  | GStamp t k n => Ok (goto (put_stamp s n) i (GErase t k))
  | GErase t k => match tcache (tab s t) with [] => Ok (goto s i (GFind t k)) | _ :: c => Ok (goto (put_cache s t c) i (GErase t k)) end
  | GFind t k =>
      Ok (goto s i match cfind (tcache (tab s t)) k with Some (Some _) => GCopy t k | Some None => Leave t (OVal None) | None => GQuery t k end)
  | GQuery t k =>
      Ok (goto s i match snd (single_lookup config_table up (tdb (tab s t)) k) with Some v => GStore t k (Some v) | None => GDefault t k end)
  | GDefault t k => Ok (goto s i (GStore t k (match sch s t k with Some (d, _) => Some d | None => None end)))
  | GStore t k v => Ok (goto (put_cache s t (cset (tcache (tab s t)) k v)) i (match v with Some _ => GCopy t k | None => Leave t (OVal None) end))
  | GCopy t k => match cfind (tcache (tab s t)) k with Some v => Ok (goto s i (Leave t (OVal v))) | None => UB end
  | SSchema t k v => Ok (goto s i (SCommand t k v (set_cmd (sch s t) k v)))
  | SCommand t k v cmd =>
      let (success, r) := command config_table up (tdb (tab s t)) cmd in
      Ok (goto (put_rows s t r) i (if success then SStore t k v else Leave t (OBool false)))
  | SStore t k v => Ok (goto (put_cache s t (cset (tcache (tab s t)) k (Some v))) i (Leave t (OBool true)))
  | RErase t k => Ok (goto (put_cache s t (cerase (tcache (tab s t)) k)) i (RCommand t k))
  | RCommand t k =>
      let (success, r) := command config_table up (tdb (tab s t)) (remove_cmd k) in
      Ok (goto (put_rows s t r) i (Leave t (OBool success)))
  | PErase t => match tcache (tab s t) with [] => Ok (goto s i (Leave t ONone)) | _ :: c => Ok (goto (put_cache s t c) i (PErase t)) end
  | VRead t k =>
      Ok (goto (finish (match sch s t k with Some _ => s | None => put_schema s t k end) i t ONone) i Idle)
  | Leave t o => Ok (goto (put_owner (finish s i t o) t None) i Idle)
  end.
(** What [label] says (Configuration.cpp:344-364, 658-724, 827-839 and 892-944). *)
Definition step (s : sys) (l : label) : res sys :=
  match l with
  | LCall i t c =>
      match at_ s i with
      | Idle => Ok (Sys (clock s) (stamp s) (tab s) (sch s) (owner s) (setf (at_ s) i (Want t c))
          (setf (cur s) i (count s, c)) (S (count s)) (past s))
      | _ => Diverge
      end
  | LStep i up => micro s i up
  | LTick d => if d <? 0 then Diverge else Ok (Sys (clock s + d) (stamp s) (tab s) (sch s) (owner s) (at_ s) (cur s) (S (count s)) (past s))
  | LExternal t r =>
      let s := put_rows s t r in Ok (Sys (clock s) (stamp s) (tab s) (sch s) (owner s) (at_ s) (cur s) (S (count s)) (past s))
  end.
(** Steps one after the other, in any order of the threads (Configuration.cpp:344-364, 658-724, 827-839 and 892-944). *)
Fixpoint runs (s : sys) (l : list label) : res sys :=
  match l with
  | [] => Ok s
  | a :: l => do s <- step s a; runs s l
  end.
(** No thread is in a call and no lock is held (Configuration.cpp:344-364, 658-724, 827-839 and 892-944). *)
Definition start (c0 last0 : Z) (T : nat -> ctable) (S : nat -> schema) : sys :=
  Sys c0 last0 T S (fun _ => None) (fun _ => Idle) (fun _ => (O, CPurge)) O [].

(** The memory the next step of a thread reads ([false]) or writes ([true]) (Configuration.cpp:344-364, 658-724, 827-839 and 892-944). *)
Inductive memory := MStamp | MCache (t : nat) | MSchema (t : nat).
(** What a step reads or writes at the places of Configuration.cpp:364, 667-690, 718, 834, 897-905 and
    916-943. *)
Definition touches (s : sys) (i : nat) : option (memory * bool) :=
  match at_ s i with
  | GAge _ _ => Some (MStamp, false)
  | GStamp _ _ _ => Some (MStamp, true)
  | GErase t _ | GStore t _ _ | SStore t _ _ | RErase t _ | PErase t => Some (MCache t, true)
  | GFind t _ | GCopy t _ => Some (MCache t, false)
  | GDefault t _ | SSchema t _ _ => Some (MSchema t, false)
  | VRead t k => Some (MSchema t, match sch s t k with Some _ => false | None => true end)
  | _ => None
  end.
(** A data race: two threads may access the same memory at the same time, one of them writing (Configuration.cpp:344-364, 658-724, 827-839 and 892-944). *)
Definition races (s : sys) : Prop :=
  exists i j m wi wj, i <> j /\ touches s i = Some (m, wi) /\ touches s j = Some (m, wj) /\ (wi = true \/ wj = true).
