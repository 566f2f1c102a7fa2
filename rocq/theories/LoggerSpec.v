(** What a user expects of the Logger. *)
From Verif Require Import Base UtilsModel SqlModel KvModel LoggerModel.
Local Open Scope Z_scope.

(** The names of the levels. *)
Definition level_table : list (list Z * Z) :=
  [(lit "EMERG", 0); (lit "EMERGENCY", 0); (lit "ALERT", 1); (lit "CRIT", 2); (lit "CRITICAL", 2); (lit "ERR", 3); (lit "ERROR", 3);
   (lit "WARNING", 4); (lit "WARN", 4); (lit "NOTICE", 5); (lit "INFO", 6); (lit "INFORMATION", 6); (lit "DEBUG", 7)].
(** [level] is what the value [v] stands for, given the default of the schema. *)
Definition stands_for (dflt v : list Z) (level : Z) : Prop :=
  In (v, level) level_table \/
  (~ In v (map fst level_table) /\ (In (dflt, level) level_table \/ (~ In dflt (map fst level_table) /\ level = -1))).
(** The key that decides about a file. *)
Definition deciding_key (c : config) (file key : list Z) : Prop :=
  (key = lit "Log.Level." ++ file /\ exists v, c key = Some v /\ v <> []) \/
  (key = lit "Log.Level" /\ (c (lit "Log.Level." ++ file) = None \/ c (lit "Log.Level." ++ file) = Some [])).
Definition prescribes (dflt : list Z) (c : config) (file : list Z) (level : Z) : Prop :=
  exists key v, deciding_key c file key /\ c key = Some v /\ stands_for dflt v level.

(** Histories of one thread: queries for files and changes of the configuration. *)
Inductive levent := Query (file : option (list Z)) | Change (key : list Z) (v : option (list Z)).
Definition name_of (file : option (list Z)) : list Z := match file with Some f => f | None => [] end.
(** The answers, each with the file and the configuration of that moment. *)
Fixpoint lrun (dflt : list Z) (s : lstate) (l : list levent) : res (list (list Z * config * Z) * lstate) :=
  match l with
  | [] => Ok ([], s)
  | Query f :: t =>
      do (level, s') <- gGetLoggingLevel dflt s f;
      do (tr, s'') <- lrun dflt s' t;
      Ok ((name_of f, lcfg s, level) :: tr, s'')
  | Change k v :: t => lrun dflt (LState (fun x => if weqb k x then v else lcfg s x) (lcache s) (lcount s)) t
  end.

(** Histories of several threads: a call is an entry and, if the level is not cached, a
    look-up and an insertion some time later. *)
Inductive cevent := CEnter (t : nat) (file : list Z) | CLookup (t : nat) | CInsert (t : nat) | CChange (key : list Z) (v : option (list Z)).
Inductive cphase := CIdle | CMissed (file : list Z) | CFound (file : list Z) (level : Z).
Record cstate := CState { cl : lstate; cph : nat -> cphase }.
Definition set_phase (p : nat -> cphase) (t : nat) (x : cphase) : nat -> cphase := fun y => if Nat.eqb t y then x else p y.
(** An answer is given on a hit and after the insertion. *)
Definition cstep_ (dflt : list Z) (s : cstate) (e : cevent) : option (list Z * Z) * cstate :=
  match e with
  | CEnter t f =>
      match cph s t with
      | CIdle => let (hit, l) := q_enter (cl s) f in
                 match hit with Some level => (Some (f, level), CState l (cph s)) | None => (None, CState l (set_phase (cph s) t (CMissed f))) end
      | _ => (None, s)
      end
  | CLookup t =>
      match cph s t with
      | CMissed f => match q_lookup dflt (cl s) f with
                     | Ok (level, l) => (None, CState l (set_phase (cph s) t (CFound f level)))
                     | _ => (None, CState (cl s) (set_phase (cph s) t CIdle))     (* the exception leaves the call *)
                     end
      | _ => (None, s)
      end
  | CInsert t =>
      match cph s t with
      | CFound f level => (Some (f, level), CState (q_insert (cl s) f level) (set_phase (cph s) t CIdle))
      | _ => (None, s)
      end
  | CChange k v => (None, CState (LState (fun x => if weqb k x then v else lcfg (cl s) x) (lcache (cl s)) (lcount (cl s))) (cph s))
  end.
(** The answers and all configurations there were. *)
Fixpoint crun (dflt : list Z) (s : cstate) (l : list cevent) : list (list Z * Z) * list config * cstate :=
  match l with
  | [] => ([], [lcfg (cl s)], s)
  | e :: t =>
      let '(o, s') := cstep_ dflt s e in
      let '(os, cs, s'') := crun dflt s' t in
      (match o with Some a => a :: os | None => os end, lcfg (cl s) :: cs, s'')
  end.

(** The last [n] elements. *)
Definition last_n {A} (n : nat) (l : list A) : list A := skipn (length l - n) l.
(** All alarms, each with the limit in force. *)
Definition add_all (l : list (list Z * Z)) : list (list Z) := fold_left (fun a e => addAlarm a (fst e) (snd e)) l [].
