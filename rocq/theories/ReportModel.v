(** Model of ReportingTable (Reporting.cpp).

    The database is a list of counters with their values.  Commands are formatted into a
    buffer of 200 bytes; a longer text is undefined behaviour ([UB]).  What a command does
    is specified here and not parsed: names in double quotes are text unless they name a
    column; NAME compares a column with itself; the other columns, and names with double
    quotes, are outside the model ([Abort]).  The time columns are left out.  [ok] says whether
    sqlite3_command succeeds; a failed command changes nothing. *)
From Verif Require Import Base UtilsModel SqlModel ConfigModel.
Local Open Scope Z_scope.

(** The table REPORTING, Reporting.cpp:31-38, or mBatch, Reporting.h:36 and 48: names with numbers. *)
Definition counters := list (list Z * Z).
(** The number of a name (Reporting.cpp:69). *)
Fixpoint get (m : counters) (n : list Z) : option Z :=
  match m with [] => None | (x, v) :: t => if weqb x n then Some v else get t n end.
(** mBatch[n] read, Reporting.cpp:89: 0 for a new name. *)
Definition value (m : counters) (n : list Z) : Z := match get m n with Some v => v | None => 0 end.
(** mBatch[n] = v (Reporting.cpp:70, 89 and 180) *)
Fixpoint set (m : counters) (n : list Z) (v : Z) : counters :=
  match m with
  | [] => [(n, v)]
  | (x, w) :: t => if weqb x n then (x, v) :: t else (x, w) :: set t n v
  end.

(** sprintf into char cmd[200] *)
Definition cmd200 (text : list Z) : res unit := if Nat.ltb (length text) 200 then Ok tt else UB.
Definition create_text (name : list Z) (now : Z) : list Z :=                        (* Reporting.cpp:76 *)
  lit "INSERT OR IGNORE INTO REPORTING (NAME,CLEAREDTIME) VALUES (" ++ [34] ++ name ++ [34; 44] ++ sprintf_ld now ++ lit ")".
Definition max_text (name : list Z) (v now : Z) : list Z :=                         (* Reporting.cpp:100 *)
  lit "UPDATE REPORTING SET VALUE=MAX(VALUE," ++ sprintf_ld v ++ lit "), UPDATETIME=" ++ sprintf_ld now ++ lit " WHERE NAME=" ++ [34] ++ name ++ [34].
Definition clear_text (name : list Z) (now : Z) : list Z :=                         (* Reporting.cpp:112 *)
  lit "UPDATE REPORTING SET VALUE=0, UPDATETIME=0, CLEAREDTIME=" ++ sprintf_ld now ++ lit " WHERE NAME=" ++ [34] ++ name ++ [34].
Definition commit_text (name : list Z) (n now : Z) : list Z :=                      (* Reporting.cpp:195 *)
  lit "UPDATE REPORTING SET VALUE=VALUE+" ++ sprintf_ld n ++ lit ", UPDATETIME=" ++ sprintf_ld now ++ lit " WHERE NAME=" ++ [34] ++ name ++ [34].

(** Which rows WHERE NAME="name" selects (Reporting.cpp:100, 112 and 195). *)
Definition where_name (name : list Z) : res (list Z -> bool) :=
  if existsb (Z.eqb 34) name then Abort
  else if weqb (upper name) (lit "NAME") then Ok (fun _ => true)
  else if existsb (weqb (upper name)) [lit "VALUE"; lit "CLEAREDTIME"; lit "UPDATETIME"; lit "ROWID"; lit "OID"; lit "_ROWID_"] then Abort
  else Ok (fun x => weqb x name).
(** UPDATE REPORTING SET VALUE=... for the rows [p] selects, Reporting.cpp:100, 112, 125 and 195. *)
Definition update (db : counters) (p : list Z -> bool) (f : Z -> Z) : counters := map (fun e => if p (fst e) then (fst e, f (snd e)) else e) db.

(** [inflight]: what running commits have taken and not yet written, with the thread (Reporting.cpp:65-206). *)
Record rstate := RState { batch : counters; db : counters; inflight : list (nat * (list Z * Z)) }.
(** Calls of create (Reporting.cpp:65-82), incr (86-93), max (97-106) and clear (109-131), and the two parts
    of commit (168-206) in a thread. *)
Inductive revent :=
| RCreate (name : list Z) (now : Z) (ok : bool)
| RIncr (name : list Z)
| RMax (name : list Z) (v now : Z) (ok : bool)
| RClear (name : list Z) (now : Z) (ok : bool)
| RClearAll (ok : bool)
| RTake (t : nat)
| RWrite (t : nat) (now : Z) (ok : bool).

(** create, Reporting.cpp:65-82 *)
Definition create (s : rstate) (name : list Z) (now : Z) (ok : bool) : res rstate :=
  let b := match get (batch s) name with None => set (batch s) name 0 | Some _ => batch s end in
  do _ <- cmd200 (create_text name now);
  do _ <- where_name name;
  Ok (RState b (if ok then match get (db s) name with None => db s ++ [(name, 0)] | Some _ => db s end else db s) (inflight s)).
(** incr, Reporting.cpp:86-93: mBatch[name]++ *)
Definition incr (s : rstate) (name : list Z) : rstate :=
  RState (set (batch s) name (u32 (value (batch s) name + 1))) (db s) (inflight s).
(** max, Reporting.cpp:97-106 *)
Definition max (s : rstate) (name : list Z) (v now : Z) (ok : bool) : res rstate :=
  do _ <- cmd200 (max_text name v now);
  do p <- where_name name;
  Ok (RState (batch s) (if ok then update (db s) p (fun x => Z.max x v) else db s) (inflight s)).
(** clear, Reporting.cpp:109-118 and 122-131 *)
Definition clear (s : rstate) (name : list Z) (now : Z) (ok : bool) : res rstate :=
  do _ <- cmd200 (clear_text name now);
  do p <- where_name name;
  Ok (RState (batch s) (if ok then update (db s) p (fun _ => 0) else db s) (inflight s)).
(** clear() of all counters, Reporting.cpp:122-131 *)
Definition clear_all (s : rstate) (ok : bool) : rstate :=
  RState (batch s) (if ok then update (db s) (fun _ => true) (fun _ => 0) else db s) (inflight s).
(** commit, Reporting.cpp:175-185, under the lock *)
Definition take (s : rstate) (t : nat) : rstate :=
  RState (map (fun e => if 0 <? snd e then (fst e, 0) else e) (batch s)) (db s)
         (inflight s ++ map (fun e => (t, e)) (filter (fun e => 0 <? snd e) (batch s))).
(** One turn of the second loop of commit, Reporting.cpp:194-200 *)
Fixpoint next (t : nat) (l : list (nat * (list Z * Z))) : option (list Z * Z * list (nat * (list Z * Z))) :=
  match l with
  | [] => None
  | (u, e) :: r => if Nat.eqb u t then Some (e, r) else match next t r with Some (x, r') => Some (x, (u, e) :: r') | None => None end
  end.
(** Reporting.cpp:194-200: the next counter that thread [t] has taken is written. *)
Definition write (s : rstate) (t : nat) (now : Z) (ok : bool) : res rstate :=
  match next t (inflight s) with
  | None => Ok s
  | Some ((name, n), rest) =>
      do _ <- cmd200 (commit_text name n now);
      do p <- where_name name;
      Ok (RState (batch s) (if ok then update (db s) p (fun x => x + n) else db s) rest)
  end.
(** One event, by the functions above (Reporting.cpp:65-206). *)
Definition rstep (s : rstate) (e : revent) : res rstate :=
  match e with
  | RCreate name now ok => create s name now ok
  | RIncr name => Ok (incr s name)
  | RMax name v now ok => max s name v now ok
  | RClear name now ok => clear s name now ok
  | RClearAll ok => Ok (clear_all s ok)
  | RTake t => Ok (take s t)
  | RWrite t now ok => write s t now ok
  end.
(** Events one after the other; commits of different threads may overlap (Reporting.cpp:65-206). *)
Fixpoint rrun (s : rstate) (l : list revent) : res rstate :=
  match l with
  | [] => Ok s
  | e :: t => do s' <- rstep s e; rrun s' t
  end.
(** A whole commit by one thread with nothing in between (Reporting.cpp:168-206). *)
Fixpoint write_all (fuel : nat) (s : rstate) (t : nat) (now : Z) : res rstate :=
  match fuel with
  | O => Ok s
  | S k => do s' <- write s t now true; write_all k s' t now
  end.
(** commit, Reporting.cpp:168-206, without interruption. *)
Definition commit (s : rstate) (t : nat) (now : Z) : res rstate := let s' := take s t in write_all (length (inflight s')) s' t now.

(** ** Indexed names, Reporting.cpp:134-166: char name[strlen(baseName)+10] *)
Definition index_text (base : list Z) (i : Z) : list Z := base ++ 46 :: sprintf_ld i.
(** sprintf of "%s.%u" into name, Reporting.cpp:139, 148, 156 and 164. *)
Definition index_name (base : list Z) (i : Z) : res (list Z) :=
  if Nat.leb (length (index_text base i) + 1) (length base + 10) then Ok (index_text base i) else UB.
(** create for a range of indices, Reporting.cpp:134-143: the names created, up to the first failure. *)
Fixpoint create_range (fuel : nat) (base : list Z) (i max : Z) (ok : list Z -> bool) : res (list (list Z) * bool) :=
  match fuel with
  | O => Diverge
  | S k =>
      if i <=? max then
        do name <- index_name base i;
        if ok name then do (l, r) <- create_range k base (u32 (i + 1)) max ok; Ok (name :: l, r)
        else Ok ([name], false)
      else Ok ([], true)
  end.
