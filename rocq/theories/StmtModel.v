(** Model of the statements of sqlite3util.cpp: which are open, and what the lookups return.

    The database is an oracle that answers the n-th sqlite3_prepare_v2, sqlite3_step and
    column read of the process; statements are numbered.  Using or finalising a statement that
    is not open, or reading a column when there is no row, counts as undefined. *)
From Verif Require Import Base UtilsModel SqlModel.
Local Open Scope Z_scope.

(** The answers of sqlite3_prepare_v2 (sqlite3util.cpp:54), sqlite3_step (75), sqlite3_column_text (153, 329,
    353) and sqlite3_column_int64 (161, 198). *)
Record oracle := Oracle { prep : nat -> Z; stepc : nat -> Z; text : nat -> option (list Z); num : nat -> Z }.
(** Calls made so far; open statements, with the last answer to sqlite3_step. *)
Record db := Db { nprep : nat; nstep : nat; ncol : nat; open_ : list (nat * Z); fresh : nat }.
(** No call made, no statement open (sqlite3util.cpp:40-290). *)
Definition db0 : db := Db 0 0 0 [] 0.
(** A variable of type sqlite3_stmt*. *)
Inductive ptr := Uninit | Null | St (n : nat).

(** sqlite3_prepare_v2, called at sqlite3util.cpp:54: a statement if the code is SQLITE_OK, else NULL. *)
Definition prepare_v2 (O : oracle) (d : db) : Z * ptr * db :=
  let rc := prep O (nprep d) in
  if rc =? SQLITE_OK
  then (rc, St (fresh d), Db (S (nprep d)) (nstep d) (ncol d) ((fresh d, SQLITE_OK) :: open_ d) (S (fresh d)))
  else (rc, Null, Db (S (nprep d)) (nstep d) (ncol d) (open_ d) (fresh d)).
(** Helper: the last answer to sqlite3_step for an open statement. *)
Fixpoint state_of (l : list (nat * Z)) (n : nat) : option Z :=
  match l with [] => None | (m, c) :: t => if Nat.eqb m n then Some c else state_of t n end.
(** Helper: a statement is no longer open (not in the source). *)
Definition drop (l : list (nat * Z)) (n : nat) : list (nat * Z) := filter (fun e => negb (Nat.eqb (fst e) n)) l.
(** Helper: record the last answer for a statement (not in the source). *)
Fixpoint set_state (l : list (nat * Z)) (n : nat) (c : Z) : list (nat * Z) :=
  match l with [] => [] | (m, x) :: t => if Nat.eqb m n then (m, c) :: t else (m, x) :: set_state t n c end.
(** sqlite3_step, called at sqlite3util.cpp:75; the statement must be open. *)
Definition step_ (O : oracle) (d : db) (p : ptr) : res (Z * db) :=
  match p with
  | St n =>
      match state_of (open_ d) n with
      | Some _ => let c := stepc O (nstep d) in Ok (c, Db (nprep d) (S (nstep d)) (ncol d) (set_state (open_ d) n c) (fresh d))
      | None => UB
      end
  | _ => UB
  end.
(** sqlite3_finalize, called at sqlite3util.cpp:65, 147, 177, 201, 334, 359 and 405; NULL does nothing. *)
Definition finalize (d : db) (p : ptr) : res db :=
  match p with
  | Null => Ok d
  | St n =>
      match state_of (open_ d) n with
      | Some _ => Ok (Db (nprep d) (nstep d) (ncol d) (drop (open_ d) n) (fresh d))
      | None => UB
      end
  | Uninit => UB
  end.
(** Is the last answer for the statement SQLITE_ROW? (sqlite3util.cpp:40-290) *)
Definition at_row (d : db) (p : ptr) : bool :=
  match p with St n => match state_of (open_ d) n with Some c => c =? SQLITE_ROW | None => false end | _ => false end.
(** sqlite3_column_text and sqlite3_column_int64 (sqlite3util.cpp:153, 161, 198, 330, 355); there must be a
    row. *)
Definition column {A} (f : nat -> A) (d : db) (p : ptr) : res (A * db) :=
  if at_row d p then Ok (f (ncol d), Db (nprep d) (nstep d) (S (ncol d)) (open_ d) (fresh d)) else UB.

(** The test of sqlite3util.cpp:55 and 76. *)
Definition busy (c : Z) : bool := (c =? SQLITE_BUSY) || (c =? SQLITE_LOCKED).
(** sqlite3_prepare_statement, sqlite3util.cpp:49-68: [p] is the caller's variable. *)
Fixpoint prepare_loop (retries : nat) (O : oracle) (d : db) (src : Z) (p : ptr) : Z * ptr * db :=
  match retries with
  | O => (src, p, d)
  | S n =>
      let '(src, p, d) := prepare_v2 O d in
      if negb (busy src) then (src, p, d) else prepare_loop n O d src p
  end.
(** sqlite3_prepare_statement, sqlite3util.cpp:49-68 *)
Definition prepare_statement (retries : nat) (O : oracle) (d : db) (p : ptr) : res (Z * ptr * db) :=
  let '(src, p, d) := prepare_loop retries O d SQLITE_BUSY p in
  if src =? 0 then Ok (src, p, d) else do d <- finalize d p; Ok (src, p, d).
(** sqlite3_run_query, sqlite3util.cpp:70-86 *)
Fixpoint run_loop (retries : nat) (O : oracle) (d : db) (p : ptr) (src : Z) : res (Z * db) :=
  match retries with
  | O => Ok (src, d)
  | S n => do (src, d) <- step_ O d p; if negb (busy src) then Ok (src, d) else run_loop n O d p src
  end.
(** sqlite3_run_query, sqlite3util.cpp:70-86 *)
Definition run_query (retries : nat) (O : oracle) (d : db) (p : ptr) : res (Z * db) := run_loop retries O d p SQLITE_BUSY.

(** sqlite3_exists, sqlite3util.cpp:166-180 *)
Definition exists_ (retries : nat) (O : oracle) (d : db) : res (bool * db) :=
  do (rc, stmt, d) <- prepare_statement retries O d Uninit;
  if negb (rc =? 0) then Ok (false, d)
  else
    do (src, d) <- run_query retries O d stmt;
    do d <- finalize d stmt;
    Ok (src =? SQLITE_ROW, d).
(** sqlite3_single_lookup of a number, sqlite3util.cpp:184-204: result and valueData. *)
Definition lookup_number (retries : nat) (O : oracle) (d : db) (valueData : Z) : res (bool * Z * db) :=
  do (rc, stmt, d) <- prepare_statement retries O d Uninit;
  if negb (rc =? 0) then Ok (false, valueData, d)
  else
    do (src, d) <- run_query retries O d stmt;
    do (retVal, valueData, d) <-
      (if src =? SQLITE_ROW then do (v, d) <- column (num O) d stmt; Ok (true, u32 v, d)
       else Ok (false, valueData, d));
    do d <- finalize d stmt;
    Ok (retVal, valueData, d).
(** sqlite3_single_lookup of a text, sqlite3util.cpp:315-336 and 340-360: [None] is NULL, otherwise an allocated copy. *)
Definition lookup_text (retries : nat) (O : oracle) (d : db) : res (bool * option (list Z) * db) :=
  do (rc, stmt, d) <- prepare_statement retries O d Uninit;
  if negb (rc =? 0) then Ok (false, None, d)
  else
    do (src, d) <- run_query retries O d stmt;
    do (retVal, valueData, d) <-
      (if src =? SQLITE_ROW then do (v, d) <- column (text O) d stmt; Ok (true, option_map c_str v, d)
       else Ok (false, None, d));
    do d <- finalize d stmt;
    Ok (retVal, valueData, d).
(** sqlite_command, sqlite3util.cpp:394-407: result and *pResultCode *)
Definition command_ (retries : nat) (O : oracle) (d : db) : res (bool * Z * db) :=
  do (rc, stmt, d) <- prepare_statement retries O d Uninit;
  if negb (rc =? 0) then Ok (false, -2, d)
  else
    do (src, d) <- run_query retries O d stmt;
    do d <- finalize d stmt;
    Ok ((src =? SQLITE_DONE) || (src =? SQLITE_OK) || (src =? SQLITE_ROW), src, d).

(** sqlQuery, sqlite3util.h:39-63 *)
Record sqlq := Sqlq { qstmt : ptr; qrc : Z }.
(** queryStart, sqlite3util.cpp:102-116, called by all constructors (128-143) *)
Definition query_start (O : oracle) (d : db) : res (sqlq * db) :=
  do (rc, stmt, d) <- prepare_statement 5 O d Uninit;
  if negb (rc =? 0) then Ok (Sqlq Null SQLITE_ERROR, d)
  else do (src, d) <- run_query 5 O d stmt; Ok (Sqlq stmt src, d).
(** sqlStep, sqlite3util.cpp:119-126 *)
Definition query_step (O : oracle) (d : db) (q : sqlq) : res (bool * sqlq * db) :=
  do (q, d) <- (if qrc q =? SQLITE_ROW then do (src, d) <- run_query 5 O d (qstmt q); Ok (Sqlq (qstmt q) src, d) else Ok (q, d));
  Ok (qrc q =? SQLITE_ROW, q, d).
(** sqlSuccess, sqlite3util.h:54 *)
Definition nonnull (p : ptr) : res bool := match p with Uninit => UB | Null => Ok false | St _ => Ok true end.
(** sqlSuccess, sqlite3util.h:54 *)
Definition query_success (q : sqlq) : res bool := do b <- nonnull (qstmt q); Ok (b && (qrc q =? SQLITE_ROW)).
(** getResultText and getResultInt, sqlite3util.cpp:150-162 *)
Definition result_text (O : oracle) (d : db) (q : sqlq) : res (list Z * db) :=
  do s <- query_success q;
  if s then do (v, d) <- column (text O) d (qstmt q); Ok (match v with Some t => t | None => [] end, d) else Ok ([], d).
(** getResultInt, sqlite3util.cpp:159-162 *)
Definition result_int (O : oracle) (d : db) (q : sqlq) : res (Z * db) :=
  do s <- query_success q;
  if s then column (num O) d (qstmt q) else Ok (0, d).
(** ~sqlQuery, sqlite3util.cpp:145-148 *)
Definition query_end (d : db) (q : sqlq) : res db := do b <- nonnull (qstmt q); if b then finalize d (qstmt q) else Ok d.
(** sqlite_single_lookup, sqlite3util.cpp:256-265 and 278-287: result and resultData. *)
Definition lookup_string_ (O : oracle) (d : db) (resultData : list Z) : res (bool * list Z * db) :=
  do (q, d) <- query_start O d;
  do s <- query_success q;
  do (r, resultData, d) <- (if s then do (t, d) <- result_text O d q; Ok (true, t, d) else Ok (false, resultData, d));
  do d <- query_end d q;
  Ok (r, resultData, d).
(** sqlite_single_lookup_string, sqlite3util.cpp:302-306 *)
Definition lookup_just_string (O : oracle) (d : db) : res (list Z * db) :=
  do (q, d) <- query_start O d;
  do (t, d) <- result_text O d q;
  do d <- query_end d q;
  Ok (t, d).

(** A program that uses these functions; queries are numbered as they are constructed (sqlite3util.cpp:40-290). *)
Inductive call :=
| CExists (retries : nat) | CNumber (retries : nat) (old : Z) | CText (retries : nat) | CCommand (retries : nat)
| CString (old : list Z) | CJustString
| CQuery | CStep (i : nat) | CResText (i : nat) | CResInt (i : nat) | CEnd (i : nat)
| CCopy (i : nat).                (* the copy constructor the compiler makes *)
(** What a call of the program returns (sqlite3util.cpp:40-290). *)
Inductive ret := RBool (b : bool) | RNumber (b : bool) (v : Z) | RText (b : bool) (v : option (list Z)) | RString (s : list Z) | RInt (v : Z) | RVoid.
(** The state of such a program: the database, the sqlQuery objects that exist (sqlite3util.h:39-63), and how
    many were made. *)
Record prog := Prog { pdb : db; queries : list (nat * sqlq); qmade : nat }.
(** Helper: the object with a number (sqlite3util.cpp:40-290). *)
Fixpoint query_at (l : list (nat * sqlq)) (i : nat) : option sqlq :=
  match l with [] => None | (j, q) :: t => if Nat.eqb j i then Some q else query_at t i end.
(** Helper: the object with a number changed (sqlite3util.cpp:40-290). *)
Definition put_query (l : list (nat * sqlq)) (i : nat) (q : sqlq) : list (nat * sqlq) :=
  map (fun e => if Nat.eqb (fst e) i then (i, q) else e) l.
(** Helper: the object with a number destroyed (sqlite3util.cpp:40-290). *)
Definition drop_query (l : list (nat * sqlq)) (i : nat) : list (nat * sqlq) := filter (fun e => negb (Nat.eqb (fst e) i)) l.
(** One call, by the functions above (sqlite3util.cpp:49-407). *)
Definition docall (O : oracle) (p : prog) (c : call) : res (ret * prog) :=
  let d := pdb p in
  match c with
  | CExists r => do (b, d) <- exists_ r O d; Ok (RBool b, Prog d (queries p) (qmade p))
  | CNumber r old => do (b, v, d) <- lookup_number r O d old; Ok (RNumber b v, Prog d (queries p) (qmade p))
  | CText r => do (b, v, d) <- lookup_text r O d; Ok (RText b v, Prog d (queries p) (qmade p))
  | CCommand r => do (b, v, d) <- command_ r O d; Ok (RNumber b v, Prog d (queries p) (qmade p))
  | CString old => do (b, v, d) <- lookup_string_ O d old; Ok (RText b (Some v), Prog d (queries p) (qmade p))
  | CJustString => do (v, d) <- lookup_just_string O d; Ok (RString v, Prog d (queries p) (qmade p))
  | CQuery => do (q, d) <- query_start O d; Ok (RVoid, Prog d ((qmade p, q) :: queries p) (S (qmade p)))
  | CStep i =>
      match query_at (queries p) i with
      | Some q => do (b, q, d) <- query_step O d q; Ok (RBool b, Prog d (put_query (queries p) i q) (qmade p))
      | None => UB
      end
  | CResText i =>
      match query_at (queries p) i with
      | Some q => do (t, d) <- result_text O d q; Ok (RString t, Prog d (queries p) (qmade p))
      | None => UB
      end
  | CResInt i =>
      match query_at (queries p) i with
      | Some q => do (v, d) <- result_int O d q; Ok (RInt v, Prog d (queries p) (qmade p))
      | None => UB
      end
  | CEnd i =>
      match query_at (queries p) i with
      | Some q => do d <- query_end d q; Ok (RVoid, Prog d (drop_query (queries p) i) (qmade p))
      | None => UB
      end
  | CCopy i =>
      match query_at (queries p) i with
      | Some q => Ok (RVoid, Prog d ((qmade p, q) :: queries p) (S (qmade p)))
      | None => UB
      end
  end.
(** The calls of a program one after the other (sqlite3util.cpp:40-290). *)
Fixpoint docalls (O : oracle) (p : prog) (l : list call) : res (list ret * prog) :=
  match l with
  | [] => Ok ([], p)
  | c :: t => do (r, p) <- docall O p c; do (rs, p) <- docalls O p t; Ok (r :: rs, p)
  end.
(** The start of a program (sqlite3util.cpp:40-290). *)
Definition prog0 : prog := Prog db0 [] 0.
