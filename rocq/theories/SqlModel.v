(** Model of sqlite3util.cpp and of the database statements the library builds.

    The database itself is specified, not modelled from source: [lex], [parse] and [exec]
    say how SQLite reads the few statement forms used here.  Keywords are upper case,
    as the library writes them; anything outside these forms counts as an error. *)
From Verif Require Import Base UtilsModel.
Local Open Scope Z_scope.

(** ** Retrying, sqlite3util.cpp:49-86 *)
Definition SQLITE_OK := 0.
(** Set by queryStart until there is an answer, sqlite3util.cpp:106. *)
Definition SQLITE_ERROR := 1.
(** Tested at sqlite3util.cpp:55 and 76. *)
Definition SQLITE_BUSY := 5.
(** Tested at sqlite3util.cpp:55 and 76. *)
Definition SQLITE_LOCKED := 6.
(** Tested at sqlite3util.cpp:81, 121 and 125. *)
Definition SQLITE_ROW := 100.
(** Tested at sqlite3util.cpp:81 and 406. *)
Definition SQLITE_DONE := 101.

(** [call i] is what the i-th call of the database function returns.  The result is the
    last code and the number of calls made (sqlite3util.cpp:50-95). *)
Fixpoint retry_loop (retries : nat) (call : nat -> Z) (i : nat) (src : Z) : Z * nat :=
  match retries with
  | O => (src, i)
  | S n =>
      let src := call i in
      if negb (src =? SQLITE_BUSY) && negb (src =? SQLITE_LOCKED) then (src, S i)
      else retry_loop n call (S i) src
  end.
(** sqlite3util.cpp:49-68.  With no try at all *stmt is never set but finalised. *)
Definition sqlite3_prepare_statement (retries : nat) (call : nat -> Z) : res (Z * nat) :=
  let (src, n) := retry_loop retries call 0 SQLITE_BUSY in
  if src =? 0 then Ok (src, n)
  else match retries with O => UB | S _ => Ok (src, n) end.
(** sqlite3util.cpp:70-86 *)
Definition sqlite3_run_query (retries : nat) (call : nat -> Z) : Z * nat :=
  retry_loop retries call 0 SQLITE_BUSY.
(** sqlite3util.cpp:394-407: the result and *pResultCode. *)
Definition sqlite_command (retries : nat) (prepare step : nat -> Z) : res (bool * Z) :=
  do (rc, _) <- sqlite3_prepare_statement retries prepare;
  if rc =? 0 then
    let (src, _) := sqlite3_run_query retries step in
    Ok ((src =? SQLITE_DONE) || (src =? SQLITE_OK) || (src =? SQLITE_ROW), src)
  else Ok (false, -2).

(** sqlQuery, sqlite3util.cpp:102-125, sqlite3util.h:39-63: the statement (present or
    not), the last code, and how many times sqlite3_step was called. *)
Record query := Query { mStmt : bool; mQueryRC : Z; steps : nat }.
(** sqlQuery::queryStart, sqlite3util.cpp:102-116 *)
Definition queryStart (prepare step : nat -> Z) : res query :=
  do (rc, _) <- sqlite3_prepare_statement 5 prepare;
  if rc =? 0 then let (src, n) := sqlite3_run_query 5 step in Ok (Query true src n)
  else Ok (Query false SQLITE_ERROR 0).
(** sqlSuccess, sqlite3util.h:54 *)
Definition sqlSuccess (q : query) : bool := mStmt q && (mQueryRC q =? SQLITE_ROW).
(** sqlQuery::sqlStep, sqlite3util.cpp:119-126 *)
Definition sqlStep (step : nat -> Z) (q : query) : bool * query :=
  let q := if mQueryRC q =? SQLITE_ROW
           then let (src, n) := sqlite3_run_query 5 (fun i => step (steps q + i)%nat) in Query (mStmt q) src (steps q + n)
           else q in
  (mQueryRC q =? SQLITE_ROW, q).

(** ** How SQLite reads a statement *)
(** the statements of Configuration.cpp:676-905 and sqlite3util.cpp:171-374 *)
Inductive tok :=
| Word (w : list Z)      (* keyword, name or number *)
| Sq (s : list Z)        (* 'text', a quote doubled inside *)
| Dq (s : list Z)        (* "name", a quote doubled inside *)
| Punct (c : Z)
| EqEq.                  (* = or == *)
(** The state of the scanner inside sqlite3_prepare_v2 (called at sqlite3util.cpp:54); specified from the
    documentation of SQLite. *)
Inductive lstate := LStart | LWord (acc : list Z) | LSq (acc : list Z) | LSqEnd (acc : list Z)
                  | LDq (acc : list Z) | LDqEnd (acc : list Z) | LEq.

(** Characters of keywords, names and numbers for sqlite3_prepare_v2 (sqlite3util.cpp:54). *)
Definition wordchar (c : Z) : bool :=
  ((48 <=? c) && (c <=? 57)) || ((65 <=? c) && (c <=? 90)) || ((97 <=? c) && (c <=? 122)) || (c =? 95) || (128 <=? c).
(** The first character of a token, for the call at sqlite3util.cpp:54. *)
Definition start_tok (c : Z) : option (list tok * lstate) :=
  if isspace c then Some ([], LStart)
  else if wordchar c then Some ([], LWord [c])
  else if c =? 39 then Some ([], LSq [])
  else if c =? 34 then Some ([], LDq [])
  else if c =? 61 then Some ([], LEq)
  else if (c =? 40) || (c =? 41) || (c =? 42) || (c =? 44) || (c =? 59) then Some ([Punct c], LStart)
  else None.
(** Helper of the scanner (call at sqlite3util.cpp:54): put a token in front. *)
Definition emit (k : tok) (r : option (list tok * lstate)) : option (list tok * lstate) :=
  match r with Some (l, st) => Some (k :: l, st) | None => None end.
(** One character more, for the call at sqlite3util.cpp:54. *)
Definition lex_step (st : lstate) (c : Z) : option (list tok * lstate) :=
  match st with
  | LStart => start_tok c
  | LWord a => if wordchar c then Some ([], LWord (c :: a)) else emit (Word (rev a)) (start_tok c)
  | LSq a => if c =? 39 then Some ([], LSqEnd a) else Some ([], LSq (c :: a))
  | LSqEnd a => if c =? 39 then Some ([], LSq (39 :: a)) else emit (Sq (rev a)) (start_tok c)
  | LDq a => if c =? 34 then Some ([], LDqEnd a) else Some ([], LDq (c :: a))
  | LDqEnd a => if c =? 34 then Some ([], LDq (34 :: a)) else emit (Dq (rev a)) (start_tok c)
  | LEq => if c =? 61 then Some ([EqEq], LStart) else emit EqEq (start_tok c)
  end.
(** The end of the text, for the call at sqlite3util.cpp:54; an open quotation is an error. *)
Definition lex_end (st : lstate) : option (list tok) :=
  match st with
  | LStart => Some []
  | LWord a => Some [Word (rev a)]
  | LSq _ | LDq _ => None                  (* unterminated *)
  | LSqEnd a => Some [Sq (rev a)]
  | LDqEnd a => Some [Dq (rev a)]
  | LEq => Some [EqEq]
  end.
(** The tokens of a text from a state on, for the call at sqlite3util.cpp:54. *)
Fixpoint lex_ (st : lstate) (s : list Z) : option (list tok) :=
  match s with
  | [] => lex_end st
  | c :: t =>
      match lex_step st c with
      | Some (l, st') => match lex_ st' t with Some r => Some (l ++ r) | None => None end
      | None => None
      end
  end.
(** The tokens of the text given to sqlite3_prepare_v2, sqlite3util.cpp:54. *)
Definition lex (s : list Z) : option (list tok) := lex_ LStart s.

(** An operand of a statement: text, quoted name, word (texts such as those of sqlite3util.cpp:92, 171 and
    374). *)
Inductive val := VStr (s : list Z) | VName (s : list Z) | VWord (w : list Z).
(** The forms of statement the library sends: Configuration.cpp:836, 898, 900, sqlite3util.cpp:111, 171, 322 and
    374. *)
Inductive stmt :=
| SInsert (table : list Z) (cols : list (list Z)) (tuples : list (list val))   (* INSERT OR REPLACE *)
| SDelete (table : list Z) (cond : list (val * val))
| SSelect (col table : list Z) (cond : list (val * val)).
(** Helper of [parse] (sqlite3util.cpp:54): a token as operand. *)
Definition val_of (t : tok) : option val :=
  match t with Sq s => Some (VStr s) | Dq s => Some (VName s) | Word w => Some (VWord w) | _ => None end.

(** [v, v, ...)] (the statements of Configuration.cpp:676-905 and sqlite3util.cpp:171-374) *)
Fixpoint p_vals (l : list tok) : option (list val * list tok) :=
  match l with
  | a :: Punct p :: r =>
      match val_of a with
      | Some v =>
          if p =? 41 then Some ([v], r)
          else if p =? 44 then match p_vals r with Some (vs, r') => Some (v :: vs, r') | None => None end
          else None
      | None => None
      end
  | _ => None
  end.
(** [(...), (...)] to the end of the statement (the statements of Configuration.cpp:676-905 and sqlite3util.cpp:171-374). *)
Fixpoint p_tuples (fuel : nat) (l : list tok) : option (list (list val)) :=
  match fuel with
  | O => None
  | S n =>
      match l with
      | Punct p :: r =>
          if p =? 40 then
            match p_vals r with
            | Some (vs, []) => Some [vs]
            | Some (vs, Punct q :: r') =>
                if q =? 59 then Some [vs]
                else if q =? 44 then match p_tuples n r' with Some ts => Some (vs :: ts) | None => None end
                else None
            | _ => None
            end
          else None
      | _ => None
      end
  end.
(** Helper: equality of texts (std::string ==, strcmp()==0). *)
Definition weqb (a b : list Z) : bool := if list_eq_dec Z.eq_dec a b then true else false.
(** The condition after WHERE, written at sqlite3util.cpp:92 and 98, to the end of the statement. *)
Fixpoint p_cond (fuel : nat) (l : list tok) : option (list (val * val)) :=
  match fuel with
  | O => None
  | S n =>
      match l with
      | a :: EqEq :: b :: r =>
          match val_of a, val_of b with
          | Some x, Some y =>
              match r with
              | [] => Some [(x, y)]
              | Punct q :: _ => if q =? 59 then Some [(x, y)] else None
              | Word w :: r' => if weqb w (lit "OR") then match p_cond n r' with Some c => Some ((x, y) :: c) | None => None end else None
              | _ => None
              end
          | _, _ => None
          end
      | _ => None
      end
  end.
(** Helper of [parse] (sqlite3util.cpp:54): the given keywords are next. *)
Fixpoint words (l : list (list Z)) (t : list tok) : option (list tok) :=
  match l with
  | [] => Some t
  | w :: l' => match t with Word x :: t' => if weqb x w then words l' t' else None | _ => None end
  end.
(** Helper of [parse]: the names of the columns, in any of the notations (the statements of Configuration.cpp:676-905 and sqlite3util.cpp:171-374). *)
Definition col_names (vs : list val) : list (list Z) :=
  map (fun v => match v with VStr s | VName s | VWord s => s end) vs.
(** After INTO: table, columns, VALUES and tuples (Configuration.cpp:898, sqlite3util.cpp:374). *)
Definition p_into (t : list tok) : option stmt :=
  match t with
  | Word table :: Punct p :: r =>
      if p =? 40 then
        match p_vals r with
        | Some (cols, Word v :: r') =>
            if weqb v (lit "VALUES") then
              match p_tuples (length r') r' with Some ts => Some (SInsert table (col_names cols) ts) | None => None end
            else None
        | _ => None
        end
      else None
  | _ => None
  end.
(** The statement sqlite3_prepare_v2 (sqlite3util.cpp:54) finds in the tokens. *)
Definition parse (t : list tok) : option stmt :=
  match words [lit "INSERT"; lit "OR"; lit "REPLACE"; lit "INTO"] t with
  | Some r => p_into r
  | None =>
  match words [lit "REPLACE"; lit "INTO"] t with
  | Some r => p_into r
  | None =>
  match words [lit "DELETE"; lit "FROM"] t with
  | Some (Word table :: Word w :: r) =>
      if weqb w (lit "WHERE") then match p_cond (length r) r with Some c => Some (SDelete table c) | None => None end else None
  | _ =>
  match t with
  | Word s :: Word col :: Word f :: Word table :: Word w :: r =>
      if weqb s (lit "SELECT") && weqb f (lit "FROM") && weqb w (lit "WHERE")
      then match p_cond (length r) r with Some c => Some (SSelect col table c) | None => None end
      else None
  | _ => None
  end end end end.

(** ** A table with a unique key column and a value column *)
(** the statements of Configuration.cpp:676-905 and sqlite3util.cpp:171-374 *)
Record table := Table { tname : list Z; kcol : list Z; vcol : list Z; others : list (list Z) }.
(** The contents: key and value, NULL possible (the statements of Configuration.cpp:676-905 and sqlite3util.cpp:171-374). *)
Definition rows := list (list Z * option (list Z)).

(** Upper case of an ASCII letter; names of columns are compared without case by SQLite (the statements of Configuration.cpp:676-905 and sqlite3util.cpp:171-374). *)
Definition upc (c : Z) : Z := if (97 <=? c) && (c <=? 122) then c - 32 else c.
(** Upper case of a name (the statements of Configuration.cpp:676-905 and sqlite3util.cpp:171-374). *)
Definition upper (s : list Z) : list Z := map upc s.
(** Names every table of SQLite has besides its columns (the statements of Configuration.cpp:676-905 and sqlite3util.cpp:171-374). *)
Definition rowid_names : list (list Z) := [lit "ROWID"; lit "OID"; lit "_ROWID_"].
(** Is the name that of a column outside the model?  Then the statement counts as not modelled (the statements of Configuration.cpp:676-905 and sqlite3util.cpp:171-374). *)
Definition is_other (T : table) (n : list Z) : bool := existsb (weqb (upper n)) (others T ++ rowid_names).

(** A name in a row: a column, or (double quotes only) text if there is no such column (the statements of Configuration.cpp:676-905 and sqlite3util.cpp:171-374). *)
Definition in_row (T : table) (row : list Z * option (list Z)) (v : val) : option (option (list Z)) :=
  match v with
  | VStr s => Some (Some s)
  | VName n =>
      if weqb (upper n) (kcol T) then Some (Some (fst row))
      else if weqb (upper n) (vcol T) then Some (snd row)
      else if is_other T n then None              (* not modelled *)
      else Some (Some n)
  | VWord n =>
      if weqb (upper n) (kcol T) then Some (Some (fst row))
      else if weqb (upper n) (vcol T) then Some (snd row)
      else None
  end.
(** The condition of the statement (sqlite3util.cpp:92) for a row, evaluated by sqlite3_step
    (sqlite3util.cpp:75). *)
Fixpoint holds (T : table) (row : list Z * option (list Z)) (cond : list (val * val)) : option bool :=
  match cond with
  | [] => Some false
  | (x, y) :: t =>
      match in_row T row x, in_row T row y, holds T row t with
      | Some a, Some b, Some r =>
          Some (match a, b with Some p, Some q => weqb p q | _, _ => false end || r)
      | _, _, _ => None
      end
  end.
(** The rows a condition selects, in the order of the table, and the others (sqlite3_step,
    sqlite3util.cpp:75). *)
Fixpoint matching (T : table) (cond : list (val * val)) (r : rows) : option (rows * rows) :=   (* matching, not matching *)
  match r with
  | [] => Some ([], [])
  | row :: t =>
      match holds T row cond, matching T cond t with
      | Some b, Some (yes, no) => Some (if b then (row :: yes, no) else (yes, row :: no))
      | _, _ => None
      end
  end.
(** A value of VALUES: text, or a number written with digits (the statements of Configuration.cpp:676-905 and sqlite3util.cpp:171-374). *)
Definition literal (v : val) : option (list Z) :=
  match v with
  | VStr s | VName s => Some s
  | VWord w => if forallb (fun c => (48 <=? c) && (c <=? 57)) w then Some w else None
  end.
(** All values of a tuple (the statements of Configuration.cpp:676-905 and sqlite3util.cpp:171-374). *)
Fixpoint literals (l : list val) : option (list (list Z)) :=
  match l with
  | [] => Some []
  | v :: t => match literal v, literals t with Some a, Some r => Some (a :: r) | _, _ => None end
  end.
(** REPLACE: the old row goes, the new one comes last (the statements of Configuration.cpp:676-905 and sqlite3util.cpp:171-374). *)
Definition replace_row (r : rows) (k : list Z) (v : option (list Z)) : rows :=
  filter (fun row => negb (weqb (fst row) k)) r ++ [(k, v)].
(** The tuples of VALUES one after the other (sqlite3_step, sqlite3util.cpp:75); each must have as many values
    as there are columns. *)
Fixpoint insert_all (n : nat) (r : rows) (ts : list (list val)) : option rows :=
  match ts with
  | [] => Some r
  | t :: ts' =>
      match literals t with
      | Some (k :: v :: l) => if (S (S (length l)) =? n)%nat then insert_all n (replace_row r k (Some v)) ts' else None
      | _ => None
      end
  end.
(** The columns named after INTO: key and value first, then known ones (the statements of Configuration.cpp:676-905 and sqlite3util.cpp:171-374). *)
Definition cols_ok (T : table) (cols : list (list Z)) : bool :=
  match cols with
  | k :: v :: l => weqb k (kcol T) && weqb v (vcol T) && forallb (fun c => existsb (weqb c) (others T)) l
  | _ => false
  end.
(** Result of a statement: the rows it yields and the new contents; [None] is an error (the statements of Configuration.cpp:676-905 and sqlite3util.cpp:171-374). *)
Definition exec (T : table) (s : stmt) (r : rows) : option (rows * rows) :=
  match s with
  | SInsert t cols ts =>
      if weqb t (tname T) && cols_ok T cols then
        match insert_all (length cols) r ts with Some r' => Some ([], r') | None => None end
      else None
  | SDelete t c =>
      if weqb t (tname T) then match matching T c r with Some (_, no) => Some ([], no) | None => None end else None
  | SSelect col t c =>
      if weqb t (tname T) && weqb col (vcol T) then match matching T c r with Some (yes, _) => Some (yes, r) | None => None end else None
  end.
(** A statement text, as a C string (the statements of Configuration.cpp:676-905 and sqlite3util.cpp:171-374). *)
Definition sql (T : table) (text : list Z) (r : rows) : option (rows * rows) :=
  match lex (c_str text) with
  | Some t => match parse t with Some s => exec T s r | None => None end
  | None => None
  end.

(** ** Statements of sqlite3util.cpp *)
(** sqlite3_single_lookup, sqlite3util.cpp:315-334: found a row?, its value (NULL if absent).
    [up] is false when the database cannot be used.  The buffer holds the whole text. *)
Definition single_lookup (T : table) (up : bool) (r : rows) (keyData : list Z) : bool * option (list Z) :=
  let query := lit "SELECT " ++ vcol T ++ lit " FROM " ++ tname T ++ lit " WHERE " ++ kcol T ++ lit " == """ ++ c_str keyData ++ lit """" in
  if up then
    match sql T query r with
    | Some ((_, v) :: _, _) => (true, option_map c_str v)
    | _ => (false, None)
    end
  else (false, None).
(** sqlite3_command: sqlite_command of a text. *)
Definition command (T : table) (up : bool) (r : rows) (text : list Z) : bool * rows :=
  if up then match sql T text r with Some (_, r') => (true, r') | None => (false, r) end else (false, r).

(** condition_c, sqlite3util.cpp:90-94: cut to 99 characters. *)
Definition condition_c (keyName keyValue : list Z) : list Z :=
  c_str (vsnprintf_buf 100 (lit "WHERE " ++ c_str keyName ++ lit " == '" ++ c_str keyValue ++ lit "'")).
(** sqlite_single_lookup_string, sqlite3util.cpp:302-312 through queryStart (102-116) and
    getResultText (150-157).  format cuts at 5000 characters. *)
Definition lookup_string (T : table) (up : bool) (r : rows) (keyData : list Z) : list Z :=
  let query := format (lit "SELECT " ++ vcol T ++ lit " FROM " ++ tname T ++ lit " " ++ condition_c (kcol T) keyData) in
  if up then
    match sql T query r with
    | Some ((_, Some v) :: _, _) => v
    | _ => []
    end
  else [].
(** sqlite_set_attr and sqlite_get_attr, sqlite3util.cpp:363-389 *)
Definition attr_table : table := Table (lit "ATTR_TABLE") (lit "ATTR_NAME") (lit "ATTR_VALUE") [].
(** sqlite_set_attr, sqlite3util.cpp:363-384; the table exists (365), the text is cut to 99 characters
    (373-374). *)
Definition set_attr (up : bool) (r : rows) (name value : list Z) : bool * rows :=
  command attr_table up r
    (c_str (vsnprintf_buf 100 (lit "REPLACE INTO ATTR_TABLE (ATTR_NAME,ATTR_VALUE) VALUES('" ++ c_str name ++ lit "','" ++ c_str value ++ lit "')"))).
(** sqlite_get_attr, sqlite3util.cpp:386-389 *)
Definition get_attr (up : bool) (r : rows) (name : list Z) : list Z := lookup_string attr_table up r name.
