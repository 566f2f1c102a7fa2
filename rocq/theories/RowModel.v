(** Model of the lookups of sqlite3util.cpp (89-360) as seen by their callers: the statement each one
    builds, what SQLite selects for it and what is handed back.  Tries and statements: SqlModel.v and
    StmtModel.v.

    Tables with columns of TEXT, INTEGER or no type; cells NULL, integers of 64 bits and texts.
    Real numbers and blobs are left out: where a text would be compared as a real number the
    statement counts as an error.  Names are plain words other than the keywords of SQL. *)
From Verif Require Import Base UtilsModel SqlModel ConfigModel.
Local Open Scope Z_scope.

(** What a column of a row holds (sqlite3_column_text and sqlite3_column_int64, sqlite3util.cpp:153 and 161).
    *)
Inductive cell := Null | Int (z : Z) | Text (s : list Z).
(** The declared type of a column, datatype3.html of SQLite. *)
Inductive affinity := ATextual | AInteger | ANone.
(** A table: name, columns, rows; what the statements of sqlite3util.cpp:111, 171, 190, 322 and 347 select
    from. *)
Record table := Table { rname : list Z; cols : list (list Z * affinity); data : list (list cell) }.

(** ** How SQLite compares (datatype3.html, section 4.2; sqlite3CompareAffinity, OP_Eq) *)
(** The integer a text looks like; [Some None]: it looks like no number; [None]: left out (SELECT of sqlite3util.cpp:171, 190, 322 and 347). *)
Definition trim (s : list Z) : list Z := rev (skip_space (rev (skip_space s))).
(** Helper: an ASCII digit (SELECT of sqlite3util.cpp:171, 190, 322 and 347). *)
Definition is_digit (c : Z) : bool := (48 <=? c) && (c <=? 57).
(** Helper: the number written with the digits (SELECT of sqlite3util.cpp:171, 190, 322 and 347). *)
Definition digits_value (s : list Z) : Z := fold_left (fun v c => 10 * v + (c - 48)) s 0.
(** Is the number one of sqlite3_int64 (sqlite3util.h:57)? *)
Definition fits64 (z : Z) : bool := (- 2 ^ 63 <=? z) && (z <? 2 ^ 63).
(** The integer the text of a literal or cell looks like, for a comparison in a statement of
    sqlite3util.cpp:92, 98. *)
Definition numeric (s : list Z) : option (option Z) :=
  let t := trim s in
  let (sg, u) := match t with c :: u => if c =? 45 then (-1, u) else if c =? 43 then (1, u) else (1, t) | [] => (1, []) end in
  if match u with [] => false | _ => forallb is_digit u end then let z := sg * digits_value u in if fits64 z then Some (Some z) else None
  else if existsb is_digit s && forallb (fun c => is_digit c || isspace c || (c =? 45) || (c =? 43) || (c =? 46) || (c =? 101) || (c =? 69)) s then None
  else Some None.
(** The affinity for a comparison; a literal has none of its own (SELECT of sqlite3util.cpp:171, 190, 322 and 347). *)
Definition common (a b : option affinity) : affinity :=
  match a, b with
  | Some AInteger, _ | _, Some AInteger => AInteger
  | Some x, None | None, Some x => x
  | _, _ => ANone
  end.
(** A cell after the affinity has been applied (datatype3.html, section 4.2). *)
Definition applied (a : affinity) (c : cell) : option cell :=
  match a, c with
  | ATextual, Int z => Some (Text (sprintf_ld z))
  | AInteger, Text s => match numeric s with Some (Some z) => Some (Int z) | Some None => Some c | None => None end
  | _, _ => Some c
  end.
(** Equality of two cells of one kind; NULL equals nothing (SELECT of sqlite3util.cpp:171, 190, 322 and 347). *)
Definition same (a b : cell) : bool :=
  match a, b with Int x, Int y => x =? y | Text s, Text t => weqb s t | _, _ => false end.
(** The operator == of the conditions of sqlite3util.cpp:92, 98, 171, 190, 322 and 347. *)
Definition equal (x y : cell * option affinity) : option bool :=
  let a := common (snd x) (snd y) in
  match applied a (fst x), applied a (fst y) with Some c, Some d => Some (same c d) | _, _ => None end.

(** ** SELECT *)
(** SELECT of sqlite3util.cpp:295-365 *)
Fixpoint column (n : list Z) (l : list (list Z * affinity)) : option (nat * affinity) :=
  match l with
  | [] => None
  | (m, a) :: t => if weqb (upper n) (upper m) then Some (O, a) else option_map (fun '(i, b) => (S i, b)) (column n t)
  end.
(** A value in a row: a column, a number, a text; a name in double quotes that is no column is a text (SELECT of sqlite3util.cpp:171, 190, 322 and 347). *)
Definition in_row (T : table) (row : list cell) (v : val) : option (cell * option affinity) :=
  let named n other := match column n (cols T) with Some (i, a) => option_map (fun c => (c, Some a)) (nth_error row i) | None => other end in
  match v with
  | VStr s => Some (Text s, None)
  | VName n => named n (if existsb (weqb (upper n)) rowid_names then None else Some (Text n, None))
  | VWord w => if forallb is_digit w then if fits64 (digits_value w) then Some (Int (digits_value w), None) else None else named w None
  end.
(** The condition after WHERE for a row (sqlite3util.cpp:92, 98, 171, 190, 322 and 347). *)
Fixpoint holds (T : table) (row : list cell) (cond : list (val * val)) : option bool :=
  match cond with
  | [] => Some false
  | (x, y) :: t =>
      match in_row T row x, in_row T row y with
      | Some a, Some b => match equal a b, holds T row t with Some p, Some q => Some (p || q) | _, _ => None end
      | _, _ => None
      end
  end.
(** The rows for which the condition holds, in the order of the table (sqlite3_step, sqlite3util.cpp:75). *)
Fixpoint selected (T : table) (cond : list (val * val)) (d : list (list cell)) : option (list (list cell)) :=
  match d with
  | [] => Some []
  | row :: t => match holds T row cond, selected T cond t with Some b, Some r => Some (if b then row :: r else r) | _, _ => None end
  end.
(** The columns between SELECT and FROM (SELECT of sqlite3util.cpp:171, 190, 322 and 347). *)
Fixpoint p_columns (T : table) (t : list tok) : option (list nat * list tok) :=
  match t with
  | Word n :: r =>
      match column n (cols T), r with
      | Some (i, _), Word f :: r' => if weqb f (lit "FROM") then Some ([i], r') else None
      | Some (i, _), Punct p :: r' => if p =? 44 then match p_columns T r' with Some (l, q) => Some (i :: l, q) | None => None end else None
      | _, _ => None
      end
  | _ => None
  end.
(** The selected columns of a row (SELECT of sqlite3util.cpp:171, 190, 322 and 347). *)
Definition project (l : list nat) (row : list cell) : list cell := map (fun i => nth i row Null) l.
(** The rows of the result; [None]: an error (SELECT of sqlite3util.cpp:171, 190, 322 and 347). *)
Definition select (T : table) (text : list Z) : option (list (list cell)) :=
  match lex (c_str text) with
  | Some (Word s :: t) =>
      if weqb s (lit "SELECT") then
        match (match t with
               | Punct p :: Word f :: r => if (p =? 42) && weqb f (lit "FROM") then Some (seq 0 (length (cols T)), r) else None
               | _ => p_columns T t
               end) with
        | Some (l, Word n :: r) =>
            if weqb n (rname T) then
              match r with
              | [] => Some (map (project l) (data T))
              | Word w :: r' =>
                  if weqb w (lit "WHERE") then
                    match p_cond (length r') r' with Some c => option_map (map (project l)) (selected T c (data T)) | None => None end
                  else None
              | _ => None
              end
            else None
        | _ => None
        end
      else None
  | _ => None
  end.

(** ** What a column of the row is as text and as number (c3ref/column_blob.html) *)
Definition column_text (c : cell) : option (list Z) :=
  match c with Null => None | Int z => Some (sprintf_ld z) | Text s => Some s end.
(** The digits at the beginning of a text, for sqlite3_column_int64. *)
Fixpoint digit_prefix (s : list Z) : list Z := match s with c :: t => if is_digit c then c :: digit_prefix t else [] | [] => [] end.
(** Numbers outside sqlite3_int64 become the nearest one (lang_expr.html, CAST). *)
Definition clamp64 (z : Z) : Z := Z.max (- 2 ^ 63) (Z.min (2 ^ 63 - 1) z).
(** A text as a number for sqlite3_column_int64, sqlite3util.cpp:161: optional sign and digits at the
    beginning. *)
Definition text_int (s : list Z) : Z :=
  match skip_space s with
  | c :: t => if c =? 45 then clamp64 (- digits_value (digit_prefix t)) else if c =? 43 then clamp64 (digits_value (digit_prefix t)) else clamp64 (digits_value (digit_prefix (c :: t)))
  | [] => 0
  end.
(** sqlite3_column_int64, called at sqlite3util.cpp:161 and 198. *)
Definition column_int64 (c : cell) : Z := match c with Null => 0 | Int z => z | Text s => text_int s end.
(** The cell asked for; there must be one (SELECT of sqlite3util.cpp:171, 190, 322 and 347). *)
Definition nth_cell (row : list cell) (i : nat) : res cell := match nth_error row i with Some c => Ok c | None => UB end.

(** ** The functions; [up]: the database answers *)
(** A text written with sprintf into an array of n characters (sqlite3util.cpp:169-171, 188-190, 320-322 and 345-347). *)
Definition into (n : Z) (text : list Z) : res (list Z) := if Z.of_nat (length text) <? n then Ok text else UB.
(** strlen, as in the sizes of sqlite3util.cpp:169, 188, 320 and 345. *)
Definition len (s : list Z) : Z := Z.of_nat (length (c_str s)).
(** What prepare and step (sqlite3util.cpp:49-86) yield for a text. *)
Definition answer (T : table) (up : bool) (query : list Z) : option (list (list cell)) := if up then select T query else None.
(** sqlite3_exists, sqlite3util.cpp:166-180 *)
Definition exists_ (T : table) (up : bool) (tableName keyName keyData : list Z) : res bool :=
  do query <- into (100 + len tableName + len keyName + len keyData)
    (lit "SELECT * FROM " ++ c_str tableName ++ lit " WHERE " ++ c_str keyName ++ lit " == """ ++ c_str keyData ++ lit """");
  Ok (match answer T up query with Some (_ :: _) => true | _ => false end).
(** sqlite3_single_lookup of a number, sqlite3util.cpp:184-204; [valueData]: the caller's variable before. *)
Definition lookup_number (T : table) (up : bool) (tableName keyName keyData valueName : list Z) (valueData : Z) : res (bool * Z) :=
  do query <- into (100 + len valueName + len tableName + len keyName + len keyData)
    (lit "SELECT " ++ c_str valueName ++ lit " FROM " ++ c_str tableName ++ lit " WHERE " ++ c_str keyName ++ lit " == """ ++ c_str keyData ++ lit """");
  match answer T up query with
  | Some (row :: _) => do c <- nth_cell row 0; Ok (true, u32 (column_int64 c))
  | _ => Ok (false, valueData)
  end.
(** The copy of the first column, sqlite3util.cpp:329-333 and 354-358; [None] is NULL. *)
Definition copied (r : option (list (list cell))) : res (bool * option (list Z)) :=
  match r with
  | Some (row :: _) => do c <- nth_cell row 0; Ok (true, option_map c_str (column_text c))
  | _ => Ok (false, None)
  end.
(** sqlite3_single_lookup of a text by a text, sqlite3util.cpp:316-336; snprintf cuts, here never *)
Definition lookup_text (T : table) (up : bool) (tableName keyName keyData valueName : list Z) : res (bool * option (list Z)) :=
  let size := 100 + len valueName + len tableName + len keyName + len keyData in
  let text := lit "SELECT " ++ c_str valueName ++ lit " FROM " ++ c_str tableName ++ lit " WHERE " ++ c_str keyName ++ lit " == """ ++ c_str keyData ++ lit """" in
  copied (answer T up (firstn (Z.to_nat (size - 1)) text)).
(** sqlite3_single_lookup of a text by a number, sqlite3util.cpp:340-360 *)
Definition lookup_text_u (T : table) (up : bool) (tableName keyName : list Z) (keyData : Z) (valueName : list Z) : res (bool * option (list Z)) :=
  do query <- into (100 + len valueName + len tableName + len keyName + 20)
    (lit "SELECT " ++ c_str valueName ++ lit " FROM " ++ c_str tableName ++ lit " WHERE " ++ c_str keyName ++ lit " == " ++ sprintf_ld keyData);
  copied (answer T up query).

(** sqlQuery, sqlite3util.cpp:102-143: the rows still to be read, the present one first ([None]:
    no statement or an error).  sqlStep (119-126) goes to the next. *)
Definition sqlQuery_ (T : table) (up : bool) (tableName resultColumns condition : list Z) : option (list (list cell)) :=
  answer T up (format (lit "SELECT " ++ c_str resultColumns ++ lit " FROM " ++ c_str tableName ++ lit " " ++ c_str condition)).
(** condition_u, sqlite3util.cpp:96-100: cut to 99 characters. *)
Definition condition_u (keyName : list Z) (keyValue : Z) : list Z :=
  c_str (vsnprintf_buf 100 (lit "WHERE " ++ c_str keyName ++ lit " == " ++ sprintf_ld keyValue)).
(** The constructor with a number as key, sqlite3util.cpp:133-137 *)
Definition sqlQuery_u (T : table) (up : bool) (tableName resultColumns keyName : list Z) (keyData : Z) := sqlQuery_ T up tableName resultColumns (condition_u keyName keyData).
(** The constructor with a text as key, sqlite3util.cpp:139-143 *)
Definition sqlQuery_c (T : table) (up : bool) (tableName resultColumns keyName keyData : list Z) := sqlQuery_ T up tableName resultColumns (condition_c keyName keyData).
(** sqlQuery::sqlStep, sqlite3util.cpp:119-126 *)
Definition sqlStep (q : option (list (list cell))) : option (list (list cell)) := option_map (@tl _) q.
(** sqlSuccess, sqlite3util.h:54 *)
Definition sqlSuccess (q : option (list (list cell))) : bool := match q with Some (_ :: _) => true | _ => false end.
(** getResultText and getResultInt, sqlite3util.cpp:150-162 *)
Definition getResultText (q : option (list (list cell))) (colNum : nat) : res (list Z) :=
  match q with
  | Some (row :: _) => do c <- nth_cell row colNum; Ok (match column_text c with Some s => s | None => [] end)
  | _ => Ok []
  end.
(** sqlQuery::getResultInt, sqlite3util.cpp:159-162 *)
Definition getResultInt (q : option (list (list cell))) (colNum : nat) : res Z :=
  match q with Some (row :: _) => do c <- nth_cell row colNum; Ok (column_int64 c) | _ => Ok 0 end.
(** sqlite_single_lookup, sqlite3util.cpp:256-265 and 278-287 *)
Definition found (q : option (list (list cell))) (resultData : list Z) : res (bool * list Z) :=
  if sqlSuccess q then do s <- getResultText q 0; Ok (true, s) else Ok (false, resultData).
(** sqlite_single_lookup with a text as key, sqlite3util.cpp:256-265 *)
Definition single_lookup_c (T : table) (up : bool) (tableName keyName keyData resultName resultData : list Z) : res (bool * list Z) :=
  found (sqlQuery_c T up tableName resultName keyName keyData) resultData.
(** sqlite_single_lookup with a number as key, sqlite3util.cpp:278-287 *)
Definition single_lookup_u (T : table) (up : bool) (tableName keyName : list Z) (keyValue : Z) (resultName resultData : list Z) : res (bool * list Z) :=
  found (sqlQuery_u T up tableName resultName keyName keyValue) resultData.
(** sqlite_single_lookup_string, sqlite3util.cpp:302-306 *)
Definition lookup_string_c (T : table) (up : bool) (tableName keyName keyData resultName : list Z) : res (list Z) :=
  getResultText (sqlQuery_c T up tableName resultName keyName keyData) 0.
