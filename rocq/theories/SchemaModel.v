(** Model of the schema of a ConfigurationTable: how it is put together, searched and printed
    (Configuration.cpp and Configuration.h).

    A std::map is the list of its entries in the order of the keys. *)
From Verif Require Import Base UtilsModel SqlModel ConfigModel ValidModel.
Local Open Scope Z_scope.

(** VisibilityLevel, Configuration.h:359-367 *)
Inductive visibility := CUSTOMER | CUSTOMERSITE | CUSTOMERTUNE | CUSTOMERWARN | DEVELOPER | FACTORY.
(** Configuration.h:406-414 *)
Record ckey := CKey {
  kname : list Z; kdefault : list Z; kunits : list Z; kvis : visibility; ktyp : ktype;
  kvalid : list Z; kstatic : bool; kdesc : list Z; kscope : Z }.
(** ConfigurationKeyMap, Configuration.h:185 *)
Definition keymap := list (list Z * ckey).

(** ** The map *)
(** std::string::operator<, bytes compared as unsigned (the order of mSchema, Configuration.h:204) *)
Fixpoint str_lt (a b : list Z) : bool :=
  match a, b with
  | _, [] => false
  | [], _ :: _ => true
  | x :: a', y :: b' => (x <? y) || ((x =? y) && str_lt a' b')
  end.
(** map.find(k), as in Configuration.cpp:358 *)
Fixpoint mfind (m : keymap) (k : list Z) : option ckey :=
  match m with [] => None | (x, v) :: t => if weqb x k then Some v else mfind t k end.
(** map[k] = v (Configuration.cpp:139-177) *)
Fixpoint mput (m : keymap) (k : list Z) (v : ckey) : keymap :=
  match m with
  | [] => [(k, v)]
  | (x, w) :: t => if weqb x k then (k, v) :: t else if str_lt k x then (k, v) :: m else (x, w) :: mput t k v
  end.
(** map.insert(first, last): keys already there keep their value (Configuration.cpp:181). *)
Definition madd (m : keymap) (e : list Z * ckey) : keymap :=
  match mfind m (fst e) with Some _ => m | None => mput m (fst e) (snd e) end.
(** mSchema.insert(wSchema.begin(), wSchema.end()), Configuration.cpp:181 *)
Definition minsert (m : keymap) (l : list (list Z * ckey)) : keymap := fold_left madd l m.

(** The keys of the library, Configuration.cpp:124-178 *)
Definition key_tries : ckey := CKey (lit "Control.NumSQLTries") (lit "3") (lit "attempts") DEVELOPER VALRANGE (lit "1:10") false
  (lit "Number of times to retry SQL queries before declaring a database access failure.") 0.
(** Configuration.cpp:137-146 *)
Definition key_alarms : ckey := CKey (lit "Log.Alarms.Max") (lit "20") (lit "alarms") CUSTOMER VALRANGE (lit "10:20") false
  (lit "Maximum number of alarms to remember inside the application.") 0.
(** Configuration.cpp:148-160 *)
Definition key_file : ckey := CKey (lit "Log.File") [] [] DEVELOPER FILEPATH_OPT [] false
  (lit "Path to use for textfile based logging.  By default, this feature is disabled.  To enable, specify an absolute path to the file you wish to use, eg: /tmp/my-debug.log.  To disable again, execute ""unconfig Log.File"".") 0.
(** Configuration.cpp:162-178 *)
Definition key_level : ckey := CKey (lit "Log.Level") (lit "NOTICE") [] CUSTOMER CHOICE
  (lit "EMERG|EMERGENCY - report serious faults associated with service failure or hardware damage,ALERT|ALERT - report likely service disruption caused by misconfiguration or poor connectivity,CRIT|CRITICAL - report anomalous events that are likely to degrade service,ERR|ERROR - report internal errors of the software that may result in degradation of service in unusual circumstances,WARNING|WARNING - report anomalous events that may indicate a degradation of normal service,NOTICE|NOTICE - report anomalous events that probably do not affect service but may be of interest to network operators,INFO|INFORMATION - report normal events,DEBUG|DEBUG - only for use by developers and will degrade system performance")
  false (lit "Default logging level when no other level is defined for a file.") 0.
(** The schema after construction, Configuration.cpp:124-181 *)
Definition builtin : keymap :=
  mput (mput (mput (mput [] (kname key_tries) key_tries) (kname key_alarms) key_alarms) (kname key_file) key_file) (kname key_level) key_level.
(** Configuration.cpp:180-181: what the application adds. *)
Definition make_schema (wSchema : keymap) : keymap := minsert builtin wSchema.

(** strncpy and strcat of Configuration.cpp:102-106 into gCmdName[20] (Configuration.cpp:43); [None]: not given. *)
Definition set_cmd_name (gCmdName : list Z) (wCmdName : option (list Z)) : res (list Z) :=
  match wCmdName with
  | None => Ok gCmdName
  | Some w =>
      let copied := firstn 18 w ++ repeat 0 (18 - length w) in            (* strncpy(gCmdName,wCmdName,18) *)
      let b := copied ++ skipn 18 gCmdName in
      do b <- wr b 18%nat 0;                                               (* gCmdName[18] = 0 *)
      let n := length (c_str b) in                                         (* strcat(gCmdName,":") *)
      do b <- wr b n 58;
      wr b (S n) 0
  end.

(** keyDefinedInSchema, Configuration.cpp:356-359 *)
Definition keyDefinedInSchema (m : keymap) (k : list Z) : bool := match mfind m k with Some _ => true | None => false end.
(** isStatic, Configuration.cpp:699-706 *)
Definition isStatic (m : keymap) (k : list Z) : bool := match mfind m k with Some v => kstatic v | None => false end.
(** getSimilarKeys, Configuration.cpp:644-656 *)
Definition getSimilarKeys (m : keymap) (snippet : list Z) : keymap :=
  fold_left (fun tmp e => match UtilsModel.find_ (fst e) snippet with Some _ => mput tmp (fst e) (snd e) | None => tmp end) m [].
(** What the table looks up in it (ConfigModel.v): default value and description (Configuration.h:204). *)
Definition schema_of (m : keymap) : schema := fun k => option_map (fun v => (kdefault v, kdesc v)) (mfind m k).

(** ConfigurationKey() of Configuration.h:430-431: empty strings; the other members are not set,
    [flag] stands for what is found in mIsStatic. *)
Definition key_unset (flag : bool) : ckey := CKey [] [] [] CUSTOMER BOOLEAN [] flag [] 0.
(** What isValidValue leaves of the schema: mSchema[name], Configuration.cpp:364, makes an entry if there is none. *)
Definition validated (m : keymap) (name : list Z) (flag : bool) : keymap :=
  match mfind m name with Some _ => m | None => mput m name (key_unset flag) end.

(** ** getDefaultSQL, Configuration.cpp:213-268.  [endl] *)
Definition nl : list Z := [10].
(** description.find(c) != npos, Configuration.cpp:250 *)
Definition has (c : Z) (s : list Z) : bool := existsb (Z.eqb c) s.
(** The test of Configuration.cpp:252. *)
Definition is_boolean (t : ktype) : bool := match t with BOOLEAN => true | _ => false end.
(** The line of a key, Configuration.cpp:232-260 *)
Definition sql_entry (e : list Z * ckey) : list Z :=
  let v := snd e in
  let quote := if has 39 (kdesc v) then [34] else [39] in
  lit "INSERT OR IGNORE INTO ""CONFIG"" VALUES(" ++ [39] ++ fst e ++ lit "'," ++ [39] ++ kdefault v ++ lit "',"
  ++ (if kstatic v then lit "1" else lit "0") ++ lit "," ++ lit "0," ++ quote
  ++ (if is_boolean (ktyp v) then lit "1=enabled, 0=disabled - " else []) ++ kdesc v
  ++ (if kstatic v then lit "  Static." else []) ++ quote ++ lit ");" ++ nl.
(** The lines before the keys, Configuration.cpp:218-228 *)
Definition sql_head (program version : list Z) : list Z :=
  lit "--" ++ nl ++ lit "-- This file was generated using: " ++ program ++ lit " --gensql" ++ nl
  ++ lit "-- binary version: " ++ version ++ nl ++ lit "--" ++ nl
  ++ lit "-- Future changes should not be put in this file directly but" ++ nl
  ++ lit "-- rather in the program's ConfigurationKey schema." ++ nl ++ lit "--" ++ nl
  ++ lit "PRAGMA foreign_keys=OFF;" ++ nl ++ lit "BEGIN TRANSACTION;" ++ nl
  ++ lit "CREATE TABLE IF NOT EXISTS CONFIG ( KEYSTRING TEXT UNIQUE NOT NULL, VALUESTRING TEXT, STATIC INTEGER DEFAULT 0, OPTIONAL INTEGER DEFAULT 0, COMMENTS TEXT DEFAULT '');" ++ nl.
(** getDefaultSQL, Configuration.cpp:213-268 *)
Definition getDefaultSQL (m : keymap) (program version : list Z) : list Z :=
  sql_head program version ++ concat (map sql_entry m) ++ lit "COMMIT;" ++ nl ++ nl.

(** ** How SQLite reads such a file: comments, statements ended by semicolons *)
(** Configuration.cpp:1200-1270 *)
Inductive sstate := SNorm (st : lstate) | SDash | SComment.
(** Helper of the reader of the file: inside a text or quoted name (Configuration.cpp:1200-1270). *)
Definition quoted (st : lstate) : bool := match st with LSq _ | LDq _ => true | _ => false end.
(** One character of the file written by Configuration.cpp:213-268, for sqlite3; two dashes begin a comment.
    *)
Definition script_step (st : sstate) (c : Z) : option (list tok * sstate) :=
  match st with
  | SNorm st =>
      if (c =? 45) && negb (quoted st) then match lex_end st with Some l => Some (l, SDash) | None => None end
      else match lex_step st c with Some (l, st') => Some (l, SNorm st') | None => None end
  | SDash => if c =? 45 then Some ([], SComment) else None
  | SComment => if c =? 10 then Some ([], SNorm LStart) else Some ([], SComment)
  end.
(** The tokens of the file written by Configuration.cpp:213-268. *)
Fixpoint script_lex (st : sstate) (s : list Z) : option (list tok) :=
  match s with
  | [] => match st with SNorm st => lex_end st | SDash => None | SComment => Some [] end
  | c :: t =>
      match script_step st c with
      | Some (l, st') => match script_lex st' t with Some r => Some (l ++ r) | None => None end
      | None => None
      end
  end.
(** The statements, without their semicolons; [None] if the last has none (Configuration.cpp:1200-1270). *)
Fixpoint statements (cur l : list tok) : option (list (list tok)) :=
  match l with
  | [] => match cur with [] => Some [] | _ => None end
  | Punct p :: t =>
      if p =? 59 then match statements [] t with Some r => Some (rev cur :: r) | None => None end
      else statements (Punct p :: cur) t
  | k :: t => statements (k :: cur) t
  end.
(** A row of CONFIG: key, value, STATIC, OPTIONAL, COMMENTS (Configuration.cpp:1200-1270). *)
Record crow := CRow { rkey : list Z; rval : list Z; rstatic : list Z; roptional : list Z; rcomments : list Z }.
(** Helper: the tokens of a constant text (Configuration.cpp:1200-1270). *)
Definition ctokens (s : list Z) : list tok := match lex s with Some l => l | None => [] end.
(** The statement of Configuration.cpp:228. *)
Definition create_tokens : list tok :=
  ctokens (lit "CREATE TABLE IF NOT EXISTS CONFIG ( KEYSTRING TEXT UNIQUE NOT NULL, VALUESTRING TEXT, STATIC INTEGER DEFAULT 0, OPTIONAL INTEGER DEFAULT 0, COMMENTS TEXT DEFAULT '')").
(** Helper: equality of tokens (Configuration.cpp:1200-1270). *)
Definition tok_eq_dec (a b : tok) : {a = b} + {a <> b}.
Proof. decide equality; try apply Z.eq_dec; apply list_eq_dec, Z.eq_dec. Defined.
(** Helper: equality of lists of tokens (Configuration.cpp:1200-1270). *)
Definition toks_eqb (a b : list tok) : bool := if list_eq_dec tok_eq_dec a b then true else false.
(** The statements of the file.  Transactions and the pragma change no row; the table is there
    already or is made empty before (Configuration.cpp:1200-1270). *)
Definition run_statement (t : list tok) (r : list crow) : option (list crow) :=
  match words [lit "INSERT"; lit "OR"; lit "IGNORE"; lit "INTO"] t with
  | Some (Dq tab :: Word w :: Punct p :: rest) =>
      if weqb tab (lit "CONFIG") && weqb w (lit "VALUES") && (p =? 40) then
        match p_vals rest with
        | Some (vs, []) =>
            match literals vs with
            | Some [a; b; c; d; e] => Some (if existsb (fun x => weqb (rkey x) a) r then r else r ++ [CRow a b c d e])
            | _ => None
            end
        | _ => None
        end
      else None
  | _ =>
      if toks_eqb t create_tokens || toks_eqb t (ctokens (lit "PRAGMA foreign_keys=OFF")) || toks_eqb t (ctokens (lit "BEGIN TRANSACTION")) || toks_eqb t (ctokens (lit "COMMIT"))
      then Some r else None
  end.
(** The statements of the file one after the other; an error ends it (Configuration.cpp:1200-1270). *)
Fixpoint run_statements (l : list (list tok)) (r : list crow) : option (list crow) :=
  match l with
  | [] => Some r
  | s :: t => match run_statement s r with Some r' => run_statements t r' | None => None end
  end.
(** What the file written by Configuration.cpp:213-268 does to the rows of CONFIG. *)
Definition run_script (text : list Z) (r : list crow) : option (list crow) :=
  match script_lex (SNorm LStart) text with
  | Some l => match statements [] l with Some ss => run_statements ss r | None => None end
  | None => None
  end.

(** ** getTeX, Configuration.cpp:270-342.  The test of line 284 *)
Definition is_site (v : visibility) : bool := match v with CUSTOMERSITE => true | _ => false end.
(** The test of Configuration.cpp:302-307. *)
Definition is_tune (v : visibility) : bool := match v with CUSTOMER | CUSTOMERTUNE | CUSTOMERWARN => true | _ => false end.
(** The test of Configuration.cpp:325-326. *)
Definition is_dev (v : visibility) : bool := match v with FACTORY | DEVELOPER => true | _ => false end.
(** An item, Configuration.cpp:285-290, 308-313 and 327-332 *)
Definition tex_item (e : list Z * ckey) : list Z := [9] ++ lit "\item \texttt{" ++ fst e ++ lit "} -- " ++ kdesc (snd e) ++ nl.
(** The list of the keys with a visibility, Configuration.cpp:281-294, 299-317 and 322-336 *)
Definition tex_items (p : visibility -> bool) (m : keymap) : list Z :=
  lit "\begin{itemize}" ++ nl ++ concat (map tex_item (filter (fun e => p (kvis (snd e))) m)) ++ lit "\end{itemize}" ++ nl.
(** The text before characters are escaped, Configuration.cpp:275-338 *)
Definition tex_text (m : keymap) (program version : list Z) : list Z :=
  lit "% START AUTO-GENERATED CONTENT" ++ nl ++ lit "% -- these sections were generated using: " ++ program ++ lit " --gentex" ++ nl
  ++ lit "% -- binary version: " ++ version ++ nl
  ++ lit "\section{Customer Site Parameters}" ++ nl ++ lit "These parameters must be changed to fit your site." ++ nl ++ tex_items is_site m ++ nl
  ++ lit "\section{Customer Tuneable Parameters}" ++ nl ++ lit "These parameters can be changed to optimize your site." ++ nl ++ tex_items is_tune m ++ nl
  ++ lit "\section{Developer/Factory Parameters}" ++ nl ++ lit "These parameters should only be changed by when developing new code." ++ nl ++ tex_items is_dev m
  ++ lit "% END AUTO-GENERATED CONTENT" ++ nl ++ nl.
(** getTeX, Configuration.cpp:270-342, with the two replacements of lines 340-341 *)
Definition getTeX (m : keymap) (program version : list Z) : res (list Z) :=
  let t := tex_text m program version in
  do tmp <- replaceAll (S (length t)) t (lit "^") (lit "\^");
  replaceAll (S (length tmp)) tmp (lit "_") (lit "\_").

(** ** find, Configuration.cpp:842-862 *)
(** SQLite's LIKE for ASCII text: % any characters, _ one, letters in either case (Configuration.cpp:842-862). *)
Fixpoint like (p s : list Z) : bool :=
  match p with
  | [] => match s with [] => true | _ => false end
  | c :: p' =>
      if c =? 37 then (fix any (s : list Z) : bool := like p' s || match s with [] => false | _ :: t => any t end) s
      else match s with
           | [] => false
           | x :: t => ((c =? 95) || (upc x =? upc c)) && like p' t
           end
  end.
(** The statement of find, Configuration.cpp:845 *)
Definition find_cmd (pat : list Z) : list Z :=
  lit "SELECT KEYSTRING,VALUESTRING FROM CONFIG WHERE KEYSTRING LIKE ""%" ++ pat ++ lit "%""".
(** A line that find prints, Configuration.cpp:850-859 *)
Definition find_line (row : list Z * option (list Z)) : list Z :=
  c_str (fst row) ++ lit " " ++ (match snd row with Some v => match c_str v with [] => lit "(disabled)" | w => w end | None => lit "(disabled)" end) ++ nl.
(** The text that find prints; nothing if the statement is refused (Configuration.cpp:842-862). *)
Definition find_out (pat : list Z) (r : rows) : list Z :=
  match lex (c_str (find_cmd pat)) with
  | Some t =>
      match words [lit "SELECT"; lit "KEYSTRING"] t with
      | Some (Punct p :: t) =>
          match words [lit "VALUESTRING"; lit "FROM"; lit "CONFIG"; lit "WHERE"; lit "KEYSTRING"; lit "LIKE"] t with
          | Some [Dq s] => if p =? 44 then concat (map find_line (filter (fun row => like s (fst row)) r)) else []
          | _ => []
          end
      | _ => []
      end
  | None => []
  end.

(** ** printKey and printDescription *)
(** visibilityLevelToString, Configuration.cpp:1099-1124 *)
Definition visibilityLevelToString (v : visibility) : list Z :=
  match v with
  | CUSTOMER => lit "customer - can be freely changed by the customer without any detriment to their system"
  | CUSTOMERSITE => lit "customer site - these values are different for each BTS and should not be left default"
  | CUSTOMERTUNE => lit "customer tune - should only be changed to tune an installation to better suit the physical environment or MS usage pattern"
  | CUSTOMERWARN => lit "customer warn - a warning will be presented and confirmation required before changing this sensitive setting"
  | DEVELOPER => lit "developer - should only be changed by developers to debug/optimize the implementation"
  | FACTORY => lit "factory - set once at the factory, should never be changed"
  end.
(** typeToString, Configuration.cpp:1126-1196 *)
Definition typeToString (t : ktype) : list Z :=
  match t with
  | BOOLEAN => lit "boolean"
  | CHOICE_OPT => lit "multiple choice (optional)"
  | CHOICE => lit "multiple choice"
  | CIDR_OPT => lit "CIDR notation (optional)"
  | CIDR => lit "CIDR notation"
  | FILEPATH_OPT => lit "file path (optional)"
  | FILEPATH => lit "file path"
  | HOSTANDPORT_OPT => lit "hostname or IP address and port (optional)"
  | HOSTANDPORT => lit "hostname or IP address and port"
  | IPADDRESS_OPT => lit "IP address (optional)"
  | IPADDRESS => lit "IP address"
  | IPANDPORT => lit "IP address and port"
  | MIPADDRESS_OPT => lit "space-separated list of IP addresses (optional)"
  | MIPADDRESS => lit "space-separated list of IP addresses"
  | PORT_OPT => lit "IP port (optional)"
  | PORT => lit "IP port"
  | REGEX_OPT => lit "regular expression (optional)"
  | REGEX => lit "regular expression"
  | STRING_OPT => lit "string (optional)"
  | STRING => lit "string"
  | VALRANGE => lit "value range"
  end.
(** printKey, Configuration.cpp:1198-1209 *)
Definition printKey (key : ckey) (currentValue : list Z) : list Z :=
  kname key ++ lit " " ++ (match currentValue with [] => lit "(disabled)" | _ => currentValue end)
  ++ (if weqb currentValue (kdefault key) then lit "     [default]" else []) ++ nl.
(** The text of Configuration.cpp:1238, 1250 and 1253. *)
Definition valid_line : list Z := lit " - valid values:     ".
(** The loop over ranges, Configuration.cpp:1236-1243; positions as in ValidModel.v. *)
Fixpoint range_lines (fuel : nat) (tmp : list Z) (startPos : Z) : res (list Z) :=
  match fuel with
  | O => Diverge
  | S n =>
      let startPos := startPos + 1 in
      let delimiter := u32 (find tmp 58 startPos) in
      do lo <- substr tmp startPos (u32 (delimiter - startPos));
      do hi <- substr tmp (u32 (delimiter + 1)) (u64 (find tmp 44 delimiter - delimiter - 1));
      let line := valid_line ++ lit "from " ++ lo ++ lit " to " ++ hi ++ nl in
      let startPos := s32 (find tmp 44 startPos) in
      if startPos =? -1 then Ok line else do rest <- range_lines n tmp startPos; Ok (line ++ rest)
  end.
(** The loop over choices, Configuration.cpp:1246-1258 *)
Fixpoint choice_lines (fuel : nat) (tmp : list Z) (startPos : Z) : res (list Z) :=
  match fuel with
  | O => Diverge
  | S n =>
      let startPos := startPos + 1 in
      let endPos := u32 (find tmp 124 startPos) in
      do line <-
        (if negb (endPos =? npos) then
           do v <- substr tmp startPos (u32 (endPos - startPos));
           do d <- substr tmp (u32 (endPos + 1)) (u64 (find tmp 44 endPos - endPos - 1));
           Ok (valid_line ++ v ++ lit " = " ++ d ++ nl)
         else
           do v <- substr tmp startPos (u64 (find tmp 44 startPos - startPos));
           Ok (valid_line ++ v ++ nl));
      let startPos := s32 (find tmp 44 startPos) in
      if startPos =? -1 then Ok line else do rest <- choice_lines n tmp startPos; Ok (line ++ rest)
  end.
(** The part on valid values, Configuration.cpp:1225-1268 *)
Definition print_valid (key : ckey) : res (list Z) :=
  let tmp := kvalid key in
  match ktyp key with
  | VALRANGE =>
      let startPos := s32 (find tmp 40 0) in
      do tmp <- (if startPos =? -1 then Ok tmp else substr tmp 0 startPos);
      range_lines (S (length tmp)) tmp (-1)
  | CHOICE => choice_lines (S (length tmp)) tmp (-1)
  | BOOLEAN => Ok (lit " - valid values:     0 = disabled" ++ nl ++ lit " - valid values:     1 = enabled" ++ nl)
  | STRING => Ok (lit " - valid val regex:  " ++ tmp ++ nl)
  | _ => Ok (match tmp with [] => [] | _ => lit " - raw valid values: " ++ tmp ++ nl end)
  end.
(** Configuration.cpp:1269-1288 *)
Definition print_scope (scope : Z) : list Z :=
  let line (mask : Z) (t : list Z) := if Z.land scope mask =? 0 then [] else lit " - scope:            " ++ t ++ nl in
  line 1 (lit "value must be unique across all nodes") ++ line 2 (lit "value must be the same across all nodes")
  ++ line 4 (lit "value must be unique across all neighbors") ++ line 8 (lit "value must be the same across all neighbors")
  ++ line 8 (lit "must be the same across all neighbors") ++ line 16 (lit "specific to each individual node").
(** printDescription, Configuration.cpp:1211-1290 *)
Definition printDescription (key : ckey) : res (list Z) :=
  let opt (label t : list Z) := match t with [] => [] | _ => label ++ t ++ nl end in
  do v <- print_valid key;
  Ok (lit " - description:      " ++ kdesc key ++ nl ++ opt (lit " - units:            ") (kunits key)
      ++ lit " - type:             " ++ typeToString (ktyp key) ++ nl ++ opt (lit " - default value:    ") (kdefault key)
      ++ lit " - visibility level: " ++ visibilityLevelToString (kvis key) ++ nl
      ++ lit " - static:           " ++ (if kstatic key then lit "1" else lit "0") ++ nl ++ v ++ print_scope (kscope key)).
