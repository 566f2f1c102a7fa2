(** Model of ConfigurationTable::isValidValue and its helpers (Configuration.cpp:361-642,1038-1097).

    Positions are numbers; find yields npos = 2^64-1, and storing it in a uint or an int
    converts as on LP64.  Regular expressions: the constant ones are written out; those
    taken from the schema or the value are an argument, [regex], yielding [None] if
    regcomp fails (RegexModel has it).  Ranges of floats are an argument too (FloatRangeModel). *)
From Verif Require Import Base UtilsModel ConfigModel.
Local Open Scope Z_scope.

(** std::string::npos, as in Configuration.cpp:388. *)
Definition npos : Z := 2 ^ 64 - 1.
(** Helper: the first n characters (Configuration.cpp:361-640). *)
Fixpoint take (n : Z) (s : list Z) : list Z :=
  match s with [] => [] | c :: t => if n <=? 0 then [] else c :: take (n - 1) t end.
(** Helper: all but the first n characters (Configuration.cpp:361-640). *)
Fixpoint drop (n : Z) (s : list Z) : list Z :=
  match s with [] => [] | _ :: t => if n <=? 0 then s else drop (n - 1) t end.
(** std::string::length, as in Configuration.cpp:375. *)
Definition len (s : list Z) : Z := Z.of_nat (length s).
(** std::string::substr throws out_of_range behind the end (Configuration.cpp:361-640). *)
Definition substr (s : list Z) (pos n : Z) : res (list Z) :=
  if len s <? pos then Abort else Ok (take n (drop pos s)).
(** Helper of [find] (Configuration.cpp:361-640). *)
Fixpoint find_ (c : Z) (s : list Z) (i : Z) : Z :=
  match s with [] => npos | x :: t => if x =? c then i else find_ c t (i + 1) end.
(** std::string::find(c, pos), as in Configuration.cpp:388. *)
Definition find (s : list Z) (c pos : Z) : Z := find_ c (drop pos s) pos.
(** std::string ==, as in Configuration.cpp:368 and 389. *)
Definition streq (a b : list Z) : bool := if list_eq_dec Z.eq_dec a b then true else false.

(** std::stringstream(s) >> i for an int i: [None] if there is nothing but white space,
    then i is left alone; 0 if there is no number; limited to int. *)
Definition clamp_int (z : Z) : Z := Z.max (- 2 ^ 31) (Z.min (2 ^ 31 - 1) z).
(** What stringstream(s) >> i reads, as in Configuration.cpp:418. *)
Definition read_int (s : list Z) : option Z :=
  match skip_space s with
  | [] => None
  | c :: t => Some (clamp_int (if c =? 45 then - digits_val 10 t 0
                               else if c =? 43 then digits_val 10 t 0 else digits_val 10 (c :: t) 0))
  end.
(** stringstream(s) >> i with i as it was, Configuration.cpp:418, 463, 507, 539 and 565. *)
Definition extract (s : list Z) (old : Z) : Z := match read_int s with Some z => z | None => old end.

(** inet_pton(AF_INET) of the C library: octets seen, the current one, whether it has a digit (Configuration.cpp:361-640). *)
Fixpoint inet_pton_ (s : list Z) (octets cur : Z) (saw : bool) : bool :=
  match s with
  | [] => 4 <=? octets
  | c :: t =>
      if (48 <=? c) && (c <=? 57) then
        let new := cur * 10 + (c - 48) in
        if saw && (cur =? 0) then false
        else if 255 <? new then false
        else if saw then inet_pton_ t octets new true
        else if 4 <? octets + 1 then false
        else inet_pton_ t (octets + 1) new true
      else if (c =? 46) && saw then if octets =? 4 then false else inet_pton_ t octets 0 false
      else false
  end.
(** isValidIP, Configuration.cpp:1038-1041 *)
Definition isValidIP (ip : list Z) : bool := inet_pton_ (c_str ip) 0 0 false.

(** [a-zA-Z0-9], Configuration.cpp:434 *)
Definition alnum (c : Z) : bool := ((48 <=? c) && (c <=? 57)) || ((65 <=? c) && (c <=? 90)) || ((97 <=? c) && (c <=? 122)).
(** "^[...]+$" for a class of characters (Configuration.cpp:361-640). *)
Definition plus_of (p : Z -> bool) (s : list Z) : bool := match s with [] => false | _ => forallb p s end.
(** The class of Configuration.cpp:434. *)
Definition path_char (c : Z) : bool := alnum c || (c =? 47) || (c =? 95) || (c =? 46) || (c =? 45).
(** The class of Configuration.cpp:468. *)
Definition host_char (c : Z) : bool := alnum c || (c =? 95) || (c =? 46) || (c =? 45).
(** The class of Configuration.cpp:621. *)
Definition range_char (c : Z) : bool := ((48 <=? c) && (c <=? 57)) || (c =? 45).
(** The class of Configuration.cpp:619. *)
Definition float_char (c : Z) : bool := range_char c || (c =? 46).

(** ConfigurationKey::Type, Configuration.h:369-394 *)
Inductive ktype :=
| BOOLEAN | CHOICE_OPT | CHOICE | CIDR_OPT | CIDR | FILEPATH_OPT | FILEPATH | HOSTANDPORT_OPT | HOSTANDPORT
| IPADDRESS_OPT | IPADDRESS | IPANDPORT | MIPADDRESS_OPT | MIPADDRESS | PORT_OPT | PORT | REGEX_OPT | REGEX
| STRING_OPT | STRING | VALRANGE.

(** CHOICE, Configuration.cpp:380-402 *)
Fixpoint choice_loop (fuel : nat) (val tmp : list Z) (startPos : Z) : res bool :=
  match fuel with
  | O => Diverge
  | S n =>
      let startPos := startPos + 1 in
      let endPos := u32 (find tmp 124 startPos) in
      do alt <- (if negb (endPos =? npos) then substr tmp startPos (u32 (endPos - startPos))
                 else substr tmp startPos (u64 (find tmp 44 startPos - startPos)));
      if streq val alt then Ok true
      else
        let startPos := s32 (find tmp 44 startPos) in
        if startPos =? -1 then Ok false else choice_loop n val tmp startPos
  end.
(** CHOICE, Configuration.cpp:380-402 *)
Definition valid_choice (val tmp : list Z) : res bool := choice_loop (S (length tmp)) val tmp (-1).

(** Text up to a delimiter and the number behind it, as in CIDR (Configuration.cpp:410-424),
    HOSTANDPORT (454-486) and IPANDPORT (499-513). *)
Definition split_at (val : list Z) (c : Z) : res (list Z * Z) :=
  let delimiter := u32 (find val c 0) in
  if negb (delimiter =? npos) then
    do ip <- substr val 0 delimiter;
    do tail <- substr val (u32 (delimiter + 1)) npos;
    Ok (ip, extract tail (-1))
  else Ok ([], -1).
(** CIDR, Configuration.cpp:410-424 *)
Definition valid_cidr (val : list Z) : res bool :=
  do (ip, cidr) <- split_at val 47;
  Ok (isValidIP ip && (0 <=? cidr) && (cidr <=? 32)).
(** The host of HOSTANDPORT, Configuration.cpp:464-479 *)
Definition valid_host (host : list Z) : bool := isValidIP host || plus_of host_char (c_str host).
(** HOSTANDPORT, Configuration.cpp:454-486 *)
Definition valid_hostport (val : list Z) : res bool :=
  do (host, port) <- split_at val 58;
  Ok (valid_host host && (1 <=? port) && (port <=? 65535)).
(** IPANDPORT, Configuration.cpp:499-513 *)
Definition valid_ipport (val : list Z) : res bool :=
  do (ip, port) <- split_at val 58;
  Ok (isValidIP ip && (1 <=? port) && (port <=? 65535)).

(** MIPADDRESS, Configuration.cpp:521-554 *)
Fixpoint mip_loop (fuel : nat) (val : list Z) (startPos : Z) : res bool :=
  match fuel with
  | O => Diverge
  | S n =>
      let startPos := startPos + 1 in
      let endPos := u32 (find val 32 startPos) in
      do item <- substr val startPos (u32 (endPos - startPos));
      do ok <- (if isValidIP item then Ok true
                else
                  let delimiter := u32 (find val 58 0) in
                  if negb (delimiter =? npos) then
                    do ip <- substr val startPos delimiter;
                    do tail <- substr val (u32 (delimiter + 1)) endPos;
                    let port := extract tail (-1) in
                    Ok (isValidIP ip && (1 <=? port) && (port <=? 65535))
                  else Ok false);
      if ok then
        let startPos := s32 endPos in
        if startPos =? -1 then Ok true else mip_loop n val startPos
      else Ok false
  end.
(** MIPADDRESS, Configuration.cpp:521-554 *)
Definition valid_mip (val : list Z) : res bool := mip_loop (S (length val)) val (-1).

(** PORT, Configuration.cpp:562-571: intVal is not initialised. *)
Definition valid_port (val : list Z) : res bool :=
  match read_int val with
  | None => UB
  | Some z => Ok ((1 <=? z) && (z <=? 65535))
  end.

(** getMinMaxStepping, Configuration.cpp:1044-1064: the first two results. *)
Definition getMinMax (validValues : list Z) : res (list Z * list Z) :=
  let startPos := s32 (find validValues 40 0) in
  do tmp <- (if negb (startPos =? -1) then substr validValues 0 startPos else Ok validValues);
  let delimiter := u32 (find tmp 58 0) in
  do min <- substr tmp 0 delimiter;
  do max <- substr tmp (u32 (delimiter + 1)) (u64 (find tmp 44 delimiter - delimiter - 1));
  Ok (min, max).
(** isInValRange<int>, Configuration.cpp:1067-1097 *)
Definition isInValRange (validValues val : list Z) : res bool :=
  do (smin, smax) <- getMinMax validValues;
  match read_int val, read_int smin, read_int smax with
  | Some v, Some min, Some max => Ok ((find val 46 0 =? npos) && (min <=? v) && (v <=? max))
  | _, _, _ => UB
  end.

(** [regex]: regcomp and regexec for a pattern; [float_range]: isInValRange<float> (Configuration.cpp:361-640). *)
Definition base_valid (regex : list Z -> list Z -> option bool) (float_range : list Z -> list Z -> res bool) (type : ktype) (validValues val : list Z) : res bool :=
  match type with
  | BOOLEAN => Ok (streq val (lit "1") || streq val (lit "0"))
  | CHOICE_OPT | CHOICE => valid_choice val validValues
  | CIDR_OPT | CIDR => valid_cidr val
  | FILEPATH_OPT | FILEPATH => Ok (plus_of path_char (c_str val))
  | HOSTANDPORT_OPT | HOSTANDPORT => valid_hostport val
  | IPADDRESS_OPT | IPADDRESS => Ok (isValidIP val)
  | IPANDPORT => valid_ipport val
  | MIPADDRESS_OPT | MIPADDRESS => valid_mip val
  | PORT_OPT | PORT => valid_port val
  | REGEX_OPT | REGEX => Ok (match regex (c_str val) [] with Some _ => true | None => false end)
  | STRING_OPT | STRING => Ok (match regex (c_str validValues) (c_str val) with Some b => b | None => false end)
  | VALRANGE =>
      if negb (find validValues 46 0 =? npos) then
        if plus_of float_char (c_str val) then float_range validValues val else Ok false
      else if plus_of range_char (c_str val) then isInValRange validValues val else Ok false
  end.
(** The types that allow an empty value, Configuration.cpp:374-379, 404-409, 426-431, 448-453, 488-493,
    515-520, 556-561, 573-578 and 593-598. *)
Definition optional (type : ktype) : bool :=
  match type with
  | CHOICE_OPT | CIDR_OPT | FILEPATH_OPT | HOSTANDPORT_OPT | IPADDRESS_OPT | MIPADDRESS_OPT | PORT_OPT | REGEX_OPT | STRING_OPT => true
  | _ => false
  end.
(** isValidValue.  The schema maps names to type and valid values; a name that is not
    there is added with a type that was never set (Configuration.cpp:361-640). *)
Definition isValidValue (regex : list Z -> list Z -> option bool) (float_range : list Z -> list Z -> res bool)
    (schema : list Z -> option (ktype * list Z)) (name val : list Z) : res bool :=
  match schema name with
  | None => UB
  | Some (type, validValues) =>
      if optional type && (len val =? 0) then Ok true else base_valid regex float_range type validValues val
  end.
