(** What a user expects of a LOG statement. *)
From Verif Require Import Base UtilsModel SqlModel KvModel.
From Verif Require LoggerModel LoggerSpec.
From Verif Require Import ConfigModel ConfigSpec LogStmtModel.
Local Open Scope Z_scope.

(** The value a key has: its row, else the default of the schema. *)
Definition value_of (E : env) (r : rows) : LoggerModel.config := fun k => match row_of r k with Some v => Some v | None => option_map fst (mSchema E k) end.
(** Keys that SQL takes for a text. *)
Definition plain (k : list Z) : Prop := quote_free 34 k /\ ~ names_column k.
(** A cache that agrees with the database, and one that may be old but knows what is defined. *)
Definition agrees (E : env) (s : st) : Prop := forall k v, plain k -> cfind (mCache s) k = Some v -> v = value_of E (db s) k.
Definition sound (E : env) (s : st) : Prop :=
  forall k v, plain k -> cfind (mCache s) k = Some v ->
  match v with None => mSchema E k = None | Some _ => value_of E (db s) k <> None end.
(** A schema with the two keys of the Logger and with texts that SQL takes as they are. *)
Definition configured (E : env) (dflt : list Z) : Prop :=
  (exists text, mSchema E (lit "Log.Level") = Some (dflt, text)) /\ quote_free 34 dflt /\ mSchema E (lit "Log.Alarms.Max") <> None /\
  forall k d text, mSchema E k = Some (d, text) -> quote_free 39 text.
(** The statements from the [a]th to before the [b]th that failed. *)
Definition failures (E : env) (a b : nat) : nat := length (filter (fun i => negb (up E i)) (seq a (b - a))).
Definition db_errors (l : list (Z * note)) : nat := length (filter (fun x => match snd x with DbError => true | _ => false end) l).
Definition only_db_errors (l : list (Z * note)) : Prop := Forall (fun x => x = (3, DbError)) l.
(** The records that are alarms. *)
Definition alarms_in (E : env) (l : list (Z * note)) : list note := if inited E then map snd (filter (fun x => fst x <=? 2) l) else [].
Definition known (v : list Z) : Prop := In v (map fst LoggerSpec.level_table).
(** The level remembered for a file, if it is not time to forget all. *)
Definition remembered (s : st) (f : list Z) : option Z := if 1000 <? sCacheCount s then None else LoggerModel.cfind (sLogCache s) (computeHash f).
(** The report of an unknown level. *)
Definition report (f : list Z) (bad : list (Z * note)) : Prop :=
  bad = [] \/ exists key v, (key = lit "Log.Level." ++ f \/ key = lit "Log.Level") /\ ~ known v /\ bad = [(2, BadLevel key v)].
(** The record of the statement itself, given the level in force. *)
Definition own (f : list Z) (level lv : Z) : list (Z * note) := if level <=? lv then [(level, Own f level)] else [].
