(** What a user expects of a ReportingTable. *)
From Verif Require Import Base UtilsModel SqlModel ConfigModel ReportModel.
Local Open Scope Z_scope.

(** All that entries for [n] add up to. *)
Fixpoint sum (m : counters) (n : list Z) : Z :=
  match m with [] => 0 | (x, v) :: t => (if weqb x n then v else 0) + sum t n end.
Definition stored (s : rstate) (n : list Z) : Z := value (db s) n.
Definition pending (s : rstate) (n : list Z) : Z := sum (batch s) n + sum (map snd (inflight s)) n.
Definition created (s : rstate) (n : list Z) : Prop := get (db s) n <> None.
(** How often [n] is incremented in a history. *)
Fixpoint increments (n : list Z) (l : list revent) : Z :=
  match l with
  | [] => 0
  | RIncr m :: t => (if weqb m n then 1 else 0) + increments n t
  | _ :: t => increments n t
  end.
(** What an event takes away from [n]: stored values that are cleared, and increments in
    flight whose update fails or finds no row. *)
Definition loss (s : rstate) (n : list Z) (e : revent) : Z :=
  match e with
  | RClear m _ true => if weqb m n then stored s n else 0
  | RClearAll true => stored s n
  | RWrite t _ ok =>
      match next t (inflight s) with
      | Some ((m, k), _) => if weqb m n && (negb ok || match get (db s) n with None => true | Some _ => false end) then k else 0
      | None => 0
      end
  | _ => 0
  end.
Fixpoint losses (s : rstate) (n : list Z) (l : list revent) : Z :=
  match l with
  | [] => 0
  | e :: t => loss s n e + match rstep s e with Ok s' => losses s' n t | _ => 0 end
  end.
(** NAME is the name of a column. *)
Definition no_column (n : list Z) : Prop := upper n <> lit "NAME".
Definition well_formed (s : rstate) : Prop :=
  Forall (fun e => no_column (fst e) /\ 0 <= snd e < 2 ^ 32) (batch s) /\
  Forall (fun e => no_column (fst (snd e)) /\ 0 <= snd (snd e) < 2 ^ 32) (inflight s) /\
  Forall (fun e => 0 <= snd e) (db s).
(** Any use of the table, except that [n] is not maximised. *)
Definition counts (n : list Z) (e : revent) : Prop :=
  match e with
  | RCreate m _ _ | RIncr m | RClear m _ _ => no_column m
  | RMax m v _ _ => no_column m /\ m <> n /\ 0 <= v
  | _ => True
  end.
