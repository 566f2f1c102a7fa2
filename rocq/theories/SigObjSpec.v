(** What users of UnixSignal objects expect, in terms of the calls made so far. *)
From Verif Require Import Base SigObjModel.
Local Open Scope Z_scope.

Definition trace := list (op * obs).
(** Signals that can be caught and that UnixSignal handles; the others up to 64. *)
Definition settable (sig : Z) : bool := (1 <=? sig) && (sig <=? 64) && negb (sig =? 9) && negb (sig =? 19).
(** The disposition of a signal: that last given to it by Register of any object, by the program, by the end of any
    object or by having been handled. *)
Definition act1 (sig : Z) (a : dispo) (x : op * obs) : dispo :=
  if settable sig then
    match x with
    | (Register _ _ s, _) => if (s =? sig) && (sig <? 64) then Vector else a
    | (Program s d, _) => if s =? sig then d else a
    | (Delete _, _) => if sig <? 64 then Default else a
    | (Deliver s, Handled _ _ _ _) => if s =? sig then Default else a
    | _ => a
    end
  else a.
Definition act (inherited : Z -> dispo) (sig : Z) (tr : trace) : dispo := fold_left (act1 sig) tr (inherited sig).
(** The handlers registered with an object for a signal, in order. *)
Definition registered (i : nat) (sig : Z) (tr : trace) : list Z :=
  flat_map (fun x => match fst x with Register j h s => if (j =? i)%nat && (s =? sig) && (1 <=? sig) && (sig <? 64) then [h] else [] | _ => [] end) tr.
(** The core file and the archive last named. *)
Definition core1 (i : nat) (c : list Z * bool) (x : op * obs) : list Z * bool := match fst x with CoreName j n b => if (j =? i)%nat then (n, b) else c | _ => c end.
Definition core_of (i : nat) (tr : trace) : list Z * bool := fold_left (core1 i) tr ([99; 111; 114; 101], false).
Definition tar1 (i : nat) (c : option (list Z * bool)) (x : op * obs) : option (list Z * bool) := match fst x with TarName j n b => if (j =? i)%nat then Some (n, b) else c | _ => c end.
Definition tar_of (i : nat) (tr : trace) : option (list Z * bool) := fold_left (tar1 i) tr (if (i =? 0)%nat then Some ([], false) else None).
(** Objects made, objects destroyed, and is the process over? *)
Definition count (tr : trace) : nat := 1 + length (filter (fun x => match fst x with New => true | _ => false end) tr).
Definition deleted (i : nat) (tr : trace) : bool := existsb (fun x => match fst x with Delete j => (j =? i)%nat | _ => false end) tr.
Definition alive (i : nat) (tr : trace) : Prop := (i < count tr)%nat /\ deleted i tr = false.
Definition ended (tr : trace) : bool := existsb (fun x => match snd x with Ends | Handled _ _ _ true => true | _ => false end) tr.
(** The program does not set _sigHandler itself, which it does not know, nor inherits it. *)
Definition proper_op (e : op) : Prop := match e with Program _ d => d <> Vector | _ => True end.
(** What Dump prints: a line for each signal with handlers. *)
Fixpoint separated (l : list (list Z)) : list Z := match l with [] => [] | [x] => x | x :: t => x ++ [44; 32] ++ separated t end.
(** Signals whose default action writes a core file. *)
Definition dumps_core (sig : Z) : Prop := In sig [3; 4; 5; 6; 7; 8; 11; 24; 25; 31].
(** The lines printed for an object: one for each signal that has handlers, in order. *)
Definition signals : list Z := map Z.of_nat (seq 0 64).
