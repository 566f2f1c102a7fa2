(** Model of rn_backtrace (Utils.cpp:586-606) with memory that can run out.

    The stack is the list of the names of the functions on it, the innermost first.  Each place that needs memory asks
    [answers]: the block of backtrace_symbols, each turn of the loop, and each copy of backtrace_failed, which with its
    16 characters does not fit into a string object.  Only the block of backtrace_symbols is counted in [blocks]; the
    memory of strings is given back by their destructors.

    Simplified: a turn of the loop needs memory once; a list of answers that is used up says yes; the static string
    has been constructed; backtrace() itself needs no memory. *)
From Verif Require Import Base UtilsModel.
Local Open Scope Z_scope.

(** Blocks got from malloc and not given back, and whether the next requests will succeed (Utils.cpp:593, 604). *)
Record mem := M { blocks : nat; answers : list bool }.
(** One request (Utils.cpp:593, 599, 602). *)
Definition ask (m : mem) : bool * mem := match answers m with [] => (true, m) | b :: r => (b, M (blocks m) r) end.
(** How a call ends (Utils.cpp:588). *)
Inductive out := Returns (s : list Z) | Throws.
(** return backtrace_failed, Utils.cpp:592, 594, 602 *)
Definition give_up (m : mem) : out * mem := let (ok, m) := ask m in (if ok then Returns (lit "backtrace failed") else Throws, m).
(** The loop, Utils.cpp:598-600.  [None]: an exception *)
Fixpoint collect (names : list (list Z)) (result : list Z) (m : mem) : option (list Z) * mem :=
  match names with
  | [] => (Some result, m)
  | s :: names => let (ok, m) := ask m in if ok then collect names (result ++ 32 :: c_str s) m else (None, m)
  end.
(** rn_backtrace, Utils.cpp:588-606 *)
Definition rn_backtrace (stack : list (list Z)) (m : mem) : out * mem :=
  match firstn 30 stack with
  | [] => give_up m
  | names =>
      let (ok, m) := ask m in
      if ok then
        let m := M (S (blocks m)) (answers m) in
        match collect names (lit "backtrace:") m with
        | (Some result, m) => (Returns result, M (pred (blocks m)) (answers m))
        | (None, m) => give_up m
        end
      else give_up m
  end.
(** Calls one after the other (not in the source). *)
Fixpoint calls (stacks : list (list (list Z))) (m : mem) : list out * mem :=
  match stacks with [] => ([], m) | s :: r => let (o, m) := rn_backtrace s m in let (os, m) := calls r m in (o :: os, m) end.
