(** Model of InterthreadPriorityQueue (Interthread.h:626-732) with the heap it is made of: std::priority_queue over a
    vector of pointers, as in libstdc++, with the comparison of PointerCompare, and with elements whose priority the
    user can change.

    Simplified: one call at a time (C26 has the threads and the waiting); priorities are integers and operator> of the
    elements compares them. *)
From Verif Require Import Base.
Local Open Scope nat_scope.

(** A T*, [None] is NULL (Interthread.h:647). *)
Notation ptr := (option nat).
(** The elements made so far with their priority, [None] if deleted, and mQ (Interthread.h:647). *)
Record world := W { elements : list (option Z); mQ : list ptr }.
(** The calls, Interthread.h:663-730, and what the user does to elements: new, delete, a change of the priority. *)
Inductive op := Write (p : ptr) | ReadNoBlock | Peek | Size | Clear | Make (z : Z) | Delete (x : nat) | SetPrio (x : nat) (z : Z).
(** What they return (Interthread.h:679-721). *)
Inductive out := Nothing | Pointer (p : ptr) | Number (n : nat).
(** The object behind a pointer (Interthread.h:632). *)
Definition deref (w : list (option Z)) (p : ptr) : res Z :=
  match p with None => UB | Some x => match nth_error w x with Some (Some z) => Ok z | _ => UB end end.
(** PointerCompare, Interthread.h:631-632 *)
Definition greater (w : list (option Z)) (p q : ptr) : res bool := do a <- deref w p; do b <- deref w q; Ok (a >? b)%Z.
(** std::__push_heap from the hole up, as called by mQ.push, Interthread.h:727 *)
Fixpoint push_heap (fuel : nat) (w : list (option Z)) (l : list ptr) (hole : nat) (v : ptr) : res (list ptr) :=
  match fuel with
  | O => Diverge
  | S fuel =>
      match hole with
      | O => Ok (upd l 0 v)
      | S h => do p <- rd l (h / 2); do c <- greater w p v; if (c : bool) then push_heap fuel w (upd l hole p) (h / 2) v else Ok (upd l hole v)
      end
  end.
(** The loop of std::__adjust_heap: the hole goes down to where no two children are; as called by mQ.pop,
    Interthread.h:655, 668 *)
Fixpoint sift_down (fuel : nat) (w : list (option Z)) (l : list ptr) (hole : nat) : res (list ptr * nat) :=
  match fuel with
  | O => Diverge
  | S fuel =>
      if hole <? (length l - 1) / 2 then
        let s := 2 * (hole + 1) in
        do a <- rd l s; do b <- rd l (s - 1); do c <- greater w a b;
        let s' := if (c : bool) then s - 1 else s in
        do x <- rd l s'; sift_down fuel w (upd l hole x) s'
      else Ok (l, hole)
  end.
(** std::__adjust_heap from the top: then an only child, then [push_heap] (Interthread.h:655, 668). *)
Definition adjust_heap (w : list (option Z)) (l : list ptr) (v : ptr) : res (list ptr) :=
  do r <- sift_down (S (length l)) w l 0;
  let '(l, hole) := r in
  if Nat.even (length l) && (hole =? (length l - 2) / 2) then
    do x <- rd l (2 * hole + 1); push_heap (S (length l)) w (upd l hole x) (2 * hole + 1) v
  else push_heap (S (length l)) w l hole v.
(** mQ.push, Interthread.h:727 *)
Definition push (w : list (option Z)) (l : list ptr) (v : ptr) : res (list ptr) := push_heap (S (length l)) w (l ++ [v]) (length l) v.
(** mQ.top, Interthread.h:654, 667, 720 *)
Definition top (l : list ptr) : res ptr := rd l 0.
(** mQ.pop: pop_heap, then pop_back, Interthread.h:655, 668 *)
Definition pop (w : list (option Z)) (l : list ptr) : res (list ptr) :=
  match length l with
  | O => UB
  | S O => Ok []
  | S n => do v <- rd l n; adjust_heap w (firstn n l) v
  end.
(** ipqGet, Interthread.h:652-657 *)
Definition ipqGet (w : list (option Z)) (l : list ptr) : res (ptr * list ptr) :=
  match l with [] => Ok (None, l) | _ => do t <- top l; do l <- pop w l; Ok (t, l) end.
(** delete of an element; delete of NULL does nothing (Interthread.h:669) *)
Definition delete (w : list (option Z)) (p : ptr) : res (list (option Z)) :=
  match p with None => Ok w | Some x => match nth_error w x with Some (Some _) => Ok (upd w x None) | _ => UB end end.
(** clear, Interthread.h:663-671 *)
Fixpoint clear (fuel : nat) (w : list (option Z)) (l : list ptr) : res (list (option Z)) :=
  match fuel, l with
  | _, [] => Ok w
  | O, _ => Diverge
  | S fuel, _ => do t <- top l; do l <- pop w l; do w <- delete w t; clear fuel w l
  end.
(** One call, Interthread.h:663-730 *)
Definition step (w : world) (o : op) : res (out * world) :=
  match o with
  | Write p => do q <- push (elements w) (mQ w) p; Ok (Nothing, W (elements w) q)
  | ReadNoBlock => do r <- ipqGet (elements w) (mQ w); Ok (Pointer (fst r), W (elements w) (snd r))
  | Peek => match mQ w with [] => Ok (Pointer None, w) | _ => do t <- top (mQ w); Ok (Pointer t, w) end
  | Size => Ok (Number (length (mQ w)), w)
  | Clear => do e <- clear (length (mQ w)) (elements w) (mQ w); Ok (Nothing, W e [])
  | Make z => Ok (Number (length (elements w)), W (elements w ++ [Some z]) (mQ w))
  | Delete x => do e <- delete (elements w) (Some x); Ok (Nothing, W e (mQ w))
  | SetPrio x z => match nth_error (elements w) x with Some (Some _) => Ok (Nothing, W (upd (elements w) x (Some z)) (mQ w)) | _ => UB end
  end.
(** A program (not in the source). *)
Fixpoint run (w : world) (os : list op) : res (list out * world) :=
  match os with [] => Ok ([], w) | o :: os => do r <- step w o; do s <- run (snd r) os; Ok (fst r :: fst s, snd s) end.
(** Nothing there yet (not in the source). *)
Definition world0 : world := W [] [].
