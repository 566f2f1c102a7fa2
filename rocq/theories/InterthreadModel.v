(** Model of the monitors of Interthread.h.

    Pointers are numbers, 0 is NULL.  Each body below is what a member function does
    from the moment it holds the mutex (ScopedLock) until it waits or is finished;
    Monitor.v runs the bodies.  Results carry more than C++ returns where the effect
    is on the heap: the pointers a call deletes or drops.

    Simplified: std::list, std::map and std::priority_queue are the mathematical
    list, map and "some smallest element" their interfaces promise; destructors run
    when no other thread uses the object; the iterator members and qGetLock, which
    give the caller the raw container, are in IterModel.v; InterthreadMap1::size, which
    declares a local lock instead of taking one (Interthread.h:598) and so cannot be compiled in use, is left out. *)
From Verif Require Import Base Monitor.
Local Open Scope Z_scope.

(** ** InterthreadQueue (Interthread.h:113-322), PtrList (47-71) *)
Inductive qop :=
| QWrite (v : Z) | QWriteFront (v : Z)
| QRead | QReadT | QReadNB       (* read(), read(timeout) with timeout > 0, readNoBlock() or read(0) *)
| QClear | QFlush | QSize | QFront.
(** What a call of Interthread.h:113-322 returns: nothing, a pointer, a number; the pointers deleted or
    dropped. *)
Inductive qres := RNone | RPtr (p : Z) | RCount (n : nat) | RGone (l : list Z).

(** Interthread.h:69-70 with 54-59: get() is pop_frontr(): NULL if empty. *)
Definition q_get (q : list Z) : Z * list Z := match q with [] => (0, []) | x :: t => (x, t) end.

(** The one condition variable is number 0 (mWriteSignal). *)
Definition q_body (q : list Z) (op : qop) (e : clk) : outcome (list Z) qres :=
  match op with
  | QWrite v => ODone (q ++ [v]) RNone [] [Sig 0]         (* Interthread.h:296-311 *)
  | QWriteFront v => ODone (v :: q) RNone [] [Sig 0]      (* Interthread.h:314-321 *)
  | QRead =>                                              (* Interthread.h:246-255 *)
      let (p, q') := q_get q in
      if p =? 0 then OWait q' 0 else ODone q' (RPtr p) [] []
  | QReadT =>                                             (* Interthread.h:269-283 *)
      match q with
      | [] => match e with
              | Late => ODone q (RPtr 0) [] []
              | Early => OWait q 0
              | Glitch => OSpin q
              end
      | _ => let (p, q') := q_get q in ODone q' (RPtr p) [] []
      end
  | QReadNB => let (p, q') := q_get q in ODone q' (RPtr p) [] []   (* Interthread.h:289-293 *)
  | QClear => ODone [] (RGone q) [] []                    (* Interthread.h:189-193; deletes [q] *)
  | QFlush => ODone [] (RGone q) [] []                    (* Interthread.h:196-200; drops [q] *)
  | QSize => ODone q (RCount (length q)) [] []            (* Interthread.h:207-211 *)
  | QFront => ODone q (RPtr (match q with [] => 0 | x :: _ => x end)) [] []   (* Interthread.h:258-262 *)
  end.

(** ** Two queues joined by iqConnect (Interthread.h:129-132): one mutex, one
    condition variable, two lists. *)
Inductive cop := OnA (op : qop) | OnB (op : qop)
| WaitEither                      (* a.iqWaitForEither(b,0) *)
| WaitEitherT.                    (* a.iqWaitForEither(b,timeout), timeout > 0 *)

Definition on_fst {B R} (b : B) (o : outcome (list Z) R) : outcome (list Z * B) R :=
  match o with OWait s c => OWait (s, b) c | OSpin s => OSpin (s, b) | ODone s r i a => ODone (s, b) r i a end.
(** The same for the second queue (Interthread.h:129-132). *)
Definition on_snd {A R} (a : A) (o : outcome (list Z) R) : outcome (A * list Z) R :=
  match o with OWait s c => OWait (a, s) c | OSpin s => OSpin (a, s) | ODone s r i f => ODone (a, s) r i f end.

(** The condition of iqWaitForEither, Interthread.h:224 and 230. *)
Definition both_empty (s : list Z * list Z) : bool := match s with ([], []) => true | _ => false end.

(** Interthread.h:220-232.  Signal::wait with a time that is not positive returns at
    once and keeps the mutex (Threads.cpp:271-277), so [Late] is a turn of the loop. *)
Definition c_body (s : list Z * list Z) (op : cop) (e : clk) : outcome (list Z * list Z) qres :=
  match op with
  | OnA op => on_fst (snd s) (q_body (fst s) op e)
  | OnB op => on_snd (fst s) (q_body (snd s) op e)
  | WaitEither => if both_empty s then OWait s 0 else ODone s RNone [] []
  | WaitEitherT =>
      if both_empty s then match e with Early => OWait s 0 | Late | Glitch => OSpin s end
      else ODone s RNone [] []
  end.

(** ** InterthreadQueueWithWait (Interthread.h:328-435): condition 0 is mWriteSignal,
    condition 1 is mReadSignal. *)
Inductive wop := WWrite (v : Z) | WRead | WReadT | WReadNB | WClear | WSize | WWait (n : nat).

(** read of InterthreadQueueWithWait signals mReadSignal after taking an element, Interthread.h:373, 398 and
    410. *)
Definition w_sig (p : Z) : list sig := if p =? 0 then [] else [Sig 1].
Definition w_body (q : list Z) (op : wop) (e : clk) : outcome (list Z) qres :=
  match op with
  | WWrite v => ODone (q ++ [v]) RNone [] [Sig 0]         (* Interthread.h:415-422 *)
  | WRead =>                                              (* Interthread.h:365-375 *)
      let (p, q') := q_get q in
      if p =? 0 then OWait q' 0 else ODone q' (RPtr p) [Sig 1] []
  | WReadT =>                                             (* Interthread.h:382-400 *)
      match q with
      | [] => match e with
              | Late => ODone q (RPtr 0) [] []
              | Early => OWait q 0
              | Glitch => OSpin q
              end
      | _ => let (p, q') := q_get q in ODone q' (RPtr p) (w_sig p) []
      end
  | WReadNB => let (p, q') := q_get q in ODone q' (RPtr p) (w_sig p) []   (* Interthread.h:406-412 *)
  | WClear => ODone [] (RGone q) [Sig 1] []               (* Interthread.h:342-347 *)
  | WSize => ODone q (RCount (length q)) [] []            (* Interthread.h:355-359 *)
  | WWait n => if (n <? length q)%nat then OWait q 1 else ODone q RNone [] []   (* Interthread.h:429-433 *)
  end.

(** ** InterthreadMap1 (Interthread.h:440-607) *)
Inductive mop :=
| MWrite (k v : Z)
| MGet (k : Z) (rm : bool)        (* get(key,result,rm), read(key) *)
| MGetT (k : Z) (rm : bool)       (* get(key,result,timeout,rm), read(key,timeout), timeout > 0 *)
| MGetNB (k : Z) (rm : bool)      (* getNoBlock(key,result,rm), readNoBlock(key) *)
| MRemove (k : Z).
(** What a call of Interthread.h:440-607 returns, and what it deletes. *)
Inductive mres :=
| RWrote (old : option Z)         (* [old]: the element given to vdelete *)
| RFound (v : Z) | RNotFound
| RRemoved (old : option Z).      (* remove: true with the element given to vdelete, or false *)

(** find, Interthread.h:473, 491, 510 and 531-534 *)
Fixpoint lookup (s : list (Z * Z)) (k : Z) : option Z :=
  match s with
  | [] => None
  | (j, v) :: t => if j =? k then Some v else lookup t k
  end.
(** mMap[key] = v, Interthread.h:477-479 *)
Fixpoint assign (s : list (Z * Z)) (k v : Z) : list (Z * Z) :=
  match s with
  | [] => [(k, v)]
  | (j, x) :: t => if j =? k then (j, v) :: t else (j, x) :: assign t k v
  end.
(** mMap.erase, Interthread.h:494, 513 and 537 *)
Fixpoint erase (s : list (Z * Z)) (k : Z) : list (Z * Z) :=
  match s with
  | [] => []
  | (j, x) :: t => if j =? k then t else (j, x) :: erase t k
  end.

(** The end of get, Interthread.h:488-539: the element found, erased if [rm]. *)
Definition m_take (s : list (Z * Z)) (k v : Z) (rm : bool) : outcome (list (Z * Z)) mres :=
  ODone (if rm then erase s k else s) (RFound v) [] [].
Definition m_body (s : list (Z * Z)) (op : mop) (e : clk) : outcome (list (Z * Z)) mres :=
  match op with
  | MWrite k v => ODone (assign s k v) (RWrote (lookup s k)) [Bcast 0] []   (* Interthread.h:470-481 *)
  | MGet k rm =>                                          (* Interthread.h:528-539 *)
      match lookup s k with Some v => m_take s k v rm | None => OWait s 0 end
  | MGetT k rm =>                                         (* Interthread.h:504-520 *)
      match lookup s k with
      | Some v => m_take s k v rm
      | None => match e with Late => ODone s RNotFound [] [] | Early => OWait s 0 | Glitch => OSpin s end
      end
  | MGetNB k rm =>                                        (* Interthread.h:488-496 *)
      match lookup s k with Some v => m_take s k v rm | None => ODone s RNotFound [] [] end
  | MRemove k =>                                          (* Interthread.h:548-557; vdelete after the unlock *)
      match lookup s k with Some v => ODone (erase s k) (RRemoved (Some v)) [] [] | None => ODone s (RRemoved None) [] [] end
  end.

(** The destructor (Interthread.h:455-463) runs in the base class, where the virtual
    call to vdelete reaches InterthreadMap1::vdelete (453), not the override of
    InterthreadMap (614). *)
Inductive dyn := AsMap1 | AsMap.
(** vdelete, Interthread.h:453 and 614: what it deletes. *)
Definition vdelete (d : dyn) (v : Z) : list Z := match d with AsMap1 => [] | AsMap => [v] end.
(** The loop of the destructor, Interthread.h:455-463: what is deleted. *)
Definition m_destroy (s : list (Z * Z)) : list Z := flat_map (fun kv => vdelete AsMap1 (snd kv)) s.

(** ** InterthreadPriorityQueue (Interthread.h:642-732).  [gt x y] is [*x > *y].
    priority_queue::top() is some element that no other is ordered after, that is,
    with PointerCompare (626-634), an element greater than none; which one of
    several is not specified, the argument [pick] chooses. *)
Inductive pop := PWrite (v : Z) | PRead (pick : nat) | PReadT (pick : nat) | PReadNB (pick : nat)
| PPeek (pick : nat) | PClear | PSize.

Section PQ.
Variable gt : Z -> Z -> bool.
(** The elements top() may give, Interthread.h:652-657. *)
Definition p_tops (q : list Z) : list Z := filter (fun x => forallb (fun y => negb (gt x y)) q) q.
(** mQ.top(), Interthread.h:654 *)
Definition p_top (q : list Z) (pick : nat) : Z := nth (pick mod length (p_tops q)) (p_tops q) 0.
(** mQ.pop(), Interthread.h:655 *)
Fixpoint p_pop (q : list Z) (x : Z) : list Z :=
  match q with
  | [] => []
  | y :: t => if y =? x then t else y :: p_pop t x
  end.
Definition p_get (q : list Z) (pick : nat) : outcome (list Z) qres :=   (* Interthread.h:652-657 *)
  match q with
  | [] => ODone q (RPtr 0) [] []
  | _ => ODone (p_pop q (p_top q pick)) (RPtr (p_top q pick)) [] []
  end.
Definition p_body (q : list Z) (op : pop) (e : clk) : outcome (list Z) qres :=
  match op with
  | PWrite v => ODone (q ++ [v]) RNone [] [Sig 0]         (* Interthread.h:724-730 *)
  | PRead k => match q with [] => OWait q 0 | _ => p_get q k end   (* Interthread.h:694-699 *)
  | PReadT k =>                                           (* Interthread.h:701-714 *)
      match q with
      | [] => match e with Late => ODone q (RPtr 0) [] [] | Early => OWait q 0 | Glitch => OSpin q end
      | _ => p_get q k
      end
  | PReadNB k => p_get q k                                (* Interthread.h:687-691 *)
  | PPeek k => ODone q (RPtr (match q with [] => 0 | _ => p_top q k end)) [] []   (* Interthread.h:717-721 *)
  | PClear => ODone [] (RGone q) [] []                    (* Interthread.h:663-671 *)
  | PSize => ODone q (RCount (length q)) [] []            (* Interthread.h:679-683 *)
  end.
End PQ.

(** ** Semaphore (Interthread.h:738-774) *)
Inductive sop := SPost | SGet | STry.
Definition s_body (f : bool) (op : sop) (e : clk) : outcome bool bool :=
  match op with
  | SPost => ODone true true [Sig 0] []                   (* Interthread.h:752-757 *)
  | SGet => if f then ODone false true [] [] else OWait f 0   (* Interthread.h:759-764 *)
  | STry => ODone false f [] []                           (* Interthread.h:766-772 *)
  end.
