(** Sequential objects and histories for the properties of Interthread.h. *)
From Coq Require Import Permutation.
From Verif Require Import Base Monitor InterthreadModel.
Local Open Scope Z_scope.

(** The members of a list that are not NULL. *)
Definition nz (l : list Z) : list Z := filter (fun x => negb (x =? 0)) l.

(** ** A double-ended queue of pointers *)
(** One turn of a call that does not finish. *)
Definition deque_passes (q : list Z) (op : qop) (e : clk) (q' : list Z) : Prop :=
  match op with
  | QRead => (q = [] /\ q' = []) \/ q = 0 :: q'
  | QReadT => q = [] /\ q' = [] /\ e <> Late
  | _ => False
  end.
Definition deque_does (q : list Z) (op : qop) (e : clk) (r : qres) (q' : list Z) : Prop :=
  match op with
  | QWrite v => q' = q ++ [v] /\ r = RNone
  | QWriteFront v => q' = v :: q /\ r = RNone
  | QRead => exists x, x <> 0 /\ q = x :: q' /\ r = RPtr x
  | QReadT => (exists x, q = x :: q' /\ r = RPtr x) \/ (q = [] /\ q' = [] /\ e = Late /\ r = RPtr 0)
  | QReadNB => (exists x, q = x :: q' /\ r = RPtr x) \/ (q = [] /\ q' = [] /\ r = RPtr 0)
  | QClear | QFlush => q' = [] /\ r = RGone q
  | QSize => q' = q /\ r = RCount (length q)
  | QFront => q' = q /\ r = RPtr (hd 0 q)
  end.

(** What a history put in and took out, in the order of effect. *)
Definition q_puts (h : list (hevent qop qres)) : list Z :=
  flat_map (fun ev => match ev with HDone _ (QWrite v) _ _ | HDone _ (QWriteFront v) _ _ => [v] | _ => [] end) h.
Definition q_takes (h : list (hevent qop qres)) : list Z :=
  flat_map (fun ev => match ev with
    | HDone _ (QRead | QReadT | QReadNB) _ (RPtr p) => [p]
    | HDone _ (QClear | QFlush) _ (RGone l) => l
    | _ => []
    end) h.
(** write_front has not been used (no such call has taken effect). *)
Definition no_front (h : list (hevent qop qres)) : Prop := forall t v e r, ~ In (HDone t (QWriteFront v) e r) h.

(** Client duty: NULL is never written. *)
Definition not_null (op : qop) : Prop := match op with QWrite v | QWriteFront v => v <> 0 | _ => True end.
Definition never_null (h : list (hevent qop qres)) : Prop := forall t op, In (HCall t op) h -> not_null op.

(** Readers not asleep: inside a call that takes something, outside the mutex or about
    to look; and signals on condition 0 that a thread still has to send. *)
Definition reader_op (op : qop) : bool := match op with QRead | QReadT | QReadNB | QClear | QFlush => true | _ => false end.
Definition on_the_way {Op Res} (takes : Op -> bool) (p : pc Op Res) : nat :=
  match p with
  | PLock op | PWoken op | PBody op => if takes op then 1%nat else 0%nat
  | PIn _ _ ins aft => length (filter (fun g => Nat.eqb (sig_cond g) 0) (ins ++ aft))
  | PAft _ _ aft => length (filter (fun g => Nat.eqb (sig_cond g) 0) aft)
  | _ => 0%nat
  end.
Definition total {A} (f : A -> nat) (l : list A) : nat := list_sum (map f l).

(** ** Connected queues *)
Definition may_wait (op : cop) : bool :=
  match op with OnA (QRead | QReadT) | OnB (QRead | QReadT) | WaitEither | WaitEitherT => true | _ => false end.
(** What the sleeper waits for is there. *)
Definition c_ready (s : list Z * list Z) (op : cop) : Prop :=
  match op with
  | OnA _ => fst s <> []
  | OnB _ => snd s <> []
  | WaitEither | WaitEitherT => fst s <> [] \/ snd s <> []
  end.
Definition c_never_null (h : list (hevent cop qres)) : Prop :=
  forall t op, In (HCall t op) h -> match op with OnA o | OnB o => not_null o | _ => True end.
Definition only_waiter (t0 : nat) (h : list (hevent cop qres)) : Prop :=
  forall t op, In (HCall t op) h -> may_wait op = true -> t = t0.

(** ** Queue with wait *)
Definition w_not_null (op : wop) : Prop := match op with WWrite v => v <> 0 | _ => True end.
Definition w_never_null (h : list (hevent wop qres)) : Prop := forall t op, In (HCall t op) h -> w_not_null op.
Definition only_drainer (t0 : nat) (h : list (hevent wop qres)) : Prop :=
  forall t n, In (HCall t (WWait n)) h -> t = t0.
Definition wq_passes (q : list Z) (op : wop) (e : clk) (q' : list Z) : Prop :=
  match op with
  | WRead => (q = [] /\ q' = []) \/ q = 0 :: q'
  | WReadT => q = [] /\ q' = [] /\ e <> Late
  | WWait n => (n < length q)%nat /\ q' = q
  | _ => False
  end.
Definition wq_does (q : list Z) (op : wop) (e : clk) (r : qres) (q' : list Z) : Prop :=
  match op with
  | WWrite v => q' = q ++ [v] /\ r = RNone
  | WRead => exists x, x <> 0 /\ q = x :: q' /\ r = RPtr x
  | WReadT => (exists x, q = x :: q' /\ r = RPtr x) \/ (q = [] /\ q' = [] /\ e = Late /\ r = RPtr 0)
  | WReadNB => (exists x, q = x :: q' /\ r = RPtr x) \/ (q = [] /\ q' = [] /\ r = RPtr 0)
  | WClear => q' = [] /\ r = RGone q
  | WSize => q' = q /\ r = RCount (length q)
  | WWait n => (length q <= n)%nat /\ q' = q /\ r = RNone
  end.
Definition w_puts (h : list (hevent wop qres)) : list Z :=
  flat_map (fun ev => match ev with HDone _ (WWrite v) _ _ => [v] | _ => [] end) h.
Definition w_takes (h : list (hevent wop qres)) : list Z :=
  flat_map (fun ev => match ev with
    | HDone _ (WRead | WReadT | WReadNB) _ (RPtr p) => [p]
    | HDone _ WClear _ (RGone l) => l
    | _ => []
    end) h.
Definition w_reader_op (op : wop) : bool := match op with WRead | WReadT | WReadNB | WClear => true | _ => false end.

(** ** Map *)
Definition same_but (s s' : list (Z * Z)) (k : Z) (x : option Z) : Prop :=
  forall j, lookup s' j = if j =? k then x else lookup s j.
Definition map_passes (s : list (Z * Z)) (op : mop) (e : clk) (s' : list (Z * Z)) : Prop :=
  match op with
  | MGet k _ => s' = s /\ lookup s k = None
  | MGetT k _ => s' = s /\ lookup s k = None /\ e <> Late
  | _ => False
  end.
Definition map_gets (s : list (Z * Z)) (k : Z) (rm : bool) (r : mres) (s' : list (Z * Z)) : Prop :=
  exists v, lookup s k = Some v /\ r = RFound v /\ same_but s s' k (if rm then None else Some v).
Definition map_does (s : list (Z * Z)) (op : mop) (e : clk) (r : mres) (s' : list (Z * Z)) : Prop :=
  match op with
  | MWrite k v => r = RWrote (lookup s k) /\ same_but s s' k (Some v)
  | MGet k rm => map_gets s k rm r s'
  | MGetT k rm => map_gets s k rm r s' \/ (lookup s k = None /\ e = Late /\ r = RNotFound /\ s' = s)
  | MGetNB k rm => map_gets s k rm r s' \/ (lookup s k = None /\ r = RNotFound /\ s' = s)
  | MRemove k => r = RRemoved (lookup s k) /\ same_but s s' k None
  end.

(** The value a key has after a history (newest event first): the last write that has
    not been removed since. *)
Fixpoint latest (h : list (hevent mop mres)) (k : Z) : option Z :=
  match h with
  | [] => None
  | HDone _ (MWrite j v) _ _ :: t => if j =? k then Some v else latest t k
  | HDone _ (MGet j true | MGetT j true | MGetNB j true) _ (RFound _) :: t => if j =? k then None else latest t k
  | HDone _ (MRemove j) _ _ :: t => if j =? k then None else latest t k
  | _ :: t => latest t k
  end.

(** Pointers written; given to vdelete by write and remove; handed out by a removing get. *)
Definition m_puts (h : list (hevent mop mres)) : list Z :=
  flat_map (fun ev => match ev with HDone _ (MWrite _ v) _ _ => [v] | _ => [] end) h.
Definition m_deleted (h : list (hevent mop mres)) : list Z :=
  flat_map (fun ev => match ev with
    | HDone _ (MWrite _ _) _ (RWrote (Some v)) => [v]
    | HDone _ (MRemove _) _ (RRemoved (Some v)) => [v]
    | _ => [] end) h.
Definition m_handed (h : list (hevent mop mres)) : list Z :=
  flat_map (fun ev => match ev with
    | HDone _ (MGet _ true | MGetT _ true | MGetNB _ true) _ (RFound v) => [v]
    | _ => [] end) h.
Definition waits_for (op : mop) (k : Z) : Prop := match op with MGet j _ | MGetT j _ => j = k | _ => False end.

(** ** Priority queue *)
Definition strict_order (gt : Z -> Z -> bool) : Prop :=
  (forall x, gt x x = false) /\ (forall x y z, gt x y = true -> gt y z = true -> gt x z = true).
(** [x] is one of [q], none of which is smaller, and [q'] is the rest. *)
Definition takes_least (gt : Z -> Z -> bool) (q : list Z) (x : Z) (q' : list Z) : Prop :=
  Permutation q (x :: q') /\ forall y, In y q -> gt x y = false.
Definition pq_passes (q : list Z) (op : pop) (e : clk) (q' : list Z) : Prop :=
  match op with
  | PRead _ => q = [] /\ q' = []
  | PReadT _ => q = [] /\ q' = [] /\ e <> Late
  | _ => False
  end.
Definition pq_does (gt : Z -> Z -> bool) (q : list Z) (op : pop) (e : clk) (r : qres) (q' : list Z) : Prop :=
  match op with
  | PWrite v => Permutation q' (v :: q) /\ r = RNone
  | PRead _ => exists x, takes_least gt q x q' /\ r = RPtr x
  | PReadT _ => (exists x, takes_least gt q x q' /\ r = RPtr x) \/ (q = [] /\ q' = [] /\ e = Late /\ r = RPtr 0)
  | PReadNB _ => (exists x, takes_least gt q x q' /\ r = RPtr x) \/ (q = [] /\ q' = [] /\ r = RPtr 0)
  | PPeek _ => q' = q /\ ((q = [] /\ r = RPtr 0) \/ exists x q1, takes_least gt q x q1 /\ r = RPtr x)
  | PClear => q' = [] /\ r = RGone q
  | PSize => q' = q /\ r = RCount (length q)
  end.
Definition p_puts (h : list (hevent pop qres)) : list Z :=
  flat_map (fun ev => match ev with HDone _ (PWrite v) _ _ => [v] | _ => [] end) h.
Definition p_takes (h : list (hevent pop qres)) : list Z :=
  flat_map (fun ev => match ev with
    | HDone _ (PRead _ | PReadT _ | PReadNB _) _ (RPtr p) => [p]
    | HDone _ PClear _ (RGone l) => l
    | _ => []
    end) h.
Definition p_reader_op (op : pop) : bool := match op with PRead _ | PReadT _ | PReadNB _ | PClear => true | _ => false end.
Definition p_never_null (h : list (hevent pop qres)) : Prop := forall t, ~ In (HCall t (PWrite 0)) h.

(** ** Semaphore *)
Definition sem_passes (f : bool) (op : sop) (e : clk) (f' : bool) : Prop := op = SGet /\ f = false /\ f' = false.
Definition sem_does (f : bool) (op : sop) (e : clk) (r : bool) (f' : bool) : Prop :=
  match op with
  | SPost => f' = true
  | SGet => f = true /\ f' = false
  | STry => r = f /\ f' = false
  end.
Definition s_posts (h : list (hevent sop bool)) : nat :=
  length (filter (fun ev => match ev with HDone _ SPost _ _ => true | _ => false end) h).
Definition s_gets (h : list (hevent sop bool)) : nat :=
  length (filter (fun ev => match ev with HDone _ SGet _ _ => true | HDone _ STry _ r => r | _ => false end) h).
Definition s_taker (op : sop) : bool := match op with SGet | STry => true | SPost => false end.
