(** Model of LinkedLists.h / LinkedLists.cpp.

    A node is named by its number; NULL is [None].  [void*] data is a number, NULL
    is 0.  Sizes are [unsigned]. *)
From Verif Require Import Base.

(** ** PointerFIFO *)
(** LinkedLists.h:39-53  ListNode: (mNext, mData) *)
Definition lnode := (option nat * Z)%type.

(** LinkedLists.h:58-72 *)
Record fifo := mkFifo {
  f_cells : list lnode;          (* every node ever allocated by this FIFO *)
  f_head : option nat;
  f_tail : option nat;
  f_free : option nat;
  f_size : Z
}.
(** PointerFIFO(), LinkedLists.h:70-73 *)
Definition fifo_empty := mkFifo [] None None None 0%Z.

(** ListNode::next(), LinkedLists.h:48, of the node at an address; NULL and addresses of no node are outside
    the list. *)
Definition node_next (m : list lnode) (p : nat) : res (option nat) := do n <- rd m p; Ok (fst n).
(** ListNode::data(), LinkedLists.h:51 *)
Definition node_data (m : list lnode) (p : nat) : res Z := do n <- rd m p; Ok (snd n).
(** ListNode::next(wNext), LinkedLists.h:49 *)
Definition set_next (m : list lnode) (p : nat) (x : option nat) : res (list lnode) := do n <- rd m p; wr m p (x, snd n).
(** ListNode::data(wData), LinkedLists.h:52 *)
Definition set_data (m : list lnode) (p : nat) (d : Z) : res (list lnode) := do n <- rd m p; wr m p (fst n, d).

(** LinkedLists.cpp:72-78  allocate; a new node is uninitialised, the contents
    below stand for garbage *)
Definition allocate (f : fifo) : res (fifo * nat) :=
  match f_free f with
  | None => Ok (mkFifo (f_cells f ++ [(None, 0%Z)]) (f_head f) (f_tail f) None (f_size f), length (f_cells f))
  | Some p => do n <- node_next (f_cells f) p; Ok (mkFifo (f_cells f) (f_head f) (f_tail f) n (f_size f), p)
  end.

(** LinkedLists.cpp:80-84  release *)
Definition release (f : fifo) (p : nat) : res fifo :=
  do m <- set_next (f_cells f) p (f_free f);
  Ok (mkFifo m (f_head f) (f_tail f) (Some p) (f_size f)).

(** LinkedLists.cpp:33-43  push_front *)
Definition fifo_push_front (f : fifo) (v : Z) : res fifo :=
  do (f1, p) <- allocate f;
  do m <- set_data (f_cells f1) p v;
  do m <- set_next m p (f_head f1);
  Ok (mkFifo m (Some p) (match f_tail f1 with None => Some p | t => t end) (f_free f1) (u32 (f_size f1 + 1))).

(** LinkedLists.cpp:45-54  put *)
Definition fifo_put (f : fifo) (v : Z) : res fifo :=
  do (f1, p) <- allocate f;
  do m <- set_data (f_cells f1) p v;
  do m <- set_next m p None;
  do m <- match f_tail f1 with Some t => set_next m t (Some p) | None => Ok m end;
  Ok (mkFifo m (match f_head f1 with None => Some p | h => h end) (Some p) (f_free f1) (u32 (f_size f1 + 1))).

(** LinkedLists.cpp:57-69  get *)
Definition fifo_get (f : fifo) : res (fifo * Z) :=
  match f_head f with
  | None => Ok (f, 0%Z)
  | Some h =>
      do next <- node_next (f_cells f) h;
      do d <- node_data (f_cells f) h;
      do f1 <- release f h;
      Ok (mkFifo (f_cells f1) next (match next with None => None | Some _ => f_tail f1 end) (f_free f1) (u32 (f_size f1 - 1)), d)
  end.

(** LinkedLists.h:90  front *)
Definition fifo_front (f : fifo) : res Z :=
  match f_head f with Some h => node_data (f_cells f) h | None => Ok 0%Z end.
(** LinkedLists.h:75  size *)
Definition fifo_sz (f : fifo) : Z := f_size f.

(** Client programs: each operation gives one observation (LinkedLists.h:59-99). *)
Inductive fop := FPut (v : Z) | FPushFront (v : Z) | FGet | FFront | FSize.
(** One call of LinkedLists.h:59-99; put and push_front return nothing, shown as 0. *)
Definition fstep (f : fifo) (op : fop) : res (fifo * Z) :=
  match op with
  | FPut v => do g <- fifo_put f v; Ok (g, 0%Z)
  | FPushFront v => do g <- fifo_push_front f v; Ok (g, 0%Z)
  | FGet => fifo_get f
  | FFront => do d <- fifo_front f; Ok (f, d)
  | FSize => Ok (f, fifo_sz f)
  end.
(** Calls of LinkedLists.h:59-99 one after the other, with what they return. *)
Fixpoint frun (f : fifo) (ops : list fop) : res (fifo * list Z) :=
  match ops with
  | [] => Ok (f, [])
  | op :: t => do (f1, o) <- fstep f op; do (f2, os) <- frun f1 t; Ok (f2, o :: os)
  end.

(** ** SingleLinkList *)
(** LinkedLists.h:104-113: a node is (mNext, size()).  Nodes belong to the client. *)
Record slnode := mkSl { sl_next : option nat; sl_size : Z }.
(** LinkedLists.h:119-132 *)
Record sll := mkSll { s_head : option nat; s_tail : option nat; s_count : Z; s_total : Z }.
(** SingleLinkList(), LinkedLists.h:129 *)
Definition sll_empty := mkSll None None 0%Z 0%Z.

(** SingleLinkListNode::setNext, LinkedLists.h:110 *)
Definition setNext (m : list slnode) (p : nat) (x : option nat) : res (list slnode) :=
  do n <- rd m p; wr m p (mkSl x (sl_size n)).

(** LinkedLists.h:135-145  pop_front *)
Definition sl_pop_front (m : list slnode) (s : sll) : res (list slnode * sll * option nat) :=
  match s_head s with
  | None => Ok (m, s, None)
  | Some r =>
      do n <- rd m r;
      do tail <- (if match s_tail s with Some t => Nat.eqb t r | None => false end
                  then do _ <- assert_ (match sl_next n with None => true | Some _ => false end); Ok None
                  else Ok (s_tail s));
      do m1 <- setNext m r None;
      Ok (m1, mkSll (sl_next n) tail (u32 (s_count s - 1)) (u32 (s_total s - sl_size n)), Some r)
  end.

(** LinkedLists.h:147-154  push_front *)
Definition sl_push_front (m : list slnode) (s : sll) (p : nat) : res (list slnode * sll) :=
  do m1 <- setNext m p (s_head s);
  do n <- rd m1 p;
  Ok (m1, mkSll (Some p) (match s_tail s with None => Some p | t => t end) (u32 (s_count s + 1)) (u32 (s_total s + sl_size n))).

(** LinkedLists.h:156-164  push_back *)
Definition sl_push_back (m : list slnode) (s : sll) (p : nat) : res (list slnode * sll) :=
  do m1 <- setNext m p None;
  do m2 <- match s_tail s with Some t => setNext m1 t (Some p) | None => Ok m1 end;
  do n <- rd m2 p;
  Ok (m2, mkSll (match s_head s with None => Some p | h => h end) (Some p) (u32 (s_count s + 1)) (u32 (s_total s + sl_size n))).

(** A client changes what size() of a node returns (LinkedLists.h:106-113). *)
Definition set_size (m : list slnode) (p : nat) (z : Z) : res (list slnode) :=
  do n <- rd m p; wr m p (mkSl (sl_next n) z).

(** The calls of SingleLinkList, LinkedLists.h:129-166, and a change of what size() of a node returns. *)
Inductive sop := SPushBack (p : nat) | SPushFront (p : nat) | SPop | SFront | SBack | SCount | STotal | SResize (p : nat) (z : Z).
(** What a call of LinkedLists.h:129-166 returns: nothing, a node or NULL, a number. *)
Inductive sobs := ONone | ONode (p : option nat) | ONum (z : Z).

(** One call of LinkedLists.h:129-166: push_back, push_front, pop_front, front, back, size, totalSize. *)
Definition sstep (m : list slnode) (s : sll) (op : sop) : res (list slnode * sll * sobs) :=
  match op with
  | SPushBack p => do (m1, s1) <- sl_push_back m s p; Ok (m1, s1, ONone)
  | SPushFront p => do (m1, s1) <- sl_push_front m s p; Ok (m1, s1, ONone)
  | SPop => do (m1, s1, r) <- sl_pop_front m s; Ok (m1, s1, ONode r)
  | SFront => Ok (m, s, ONode (s_head s))
  | SBack => Ok (m, s, ONode (s_tail s))
  | SCount => Ok (m, s, ONum (s_count s))
  | STotal => Ok (m, s, ONum (s_total s))
  | SResize p z => do m1 <- set_size m p z; Ok (m1, s, ONone)
  end.
(** Calls of LinkedLists.h:129-166 one after the other, with what they return. *)
Fixpoint srun (m : list slnode) (s : sll) (ops : list sop) : res (list slnode * sll * list sobs) :=
  match ops with
  | [] => Ok (m, s, [])
  | op :: t => do (m1, s1, o) <- sstep m s op; do (m2, s2, os) <- srun m1 s1 t; Ok (m2, s2, o :: os)
  end.
