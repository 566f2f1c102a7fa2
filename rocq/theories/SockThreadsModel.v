(** Model of one UDPSocket used by several threads (Sockets.cpp:72-114, 127-135, 153-246, 266-269).

    Each thread does its calls one after the other, and each call in steps: the lookup of a name, select, recvfrom,
    and the copying of addresses, which is not done at once: mSource and mDestination are an IP address and a port, and
    other threads can run between the two.  Packets wait in the socket in the order of arrival.

    Simplified: sendto sends whenever a destination was set (C67 has its errors); read and select do not fail; the
    buffers belong to the threads; the socket is not closed meanwhile (C70). *)
From Verif Require Import Base.
Local Open Scope Z_scope.

(** sin_addr and sin_port of an address (Sockets.cpp:108-112). *)
Definition addr := (Z * Z)%type.
(** A packet and who sent it (Sockets.cpp:211-212). *)
Record packet := Packet { data : list Z; from : addr }.
(** The calls: Sockets.cpp:127-135, 153-204, 208-240, 266-269. *)
Inductive call := Read | ReadTimeout | WriteBack (m : list Z) | Write (m : list Z) | Send (a : addr) (m : list Z)
  | Destination (host : nat) (port : Z) | Nonblocking | Blocking.
(** What they return: the bytes read; -1; where the message was sent; nothing (Sockets.h:76-137). *)
Inductive result := Data (d : list Z) | Nothing | SentTo (a : addr) | Unit.
(** Where a thread is in its call: in gethostbyname with its result seen (Sockets.cpp:96-100), between sin_addr and
    sin_port (111-112), in select (231), before recvfrom and waiting in it (211), copying the sender of a packet (212),
    and in sendto with the IP address read (156, 165). *)
Inductive pc := Idle | Resolved | Setting | Selecting | Receiving | Blocked | Copying (p : packet) | Copied (p : packet) | Sending (ip : option Z).
(** What is left to do, the call that goes on first (not in the source). *)
Record thread := T { todo : list call; at_ : pc }.
(** Packets that wait, mSource and mDestination (Sockets.h:62-65), O_NONBLOCK (Sockets.cpp:127-135), the memory that
    gethostbyname returns (Sockets.cpp:96), and the threads. *)
Record state := State { queue : list packet; msource : option Z * option Z; mdest : option Z * option Z; nonblock : bool;
                        static_ : option Z; threads : list thread }.
(** What happens: a thread goes on, the time of its select is over, a packet arrives, other code looks up a name
    (Sockets.cpp:96, 211, 231). *)
Inductive label := Step (t : nat) | Expire (t : nat) | Arrive (p : packet) | Other (host : nat).
(** What can be seen: calls that return, packets that arrive, lookups of other code (not in the source). *)
Inductive obs := Done (t : nat) (c : call) (r : result) | Arrived (p : packet) | Looked (host : nat).
(** The resolver, and whether there is gethostbyname2_r (Sockets.cpp:79-101). *)
Record env := Env { lookup : nat -> option Z; reentrant : bool }.

(** A thread replaced (not in the source). *)
Definition put (s : state) (t : nat) (x : thread) : state := State (queue s) (msource s) (mdest s) (nonblock s) (static_ s) (upd (threads s) t x).
(** A call goes on (not in the source). *)
Definition go (s : state) (t : nat) (c : call) (r : list call) (k : pc) : res (list obs * state) := Ok ([], put s t (T (c :: r) k)).
(** A call returns (not in the source). *)
Definition return_ (s : state) (t : nat) (c : call) (r : list call) (x : result) : res (list obs * state) := Ok ([Done t c x], put s t (T r Idle)).
(** Members set (not in the source). *)
Definition with_queue (s : state) (q : list packet) : state := State q (msource s) (mdest s) (nonblock s) (static_ s) (threads s).
(** mSource set, Sockets.cpp:212 *)
Definition with_source (s : state) (a : option Z * option Z) : state := State (queue s) a (mdest s) (nonblock s) (static_ s) (threads s).
(** mDestination set, Sockets.cpp:111-112 *)
Definition with_dest (s : state) (a : option Z * option Z) : state := State (queue s) (msource s) a (nonblock s) (static_ s) (threads s).
(** O_NONBLOCK set, Sockets.cpp:127-135 *)
Definition with_mode (s : state) (b : bool) : state := State (queue s) (msource s) (mdest s) b (static_ s) (threads s).
(** gethostbyname changes its memory, Sockets.cpp:96 *)
Definition with_static (s : state) (a : option Z) : state := State (queue s) (msource s) (mdest s) (nonblock s) a (threads s).

(** Bytes of a packet that read gives, Sockets.cpp:211 (MAX_UDP_LENGTH is 1500). *)
Definition cut (p : packet) : list Z := firstn (Z.to_nat 1500) (data p).
(** The next step of a call: read(buffer) Sockets.cpp:208-219, with a timeout 222-240, write 153-160, writeBack 162-169,
    send 187-195, destination 266-269 with resolveAddress 72-114, nonblocking and blocking 127-135. *)
Definition advance (e : env) (s : state) (t : nat) (c : call) (r : list call) (k : pc) : res (list obs * state) :=
  match c, k with
  | Read, Idle => go s t c r Receiving
  | ReadTimeout, Idle => go s t c r Selecting
  | ReadTimeout, Selecting => match queue s with [] => Diverge | _ => go s t c r Receiving end
  | Read, Receiving | ReadTimeout, Receiving =>
      match queue s with
      | p :: q => go (with_queue s q) t c r (Copying p)
      | [] => if nonblock s then return_ s t c r Nothing else go s t c r Blocked
      end
  | Read, Blocked | ReadTimeout, Blocked => match queue s with p :: q => go (with_queue s q) t c r (Copying p) | [] => Diverge end
  | Read, Copying p | ReadTimeout, Copying p => go (with_source s (Some (fst (from p)), snd (msource s))) t c r (Copied p)
  | Read, Copied p | ReadTimeout, Copied p => return_ (with_source s (fst (msource s), Some (snd (from p)))) t c r (Data (cut p))
  | WriteBack m, Idle => match fst (msource s) with Some ip => go s t c r (Sending (Some ip)) | None => UB end
  | WriteBack m, Sending (Some ip) => match snd (msource s) with Some port => return_ s t c r (SentTo (ip, port)) | None => UB end
  | Write m, Idle => go s t c r (Sending (fst (mdest s)))
  | Write m, Sending ip => match ip, snd (mdest s) with Some ip, Some port => return_ s t c r (SentTo (ip, port)) | _, _ => return_ s t c r Nothing end
  | Send a m, Idle => return_ s t c r (SentTo a)
  | Destination host port, Idle =>
      match lookup e host with
      | None => return_ s t c r Unit
      | Some ip => if reentrant e then go (with_dest s (Some ip, snd (mdest s))) t c r Setting else go (with_static s (Some ip)) t c r Resolved
      end
  | Destination host port, Resolved => go (with_dest s (static_ s, snd (mdest s))) t c r Setting
  | Destination host port, Setting => return_ (with_dest s (fst (mdest s), Some port)) t c r Unit
  | Nonblocking, Idle => return_ (with_mode s true) t c r Unit
  | Blocking, Idle => return_ (with_mode s false) t c r Unit
  | _, _ => Diverge
  end.
(** One step (Sockets.cpp:72-269); [Diverge] if there is none. *)
Definition step (e : env) (s : state) (l : label) : res (list obs * state) :=
  match l with
  | Step t => match nth_error (threads s) t with Some (T (c :: r) k) => advance e s t c r k | _ => Diverge end
  | Expire t => match nth_error (threads s) t with Some (T (ReadTimeout :: r) Selecting) => return_ s t ReadTimeout r Nothing | _ => Diverge end
  | Arrive p => Ok ([Arrived p], with_queue s (queue s ++ [p]))
  | Other host => Ok ([Looked host], match lookup e host with Some ip => with_static s (Some ip) | None => s end)
  end.
(** Several (not in the source). *)
Fixpoint run (e : env) (s : state) (ls : list label) : res (list obs * state) :=
  match ls with [] => Ok ([], s) | l :: ls => do x <- step e s l; do y <- run e (snd x) ls; Ok (fst x ++ fst y, snd y) end.
(** A socket just opened, with a destination or without, and the calls of the threads (Sockets.cpp:118-121, 247-263). *)
Definition start (d : option addr) (progs : list (list call)) : state :=
  State [] (None, None) (option_map fst d, option_map snd d) false None (map (fun p => T p Idle) progs).
