(** Model of UDPSockets that talk to each other (Sockets.cpp:118-309): ports, modes, queues, over SocketModel.v.

    One host with any number of UDPSocket objects, and packets from outside.  Rules of the kernel (Linux):
    all sockets here are bound to all addresses of the host with SO_REUSEADDR, so a port may be bound
    twice; a packet goes to the socket bound last; it is queued whole, and recvfrom cuts it.  A packet sent may be
    lost or refused, as an argument says.  Messages of perror are left out; a socket is closed only by
    its destructor (C70 has close). *)
From Verif Require Import Base UtilsModel ConfigModel SocketModel.
Local Open Scope Z_scope.

(** Names, which addresses are the host's own, and which of them it puts on a packet for an address (Sockets.cpp:118-310). *)
Record host := Host { rv : resolver; own : list Z -> bool; srcof : list Z -> list Z }.
(** A socket: its buffers, the port bound, O_NONBLOCK, and the packets waiting, with the sender's address (Sockets.cpp:118-310). *)
Record endpoint := End { so : sock; lport : Z; nonblock : bool; queue : list (list Z * list Z) }.
(** The sockets, with a number for each, the one bound last in front (Sockets.cpp:118-310). *)
Record net := Net { ends : list (nat * endpoint); made : nat }.
(** The bytes of a sockaddr_in (Sockets.cpp:109-112). *)
Definition sockaddr (addr : list Z) (port : Z) : list Z := [2; 0] ++ net_short port ++ addr ++ repeat 0 8.
(** The socket with a number (Sockets.cpp:118-310). *)
Fixpoint get (l : list (nat * endpoint)) (i : nat) : option endpoint :=
  match l with [] => None | (j, e) :: t => if (j =? i)%nat then Some e else get t i end.
(** A socket changed (Sockets.cpp:118-310). *)
Fixpoint put (l : list (nat * endpoint)) (i : nat) (x : endpoint) : list (nat * endpoint) :=
  match l with [] => [] | (j, e) :: t => if (j =? i)%nat then (j, x) :: t else (j, e) :: put t i x end.
(** The same in the whole state (Sockets.cpp:118-310). *)
Definition change (n : net) (i : nat) (x : endpoint) : net := Net (put (ends n) i x) (made n).
(** A packet for a port (Sockets.cpp:152-199). *)
Fixpoint deliver (l : list (nat * endpoint)) (port : Z) (packet : list Z * list Z) : list (nat * endpoint) :=
  match l with
  | [] => []
  | (j, e) :: t => if lport e =? port then (j, End (so e) (lport e) (nonblock e) (queue e ++ [packet])) :: t else (j, e) :: deliver t port packet
  end.
(** A packet sent: it arrives, it is lost on the way, or sendto fails (Sockets.cpp:152-199). *)
Inductive fate := Arrives | Lost | Fails.
Inductive op :=
| Open (port chosen : Z) (ok : bool)             (* UDPSocket(port); the port the kernel chooses for 0; does bind succeed? *)
| Destroy (i : nat)
| NonBlocking (i : nat) | Blocking (i : nat)
| Port (i : nat)
| Destination (i : nat) (port : Z) (name : list Z)
| Write (i : nat) (message : list Z) (f : fate)
| WriteText (i : nat) (memory : list Z) (f : fate)
| WriteBack (i : nat) (message : list Z) (f : fate)
| WriteBackText (i : nat) (memory : list Z) (f : fate)
| Send (i : nat) (dest : cells) (message : list Z) (f : fate)
| SendText (i : nat) (dest : cells) (memory : list Z) (f : fate)
| Read (i : nat)
| ReadTimeout (i : nat)
| Outside (port : Z) (data from : list Z).       (* a packet from another host *)
(** What the caller sees: a new socket, an exception, nothing, a port, the result of sending and where the
    packet went, a packet read (what the buffer and source() then hold), or -1 for nothing to read. *)
Inductive obs :=
| Opened (i : nat) (port : Z) | Threw | Done | IsPort (port : Z)
| Sent (ret : Z) (packet : option ((list Z * Z) * list Z)) (f : fate) | Got (ret : Z) (data from : cells) | Empty.
(** sendto with the bytes of an address, Sockets.cpp:152-199. *)
Definition send_ (H : host) (n : net) (i : nat) (e : endpoint) (dest : cells) (message : list Z) (f : fate) : res (obs * net) :=
  do t <- inet_target dest;
  match sendto udp_limit t message (match f with Fails => false | _ => true end) with
  | Sends (Some ((addr, port), m)) ret =>
      Ok (Sent ret (Some ((addr, port), m)) f,
          match f with
          | Arrives => if own H addr then Net (deliver (ends n) port (m, sockaddr (srcof H addr) (lport e))) (made n) else n
          | _ => n
          end)
  | Sends None ret => Ok (Sent ret None f, n)
  | _ => Ok (Threw, n)
  end.
(** recvfrom with what waits, Sockets.cpp:206-217. *)
Definition take (n : net) (i : nat) (e : endpoint) (p : list Z * list Z) (rest : list (list Z * list Z)) : res (obs * net) :=
  do (r, s) <- @read_ (list Z * Z) (so e) (Packet (fst p) (snd p));
  match r with
  | Returns ret => Ok (Got ret (firstn (Z.to_nat ret) (userbuf s)) (firstn 16 (mSource s)), change n i (End s (lport e) (nonblock e) rest))
  | _ => Ok (Threw, n)
  end.
(** One call.  [Diverge]: it waits, or there is no such socket, or the kernel would not choose that port (Sockets.cpp:118-310). *)
Definition step (H : host) (n : net) (o : op) : res (obs * net) :=
  let at_ i (k : endpoint -> res (obs * net)) := match get (ends n) i with Some e => k e | None => Diverge end in
  let mode e b := End (so e) (lport e) b (queue e) in
  match o with
  | Open port chosen ok =>                       (* UDPSocket::UDPSocket and open, Sockets.cpp:244-296 *)
      if negb ok then Ok (Threw, n)
      else
        let p := if port =? 0 then chosen else port in
        if (port =? 0) && ((chosen <=? 0) || (65535 <? chosen) || existsb (fun x => lport (snd x) =? chosen) (ends n)) then Diverge
        else Ok (Opened (made n) p, Net ((made n, End (sock0 (repeat None (Z.to_nat MAX_UDP_LENGTH))) p false []) :: ends n) (S (made n)))
  | Destroy i => at_ i (fun _ => Ok (Done, Net (filter (fun x => negb (fst x =? i)%nat) (ends n)) (made n)))
  | NonBlocking i => at_ i (fun e => Ok (Done, change n i (mode e true)))       (* Sockets.cpp:127-130 *)
  | Blocking i => at_ i (fun e => Ok (Done, change n i (mode e false)))         (* Sockets.cpp:132-135 *)
  | Port i => at_ i (fun e => Ok (IsPort (lport e), n))                         (* Sockets.cpp:300-310 *)
  | Destination i port name =>                                                  (* Sockets.cpp:261-264 *)
      at_ i (fun e => do (_, d) <- resolveAddress (rv H) (mDestination (so e)) name port;
                      Ok (Done, change n i (End (Sock d (mSource (so e)) (userbuf (so e))) (lport e) (nonblock e) (queue e))))
  | Write i m f => at_ i (fun e => send_ H n i e (mDestination (so e)) m f)
  | WriteText i m f => at_ i (fun e => send_ H n i e (mDestination (so e)) (message_of m) f)
  | WriteBack i m f => at_ i (fun e => send_ H n i e (mSource (so e)) m f)
  | WriteBackText i m f => at_ i (fun e => send_ H n i e (mSource (so e)) (message_of m) f)
  | Send i d m f => at_ i (fun e => send_ H n i e d m f)
  | SendText i d m f => at_ i (fun e => send_ H n i e d (message_of m) f)
  | Read i =>                                                                   (* Sockets.cpp:206-217 *)
      at_ i (fun e => match queue e with
                      | p :: rest => take n i e p rest
                      | [] => if nonblock e then Ok (Empty, n) else Diverge
                      end)
  | ReadTimeout i =>                                                            (* Sockets.cpp:220-237 *)
      at_ i (fun e => match queue e with p :: rest => take n i e p rest | [] => Ok (Empty, n) end)
  | Outside port data from => Ok (Done, Net (deliver (ends n) port (data, from)) (made n))
  end.
(** Calls of Sockets.cpp:118-310 and packets from outside one after the other. *)
Fixpoint run (H : host) (n : net) (l : list op) : res (list (op * obs) * net) :=
  match l with
  | [] => Ok ([], n)
  | o :: t => do (x, n) <- step H n o; do (xs, n) <- run H n t; Ok ((o, x) :: xs, n)
  end.
(** No socket yet (Sockets.cpp:118-310). *)
Definition net0 : net := Net [] 0.
