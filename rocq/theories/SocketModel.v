(** Model of Sockets.cpp and Sockets.h.

    Memory that holds an address is a list of cells, [None] for a byte never written.  The
    layouts and the rules of sendto, recvfrom and select are those of Linux on x86: sockaddr_in is
    family (2 bytes, low byte first), port (high byte first), address; sockaddr_un is
    family and 108 bytes of path.  Names are resolved by an argument.  The network is not
    modelled: what arrives is an argument, what is sent is a result. *)
From Verif Require Import Base UtilsModel ConfigModel.
Local Open Scope Z_scope.

Definition MAX_UDP_LENGTH : Z := 1500.      (* Sockets.h:44 *)
Definition cells := list (option Z).
(** Bytes written into memory from offset [off] on; behind the end is undefined (Sockets.cpp:109-112 and 206-217). *)
Definition store (m : cells) (off : nat) (b : list Z) : res cells :=
  if Nat.leb (off + length b) (length m)
  then Ok (firstn off m ++ map Some b ++ skipn (off + length b) m) else UB.
(** Helper: a byte of memory; reading one never written is undefined (Sockets.cpp:109-112 and 206-217). *)
Definition byte (m : cells) (i : nat) : res Z :=
  match nth_error m i with Some (Some b) => Ok b | _ => UB end.

(** ** Names *)
(** gethostbyname: address type and bytes (Sockets.cpp:85 and 97). *)
Definition resolver := list Z -> option (Z * list Z).
(** AF_INET of Linux, used at Sockets.cpp:105, 270 and 286. *)
Definition AF_INET : Z := 2.
(** AF_UNIX of Linux, used at Sockets.cpp:328 and 339. *)
Definition AF_UNIX : Z := 1.
(** htons: the high byte first (Sockets.cpp:112). *)
Definition net_short (port : Z) : list Z := [port / 256; port mod 256].
(** resolveAddress(address,host,port), Sockets.cpp:72-114 *)
Definition resolveAddress (rv : resolver) (address : cells) (host : list Z) (port : Z) : res (bool * cells) :=
  match rv host with
  | None => Ok (false, address)
  | Some (type, addr) =>
      if negb (type =? AF_INET) then Ok (false, address)
      else
        do a <- store address 0 [type; 0];
        do _ <- assert_ (Nat.eqb (length addr) 4);
        do a <- store a 4 addr;
        do a <- store a 2 (net_short port);
        Ok (true, a)
  end.
(** strtol(s,NULL,10) *)
Definition strtol10 (s : list Z) : Z :=
  match skip_space s with
  | [] => 0
  | c :: t => if c =? 45 then clamp (- digits_val 10 t 0)
              else if c =? 43 then clamp (digits_val 10 t 0) else clamp (digits_val 10 (c :: t) 0)
  end.
(** strchr(copy,':'): the text before and behind it (Sockets.cpp:58-65). *)
Fixpoint at_colon (s : list Z) : option (list Z * list Z) :=
  match s with
  | [] => None
  | c :: t => if c =? 58 then Some ([], t)
              else match at_colon t with Some (a, b) => Some (c :: a, b) | None => None end
  end.
(** resolveAddress(address,hostAndPort), Sockets.cpp:54-70: result, address, and whether the
    copy is leaked.  The port becomes an unsigned and then an unsigned short. *)
Definition resolveHostAndPort (rv : resolver) (address : cells) (hostAndPort : list Z) : res (bool * cells * bool) :=
  match at_colon (c_str hostAndPort) with
  | None => Ok (false, address, true)
  | Some (host, rest) =>
      do (b, a) <- resolveAddress rv address host (u32 (strtol10 rest) mod 2 ^ 16);
      Ok (b, a, false)
  end.

(** ** Sending and receiving *)
(** Where the kernel sends a packet of an IP socket: the family may be AF_INET or (for UDP) 0; port 0 is an error. *)
Definition inet_target (m : cells) : res (option (list Z * Z)) :=
  do f0 <- byte m 0; do f1 <- byte m 1;
  do p0 <- byte m 2; do p1 <- byte m 3;
  do a0 <- byte m 4; do a1 <- byte m 5; do a2 <- byte m 6; do a3 <- byte m 7;
  let family := f0 + 256 * f1 in
  let port := 256 * p0 + p1 in
  Ok (if (family =? AF_INET) || (family =? 0) then if port =? 0 then None else Some ([a0; a1; a2; a3], port) else None).
(** The path in a sockaddr_un, up to the NUL (Sockets.cpp:338-341 and 355-357). *)
Fixpoint path_at (n : nat) (m : cells) (i : nat) : res (list Z) :=
  match n with
  | O => Ok []
  | S k => do c <- byte m i; if c =? 0 then Ok [] else do p <- path_at k m (S i); Ok (c :: p)
  end.
(** The same for a Unix socket; the family must be AF_UNIX, an empty path leads nowhere (Sockets.cpp:152-199). *)
Definition unix_target (m : cells) : res (option (list Z)) :=
  do f0 <- byte m 0; do f1 <- byte m 1;
  if f0 + 256 * f1 =? AF_UNIX then
    do p <- path_at 108 m 2;
    Ok (match p with [] => None | _ => Some p end)
  else Ok None.

(** The two buffers of a DatagramSocket and the caller's receive buffer (Sockets.h:63-65). *)
Record sock := Sock { mDestination : cells; mSource : cells; userbuf : cells }.
(** DatagramSocket(), Sockets.cpp:118-121: only mDestination is cleared. *)
Definition sock0 (buf : cells) : sock := Sock (repeat (Some 0) 256) (repeat None 256) buf.

(** What a call does: the packet handed to the network (if any) and its return value, or an exception (Sockets.cpp:118-260). *)
Inductive effect (A : Type) :=
| Sends (packet : option (A * list Z)) (ret : Z)
| Returns (ret : Z)
| Throws.
Arguments Sends {A}. Arguments Returns {A}. Arguments Throws {A}.

(** sendto: too long a packet or a failure of the network ([up] false) sends nothing (Sockets.cpp:118-260). *)
Definition sendto {A} (limit : Z) (target : option A) (message : list Z) (up : bool) : effect A :=
  match target with
  | Some a => if up && (Z.of_nat (length message) <=? limit) then Sends (Some (a, message)) (Z.of_nat (length message)) else Sends None (-1)
  | None => Sends None (-1)
  end.
(** write and writeBack with a length, Sockets.cpp:152-168 *)
Definition write_ {A} (parse : cells -> res (option A)) (limit : Z) (s : sock) (message : list Z) (up : bool) : res (effect A) :=
  do t <- parse (mDestination s); Ok (sendto limit t message up).
(** writeBack with a length, Sockets.cpp:161-168 *)
Definition writeBack_ {A} (parse : cells -> res (option A)) (limit : Z) (s : sock) (message : list Z) (up : bool) : res (effect A) :=
  do t <- parse (mSource s); Ok (sendto limit t message up).
(** write(const char* ) and writeBack(const char* ), Sockets.cpp:172-182: strlen(message)+1 bytes of the memory at message. *)
Definition message_of (memory : list Z) : list Z := c_str memory ++ [0].

(** What recvfrom finds: a packet with the bytes of its sender's address, nothing, or an error (Sockets.cpp:118-260). *)
Inductive arrival := Packet (data from : list Z) | Again | Failure.
(** read(buffer), Sockets.cpp:206-217 *)
Definition read_ {A} (s : sock) (x : arrival) : res (effect A * sock) :=
  match x with
  | Packet data from =>
      let data := firstn (Z.to_nat MAX_UDP_LENGTH) data in
      do buf <- store (userbuf s) 0 data;
      do src <- store (mSource s) 0 from;
      Ok (Returns (Z.of_nat (length data)), Sock (mDestination s) src buf)
  | Again => Ok (Returns (-1), s)
  | Failure => Ok (Throws, s)
  end.
(** The timeval of read(buffer,timeout), Sockets.cpp:225-227: seconds, microseconds. *)
Definition select_time (timeout : Z) : Z * Z := (timeout / 1000, (timeout mod 1000) * 1000).
(** select: an error, nothing in time, or something to read (Sockets.cpp:220-237). *)
Inductive selected := SelError | SelTimeout | SelReady (x : arrival).
(** read(buffer,timeout), Sockets.cpp:220-237 *)
Definition read_timeout {A} (s : sock) (r : selected) : res (effect A * sock) :=
  match r with
  | SelError => Ok (Throws, s)
  | SelTimeout => Ok (Returns (-1), s)
  | SelReady x => read_ s x
  end.

(** ** UDPSocket *)
(** Sockets.cpp:118-310 *)
Inductive op :=
| Destination (port : Z) (host : list Z)        (* Sockets.cpp:261-264: the result is ignored *)
| Write (message : list Z) (up : bool)
| WriteText (memory : list Z) (up : bool)
| WriteBack (message : list Z) (up : bool)
| WriteBackText (memory : list Z) (up : bool)
| Read (x : arrival)
| ReadTimeout (r : selected).
(** The longest UDP packet of IPv4, for sendto at Sockets.cpp:155, 164 and 191. *)
Definition udp_limit : Z := 65507.
(** A call of a UDPSocket: write, writeBack, send, read and destination, Sockets.cpp:152-264. *)
Definition step (rv : resolver) (s : sock) (o : op) : res (effect (list Z * Z) * sock) :=
  match o with
  | Destination port host =>
      do (_, d) <- resolveAddress rv (mDestination s) host port;
      Ok (Returns 0, Sock d (mSource s) (userbuf s))
  | Write m up => do e <- write_ inet_target udp_limit s m up; Ok (e, s)
  | WriteText m up => do e <- write_ inet_target udp_limit s (message_of m) up; Ok (e, s)
  | WriteBack m up => do e <- writeBack_ inet_target udp_limit s m up; Ok (e, s)
  | WriteBackText m up => do e <- writeBack_ inet_target udp_limit s (message_of m) up; Ok (e, s)
  | Read x => read_ s x
  | ReadTimeout r => read_timeout s r
  end.
(** The calls of a program (Sockets.cpp:118-260). *)
Fixpoint run (rv : resolver) (s : sock) (l : list op) : res (list (effect (list Z * Z)) * sock) :=
  match l with
  | [] => Ok ([], s)
  | o :: t => do (e, s) <- step rv s o; do (es, s) <- run rv s t; Ok (e :: es, s)
  end.

(** ** UDDSocket *)
(** open, Sockets.cpp:325-349: the path bound, for a socket address on the stack of 110 bytes. *)
Definition udd_open (localPath : list Z) : res (option (list Z)) :=
  do a <- store (repeat (Some 0) 110) 0 [AF_UNIX; 0];
  do a <- store a 2 (c_str localPath ++ [0]);
  unix_target a.
(** destination, Sockets.cpp:353-357 *)
Definition udd_destination (s : sock) (remotePath : list Z) : res sock :=
  do d <- store (mDestination s) 2 (c_str remotePath ++ [0]);
  Ok (Sock d (mSource s) (userbuf s)).
(** A packet of a Unix socket is limited only by its buffers, for sendto at Sockets.cpp:155, 164 and 191. *)
Definition udd_limit : Z := 212960.       (* the usual limit of a Unix datagram *)
(** The calls of a UDDSocket, Sockets.cpp:316-357. *)
Inductive uop :=
| UDestination (path : list Z)
| UWrite (message : list Z) (up : bool)
| UWriteBack (message : list Z) (up : bool)
| URead (x : arrival).
(** A call of a UDDSocket: Sockets.cpp:152-237 and 353-357. *)
Definition ustep (s : sock) (o : uop) : res (effect (list Z) * sock) :=
  match o with
  | UDestination p => do s <- udd_destination s p; Ok (Returns 0, s)
  | UWrite m up => do e <- write_ unix_target udd_limit s m up; Ok (e, s)
  | UWriteBack m up => do e <- writeBack_ unix_target udd_limit s m up; Ok (e, s)
  | URead x => read_ s x
  end.
(** The calls of a program (Sockets.cpp:313-350). *)
Fixpoint urun (s : sock) (l : list uop) : res (list (effect (list Z)) * sock) :=
  match l with
  | [] => Ok ([], s)
  | o :: t => do (e, s) <- ustep s o; do (es, s) <- urun s t; Ok (e :: es, s)
  end.

(** ** Descriptors
    The table of the process maps descriptors to the objects they were opened for ([None]: by other code);
    an object knows its descriptor; [None]: mSocketFD was never set. *)
(** Sockets.cpp:118-150, 266-275 and 325-335 *)
Record proc := Proc { table : list (nat * option nat); live : list (nat * option nat); made : nat }.
(** Helper: is the descriptor in use? (Sockets.cpp:270 and 328) *)
Definition taken (p : proc) (fd : nat) : bool := existsb (fun e => Nat.eqb (fst e) fd) (table p).
(** The lowest free descriptor (Sockets.cpp:270 and 328). *)
Fixpoint lowest (n : nat) (p : proc) (fd : nat) : nat :=
  match n with O => fd | S k => if taken p fd then lowest k p (S fd) else fd end.
(** What socket() returns, Sockets.cpp:270 and 328. *)
Definition new_fd (p : proc) : nat := lowest (length (table p)) p 0.
(** close(2): the object the descriptor belonged to, if it was open. *)
Fixpoint close_fd (t : list (nat * option nat)) (fd : nat) : list (nat * option nat) * option (option nat) :=
  match t with
  | [] => ([], None)
  | (x, o) :: r => if Nat.eqb x fd then (r, Some o) else let (r', c) := close_fd r fd in ((x, o) :: r', c)
  end.
(** Helper: mSocketFD of an object; [Some None]: never set (Sockets.h:63-65). *)
Fixpoint fd_of (l : list (nat * option nat)) (i : nat) : option (option nat) :=
  match l with [] => None | (j, f) :: t => if Nat.eqb j i then Some f else fd_of t i end.
(** What a program does with sockets, as far as descriptors are concerned (Sockets.cpp:118-150, 266-350). *)
Inductive pop :=
| NewSocket                 (* UDPSocket(port), Sockets.cpp:244-257, or UDDSocket(path,...) *)
| NewUnopened               (* UDDSocket(), Sockets.cpp:316-321 *)
| Reopen (i : nat)          (* open, Sockets.cpp:267-296 *)
| Close (i : nat)           (* close, Sockets.cpp:137-140 *)
| Destruct (i : nat)        (* ~DatagramSocket, Sockets.cpp:143-146 *)
| OtherOpen                 (* other code opens a file *)
| OtherClose (fd : nat).
(** The second result lists the closings: who closed, whose descriptor it was (Sockets.cpp:266-296 and 325-350). *)
Definition open_for (p : proc) (i : nat) (l : list (nat * option nat)) : proc :=
  let fd := new_fd p in Proc ((fd, Some i) :: table p) ((i, Some fd) :: l) (made p).
(** DatagramSocket::close, Sockets.cpp:137-140 *)
Definition close_of (p : proc) (i : nat) : res (proc * list (nat * option (option nat))) :=
  match fd_of (live p) i with
  | Some (Some fd) => let (t, who) := close_fd (table p) fd in Ok (Proc t (live p) (made p), [(i, who)])
  | _ => UB
  end.
(** Helper: an object is gone (Sockets.cpp:122-125). *)
Definition without (l : list (nat * option nat)) (i : nat) : list (nat * option nat) := filter (fun e => negb (Nat.eqb (fst e) i)) l.
(** One call, Sockets.cpp:118-146, 244-257, 267-296 and 316-321. *)
Definition pstep (p : proc) (o : pop) : res (proc * list (nat * option (option nat))) :=
  match o with
  | NewSocket => let p := Proc (table p) (live p) (S (made p)) in Ok (open_for p (made p) (live p), [])
  | NewUnopened => Ok (Proc (table p) ((S (made p), None) :: live p) (S (made p)), [])
  | Reopen i => Ok (match fd_of (live p) i with Some _ => open_for p i (without (live p) i) | None => p end, [])
  | Close i => close_of p i
  | Destruct i => do (p, c) <- close_of p i; Ok (Proc (table p) (without (live p) i) (made p), c)
  | OtherOpen => Ok (Proc ((new_fd p, None) :: table p) (live p) (made p), [])
  | OtherClose fd => Ok (match close_fd (table p) fd with (t, Some None) => Proc t (live p) (made p) | _ => p end, [])
  end.
(** The calls of a program (Sockets.cpp:118-150, 266-350). *)
Fixpoint prun (p : proc) (l : list pop) : res (proc * list (nat * option (option nat))) :=
  match l with
  | [] => Ok (p, [])
  | o :: t => do (p, c) <- pstep p o; do (p, cs) <- prun p t; Ok (p, c ++ cs)
  end.
(** The start of a program (Sockets.cpp:118-125). *)
Definition proc0 : proc := Proc [] [] 0.
