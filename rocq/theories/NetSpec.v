(** What users of UDPSockets expect, in terms of the calls made and their results. *)
From Verif Require Import Base UtilsModel ConfigModel SocketModel NetModel.
Local Open Scope Z_scope.

Definition trace := list (op * obs).
(** The sockets alive with their ports, the last bound in front. *)
Definition bound1 (o : list (nat * Z)) (x : op * obs) : list (nat * Z) :=
  match x with
  | (Open _ _ _, Opened i p) => (i, p) :: o
  | (Destroy i, Done) => filter (fun y => negb (fst y =? i)%nat) o
  | _ => o
  end.
Definition bound (tr : trace) : list (nat * Z) := fold_left bound1 tr [].
(** Who gets a packet for a port; the port of a socket. *)
Fixpoint holder (o : list (nat * Z)) (port : Z) : option nat :=
  match o with [] => None | (i, p) :: t => if p =? port then Some i else holder t port end.
Fixpoint port_of (o : list (nat * Z)) (i : nat) : option Z :=
  match o with [] => None | (j, p) :: t => if (j =? i)%nat then Some p else port_of t i end.
Definition caller (o : op) : option nat :=
  match o with
  | Open _ _ _ | Outside _ _ _ => None
  | Destroy i | NonBlocking i | Blocking i | Port i | Destination i _ _ | Write i _ _ | WriteText i _ _ | WriteBack i _ _ | WriteBackText i _ _ | Send i _ _ _ | SendText i _ _ _ | Read i | ReadTimeout i => Some i
  end.
(** The packets that arrive at [i], in order: the bytes and the address of the sender. *)
Definition arrival1 (H : host) (i : nat) (o : list (nat * Z)) (x : op * obs) : list (list Z * list Z) :=
  match x with
  | (Outside port data from, _) => if match holder o port with Some j => (j =? i)%nat | None => false end then [(data, from)] else []
  | (c, Sent _ (Some ((addr, port), m)) Arrives) =>
      match caller c with
      | Some j =>
          match port_of o j with
          | Some p => if own H addr && match holder o port with Some k => (k =? i)%nat | None => false end then [(m, sockaddr (srcof H addr) p)] else []
          | None => []
          end
      | None => []
      end
  | _ => []
  end.
Fixpoint arrivals (H : host) (i : nat) (o : list (nat * Z)) (tr : trace) : list (list Z * list Z) :=
  match tr with [] => [] | x :: t => arrival1 H i o x ++ arrivals H i (bound1 o x) t end.
(** What [i] has read: the buffer and source(). *)
Definition got1 (i : nat) (x : op * obs) : list (Z * cells * cells) :=
  match x with
  | (Read j, Got r d f) | (ReadTimeout j, Got r d f) => if (j =? i)%nat then [(r, d, f)] else []
  | _ => []
  end.
Definition got (i : nat) (tr : trace) : list (Z * cells * cells) := flat_map (got1 i) tr.
(** How a packet is read: the first 1500 bytes. *)
Definition seen (p : list Z * list Z) : Z * cells * cells :=
  let d := firstn 1500 (fst p) in (Z.of_nat (length d), map Some d, map Some (snd p)).
(** The mode last set; the destination last set. *)
Definition mode1 (i : nat) (b : bool) (x : op * obs) : bool :=
  match fst x with NonBlocking j => if (j =? i)%nat then true else b | Blocking j => if (j =? i)%nat then false else b | _ => b end.
Definition mode (i : nat) (tr : trace) : bool := fold_left (mode1 i) tr false.
Definition dest1 (H : host) (i : nat) (d : option (list Z * Z)) (x : op * obs) : option (list Z * Z) :=
  match fst x with
  | Destination j port name => if (j =? i)%nat then match rv H name with Some (2, addr) => Some (addr, port) | _ => d end else d
  | _ => d
  end.
Definition dest_of (H : host) (i : nat) (tr : trace) : option (list Z * Z) := fold_left (dest1 H i) tr None.
(** What sending to [d] gives. *)
Definition sends (d : option (list Z * Z)) (m : list Z) (f : fate) : obs :=
  match d, f with
  | Some (addr, port), (Arrives | Lost) => if (Z.of_nat (length m) <=? 65507) && negb (port =? 0) then Sent (Z.of_nat (length m)) (Some ((addr, port), m)) f else Sent (-1) None f
  | _, _ => Sent (-1) None f
  end.
(** Addresses as they are: four bytes; ports of 16 bits; 16 bytes for the address of a sender. *)
Definition ip (a : list Z) : Prop := length a = 4%nat /\ Forall (fun b => 0 <= b < 256) a.
Definition proper (H : host) : Prop := (forall name t a, rv H name = Some (t, a) -> t = 2 -> ip a) /\ (forall a, ip a -> own H a = true -> ip (srcof H a) /\ own H (srcof H a) = true).
Definition proper_op (o : op) : Prop :=
  match o with
  | Open port _ _ => 0 <= port < 65536
  | Destination _ port _ => 0 <= port < 65536
  | Outside _ _ from => exists a p, ip a /\ 0 < p < 65536 /\ from = sockaddr a p
  | _ => True
  end.
(** The address source() gives: that of the packet last read. *)
Definition last_src (i : nat) (tr : trace) : option cells := match rev (got i tr) with [] => None | (_, _, f) :: _ => Some f end.
(** A destination given to send is that of an IP socket. *)
Definition proper_dest (c : op) : Prop :=
  match c with
  | Send _ d _ _ | SendText _ d _ _ => exists a p m, ip a /\ 0 <= p < 65536 /\ d = map Some ([2; 0] ++ net_short p ++ a) ++ m
  | _ => True
  end.
(** The calls that send. *)
Definition sending (c : op) : Prop :=
  match c with Write _ _ _ | WriteText _ _ _ | WriteBack _ _ _ | WriteBackText _ _ _ | Send _ _ _ _ | SendText _ _ _ _ => True | _ => False end.
(** The address a sending call uses, as the specification has it. *)
Definition target (H : host) (tr : trace) (c : op) (d : option (list Z * Z)) : Prop :=
  match c with
  | Write i _ _ | WriteText i _ _ => d = dest_of H i tr
  | WriteBack i _ _ | WriteBackText i _ _ => exists a p, ip a /\ 0 < p < 65536 /\ last_src i tr = Some (map Some (sockaddr a p)) /\ d = Some (a, p)
  | Send i m _ _ | SendText i m _ _ => exists a p r, ip a /\ 0 <= p < 65536 /\ m = map Some ([2; 0] ++ net_short p ++ a) ++ r /\ d = Some (a, p)
  | _ => False
  end.
(** The bytes it sends: those given, or the characters of a text up to its NUL. *)
Fixpoint upto_nul (m : list Z) : list Z := match m with [] => [0] | c :: t => if c =? 0 then [0] else c :: upto_nul t end.
Definition text_of (c : op) : list Z := match c with Write _ m _ | WriteBack _ m _ | Send _ _ m _ => m | WriteText _ m _ | WriteBackText _ m _ | SendText _ _ m _ => upto_nul m | _ => [] end.
Definition fate_of (c : op) : fate := match c with Write _ _ f | WriteBack _ _ f | Send _ _ _ f | WriteText _ _ f | WriteBackText _ _ f | SendText _ _ _ f => f | _ => Lost end.
