(** The ideal double-ended queues. *)
From Verif Require Import Base ListModel.

(** What a client of PointerFIFO sees. *)
Definition dstep (d : list Z) (op : fop) : list Z * Z :=
  match op with
  | FPut v => (d ++ [v], 0%Z)
  | FPushFront v => (v :: d, 0%Z)
  | FGet => match d with [] => ([], 0%Z) | h :: t => (t, h) end
  | FFront => (d, match d with [] => 0%Z | h :: _ => h end)
  | FSize => (d, (Z.of_nat (length d) mod 2 ^ 32)%Z)
  end.
Fixpoint drun (d : list Z) (ops : list fop) : list Z * list Z :=
  match ops with
  | [] => (d, [])
  | op :: t => let (d1, o) := dstep d op in let (d2, os) := drun d1 t in (d2, o :: os)
  end.
(** Largest number of elements held at any moment. *)
Fixpoint high_water (d : list Z) (ops : list fop) : nat :=
  match ops with
  | [] => length d
  | op :: t => Nat.max (length d) (high_water (fst (dstep d op)) t)
  end.

(** What a client of SingleLinkList sees; [sz] gives the sizes of the nodes. *)
Fixpoint zsum (l : list Z) : Z := match l with [] => 0%Z | x :: t => (x + zsum t)%Z end.
Definition total (sz : nat -> Z) (d : list nat) : Z := (zsum (map sz d) mod 2 ^ 32)%Z.
Fixpoint last_opt {A} (l : list A) : option A :=
  match l with [] => None | [x] => Some x | _ :: t => last_opt t end.
Definition sdstep (sz : nat -> Z) (d : list nat) (op : sop) : list nat * sobs :=
  match op with
  | SPushBack p => (d ++ [p], ONone)
  | SPushFront p => (p :: d, ONone)
  | SPop => match d with [] => ([], ONode None) | h :: t => (t, ONode (Some h)) end
  | SFront => (d, ONode (hd_error d))
  | SBack => (d, ONode (last_opt d))
  | SCount => (d, ONum (Z.of_nat (length d) mod 2 ^ 32))
  | STotal => (d, ONum (total sz d))
  | SResize _ _ => (d, ONone)
  end.
(** Sizes after an operation. *)
Definition size_after (sz : nat -> Z) (op : sop) : nat -> Z :=
  match op with SResize p z => fun q => if Nat.eqb q p then z else sz q | _ => sz end.
Fixpoint sdrun (sz : nat -> Z) (d : list nat) (ops : list sop) : list nat * list sobs :=
  match ops with
  | [] => (d, [])
  | op :: t => let (d1, o) := sdstep sz d op in let (d2, os) := sdrun (size_after sz op) d1 t in (d2, o :: os)
  end.
(** The client's duties: existing nodes, not already in the list; sizes stay as
    they are while a node is in the list. *)
Definition allowed (n : nat) (d : list nat) (op : sop) : Prop :=
  match op with
  | SPushBack p | SPushFront p => p < n /\ ~ In p d
  | SResize p _ => p < n /\ ~ In p d
  | _ => True
  end.
Fixpoint allowed_run (n : nat) (d : list nat) (ops : list sop) : Prop :=
  match ops with
  | [] => True
  | op :: t => allowed n d op /\ allowed_run n (fst (sdstep (fun _ => 0%Z) d op)) t
  end.
