(** Vocabulary for the storage properties. *)
From Verif Require Import Base VectorHeapModel.

Definition alive (w : world) (v : nat) : Prop := exists x, nth_error (env w) v = Some (Some x).
Definition allocated (w : world) (b : nat) : Prop := exists blk, nth_error (heap w) b = Some (Some blk).
Definition owns (w : world) (v b : nat) : Prop := exists x, nth_error (env w) v = Some (Some x) /\ v_data x = Some b.
Definition is_owner (w : world) (v : nat) : Prop := exists b, owns w v b.

(** What a vector shows: [None] if it does not exist or points to memory that is
    no longer there. *)
Definition contents (w : world) (v : nat) : option (list cell) :=
  match nth_error (env w) v with
  | Some (Some x) => match load w (v_start x) (v_len x) with VOk cs => Some cs | _ => None end
  | _ => None
  end.

(** Operations that change elements, and only through the listed vectors. *)
Definition is_write (vs : nat -> Prop) (op : vop) : Prop :=
  match op with
  | OWrite v _ _ | OFill v _ | OFillRange v _ _ _ => vs v
  | OCopyTo _ o _ _ | OSegCopyTo _ o _ _ => vs o
  | _ => False
  end.

(** States that a client can get to. *)
Definition reachable (w : world) : Prop := exists ops, vrun empty_world ops = VOk w.

(** The block used by a vector. *)
Definition in_block (w : world) (v c : nat) : Prop :=
  exists x i, nth_error (env w) v = Some (Some x) /\ v_start x = Some (c, i).

(** [o] looks into the block owned by [v]. *)
Definition looks_into (w : world) (o v : nat) : Prop := exists b, owns w v b /\ in_block w o b.
