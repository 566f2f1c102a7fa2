(** The number that a word stands for. *)
From Verif Require Import Base.
From Coq Require Export QArith.

Definition is_word (r : Z) : Prop := (- 2 ^ 31 <= r < 2 ^ 31)%Z.
Definition val (r : Z) : Q := r # 65536.
Definition ulp : Q := 1 # 65536.
(** Numbers in the range of the type. *)
Definition in_range (q : Q) : Prop := (inject_Z (-32768) <= q /\ q < inject_Z 32768)%Q.
