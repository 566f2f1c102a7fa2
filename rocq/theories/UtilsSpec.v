(** What the string helpers are supposed to compute. *)
From Verif Require Import Base.
Local Open Scope Z_scope.

(** [sub] occurs in [s] at offset [length a]. *)
Definition occurs (sub s : list Z) : Prop := exists a b, s = a ++ sub ++ b.
(** Replacing the leftmost occurrence, then going on behind it. *)
Inductive replaced (search rep : list Z) : list Z -> list Z -> Prop :=
| rep_none s : ~ occurs search s -> replaced search rep s s
| rep_some a b b' :
    (forall a' c, a ++ search ++ b = a' ++ search ++ c -> (length a <= length a')%nat) ->
    replaced search rep b b' -> replaced search rep (a ++ search ++ b) (a ++ rep ++ b').

(** The pieces between separators, and the fields: the pieces that are not empty. *)
Fixpoint pieces (sep : Z -> bool) (s : list Z) : list (list Z) :=
  match s with
  | [] => [[]]
  | c :: t =>
      if sep c then [] :: pieces sep t
      else match pieces sep t with w :: r => (c :: w) :: r | [] => [[c]] end
  end.
Definition fields (sep : Z -> bool) (s : list Z) : list (list Z) :=
  filter (fun w => match w with [] => false | _ => true end) (pieces sep s).

(** A string without NUL, as C keeps it in memory. *)
Definition no_nul (s : list Z) : Prop := ~ In 0 s.

(** The lines of a text, each with its newline; the last one may lack it. *)
Fixpoint lines (s : list Z) : list (list Z) :=
  match s with
  | [] => []
  | c :: t =>
      if c =? 10 then [c] :: lines t
      else match lines t with
           | [] => [[c]]
           | l :: r => (c :: l) :: r
           end
  end.

(** Greatest common divisor. *)
Definition is_gcd (x y d : Z) : Prop :=
  0 < d /\ (d | x) /\ (d | y) /\ forall e, (e | x) -> (e | y) -> (e | d).

Definition sum (l : list Z) : Z := fold_right Z.add 0 l.
