(** Extended regular expressions: what is written, and what it matches. *)
From Verif Require Import Base UtilsModel SqlModel ConfigModel ConfigSpec RegexModel.
Local Open Scope Z_scope.

(** ** What an expression matches *)
(** [u] is the text before, [v] what is matched, [w] the text behind. *)
Fixpoint times (D : list Z -> list Z -> list Z -> Prop) (k : nat) (u v w : list Z) : Prop :=
  match k with
  | O => v = []
  | S k => exists x y, v = x ++ y /\ D u x (y ++ w) /\ times D k (u ++ x) y w
  end.
Definition of_class (k : cclass) (c : Z) : Prop :=
  match k with
  | Alnum => 48 <= c <= 57 \/ 65 <= c <= 90 \/ 97 <= c <= 122
  | Alpha => 65 <= c <= 90 \/ 97 <= c <= 122
  | Blank => c = 32 \/ c = 9
  | Cntrl => 0 <= c < 32 \/ c = 127
  | Digit => 48 <= c <= 57
  | Graph => 32 < c < 127
  | Lower => 97 <= c <= 122
  | Print => 32 <= c < 127
  | Punct => 32 < c < 127 /\ ~ (48 <= c <= 57) /\ ~ (65 <= c <= 90) /\ ~ (97 <= c <= 122)
  | Space => c = 32 \/ 9 <= c <= 13
  | Upper => 65 <= c <= 90
  | Xdigit => 48 <= c <= 57 \/ 65 <= c <= 70 \/ 97 <= c <= 102
  end.
Definition of_item (i : bitem) (c : Z) : Prop := match i with IChar d => c = d | IRange a b => a <= c <= b | IClass k => of_class k c end.
Definition of_set (f : bset) (c : Z) : Prop := if neg f then forall i, In i (bitems f) -> ~ of_item i c else exists i, In i (bitems f) /\ of_item i c.
Fixpoint den (r : re) (u v w : list Z) : Prop :=
  match r with
  | Eps => v = []
  | Chars f => exists c, v = [c] /\ of_set f c
  | Bol => u = [] /\ v = []
  | Eol => v = [] /\ w = []
  | Seq a b => exists x y, v = x ++ y /\ den a u x (y ++ w) /\ den b (u ++ x) y w
  | Alt a b => den a u v w \/ den b u v w
  | Rep a lo hi => exists k, (lo <= k)%nat /\ match hi with Some h => (k <= h)%nat | None => True end /\ times (den a) k u v w
  end.
(** Repetitions are from a number to one that is not smaller. *)
Fixpoint bounded (r : re) : Prop :=
  match r with
  | Eps | Chars _ | Bol | Eol => True
  | Seq a b | Alt a b => bounded a /\ bounded b
  | Rep a lo hi => bounded a /\ match hi with Some h => (lo <= h)%nat | None => True end
  end.
(** Somewhere in the text. *)
Definition found (r : re) (text : list Z) : Prop := exists u v w, text = u ++ v ++ w /\ den r u v w.

(** ** How an expression is written *)
Definition class_text (k : cclass) : list Z :=
  match k with
  | Alnum => lit "alnum" | Alpha => lit "alpha" | Blank => lit "blank" | Cntrl => lit "cntrl" | Digit => lit "digit" | Graph => lit "graph"
  | Lower => lit "lower" | Print => lit "print" | Punct => lit "punct" | Space => lit "space" | Upper => lit "upper" | Xdigit => lit "xdigit"
  end.
Definition item_text (i : bitem) : list Z :=
  match i with IChar c => [c] | IRange a b => [a; 45; b] | IClass k => lit "[:" ++ class_text k ++ lit ":]" end.
Definition items_text (l : list bitem) : list Z := flat_map item_text l.
(** The character behind, which is the closing bracket if there is no further item. *)
Definition next (l : list bitem) : Z := match l with [] => 93 | IChar c :: _ => c | IRange a _ :: _ => a | IClass _ :: _ => 91 end.
Definition not_symbol (c : Z) : Prop := c <> 46 /\ c <> 58 /\ c <> 61.
(** "]" comes first, "-" first or last and not beside another one, "[" not before one of . : = *)
Fixpoint items_ok (first : bool) (l : list bitem) : Prop :=
  match l with
  | [] => first = false
  | i :: l' =>
      match i with
      | IChar c => (c = 93 -> first = true) /\ (c = 91 -> not_symbol (next l')) /\ (c = 45 -> next l' <> 45 /\ (first = true \/ l' = []))
      | IRange a b => a <= b /\ a <> 45 /\ b <> 45 /\ b <> 93 /\ (a = 93 -> first = true) /\ (b = 91 -> not_symbol (next l'))
      | IClass _ => True
      end /\ items_ok false l'
  end.
(** Repetitions: an asterisk, a plus, a question mark, {a}, {a,b}; in the last form the numbers may be left out. *)
Inductive quant := QStar | QPlus | QOpt | QInterval (a : list Z) (b : option (list Z)).
Definition quant_text (q : quant) : list Z :=
  match q with
  | QStar => lit "*" | QPlus => lit "+" | QOpt => lit "?"
  | QInterval a None => lit "{" ++ a ++ lit "}"
  | QInterval a (Some b) => lit "{" ++ a ++ lit "," ++ b ++ lit "}"
  end.
Definition value (s : list Z) : Z := positional 10 (map (fun c => c - 48) s).
Definition numeral (s : list Z) : Prop := Forall (fun c => 48 <= c <= 57) s /\ value s <= 32767.
Definition quant_ok (q : quant) : Prop :=
  match q with
  | QInterval a None => numeral a /\ a <> []
  | QInterval a (Some b) => numeral a /\ numeral b /\ (b <> [] -> value a <= value b)
  | _ => True
  end.
Definition repeated (r : re) (q : quant) : re :=
  match q with
  | QStar => Rep r 0 None | QPlus => Rep r 1 None | QOpt => Rep r 0 (Some 1%nat)
  | QInterval a None => Rep r (Z.to_nat (value a)) (Some (Z.to_nat (value a)))
  | QInterval a (Some b) => Rep r (Z.to_nat (value a)) (match b with [] => None | _ => Some (Z.to_nat (value b)) end)
  end.
Inductive alternatives := One (b : sequence) | More (b : sequence) (a : alternatives)
with sequence := Nothing | Then (a : atom) (q : list quant) (b : sequence)
with atom := Char (c : Z) | Escaped (c : Z) | Any | Bracket (negated : bool) (l : list bitem) | Group (a : alternatives) | Begin | End_.
Fixpoint alternatives_text (a : alternatives) : list Z :=
  match a with One b => sequence_text b | More b a => sequence_text b ++ 124 :: alternatives_text a end
with sequence_text (b : sequence) : list Z :=
  match b with Nothing => [] | Then a q b => atom_text a ++ flat_map quant_text q ++ sequence_text b end
with atom_text (a : atom) : list Z :=
  match a with
  | Char c => [c]
  | Escaped c => [92; c]
  | Any => lit "."
  | Bracket n l => lit "[" ++ (if n then lit "^" else []) ++ items_text l ++ lit "]"
  | Group a => lit "(" ++ alternatives_text a ++ lit ")"
  | Begin => lit "^"
  | End_ => lit "$"
  end.
Definition special (c : Z) : Prop := In c (lit "^$.[(|*+?{\").
(** [top]: not in parentheses. *)
Fixpoint alternatives_ok (top : bool) (a : alternatives) : Prop :=
  match a with One b => sequence_ok top b | More b a => sequence_ok top b /\ alternatives_ok top a end
with sequence_ok (top : bool) (b : sequence) : Prop :=
  match b with
  | Nothing => True
  | Then a q b => atom_ok top a /\ match a with Begin | End_ => q = [] | _ => Forall quant_ok q end /\ sequence_ok top b
  end
with atom_ok (top : bool) (a : atom) : Prop :=
  match a with
  | Char c => ~ special c /\ (c = 41 -> top = true)
  | Escaped c => ~ In c (lit "123456789<>bBwWsS`" ++ [39])
  | Any | Begin | End_ => True
  | Bracket n l => items_ok true l /\ (n = false -> next l <> 94)
  | Group a => alternatives_ok false a
  end.
Fixpoint alternatives_re (a : alternatives) : re :=
  match a with One b => sequence_re b | More b a => Alt (sequence_re b) (alternatives_re a) end
with sequence_re (b : sequence) : re :=
  match b with Nothing => Eps | Then a q b => Seq (fold_left repeated q (atom_re a)) (sequence_re b) end
with atom_re (a : atom) : re :=
  match a with
  | Char c | Escaped c => Chars (BSet false [IChar c])
  | Any => Chars (BSet true [])
  | Bracket n l => Chars (BSet n l)
  | Group a => alternatives_re a
  | Begin => Bol
  | End_ => Eol
  end.
Scheme alternatives_mind := Induction for alternatives Sort Prop
with sequence_mind := Induction for sequence Sort Prop
with atom_mind := Induction for atom Sort Prop.
Combined Scheme syntax_ind from alternatives_mind, sequence_mind, atom_mind.
(** What the model does not cover. *)
Definition has (p x : list Z) : Prop := exists a b, p = a ++ x ++ b.
Definition outside (p : list Z) : Prop :=
  (exists c, In c (lit "123456789<>bBwWsS`" ++ [39]) /\ has p [92; c]) \/ has p (lit "[.") \/ has p (lit "[=") \/ has p (lit "--") \/
  exists x, has p (123 :: x ++ [92]) /\ ~ In 125 x.
