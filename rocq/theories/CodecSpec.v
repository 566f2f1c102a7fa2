(** What the text encodings mean, independent of the code (RFC 4648 for base64 and
    base16, RFC 3986 for percent encoding). *)
From Verif Require Import Base.
Local Open Scope Z_scope.

Definition byte (c : Z) : Prop := 0 <= c < 256.

(** Base 64: the bits of the bytes, most significant first, in groups of six, the last
    group filled with zero bits; one character per group; '=' up to a multiple of four. *)
Definition bits8 (a : Z) : list bool := map (Z.testbit a) [7; 6; 5; 4; 3; 2; 1; 0].
Definition b2z (b : bool) : Z := if b then 1 else 0.
Definition bits_value (l : list bool) : Z := fold_left (fun v b => 2 * v + b2z b) l 0.
Fixpoint sextets (l : list bool) : list Z :=
  match l with
  | [] => []
  | a :: b :: c :: d :: e :: f :: r => bits_value [a; b; c; d; e; f] :: sextets r
  | l => [bits_value (firstn 6 (l ++ repeat false 6))]
  end.
Definition alphabet64 : list Z := lit "ABCDEFGHIJKLMNOPQRSTUVWXYZabcdefghijklmnopqrstuvwxyz0123456789+/".
Definition base64 (u : list Z) : list Z :=
  let s := sextets (flat_map bits8 u) in
  map (fun i => nth (Z.to_nat i) alphabet64 0) s ++ repeat 61 ((4 - length s mod 4) mod 4)%nat.

Definition space (c : Z) : Prop := c = 32 \/ 9 <= c <= 13.
Definition strip (s : list Z) : list Z := filter (fun c => negb (isspace c)) s.

(** What a decoder must reject: a character outside the alphabet before the first '=',
    or anything but '=' after it (white space never counts). *)
Definition bad64 (s : list Z) : Prop :=
  exists s1 c s2, s = s1 ++ c :: s2 /\ ~ space c /\ c <> 61 /\ (In 61 s1 \/ ~ In c alphabet64).

(** Hex digits in either case; each byte is two of them. *)
Definition hexdigit (c : Z) (v : Z) : Prop :=
  (48 <= c <= 57 /\ v = c - 48) \/ (65 <= c <= 70 /\ v = c - 55) \/ (97 <= c <= 102 /\ v = c - 87).
Inductive hexes : list Z -> list Z -> Prop :=
| hexes_nil : hexes [] []
| hexes_cons a b x y s u : hexdigit a x -> hexdigit b y -> hexes s u -> hexes (a :: b :: s) (16 * x + y :: u).

(** Percent encoding: a decoder replaces '%' and two hex digits by the byte. *)
Fixpoint percent_decode (s : list Z) : list Z :=
  match s with
  | [] => []
  | c :: t =>
      match t with
      | a :: b :: r =>
          match c =? 37, hexval a, hexval b with
          | true, Some x, Some y => 16 * x + y :: percent_decode r
          | _, _, _ => c :: percent_decode t
          end
      | _ => c :: percent_decode t
      end
  end.
(** The characters encodeURIComponent leaves alone, apart from the star. *)
Definition unreserved (c : Z) : Prop :=
  48 <= c <= 57 \/ 65 <= c <= 90 \/ 97 <= c <= 122 \/ In c (lit "-_.!~'()").
