(** What valid configuration values look like. *)
From Verif Require Import Base UtilsModel UtilsSpec SqlModel ConfigModel ConfigSpec ValidModel.
Local Open Scope Z_scope.

(** An octet: a decimal numeral up to 255 without leading zeros. *)
Definition octet (s : list Z) : Prop :=
  exists d ds, digit_string 10 (d :: ds) s /\ positional 10 (d :: ds) <= 255 /\ (d = 0 -> ds = []).
Definition dotted_quad (s : list Z) : Prop :=
  exists a b c d, octet a /\ octet b /\ octet c /\ octet d /\ s = a ++ 46 :: b ++ 46 :: c ++ 46 :: d.

(** The number a text starts with; 0 if it starts with something else. *)
Definition blank (s : list Z) : Prop := Forall (fun c => isspace c = true) s.
Inductive leading_number : list Z -> Z -> Prop :=
| ln_digits ws sign ds s rest : blank ws -> is_sign sign -> digit_string 10 ds s -> ds <> [] -> stops 10 rest ->
    leading_number (ws ++ sign ++ s ++ rest) (sign_of sign * positional 10 ds)
| ln_none ws sign rest : blank ws -> is_sign sign -> stops 10 rest ->
    (sign = [] -> exists c t, rest = c :: t /\ isspace c = false /\ c <> 43 /\ c <> 45) ->
    leading_number (ws ++ sign ++ rest) 0.

Fixpoint join_with (c : Z) (l : list (list Z)) : list Z :=
  match l with
  | [] => []
  | [w] => w
  | w :: t => w ++ c :: join_with c t
  end.
Definition free_of (l : list Z) (s : list Z) : Prop := forall c, In c l -> ~ In c s.

(** The type a type ending in _OPT is an optional version of. *)
Definition required (type : ktype) : ktype :=
  match type with
  | CHOICE_OPT => CHOICE | CIDR_OPT => CIDR | FILEPATH_OPT => FILEPATH
  | HOSTANDPORT_OPT => HOSTANDPORT | IPADDRESS_OPT => IPADDRESS
  | MIPADDRESS_OPT => MIPADDRESS | PORT_OPT => PORT
  | REGEX_OPT => REGEX | STRING_OPT => STRING
  | t => t
  end.
Definition is_letter_or_digit (c : Z) : Prop := 48 <= c <= 57 \/ 65 <= c <= 90 \/ 97 <= c <= 122.
Definition host_name (s : list Z) : Prop := s <> [] /\ Forall (fun c => is_letter_or_digit c \/ In c (lit "_.-")) s.
Definition file_path (s : list Z) : Prop := s <> [] /\ Forall (fun c => is_letter_or_digit c \/ In c (lit "/_.-")) s.
(** Text without NUL that is shorter than an int can count. *)
Definition sane (s : list Z) : Prop := no_nul s /\ Z.of_nat (length s) < 2 ^ 31.
