(** What the text functions of the configuration schema are for. *)
From Verif Require Import Base UtilsModel UtilsSpec SqlModel ConfigModel ValidModel ValidSpec SchemaModel.
From Coq Require Import Sorted.
Local Open Scope Z_scope.

(** The keys of a map are in ascending order. *)
Definition ascending (m : keymap) : Prop := StronglySorted (fun a b => str_lt (fst a) (fst b) = true) m.

(** The row of CONFIG meant for a key. *)
Definition row_for (e : list Z * ckey) : crow :=
  let v := snd e in
  CRow (fst e) (kdefault v) (if kstatic v then lit "1" else lit "0") (lit "0")
    ((match ktyp v with BOOLEAN => lit "1=enabled, 0=disabled - " | _ => [] end) ++ kdesc v ++ (if kstatic v then lit "  Static." else [])).
Definition missing (r : list crow) (e : list Z * ckey) : bool := negb (existsb (fun x => weqb (rkey x) (fst e)) r).
(** Entries whose text can be quoted: no apostrophe in name and default, not both kinds of quotes in the description. *)
Definition quotable (e : list Z * ckey) : Prop :=
  ~ In 39 (fst e) /\ ~ In 39 (kdefault (snd e)) /\ (~ In 39 (kdesc (snd e)) \/ ~ In 34 (kdesc (snd e))).
Definition one_line (s : list Z) : Prop := ~ In 10 s.

(** Text with every ^ and _ escaped for TeX. *)
Definition tex_escaped (s : list Z) : list Z := flat_map (fun c => if (c =? 94) || (c =? 95) then [92; c] else [c]) s.

(** Letters that differ at most in case. *)
Definition same_letter (x y : Z) : Prop :=
  x = y \/ (65 <= x <= 90 /\ y = x + 32) \/ (97 <= x <= 122 /\ y = x - 32).
Definition contains_nocase (s sub : list Z) : Prop := exists a b c, s = a ++ b ++ c /\ Forall2 same_letter b sub.

(** Lines of text. *)
Definition lines (l : list (list Z)) : list Z := concat (map (fun t => t ++ [10]) l).
Definition ranges (l : list (list Z * list Z)) : list Z := join_with 44 (map (fun e => fst e ++ 58 :: snd e) l).
