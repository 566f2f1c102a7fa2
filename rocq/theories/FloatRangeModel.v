(** Model of ranges of floats: isInValRange<float> (Configuration.cpp:1067-1097) as isValidValue calls it
    for VALRANGE keys whose valid values have a point (Configuration.cpp:617-637).

    Reading a float from a stream as in libstdc++: sign, digits, at most one point and an exponent are
    collected and converted by strtof (C86), 0 if that does not take all of it; what is too large becomes the
    largest float. *)
From Verif Require Import Base UtilsModel ConfigModel ValidModel F16Model F16Float FloatNumModel.
Local Open Scope Z_scope.

(** The largest float (Configuration.cpp:1074-1083). *)
Definition largest : float := Fin (2 ^ 24 - 1) 104.
(** libstdc++ puts the largest float for what is too large (Configuration.cpp:1074-1083). *)
Definition limited (f : float) : float := match f with Inf s => if s then fneg largest else largest | _ => f end.
(** [exponent] takes nothing of an e that no digit follows (Configuration.cpp:1074-1083). *)
Definition incomplete (r r' : list Z) : bool :=
  match r with x :: _ => ((x =? 101) || (x =? 69)) && (len r =? len r') | [] => false end.
(** The number behind the sign (Configuration.cpp:1074-1083). *)
Definition read_unsigned (s : list Z) : float :=
  match mantissa 10 s with
  | Some (a, b, r) =>
      let (e, r') := exponent 101 r in
      if incomplete r r' then Fin 0 0 else limited (scaled (num 10 (a ++ b)) 10 (e - Z.of_nat (length b)))
  | None => Fin 0 0
  end.
(** std::stringstream(s) >> f: [None] if there is nothing but white space, then f is left alone (Configuration.cpp:1074-1083). *)
Definition read_float (s : list Z) : option float :=
  match skip_space s with
  | [] => None
  | c :: t => Some (if c =? 45 then fneg (read_unsigned t) else if c =? 43 then read_unsigned t else read_unsigned (c :: t))
  end.
(** <= of floats: false if one is not a number (Configuration.cpp:1091). *)
Definition fle (a b : float) : bool := match fcompare a b with Some Lt | Some Eq => true | _ => false end.
(** isInValRange<float>: the variables are not initialised (Configuration.cpp:1067-1097). *)
Definition float_range (validValues val : list Z) : res bool :=
  do (smin, smax) <- getMinMax validValues;
  match read_float val, read_float smin, read_float smax with
  | Some v, Some min, Some max => Ok (fle min v && fle v max)
  | _, _, _ => UB
  end.
