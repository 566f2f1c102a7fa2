(** Model of calls of format with arguments of C++ types, Utils.h:39-67: which of the functions of that name
    the compiler takes, and what that one passes on.

    The choice is that of the C++ standard (over.match): a function fits if each argument converts to its
    parameter, the one taken fits and is better than every other that fits, that is no worse for any argument and
    better for one; a conversion is better the smaller its rank.  The format itself is a const char* and the
    same for all.  An argument that is the literal 0 also converts to a pointer and so to a std::string; a
    std::string made of a null pointer throws std::logic_error; a std::string cannot go through the dots.
    Left out: formats that are a std::string, nullptr, enumerations, classes with conversions of their own. *)
From Verif Require Import Base UtilsModel PrintfModel.
Local Open Scope Z_scope.

(** An argument in the program: a std::string, a C string ([None]: a null pointer), an int, the literal 0,
    a bool, char or short, an unsigned, a long, an unsigned long, a double ([Some t]: in the range of int without
    its fraction), another pointer (the callers of Utils.h:39-67). *)
Inductive value :=
| VString (s : list Z) | VChars (s : option (list Z)) | VInt (z : Z) | VZero | VSmall (z : Z)
| VUnsigned (z : Z) | VLong (z : Z) | VULong (z : Z) | VDouble (t : option Z) | VPointer.
(** The types of the arguments (the callers of Utils.h:39-67). *)
Inductive type := TString | TChars | TInt | TZero | TSmall | TUnsigned | TLong | TULong | TDouble | TPointer.
(** The type of an argument (the callers of Utils.h:39-67). *)
Definition type_of (v : value) : type :=
  match v with
  | VString _ => TString | VChars _ => TChars | VInt _ => TInt | VZero => TZero | VSmall _ => TSmall
  | VUnsigned _ => TUnsigned | VLong _ => TLong | VULong _ => TULong | VDouble _ => TDouble | VPointer => TPointer
  end.
(** The types of the parameters, Utils.h:44-67. *)
Inductive param := PString | PInt.
(** The functions called format: with dots, Utils.h:39, or with these parameters. *)
Inductive function := Dots | Params (ps : list param).
(** Utils.h:39 and 44-67 *)
Definition functions : list function :=
  [ Dots;
    Params [PString];
    Params [PString; PString];
    Params [PString; PString; PString];
    Params [PString; PString; PString; PString];
    Params [PString; PInt];
    Params [PInt; PString];
    Params [PString; PString; PInt];
    Params [PString; PString; PInt; PInt] ].

(** The rank of a conversion, smaller is better: 0 none needed, 1 promotion, 2 conversion of numbers, 3 by a
    constructor (for the parameters of Utils.h:44-67). *)
Definition rank (p : param) (t : type) : option nat :=
  match p, t with
  | PString, TString => Some 0%nat
  | PString, TChars | PString, TZero => Some 3%nat
  | PInt, TInt | PInt, TZero => Some 0%nat
  | PInt, TSmall => Some 1%nat
  | PInt, TUnsigned | PInt, TLong | PInt, TULong | PInt, TDouble => Some 2%nat
  | _, _ => None
  end.
(** The ranks for all arguments, if their number is right and each converts (Utils.h:44-67). *)
Fixpoint ranks (ps : list param) (ts : list type) : option (list nat) :=
  match ps, ts with
  | [], [] => Some []
  | p :: ps, t :: ts => match rank p t, ranks ps ts with Some r, Some rs => Some (r :: rs) | _, _ => None end
  | _, _ => None
  end.
(** The dots take anything, with the last rank (Utils.h:39). *)
Definition viable (f : function) (ts : list type) : option (list nat) :=
  match f with Dots => Some (map (fun _ => 4%nat) ts) | Params ps => ranks ps ts end.
(** No worse for any argument (for the functions of Utils.h:39-67). *)
Fixpoint no_worse (a b : list nat) : bool :=
  match a, b with x :: a, y :: b => Nat.leb x y && no_worse a b | [], [] => true | _, _ => false end.
(** Better for one (for the functions of Utils.h:39-67). *)
Fixpoint one_better (a b : list nat) : bool :=
  match a, b with x :: a, y :: b => Nat.ltb x y || one_better a b | _, _ => false end.
(** The functions that fit, with their ranks (of Utils.h:39-67). *)
Fixpoint fitting (fs : list function) (ts : list type) : list (function * list nat) :=
  match fs with
  | [] => []
  | f :: fs => match viable f ts with Some r => (f, r) :: fitting fs ts | None => fitting fs ts end
  end.
(** Better than all others of the list; [n] counts the places (for the functions of Utils.h:39-67). *)
Fixpoint beats (n : nat) (r : list nat) (i : nat) (l : list (function * list nat)) : bool :=
  match l with
  | [] => true
  | (_, r') :: l => (Nat.eqb n i || (no_worse r r' && one_better r r')) && beats n r (S i) l
  end.
(** The function taken, none if there is no best (of Utils.h:39-67). *)
Fixpoint best (all l : list (function * list nat)) (n : nat) : option function :=
  match l with
  | [] => None
  | (f, r) :: l => if beats n r 0 all then Some f else best all l (S n)
  end.
(** Which function a call means (of Utils.h:39-67). *)
Definition resolve (ts : list type) : option function := let l := fitting functions ts in best l l 0.

(** What a call does: it is not compiled, throws std::logic_error, or runs. *)
Inductive outcome := Reject | Throws | Runs (r : res (list Z)).
(** What is passed for an argument: nothing if making the std::string throws. *)
Inductive passed := Given (a : arg) | Throwing | Undefined.
(** An argument through the dots of format, Utils.h:39. *)
Definition through_dots (v : value) : arg :=
  match v with
  | VString _ => AOther
  | VChars s => AStr s
  | VInt z | VSmall z | VUnsigned z => AInt z
  | VZero => AInt 0
  | VLong z | VULong z => ALong z
  | VDouble _ | VPointer => AOther
  end.
(** An argument as a parameter s1, s2, .. or i1, i2, Utils.h:44-67: the std::string is made of the argument and gives
    s1.c_str(); the int is made of the number. *)
Definition pass (p : param) (v : value) : passed :=
  match p, v with
  | PString, VString s => Given (AStr (Some s))
  | PString, VChars (Some s) => Given (AStr (Some (c_str s)))
  | PString, VChars None | PString, VZero => Throwing
  | PInt, VInt z | PInt, VSmall z => Given (AInt z)
  | PInt, VZero => Given (AInt 0)
  | PInt, VUnsigned z | PInt, VLong z | PInt, VULong z => Given (AInt (s32 z))
  | PInt, VDouble (Some t) => Given (AInt t)
  | _, _ => Undefined
  end.
(** All of them, before format1 is called (Utils.h:44-67). *)
Fixpoint pass_all (ps : list param) (vs : list value) : option (res (list arg)) :=
  match ps, vs with
  | p :: ps, v :: vs =>
      match pass p v, pass_all ps vs with
      | Undefined, _ | _, Some UB => Some UB
      | Throwing, _ | _, None => None
      | Given a, Some (Ok l) => Some (Ok (a :: l))
      | _, Some r => Some r
      end
  | _, _ => Some (Ok [])
  end.
(** Helper of [call]: is there a std::string? (Utils.h:39) *)
Definition is_string (t : type) : bool := match t with TString => true | _ => false end.
(** format(fmt, ...) as written in a program, Utils.h:39-67; format1 is the same as format (Utils.cpp:168-194). *)
Definition call (fmt : list Z) (vs : list value) : outcome :=
  match resolve (map type_of vs) with
  | None => Reject
  | Some Dots => if existsb is_string (map type_of vs) then Reject else Runs (format_ fmt (map through_dots vs))
  | Some (Params ps) =>
      match pass_all ps vs with
      | None => Throws
      | Some r => Runs (do l <- r; format_ fmt l)
      end
  end.
