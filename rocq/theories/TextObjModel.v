(** Model of printing an object through a pointer (Text2Str, Utils.h:81-86 and Utils.cpp:324-341) and of printing an
    ostringstream (Utils.cpp:112-115) on streams with flags.

    A stream has its text, the base for numbers, the width for the next thing printed, the fill character, the side it
    is filled on and whether it has failed (a stream that has failed writes nothing and keeps its width).  text() of a
    user's class is any sequence of insertions and manipulators, and may print other objects.

    Simplified: numbers are ints; no other flags; exceptions of streams are off; an object does not contain itself. *)
From Verif Require Import Base UtilsModel ConfigModel.
Local Open Scope Z_scope.

(** A std::ostream (Utils.cpp:331, from the library). *)
Record stream := S { written : list Z; hex : bool; width : nat; fill : Z; left : bool; failed : bool }.
(** A new ostringstream, Utils.cpp:326, 333 *)
Definition new_stream : stream := S [] false 0 32 false false.
(** Filling up to the width (from the library, used by Utils.cpp:336). *)
Definition padded (os : stream) (s : list Z) : list Z :=
  if left os then s ++ repeat (fill os) (width os - length s) else pad_left (width os) (fill os) s.
(** os << string, Utils.cpp:114, 336, 338 *)
Definition put (os : stream) (s : list Z) : stream :=
  if failed os then os else S (written os ++ padded os s) (hex os) 0 (fill os) (left os) false.
(** What os << int writes: in hex an int is taken as unsigned (from the library). *)
Definition number (h : bool) (z : Z) : list Z := if h then hex_digits 8 (u32 z) else sprintf_ld (s32 z).
(** What text() can do with its stream (Utils.h:83); [Obj]: os << pointer to an object with this text, [Null]: os << a
    NULL pointer of this type. *)
Inductive item := Str (s : list Z) | Num (z : Z) | Hex | Dec | Setw (n : nat) | Setfill (c : Z) | Left | Right | Fail
  | Obj (o : list item) | Null.
(** One insertion.  [Obj], [Null]: operator<<, Utils.cpp:331-341 *)
Fixpoint insert (i : item) (os : stream) : stream :=
  match i with
  | Str s => put os s
  | Num z => put os (number (hex os) z)
  | Hex => S (written os) true (width os) (fill os) (left os) (failed os)
  | Dec => S (written os) false (width os) (fill os) (left os) (failed os)
  | Setw n => S (written os) (hex os) n (fill os) (left os) (failed os)
  | Setfill c => S (written os) (hex os) (width os) c (left os) (failed os)
  | Left => S (written os) (hex os) (width os) (fill os) true (failed os)
  | Right => S (written os) (hex os) (width os) (fill os) false (failed os)
  | Fail => S (written os) (hex os) (width os) (fill os) (left os) true
  | Obj o => put os (written ((fix text (o : list item) (ss : stream) : stream := match o with [] => ss | i :: o => text o (insert i ss) end) o new_stream))
  | Null => put os (lit "(null)")
  end.
(** text(os), Utils.h:83 *)
Fixpoint text (o : list item) (os : stream) : stream := match o with [] => os | i :: o => text o (insert i os) end.
(** Text2Str::str, Utils.cpp:324-329 *)
Definition str (o : list item) : list Z := written (text o new_stream).

(** ** Several streams *)
(** What a program does: insert something into a stream, or print the ostringstream [j] on the stream [i]
    (Utils.cpp:112-115). *)
Inductive event := Insert (i : nat) (x : item) | Print (i j : nat).
(** One of the streams replaced (not in the source). *)
Definition set_stream (w : nat -> stream) (i : nat) (s : stream) : nat -> stream := fun k => if (k =? i)%nat then s else w k.
(** One step, Utils.cpp:112-115, 331-341 *)
Definition step (w : nat -> stream) (e : event) : nat -> stream :=
  match e with
  | Insert i x => set_stream w i (insert x (w i))
  | Print i j => set_stream w i (put (w i) (written (w j)))
  end.
