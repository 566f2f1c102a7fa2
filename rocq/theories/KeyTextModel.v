(** Model of a program that keeps a bit vector, such as a key, as a text in the configuration table: packToString, encodeToString and set,
    and later getStr, decodeToString and unpack (BitVector.cpp:378-406, Utils.cpp:729-766, Configuration.cpp:658-944), with the models of
    these functions in BitVectorModel, CodecModel and ConfigModel.

    Simplified: the program that calls them one after the other is not in the source. *)
From Verif Require Import Base BitVectorModel CodecModel.
Local Open Scope Z_scope.

(** packToString and encodeToString, with a fresh error message: the text and the message (BitVector.cpp:378-392, Utils.cpp:747-766). *)
Definition keep (e : list Z) (v : bv) : res (list Z * Z) := do b <- packToString v; Ok (encodeToString b e 0).
(** decodeToString with a fresh error message and unpack of its c_str into [n] bits: the bits and the message; behind the characters of a
    string there is a NUL (Utils.cpp:729-742, BitVector.cpp:395-406). *)
Definition restore (e : list Z) (n : nat) (s : list Z) : res (bv * Z) :=
  let '(b, err) := decodeToString s e 0 in do v <- unpack (repeat 0 n) (b ++ [0]); Ok (v, err).
