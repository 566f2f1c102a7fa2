(** Model of the text encodings: base64 and hex (Utils.cpp:609-766) and URLEncode
    (URLEncode.cpp).  A byte or character is a number 0..255; a buffer is the list of
    its bytes.  [isspace] and [isalnum] are those of the C locale.  Simplified:
    reserve() and memory exhaustion are left out; buffer lengths stay below 2^32 so the
    unsigned loop counters do not wrap; the encoder loops over groups of three bytes by
    pattern matching, i.e. the tests i+1<buflen and i+2<buflen are the cases of the match. *)
From Verif Require Import Base.
Local Open Scope Z_scope.

(** Utils.cpp:610 *)
Definition sMapBase64 : list Z := lit "ABCDEFGHIJKLMNOPQRSTUVWXYZabcdefghijklmnopqrstuvwxyz0123456789+/".
(** sMapBase64[i], Utils.cpp:643-647 *)
Definition b64char (i : Z) : Z := nth (Z.to_nat i) sMapBase64 0.

(** Utils.cpp:615-620: position in the alphabet, 255 for other characters, '=' is 0. *)
Fixpoint index_of (l : list Z) (c : Z) (i : Z) : Z :=
  match l with
  | [] => 255
  | x :: t => if x =? c then i else index_of t c (i + 1)
  end.
(** The table of Utils.cpp:612-620 after its initialisation. *)
Definition sMapBase64Reverse (c : Z) : Z := if c =? 61 then 0 else index_of sMapBase64 c 0.

(** Utils.cpp:623-626; for 'G'..'Z' the value is 16 or more, like 255 "no digit". *)
Definition sMapHexReverse (c : Z) : Z :=
  if (97 <=? c) && (c <=? 122) then c - 97 + 10
  else if (65 <=? c) && (c <=? 90) then c - 65 + 10
  else if (48 <=? c) && (c <=? 57) then c - 48
  else 255.

(** Utils.cpp:643-644 etc.: [sMapBase64[0x3f & (accum>>s)]] *)
Definition b64out (accum s : Z) : Z := b64char (Z.land 63 (Z.shiftr accum s)).

(** Utils.cpp:632-649 *)
Fixpoint base64EncodeToString (u : list Z) : list Z :=
  match u with
  | [] => []
  | [a] =>
      let accum := u32 (Z.shiftl (u32 (Z.shiftl a 8)) 8) in
      [b64out accum 18; b64out accum 12; 61; 61]
  | [a; b] =>
      let accum := u32 (Z.shiftl (Z.lor (u32 (Z.shiftl a 8)) b) 8) in
      [b64out accum 18; b64out accum 12; b64out accum 6; 61]
  | a :: b :: c :: r =>
      let accum := Z.lor (u32 (Z.shiftl (Z.lor (u32 (Z.shiftl a 8)) b) 8)) c in
      b64out accum 18 :: b64out accum 12 :: b64out accum 6 :: b64out accum 0 :: base64EncodeToString r
  end.

(** Error messages by number; 0 is the empty string. *)
Definition err_after := 1.      (* "found data after '=' terminator in base64 data" *)
Definition err_b64 := 2.        (* "invalid characters in base64 data" *)
Definition err_hex := 3.        (* "unexpected character in hex data" *)
(** Utils.cpp:713 *)
Definition err_odd := 4.        (* "Unexpected odd length of hex encoded string" *)
(** Utils.cpp:739 and 763 *)
Definition err_encoding := 5.   (* "Unexpected encoding specified:" ... *)

(** Utils.cpp:667-669: the scan after '='. *)
Definition scan_rest (s : list Z) (err : Z) : Z :=
  if forallb (fun c => isspace c || (c =? 61)) s then err else err_after.

(** Utils.cpp:661-679: the inner loop.  Result: rest of the input, accum, j, error. *)
Fixpoint b64_group (s : list Z) (accum j err : Z) : list Z * Z * Z * Z :=
  match s with
  | [] => ([], accum, j, err)
  | ch :: t =>
      if j <? 4 then
        if isspace ch then b64_group t accum j err
        else if ch =? 61 then ([], accum, j, scan_rest t err)
        else
          let decoded := sMapBase64Reverse ch in
          if 64 <=? decoded then b64_group t accum j err_b64
          else b64_group t (Z.lor accum (u32 (Z.shiftl decoded ((3 - j) * 6)))) (j + 1) err
      else (s, accum, j, err)
  end.

(** Utils.cpp:680-683 *)
Definition b64_spit (accum j : Z) : list Z :=
  (if 1 <=? j then [Z.land 255 (Z.shiftr accum 16)] else []) ++
  (if 3 <=? j then [Z.land 255 (Z.shiftr accum 8)] else []) ++
  (if j =? 4 then [Z.land 255 accum] else []).

(** Utils.cpp:653-686.  Each turn of the outer loop consumes a character, so the
    length of the input is enough fuel. *)
Fixpoint b64_dec (fuel : nat) (s : list Z) (err : Z) : list Z * Z :=
  match fuel, s with
  | S n, _ :: _ =>
      let '(r, accum, j, e) := b64_group s 0 0 err in
      let (out, e') := b64_dec n r e in
      (b64_spit accum j ++ out, e')
  | _, _ => ([], err)
  end.
(** base64DecodeToString, Utils.cpp:653-686 *)
Definition base64DecodeToString (s : list Z) (err : Z) : list Z * Z := b64_dec (length s) s err.

(** Utils.cpp:699-709 *)
Fixpoint hex_group (s : list Z) (accum j err : Z) : list Z * Z * Z * Z :=
  match s with
  | [] => ([], accum, j, err)
  | ch :: t =>
      if j <? 2 then
        if isspace ch then hex_group t accum j err
        else
          let decoded := sMapHexReverse ch in
          if 16 <=? decoded then hex_group t accum (j + 1) err_hex
          else hex_group t (u8 (Z.lor (Z.shiftl accum 4) decoded)) (j + 1) err
      else (s, accum, j, err)
  end.

(** Utils.cpp:691-717 *)
Fixpoint hex_dec (fuel : nat) (s : list Z) (err : Z) : list Z * Z :=
  match fuel, s with
  | S n, _ :: _ =>
      let '(r, accum, j, e) := hex_group s 0 0 err in
      let e := if j =? 1 then err_odd else e in
      let (out, e') := hex_dec n r e in
      ((if j =? 0 then [] else [accum]) ++ out, e')
  | _, _ => ([], err)
  end.
(** hexDecodeToString, Utils.cpp:691-717 *)
Definition hexDecodeToString (s : list Z) (err : Z) : list Z * Z := hex_dec (length s) s err.

(** Utils.cpp:719-723 *)
Definition tohex1 (data : Z) : Z :=
  let d := Z.land data 15 in if d <=? 9 then d + 48 else d + 65 - 10.
(** Utils.cpp:753-759; [*dp] is a signed char. *)
Definition hexEncode (u : list Z) : list Z :=
  flat_map (fun c => [tohex1 (Z.land (Z.shiftr (s8 c) 4) 15); tohex1 (Z.land (s8 c) 15)]) u.

(** std::operator==(string, const char* ) on the encoding name: the operators of
    stringCaseInsensitive (Utils.cpp:31-36) take a non-const string& and cannot be chosen
    for a literal. *)
Definition str_eq (a b : list Z) : bool := if list_eq_dec Z.eq_dec a b then true else false.

(** Utils.cpp:729-742: the string returned and the new error message. *)
Definition decodeToString (buf encoding : list Z) (err : Z) : list Z * Z :=
  if str_eq encoding (lit "binary") then (buf, err)
  else if str_eq encoding (lit "hex") || str_eq encoding (lit "base16") then hexDecodeToString buf err
  else if str_eq encoding (lit "base64") then base64DecodeToString buf err
  else ([], err_encoding).

(** Utils.cpp:747-766 *)
Definition encodeToString (data encoding : list Z) (err : Z) : list Z * Z :=
  if str_eq encoding (lit "binary") then (data, err)
  else if str_eq encoding (lit "hex") || str_eq encoding (lit "base16") then (hexEncode data, err)
  else if str_eq encoding (lit "base64") then (base64EncodeToString data, err)
  else ([], err_encoding).

(** URLEncode.cpp:33-49.  [isalnum] of a negative char is taken to be false (glibc). *)
Definition isalnum (c : Z) : bool :=
  ((48 <=? c) && (c <=? 57)) || ((65 <=? c) && (c <=? 90)) || ((97 <=? c) && (c <=? 122)).
(** strchr finds the terminating NUL too (URLEncode.cpp:40). *)
Definition strchr_ (s : list Z) (c : Z) : bool := (c =? 0) || existsb (fun x => x =? c) s.
(** URLEncode.cpp:35 (sic: 0 twice) *)
Definition url_digits : list Z := lit "01234567890ABCDEF".
(** digits[d], URLEncode.cpp:44-45 *)
Definition url_digit (d : Z) : Z := nth (Z.to_nat d) url_digits 0.
(** URLEncode.cpp:40: characters that stay as they are. *)
Definition url_keep (c : Z) : bool := isalnum c || strchr_ (lit "-_.!~'()") c.
(** URLEncode, URLEncode.cpp:33-49 *)
Definition URLEncode (s : list Z) : list Z :=
  flat_map (fun c =>
    if url_keep c then [c]
    else [37; url_digit (Z.land (Z.shiftr (s8 c) 4) 15); url_digit (Z.land (s8 c) 15)]) s.
