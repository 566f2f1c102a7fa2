(** C33-C36: base64, hex, the dispatch on the encoding name, URL encoding. *)
From Verif Require Import Base BaseFacts CodecModel CodecSpec CodecProofs.
Local Open Scope Z_scope.

(** ** C33 *)
Theorem C33_encode_rfc4648 : forall u err, Forall byte u ->
  encodeToString u (lit "base64") err = (base64 u, err).
Proof. intros u err H. change (encodeToString u (lit "base64") err) with (base64EncodeToString u, err). rewrite enc_spec by exact H. reflexivity. Qed.
Print Assumptions C33_encode_rfc4648.

Theorem C33_roundtrip : forall u err, Forall byte u ->
  decodeToString (fst (encodeToString u (lit "base64") err)) (lit "base64") err = (u, err).
Proof.
  intros u err H. change (fst (encodeToString u (lit "base64") err)) with (base64EncodeToString u).
  change (decodeToString (base64EncodeToString u) (lit "base64") err) with (base64DecodeToString (base64EncodeToString u) err).
  unfold base64DecodeToString. apply dec_enc; [exact H|lia].
Qed.
Print Assumptions C33_roundtrip.

(** Any text that is the encoding up to white space decodes to the bytes. *)
Theorem C33_roundtrip_spaces : forall u s err, Forall byte u -> strip s = base64 u ->
  decodeToString s (lit "base64") err = (u, err).
Proof.
  intros u s err H E. change (decodeToString s (lit "base64") err) with (base64DecodeToString s err).
  rewrite decode_strip, E. rewrite <- enc_spec by exact H. unfold base64DecodeToString. apply dec_enc; [exact H|lia].
Qed.
Print Assumptions C33_roundtrip_spaces.

Theorem C33_whitespace_ignored : forall s t err, strip s = strip t ->
  decodeToString s (lit "base64") err = decodeToString t (lit "base64") err.
Proof.
  intros s t err E. change (base64DecodeToString s err = base64DecodeToString t err).
  rewrite (decode_strip s), (decode_strip t), E. reflexivity.
Qed.
Print Assumptions C33_whitespace_ignored.

Theorem C33_length : forall u err,
  Z.of_nat (length (fst (encodeToString u (lit "base64") err))) = 4 * ((Z.of_nat (length u) + 2) / 3).
Proof. intros u err. exact (enc_length u). Qed.
Print Assumptions C33_length.

(** A fresh error string is set exactly when the text has a foreign character. *)
Theorem C33_error_iff : forall s, snd (decodeToString s (lit "base64") 0) <> 0 <-> bad64 s.
Proof.
  intros s. change (snd (base64DecodeToString s 0) <> 0 <-> bad64 s). unfold base64DecodeToString.
  rewrite dec_err by lia. rewrite bad64_iff. split; [intros [H|H]; [lia|exact H]|auto].
Qed.
Print Assumptions C33_error_iff.

(** Defect: a text that stops after one character of a group is no encoding of
    anything; it yields a byte without an error. *)
Theorem C33_truncated_accepted : forall i, 0 <= i < 64 ->
  decodeToString [b64char i] (lit "base64") 0 = ([4 * i], 0) /\ forall u, Forall byte u -> base64 u <> [b64char i].
Proof.
  intros i Hi. split.
  - change (b64_dec 1 [b64char i] 0 = ([4 * i], 0)). rewrite b64_dec_S. rewrite group_step by lia.
    cbn [b64_group b64_dec]. unfold b64_spit. change (1 <=? 0 + 1) with true. change (3 <=? 0 + 1) with false.
    change (0 + 1 =? 4) with false. cbn [app]. rewrite land_255, Z.lor_0_l, Z.shiftr_div_pow2 by lia.
    change ((3 - 0) * 6) with 18. f_equal. f_equal. lia.
  - intros u Hu E. rewrite <- enc_spec in E by exact Hu. pose proof (enc_length u) as L. rewrite E in L. cbn [length] in L. lia.
Qed.
Print Assumptions C33_truncated_accepted.

Example C33_ex : fst (encodeToString (lit "any carnal pleas") (lit "base64") 0) = lit "YW55IGNhcm5hbCBwbGVhcw==" /\
  decodeToString (lit "YW55 IGNhcm5hbC BwbGVhcw = =") (lit "base64") 0 = (lit "any carnal pleas", 0) /\
  fst (encodeToString [0; 255; 128] (lit "base64") 0) = lit "AP+A" /\
  snd (decodeToString (lit "QUJD*") (lit "base64") 0) = err_b64 /\
  snd (decodeToString (lit "QQ==QQ") (lit "base64") 0) = err_after /\
  base64 (lit "any carnal pleas") = lit "YW55IGNhcm5hbCBwbGVhcw==".
Proof. vm_compute. repeat split. Qed.

(** ** C34 *)
Definition is_hex (e : list Z) : Prop := e = lit "hex" \/ e = lit "base16".

Lemma hex_enc_dispatch e u err : is_hex e -> encodeToString u e err = (hexEncode u, err).
Proof. intros [-> | ->]; reflexivity. Qed.
Lemma hex_dec_dispatch e u err : is_hex e -> decodeToString u e err = hexDecodeToString u err.
Proof. intros [-> | ->]; reflexivity. Qed.

Theorem C34_encode : forall e u err, is_hex e -> Forall byte u ->
  exists s, encodeToString u e err = (s, err) /\ hexes s u /\ Forall (fun c => 48 <= c <= 57 \/ 65 <= c <= 70) s.
Proof.
  intros e u err He Hu. exists (hexEncode u). rewrite hex_enc_dispatch by exact He.
  split; [reflexivity|]. split; [apply hexEncode_hexes, Hu|apply hexEncode_upper, Hu].
Qed.
Print Assumptions C34_encode.

(** Digits of either case, white space anywhere. *)
Theorem C34_decode : forall e s u err, is_hex e -> hexes (strip s) u -> decodeToString s e err = (u, err).
Proof.
  intros e s u err He H. rewrite hex_dec_dispatch by exact He. unfold hexDecodeToString.
  rewrite hex_dec_pairs by lia. apply hexpairs_ok, H.
Qed.
Print Assumptions C34_decode.

Theorem C34_roundtrip : forall e e' u err err', is_hex e -> is_hex e' -> Forall byte u ->
  decodeToString (fst (encodeToString u e err)) e' err' = (u, err').
Proof.
  intros e e' u err err' He He' Hu. rewrite hex_enc_dispatch by exact He. cbn [fst].
  apply C34_decode; [exact He'|]. pose proof (hexEncode_hexes u Hu) as H.
  rewrite strip_plain by (eapply hexes_plain, H). exact H.
Qed.
Print Assumptions C34_roundtrip.

Theorem C34_error_iff : forall e s, is_hex e -> (snd (decodeToString s e 0) <> 0 <->
  (exists c, In c s /\ ~ space c /\ ~ exists v, hexdigit c v) \/ Nat.odd (length (strip s)) = true).
Proof.
  intros e s He. rewrite hex_dec_dispatch by exact He. rewrite hexDecode_err. unfold bad_hex.
  split; [intros [H|H]; [lia|exact H]|auto].
Qed.
Print Assumptions C34_error_iff.

(** One byte per two characters, whatever they are. *)
Theorem C34_output_length : forall e s err, is_hex e ->
  length (fst (decodeToString s e err)) = ((length (strip s) + 1) / 2)%nat.
Proof.
  intros e s err He. rewrite hex_dec_dispatch by exact He. unfold hexDecodeToString.
  rewrite hex_dec_pairs by lia. generalize (strip s) as t. intros t. revert err. pattern t. apply list_ind2; clear t.
  - reflexivity.
  - intros a err. cbn [hexpairs]. destruct (hx a 0 err). reflexivity.
  - intros a b r IH err. cbn [hexpairs]. destruct (hx a 0 err) as [v e1]. destruct (hx b v e1) as [w e2].
    specialize (IH e2). destruct (hexpairs r e2) as [out e3]. cbn [fst length] in *. rewrite IH.
    replace (S (S (length r)) + 1)%nat with (length r + 1 + 1 * 2)%nat by lia. rewrite Nat.div_add by lia. lia.
Qed.
Print Assumptions C34_output_length.

Example C34_ex : encodeToString [222; 173; 190; 239; 0; 127] (lit "hex") 0 = (lit "DEADBEEF007F", 0) /\
  decodeToString (lit "dE ad be EF") (lit "base16") 0 = ([222; 173; 190; 239], 0) /\
  snd (decodeToString (lit "12G4") (lit "hex") 0) = err_hex /\ snd (decodeToString (lit "123") (lit "hex") 0) = err_odd.
Proof. vm_compute. repeat split. Qed.

(** ** C35 *)
Lemma str_eq_iff a b : str_eq a b = true <-> a = b.
Proof. unfold str_eq. destruct (list_eq_dec Z.eq_dec a b); split; congruence. Qed.
Lemma str_eq_refl a : str_eq a a = true.
Proof. apply str_eq_iff. reflexivity. Qed.
Lemma str_eq_neq a b : a <> b -> str_eq a b = false.
Proof. intros H. apply not_true_iff_false. rewrite str_eq_iff. exact H. Qed.

Definition known (e : list Z) : Prop := In e [lit "binary"; lit "hex"; lit "base16"; lit "base64"].

Theorem C35_binary_identity : forall u err,
  encodeToString u (lit "binary") err = (u, err) /\ decodeToString u (lit "binary") err = (u, err).
Proof. intros. split; reflexivity. Qed.
Print Assumptions C35_binary_identity.

Theorem C35_unknown_rejected : forall e u err, ~ known e ->
  encodeToString u e err = ([], err_encoding) /\ decodeToString u e err = ([], err_encoding).
Proof.
  intros e u err H. unfold known in H. cbn [In] in H. unfold encodeToString, decodeToString.
  rewrite !str_eq_neq by (intros ->; apply H; auto). split; reflexivity.
Qed.
Print Assumptions C35_unknown_rejected.

(** For every known name encoding then decoding is the identity and sets no error. *)
Theorem C35_roundtrip : forall e u err, known e -> Forall byte u ->
  decodeToString (fst (encodeToString u e err)) e err = (u, err).
Proof.
  intros e u err H Hu. destruct H as [<-|[<-|[<-|[<-|[]]]]].
  - reflexivity.
  - apply C34_roundtrip; [left|left|]; auto.
  - apply C34_roundtrip; [right|right|]; auto.
  - apply C33_roundtrip, Hu.
Qed.
Print Assumptions C35_roundtrip.

(** A message left by an earlier call is never cleared. *)
Theorem C35_stale_error : forall e u err, err <> 0 ->
  snd (encodeToString u e err) <> 0 /\ snd (decodeToString u e err) <> 0.
Proof.
  intros e u err H. unfold encodeToString, decodeToString. change err_encoding with 5. split.
  - repeat match goal with |- context [if ?b then _ else _] => destruct b end; cbn [snd]; lia.
  - destruct (str_eq e (lit "binary")); [exact H|].
    destruct (str_eq e (lit "hex") || str_eq e (lit "base16")); [apply hexDecode_err; auto|].
    destruct (str_eq e (lit "base64")); [|cbn [snd]; lia].
    unfold base64DecodeToString. apply dec_err; [lia|auto].
Qed.
Print Assumptions C35_stale_error.

(** Defect: stringCaseInsensitive does not make the comparison insensitive to case: any
    other spelling of a name is rejected. *)
Definition lower (c : Z) : Z := if (65 <=? c) && (c <=? 90) then c + 32 else c.
Theorem C35_case_sensitive : forall e u err, known (map lower e) -> e <> map lower e ->
  snd (decodeToString u e err) = err_encoding.
Proof.
  intros e u err K N. assert (~ known e) as U.
  { intros H. apply N. destruct H as [<-|[<-|[<-|[<-|[]]]]]; reflexivity. }
  rewrite (proj2 (C35_unknown_rejected e u err U)). reflexivity.
Qed.
Print Assumptions C35_case_sensitive.

Example C35_ex : known (map lower (lit "Base64")) /\ decodeToString (lit "QUJD") (lit "Base64") 0 = ([], err_encoding) /\
  decodeToString (lit "QUJD") (lit "base64") 0 = (lit "ABC", 0) /\ encodeToString (lit "x") [] 0 = ([], err_encoding).
Proof. split; [right; right; right; left; vm_compute; reflexivity|]. vm_compute. repeat split. Qed.

(** ** C36 *)
(** The shape of the output. *)
Inductive url_text : list Z -> Prop :=
| ut_nil : url_text []
| ut_keep c s : unreserved c \/ c = 0 -> url_text s -> url_text (c :: s)
| ut_escape a b s : (exists x, hexval a = Some x) -> (exists y, hexval b = Some y) -> url_text s -> url_text (37 :: a :: b :: s).

Theorem C36_shape : forall s, Forall byte s -> url_text (URLEncode s).
Proof.
  induction 1 as [|c s Hc Hs IH]; [constructor|]. unfold URLEncode. cbn [flat_map]. fold (URLEncode s).
  destruct (url_keep c) eqn:E; cbn [app].
  - constructor; [apply url_keep_iff, E|exact IH].
  - destruct (s8_bits c Hc) as [-> ->]. unfold byte in Hc. constructor; [| |exact IH].
    + eexists. apply url_digit_val. lia.
    + eexists. apply url_digit_val. lia.
Qed.
Print Assumptions C36_shape.

(** Text of unreserved characters is unchanged, and encoding works character by character. *)
Theorem C36_unreserved_kept : forall s t, Forall unreserved s -> URLEncode (s ++ t) = s ++ URLEncode t.
Proof.
  intros s t. induction 1 as [|c s Hc Hs IH]; [reflexivity|]. unfold URLEncode. cbn [flat_map app].
  replace (url_keep c) with true by (symmetry; apply url_keep_iff; auto). cbn [app]. f_equal. exact IH.
Qed.
Print Assumptions C36_unreserved_kept.

(** A standard decoder recovers the input exactly when every escaped byte has two
    decimal hex digits. *)
Theorem C36_roundtrip_iff : forall s, Forall byte s ->
  (percent_decode (URLEncode s) = s <->
   Forall (fun c => unreserved c \/ c = 0 \/ (c / 16 <= 9 /\ c mod 16 <= 9)) s).
Proof.
  intros s H. rewrite url_decode by exact H. induction H as [|c s Hc Hs IH].
  - split; [constructor|reflexivity].
  - cbn [map]. pose proof (garble_fix c Hc) as G. rewrite url_keep_iff in G. split.
    + intros E. assert (garble c = c /\ map garble s = s) as [E1 E2] by (split; congruence).
      constructor; [apply G in E1; tauto|apply IH, E2].
    + intros F. inversion F as [|? ? F1 F2]; subst. apply IH in F2. rewrite F2. f_equal. apply G. tauto.
Qed.
Print Assumptions C36_roundtrip_iff.

(** Every byte is escaped unless it is unreserved or NUL (which should be escaped too). *)
Theorem C36_escaped : forall c t, byte c -> ~ unreserved c -> c <> 0 -> exists a b,
  URLEncode (c :: t) = 37 :: a :: b :: URLEncode t.
Proof.
  intros c t Hc H N. unfold URLEncode. cbn [flat_map]. destruct (url_keep c) eqn:E.
  - apply url_keep_iff in E. tauto.
  - do 2 eexists. reflexivity.
Qed.
Print Assumptions C36_escaped.

(** Defects. *)
Theorem C36_not_injective_refuted : exists c d, byte c /\ byte d /\ c <> d /\ URLEncode [c] = URLEncode [d].
Proof. exists 42, 32. unfold byte. repeat split; try lia. Qed.
Print Assumptions C36_not_injective_refuted.

Theorem C36_slash_becomes_dot : percent_decode (URLEncode (lit "a/b")) = lit "a.b".
Proof. vm_compute. reflexivity. Qed.
Print Assumptions C36_slash_becomes_dot.

Theorem C36_nul_not_escaped : URLEncode [0] = [0].
Proof. reflexivity. Qed.
Print Assumptions C36_nul_not_escaped.

Example C36_ex : URLEncode (lit "sip:a b@10.0.0.1") = lit "sip%30a%20b%4010.0.0.1" /\
  percent_decode (URLEncode (lit "a b%3@c!")) = lit "a b%3@c!" /\ percent_decode (lit "%4A%zz%4") = lit "J%zz%4".
Proof. vm_compute. repeat split. Qed.
