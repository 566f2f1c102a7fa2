(** C117: printing objects through pointers. *)
From Verif Require Import Base BaseFacts UtilsModel ConfigModel TextObjModel.
Local Open Scope Z_scope.

(** ** What is claimed *)
(** The text of something that sets no flags, in a stream that has none set: itself. *)
Inductive says : item -> list Z -> Prop :=
| says_str s : says (Str s) s
| says_num z : - 2 ^ 31 <= z < 2 ^ 31 -> says (Num z) (sprintf_ld z)
| says_null : says Null [40; 110; 117; 108; 108; 41]
| says_obj o s : say_all o s -> says (Obj o) s
with say_all : list item -> list Z -> Prop :=
| say_nil : say_all [] []
| say_cons i o a b : says i a -> say_all o b -> say_all (i :: o) (a ++ b).
Scheme says_ind2 := Induction for says Sort Prop with say_all_ind2 := Induction for say_all Sort Prop.
Combined Scheme says_mut from says_ind2, say_all_ind2.
(** Everything but the text. *)
Definition same_flags (a b : stream) : Prop := hex a = hex b /\ fill a = fill b /\ left a = left b /\ failed a = failed b.
(** An object with the strings of the objects in it in place of them. *)
Definition flat (i : item) : item := match i with Obj o => Str (str o) | Null => Str (lit "(null)") | i => i end.

(** ** Lemmas *)
Lemma insert_obj o os : insert (Obj o) os = put os (str o).
Proof.
  reflexivity.
Qed.
Lemma text_app a b os : text (a ++ b) os = text b (text a os).
Proof. revert os. induction a as [|i a IH]; intros os; [reflexivity|]. exact (IH (insert i os)). Qed.
Lemma put_width0 t f l s : put (S t false 0 f l false) s = S (t ++ s) false 0 f l false.
Proof. unfold put, padded, pad_left. cbn [failed written hex width fill left Nat.sub repeat app]. destruct l; rewrite ?app_nil_r; reflexivity. Qed.
Lemma plain_text : (forall i s, says i s -> forall t, insert i (S t false 0 32 false false) = S (t ++ s) false 0 32 false false) /\
  (forall o s, say_all o s -> forall t, text o (S t false 0 32 false false) = S (t ++ s) false 0 32 false false).
Proof.
  apply says_mut.
  - intros s t. apply put_width0.
  - intros z Z1 t. cbn [insert hex]. rewrite put_width0. unfold number. replace (s32 z) with z; [reflexivity|]. symmetry. unfold s32. rewrite Z.mod_small by lia. lia.
  - intros t. cbn [insert]. rewrite put_width0. reflexivity.
  - intros o s _ IH t. rewrite insert_obj, put_width0. unfold str, new_stream. rewrite IH. reflexivity.
  - intros t. rewrite app_nil_r. reflexivity.
  - intros i o a b _ I1 _ I2 t. cbn [text]. rewrite I1, I2, app_assoc. reflexivity.
Qed.

(** The string of an object is the strings of what it inserts, one after the other. *)
Theorem C117_str : forall o s, say_all o s -> str o = s.
Proof. intros o s H. unfold str, new_stream. rewrite (proj2 plain_text o s H). reflexivity. Qed.
Print Assumptions C117_str.

(** Printing through a pointer writes the string of the object as one thing: filled up to the width, whatever base the
    stream has; of the stream only the width is changed, whatever flags text() sets and even if it fails. *)
Theorem C117_print : forall o os, failed os = false ->
  let r := insert (Obj o) os in
  (exists a b, written r = written os ++ a ++ str o ++ b /\ (forall c, In c (a ++ b) -> c = fill os) /\ length (a ++ str o ++ b) = Nat.max (width os) (length (str o)) /\ (if left os then a = [] else b = [])) /\
  same_flags r os /\ width r = 0%nat.
Proof.
  intros o os F r. unfold r. rewrite insert_obj. unfold put. rewrite F. cbn [written width]. split; [|split; [repeat split; cbn [failed]; congruence|reflexivity]].
  unfold padded, pad_left. destruct (left os).
  - exists [], (repeat (fill os) (width os - length (str o))). cbn [app]. split; [reflexivity|split; [intros c I; exact (repeat_spec _ _ _ I)|split; [rewrite app_length, repeat_length; lia|reflexivity]]].
  - exists (repeat (fill os) (width os - length (str o))), []. rewrite !app_nil_r. split; [reflexivity|split; [intros c I; exact (repeat_spec _ _ _ I)|split; [rewrite app_length, repeat_length; lia|reflexivity]]].
Qed.
Print Assumptions C117_print.

(** A stream that has failed is not changed at all. *)
Theorem C117_failed : forall i os, failed os = true -> (match i with Obj _ | Null => True | _ => False end) -> insert i os = os.
Proof. intros i os F K. destruct i; try contradiction; [rewrite insert_obj|cbn [insert]]; unfold put; rewrite F; reflexivity. Qed.
Print Assumptions C117_failed.

(** An object within an object is the same as its string, whatever both do with their flags. *)
Theorem C117_nested : forall o os, text (map flat o) os = text o os.
Proof.
  induction o as [|i o IH]; intros os; [reflexivity|]. cbn [map text]. rewrite IH. f_equal. destruct i; reflexivity.
Qed.
Print Assumptions C117_nested.

(** Printing an ostringstream writes all it has, as one thing, and takes nothing out of it; no third stream is changed.
    This holds also when it is printed on itself. *)
Theorem C117_stream : forall w i j, failed (w i) = false -> width (w i) = 0%nat ->
  written (step w (Print i j) i) = written (w i) ++ written (w j) /\ same_flags (step w (Print i j) i) (w i) /\ forall k, k <> i -> step w (Print i j) k = w k.
Proof.
  intros w i j F Wd. cbn [step]. unfold set_stream. rewrite Nat.eqb_refl. unfold put, padded, pad_left. rewrite F, Wd. cbn [written Nat.sub repeat app]. rewrite app_nil_r. split; [destruct (left (w i)); reflexivity|]. split; [repeat split; cbn [failed]; congruence|].
  intros k K. replace (k =? i)%nat with false by lia. reflexivity.
Qed.
Print Assumptions C117_stream.

(** ** Defects *)
(** str() of an object whose text() fails is cut short, and nothing tells: the stream it is printed on is good. *)
Theorem C117_silent_refuted : forall a b os, failed os = false -> (forall x, In x b -> match x with Str _ | Num _ | Obj _ | Null => True | _ => False end) ->
  str (a ++ Fail :: b) = str a /\ failed (insert (Obj (a ++ Fail :: b)) os) = false.
Proof.
  intros a b os F B. split; [|rewrite insert_obj; unfold put; rewrite F; reflexivity]. unfold str. rewrite text_app. cbn [text insert]. generalize (text a new_stream). intros s.
  assert (forall os, failed os = true -> text b os = os) as G; [|rewrite G; reflexivity].
  induction b as [|x b IH]; intros o Fo; [reflexivity|]. cbn [text]. assert (insert x o = o) as ->.
  { pose proof (B x (or_introl eq_refl)) as K. destruct x; try contradiction; rewrite ?insert_obj; cbn [insert]; unfold put; rewrite Fo; reflexivity. }
  apply IH; [intros y I; apply B; right; exact I|exact Fo].
Qed.
Print Assumptions C117_silent_refuted.

(** text() called on the stream itself, not through the pointer, does depend on the stream and changes it: a number
    comes out in the base of the stream, the width is for the first part only, and what text() sets stays set. *)
Theorem C117_text_refuted :
  (forall os, failed os = false -> width os = 0%nat -> hex os = true ->
     written (text [Num 255] os) = written os ++ lit "ff" /\ written (insert (Obj [Num 255]) os) = written os ++ lit "255") /\
  (forall os, hex (text [Hex] os) = true /\ hex (text [Dec] os) = false) /\
  exists o os, failed os = false /\ written (text o os) <> written (insert (Obj o) os) /\ ~ same_flags (text o os) os.
Proof.
  split; [|split; [split; reflexivity|]].
  { intros [wr h w f l fl] F W H. cbn in F, W, H. subst. unfold written at 2 4. destruct l; split; reflexivity. }
  exists [Num 255; Dec; Str [33]], (S [] true 6 46 false false). split; [reflexivity|]. split; [vm_compute; discriminate|]. intros (H & _).
  revert H. vm_compute. discriminate.
Qed.
Print Assumptions C117_text_refuted.

(** ** Examples *)
Definition inner : list item := [Hex; Setfill 48; Setw 4; Num 255; Str [33]].
Example C117_ex : written (text [Str [91]; Obj inner; Num 255; Null] new_stream) = lit "[00ff!255(null)".
Proof. vm_compute. reflexivity. Qed.
(** On a stream in hex with a width: the whole is filled. *)
Example C117_ex_width : written (text [Hex; Setw 10; Setfill 46; Obj [Num 255; Str [33]]; Num 255] new_stream) = lit "......255!ff".
Proof. vm_compute. reflexivity. Qed.
Example C117_ex_negative : written (text [Num (-1); Hex; Num (-1)] new_stream) = lit "-1ffffffff".
Proof. vm_compute. reflexivity. Qed.
Example C117_ex_says : say_all [Str [91]; Obj [Num 7; Null]] ([91] ++ ([55] ++ [40; 110; 117; 108; 108; 41] ++ []) ++ []).
Proof. apply say_cons; [constructor|]. apply say_cons; [|constructor]. constructor. apply say_cons; [change [55] with (sprintf_ld 7); constructor; lia|]. apply say_cons; constructor. Qed.
(** An ostringstream printed twice and on itself. *)
Example C117_ex_stream : let w := fold_left step [Insert 0%nat (Str [97]); Insert 0%nat Hex; Print 1%nat 0%nat; Print 1%nat 0%nat; Insert 1%nat (Num 10); Print 0%nat 0%nat] (fun _ => new_stream) in
  written (w 1%nat) = [97; 97; 49; 48] /\ written (w 0%nat) = [97; 97].
Proof. vm_compute. repeat split. Qed.
Example C117_ex_fail : str [Str [97]; Fail; Str [98]] = [97].
Proof. vm_compute. reflexivity. Qed.
