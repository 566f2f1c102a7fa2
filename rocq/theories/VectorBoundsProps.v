(** Property C66: the bounds checks of vectors. *)
From Verif Require Import Base BaseFacts VectorBoundsModel.
Local Open Scope Z_scope.

(** Spec: [r] holds [n] elements of [k] bytes. *)
Definition holds (k n : Z) (r : range) : Prop := 0 < k /\ 0 <= n /\ 0 <= first r /\ past r = first r + k * n /\ past r < 2 ^ 64.
Definition element (k : Z) (r : range) (i : Z) : Z := first r + k * i.
(** Addresses of elements [start .. start+n-1]. *)
Definition part (k : Z) (r : range) (start n : Z) : range := Range (element k r start) (element k r (start + n)).

Lemma u64_id x : 0 <= x < 2 ^ 64 -> u64 x = x.
Proof. intros H. unfold u64. rewrite Z.mod_small; [reflexivity|exact H]. Qed.
Lemma u64_range x : 0 <= u64 x < 2 ^ 64.
Proof. unfold u64. apply Z.mod_pos_bound. reflexivity. Qed.
Lemma u64_add a b : u64 (u64 a + b) = u64 (a + b).
Proof. unfold u64. rewrite Zplus_mod_idemp_l. reflexivity. Qed.
Lemma u64_wrap a k i : u64 (a + k * u64 i) = u64 (a + k * i).
Proof. unfold u64. rewrite <- Zplus_mod_idemp_r, <- (Zplus_mod_idemp_r (k * i)), Zmult_mod_idemp_r. reflexivity. Qed.
Lemma vsize_holds k n r : holds k n r -> vsize k r = Ok n.
Proof.
  intros (K & N & F & P & L). unfold vsize. replace (first r <=? past r) with true by nia. do 2 f_equal. rewrite P. replace (first r + k * n - first r) with (n * k) by lia. apply Z.div_mul. lia.
Qed.
(** The size is right. *)
Theorem C66_size k n r : holds k n r -> vsize k r = Ok n.
Proof. exact (vsize_holds k n r). Qed.
Print Assumptions C66_size.
(** Element access checks exactly, for all indices whose address does not wrap. *)
Theorem C66_index k n r i : holds k n r -> 0 <= i -> first r + k * i < 2 ^ 64 -> at_ k r i = if i <? n then Ok (element k r i) else Abort.
Proof.
  intros (K & N & F & P & L) I W. unfold at_, ptr_add, element. rewrite u64_id by nia. rewrite P. replace (first r + k * i <? first r + k * n) with (i <? n) by nia. reflexivity.
Qed.
Print Assumptions C66_index.
(** Segments, heads and filled ranges are checked exactly as well, and are what they should be. *)
Theorem C66_segment k n r start span : holds k n r -> 0 <= start -> 0 <= span -> first r + k * (start + span) < 2 ^ 64 ->
  segment_ k r start span = if start + span <=? n then Ok (part k r start span) else Abort.
Proof.
  intros (K & N & F & P & L) A B W. unfold segment_, ptr_add, part, element. cbv zeta. rewrite (u64_id (first r + k * start)) by nia. rewrite u64_id by nia. rewrite P.
  replace (first r + k * start + k * span) with (first r + k * (start + span)) by nia. replace (first r + k * (start + span) <=? first r + k * n) with (start + span <=? n) by nia. reflexivity.
Qed.
Print Assumptions C66_segment.
Theorem C66_segment_holds k n r start span : holds k n r -> 0 <= start -> 0 <= span -> start + span <= n -> holds k span (part k r start span).
Proof. intros (K & N & F & P & L) A B C. unfold holds, part, element. cbn [first past]. repeat split; nia. Qed.
Print Assumptions C66_segment_holds.
Theorem C66_head k n r span : holds k n r -> 0 <= span -> first r + k * span < 2 ^ 64 ->
  head_ k r span = if span <=? n then Ok (part k r 0 span) else Abort.
Proof. intros H A W. apply (C66_segment k n r 0 span H); [lia|exact A|exact W]. Qed.
Print Assumptions C66_head.
Theorem C66_tail k n r start : holds k n r -> 0 <= start <= n -> tail_ k r start = Ok (part k r start (n - start)).
Proof.
  intros H S. unfold tail_. rewrite (vsize_holds k n r H). cbn [bind]. pose proof H as (K & N & F & P & L). rewrite u64_id by nia. rewrite (C66_segment k n r start (n - start) H); [|lia|lia|replace (start + (n - start)) with n by lia; lia].
  replace (start + (n - start) <=? n) with true by lia. reflexivity.
Qed.
Print Assumptions C66_tail.
Theorem C66_fill_range k n r start len : holds k n r -> 0 <= start < 2 ^ 32 -> 0 <= len < 2 ^ 32 -> first r + k * (start + len) < 2 ^ 64 ->
  fill_ k r start len = if start + len <=? n then Ok (part k r start len) else Abort.
Proof.
  intros H A B W. unfold fill_. assert (U : forall x, 0 <= x < 2 ^ 32 -> u32 x = x) by (intros x X; unfold u32; apply Z.mod_small; exact X). rewrite (U start A), (U len B). apply (C66_segment k n r start len H); lia.
Qed.
Print Assumptions C66_fill_range.
(** Defect: an index of minus one is accepted, whatever the vector holds. *)
Theorem C66_minus_one_refuted k n r : holds k n r -> k <= first r -> at_ k r (2 ^ 64 - 1) = Ok (first r - k).
Proof.
  intros (K & N & F & P & L) B. unfold at_, ptr_add. assert (E : u64 (first r + k * (2 ^ 64 - 1)) = first r - k).
  { unfold u64. replace (first r + k * (2 ^ 64 - 1)) with (first r - k + k * 2 ^ 64) by lia. rewrite Z.mod_add by discriminate. apply Z.mod_small. lia. }
  rewrite E. replace (first r - k <? past r) with true by nia. reflexivity.
Qed.
Print Assumptions C66_minus_one_refuted.
(** Defect: a tail that begins behind the end is accepted; only the next use of its size aborts. *)
Theorem C66_tail_refuted k n r start : holds k n r -> n < start < 2 ^ 64 -> first r + k * start < 2 ^ 64 ->
  tail_ k r start = Ok (Range (element k r start) (past r)) /\ vsize k (Range (element k r start) (past r)) = Abort.
Proof.
  intros H S W. unfold tail_. rewrite (vsize_holds k n r H). cbn [bind]. pose proof H as (K & N & F & P & L). unfold segment_, ptr_add, vsize, element. cbv zeta. cbn [first past]. rewrite (u64_id (first r + k * start)) by nia. rewrite u64_wrap.
  replace (first r + k * start + k * (n - start)) with (past r) by nia. rewrite u64_id by nia. split; [replace (past r <=? past r) with true by lia; reflexivity|replace (first r + k * start <=? past r) with false by nia; reflexivity].
Qed.
Print Assumptions C66_tail_refuted.
(** Defect: so is a segment with a negative length that ends within the vector, or with one before its start. *)
Theorem C66_negative_span_refuted k n r start back : holds k n r -> 0 <= start <= n -> 0 < back < 2 ^ 64 -> k * back <= first r -> segment_ k r start (2 ^ 64 - back) = Ok (Range (element k r start) (element k r (start - back))).
Proof.
  intros (K & N & F & P & L) S B W. unfold segment_, ptr_add, element. cbv zeta. rewrite (u64_id (first r + k * start)) by nia. assert (E : u64 (first r + k * start + k * (2 ^ 64 - back)) = first r + k * (start - back)).
  { unfold u64. replace (first r + k * start + k * (2 ^ 64 - back)) with (first r + k * (start - back) + k * 2 ^ 64) by lia. rewrite Z.mod_add by discriminate. apply Z.mod_small. nia. }
  rewrite E. replace (first r + k * (start - back) <=? past r) with true by nia. reflexivity.
Qed.
Print Assumptions C66_negative_span_refuted.
(** A vector without storage (all pointers NULL) accepts no index at all. *)
Theorem C66_null k i : at_ k (Range 0 0) i = Abort.
Proof. unfold at_. cbn [first past]. pose proof (u64_range (0 + k * i)). unfold ptr_add. replace (u64 (0 + k * i) <? 0) with false by lia. reflexivity. Qed.
Print Assumptions C66_null.
Example C66_example : let r := Range 4096 4136 in holds 4 10 r /\ at_ 4 r 9 = Ok 4132 /\ at_ 4 r 10 = Abort /\ at_ 4 r (2 ^ 64 - 1) = Ok 4092 /\ tail_ 4 r 8 = Ok (Range 4128 4136) /\ tail_ 4 r 12 = Ok (Range 4144 4136) /\ segment_ 4 r 3 8 = Abort.
Proof. cbv zeta. split; [unfold holds; cbn [first past]; lia|]. vm_compute. repeat split. Qed.
