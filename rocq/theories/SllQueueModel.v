(** Model of InterthreadQueue<T,SingleLinkList<T> > (Interthread.h:113-322 with LinkedLists.h:119-172): the queue of
    InterthreadModel.v with its container, the list whose links are in the elements themselves.

    The elements are nodes 0, 1, ... of [ListModel]; their addresses are 1, 2, ..., and 0 is NULL.  A body that
    does something undefined, fails an assertion or never ends leaves that in place of the data, and no later body
    does anything.

    Simplified: the elements exist all the time; what clear() deletes is returned, as in InterthreadModel.v. *)
From Verif Require Import Base Monitor InterthreadModel ListModel.
Local Open Scope Z_scope.

(** The elements and the list (LinkedLists.h:104-132). *)
Definition sdata : Type := list slnode * sll.
(** A node or NULL as a pointer, Interthread.h:249. *)
Definition addr (p : option nat) : Z := match p with None => 0 | Some n => Z.of_nat (S n) end.
(** The node at an address; NULL has none (the cast of LinkedLists.h:170). *)
Definition node_at (v : Z) : res nat := if v <=? 0 then UB else Ok (Z.to_nat (v - 1)).
(** put, LinkedLists.h:170: push_back; the item is used without a test (LinkedLists.h:158). *)
Definition l_put (d : sdata) (v : Z) : res sdata := do p <- node_at v; sl_push_back (fst d) (snd d) p.
(** push_front with the pointer of Interthread.h:318. *)
Definition l_push_front (d : sdata) (v : Z) : res sdata := do p <- node_at v; sl_push_front (fst d) (snd d) p.
(** get, LinkedLists.h:171: pop_front. *)
Definition l_get (d : sdata) : res (sdata * Z) := do (m, s, r) <- sl_pop_front (fst d) (snd d); Ok ((m, s), addr r).
(** size, LinkedLists.h:130. *)
Definition l_size (d : sdata) : Z := s_count (snd d).
(** while (mQ.size()>0) mQ.get(), Interthread.h:192 and 199: with [k] elements by the count; a list that ends before
    the count is 0 keeps the loop going for ever. *)
Fixpoint l_clear (k : nat) (d : sdata) : res (sdata * list Z) :=
  match k with
  | O => Ok (d, [])
  | S k => do (d1, p) <- l_get d; if p =? 0 then Diverge else do (d2, l) <- l_clear k d1; Ok (d2, p :: l)
  end.

(** The end of a body that does not wait (Interthread.h:189-321). *)
Definition finish (aft : list sig) (x : res (sdata * qres)) : outcome (res sdata) qres :=
  match x with Ok (d, r) => ODone (Ok d) r [] aft | Abort => OSpin Abort | UB => OSpin UB | Diverge => OSpin Diverge end.
(** The bodies of Interthread.h:189-321 over the list. *)
Definition sq_body (st : res sdata) (op : qop) (e : clk) : outcome (res sdata) qres :=
  match st with
  | Ok d =>
      match op with
      | QWrite v => finish [Sig 0] (do d1 <- l_put d v; Ok (d1, RNone))                     (* Interthread.h:296-311 *)
      | QWriteFront v => finish [Sig 0] (do d1 <- l_push_front d v; Ok (d1, RNone))         (* Interthread.h:314-321 *)
      | QRead =>                                                                            (* Interthread.h:246-255 *)
          match l_get d with
          | Ok (d1, p) => if p =? 0 then OWait (Ok d1) 0 else ODone (Ok d1) (RPtr p) [] []
          | Abort => OSpin Abort | UB => OSpin UB | Diverge => OSpin Diverge
          end
      | QReadT =>                                                                           (* Interthread.h:269-283 *)
          if l_size d =? 0
          then match e with Late => ODone st (RPtr 0) [] [] | Early => OWait st 0 | Glitch => OSpin st end
          else finish [] (do (d1, p) <- l_get d; Ok (d1, RPtr p))
      | QReadNB => finish [] (do (d1, p) <- l_get d; Ok (d1, RPtr p))                       (* Interthread.h:289-293 *)
      | QClear | QFlush => finish [] (do (d1, l) <- l_clear (Z.to_nat (l_size d)) d; Ok (d1, RGone l))   (* Interthread.h:189-200 *)
      | QSize => ODone st (RCount (Z.to_nat (l_size d))) [] []                              (* Interthread.h:207-211 *)
      | QFront => ODone st (RPtr (if l_size d =? 0 then 0 else addr (s_head (snd d)))) [] []   (* Interthread.h:258-262 *)
      end
  | _ => OSpin st
  end.
(** totalSize(), Interthread.h:213-217: what the list has added up. *)
Definition sq_total (st : res sdata) : option Z := match st with Ok d => Some (s_total (snd d)) | _ => None end.
