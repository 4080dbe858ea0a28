(** Theorems C130: encoding values that refer to each other. Every theorem is followed by a concrete case of its hypotheses. *)
From Coq Require Import ZArith List Bool.
From Verif Require Import Bytes GoVal GoErr Encoder Refs SpecValues SpecRefuse SpecRefs RefsFacts FaresFacts.
Import ListNotations.
Open Scope Z_scope.

(** ** C130 *)
(** In full: for every value there is a depth of the stack that is enough for Encode to return. It is false: a nil pointer to a
    structure panics before anything is written, and a slice that contains itself is followed for ever, sending a chunk of
    openings for every [cs] levels while it lasts. *)
Theorem C130_refuted :
  ~ (forall v e h n, exists k, forall d, (k <= d)%nat -> returned (snd (encode_refs v e h d n)))
  /\ (forall v e d, encode_refs v e [CNilPtr] (S d) 0 = (e, EndPanic))
  /\ (forall v cs k, (0 < cs)%nat -> encode_refs v (new_encoder fresh_writer (Z.of_nat cs)) [CSlice [0%nat]] (k * cs) 0 =
       (mkEncoder (mkWriter (concat (repeat (be 2 (Z.of_nat cs) ++ repeat x91 cs) k)) None) [] (Z.of_nat cs), EndDeep)).
Proof. exact (conj not_always (conj nil_panics own_sends)). Qed.
Print Assumptions C130_refuted.
(** Where following references comes to an end and meets no such pointer, Encode returns, in both codecs and on every link. *)
Theorem C130_returns_partial v e h n : finite_at h n -> (forall m, comes_to h n m -> cell_at h m <> CNilPtr) ->
  exists k, forall d, (k <= d)%nat -> returned (snd (encode_refs v e h d n)).
Proof. exact (encode_returns v e h n). Qed.
Print Assumptions C130_returns_partial.
Example C130_case : finite_at diamond 0 /\ (forall m, comes_to diamond 0 m -> cell_at diamond m <> CNilPtr).
Proof. exact (conj (tree_finite diamond 0 diamond_tree diamond_stands) diamond_no_nil). Qed.
(** A value held by reference is encoded as the tree it stands for: sharing makes no difference. *)
Theorem C130_tree_partial v e h n x : stands h n x -> exists k, forall d, (k <= d)%nat ->
  encode_refs v e h d n = (fst (encoder_encode v e x), match snd (encoder_encode v e x) with None => EndOk | Some err => EndErr err end).
Proof. exact (trees_encoded v e h n x). Qed.
Print Assumptions C130_tree_partial.
Example C130_tree_case : stands diamond 0 diamond_tree /\
  encode_refs V2 (new_encoder fresh_writer 16) diamond 3 0 =
    (mkEncoder (mkWriter [x00; x0b; xa2; x81; x61; x92; x07; x07; x81; x62; x92; x07; x07; x00; x00] None) [] 16, EndOk).
Proof. split; [exact diamond_stands|vm_compute; reflexivity]. Qed.
(** When Encode returns nil the value was a tree and its encoding is what was written. *)
Theorem C130_sent v e h d n : snd (encode_refs v e h d n) = EndOk ->
  exists x, stands h n x /\ encode_refs v e h d n = (fst (encoder_encode v e x), EndOk) /\ snd (encoder_encode v e x) = None.
Proof. exact (ok_encoded v e h d n). Qed.
Print Assumptions C130_sent.
Example C130_sent_case : snd (encode_refs V1 (new_encoder fresh_writer 4) diamond 3 0) = EndOk.
Proof. vm_compute. reflexivity. Qed.
(** A value that is followed for ever is never reported as sent. *)
Theorem C130_endless v e h n : ~ finite_at h n -> forall d, snd (encode_refs v e h d n) <> EndOk.
Proof. exact (endless_never_ok v e h n). Qed.
Print Assumptions C130_endless.
Example C130_endless_case : ~ finite_at [CSlice [0%nat]] 0.
Proof. exact own_endless. Qed.
(** Nil pointers to structures are the only thing Encode panics at. *)
Theorem C130_panics_partial v e h d n : (forall m, comes_to h n m -> cell_at h m <> CNilPtr) -> snd (encode_refs v e h d n) <> EndPanic.
Proof. exact (no_panic_encode v e h d n). Qed.
Print Assumptions C130_panics_partial.
(** Exactly how it ends on a link that works, given stack enough: as following the references from left to right fares until the
    first thing that cannot be sent; and no stack is enough exactly for the values that fare in no way. A value that contains
    itself is refused like any other when what is refused comes before the cycle. *)
Theorem C130_exactly_when v e h n : typed_heap h -> w_left (e_w e) = None ->
  (forall en, fares v h n en <-> en <> EndDeep /\ exists k, forall d, (k <= d)%nat -> snd (encode_refs v e h d n) = en)
  /\ ((forall d, snd (encode_refs v e h d n) = EndDeep) <-> ~ exists en, fares v h n en).
Proof. exact (ends_as_fares v e h n). Qed.
Print Assumptions C130_exactly_when.
Example C130_exactly_case v :
  (typed_heap refused_first_heap /\ ~ finite_at refused_first_heap 0 /\ fares v refused_first_heap 0 (EndErr (EWrap (Some (ENew TUnrecognizedType)) 0)))
  /\ (typed_heap refused_late_heap /\ ~ exists en, fares v refused_late_heap 0 en).
Proof.
  exact (conj (conj (proj1 heaps_typed) (conj refused_first_endless (refused_first_fares v))) (conj (proj2 heaps_typed) (refused_late_fares v))).
Qed.
(** On any link a value that fares in some way ends that way or with the error of the link. *)
Theorem C130_any_link v e h n en : typed_heap h -> fares v h n en ->
  exists k, forall d, (k <= d)%nat -> snd (encode_refs v e h d n) = en \/ exists err, snd (encode_refs v e h d n) = EndErr err.
Proof. exact (ends_on_any_link v e h n en). Qed.
Print Assumptions C130_any_link.
(** On a link that carries only so many bytes more, every value whatsoever has an end: a stack that depends on the link and on the
    chunk size is enough. *)
Theorem C130_broken_link v e h n k : w_left (e_w e) = Some k -> exists D, forall d, (D <= d)%nat -> snd (encode_refs v e h d n) <> EndDeep.
Proof. exact (dying_ends v e h n k). Qed.
Print Assumptions C130_broken_link.
Example C130_broken_case : snd (encode_refs V1 (mkEncoder (mkWriter [] (Some 9%nat)) [] 4) own_slice 6 0) = EndDeep
  /\ (exists err, snd (encode_refs V1 (mkEncoder (mkWriter [] (Some 9%nat)) [] 4) own_slice 9 0) = EndErr err)
  /\ w_out (e_w (fst (encode_refs V1 (mkEncoder (mkWriter [] (Some 9%nat)) [] 4) own_slice 9 0))) = [x00; x04; x91; x91; x91; x91; x00; x04; x91].
Proof. split; [vm_compute; reflexivity|]. split; [eexists; vm_compute; reflexivity|vm_compute; reflexivity]. Qed.
