(** Vocabulary for values held by reference: C130. Uses the cells and endings of Refs.v and nothing of its walk. *)
From Coq Require Import ZArith List Bool.
From Verif Require Import Bytes GoVal GoErr SpecValues SpecRefuse Refs.
Import ListNotations.
Open Scope Z_scope.

(** Encode returned to its caller. *)
Definition returned (en : ending) : Prop := match en with EndOk | EndErr _ => True | _ => False end.
(** [a] refers to [b]. *)
Definition refers (h : heap) (a b : nat) : Prop :=
  match cell_at h a with
  | CSlice l | CTSlice l | CStruct _ l => In b l
  | CMap m => In b (map snd m)
  | _ => False
  end.
(** From [a] one comes to [b]. *)
Inductive comes_to (h : heap) : nat -> nat -> Prop :=
| ct_here a : comes_to h a a
| ct_on a b d : refers h a b -> comes_to h b d -> comes_to h a d.
(** Following references from [a] ends. *)
Inductive finite_at (h : heap) (a : nat) : Prop := fin_at : (forall b, refers h a b -> finite_at h b) -> finite_at h a.
(** At position [n] the heap holds the value [x], a tree. *)
Inductive stands (h : heap) : nat -> gval -> Prop :=
| sd_leaf n x : cell_at h n = CLeaf x -> stands h n x
| sd_slice n l xs : cell_at h n = CSlice l -> stand_all h l xs -> stands h n (GSlice xs)
| sd_tslice n l xs : cell_at h n = CTSlice l -> stand_all h l xs -> stands h n (GTSlice xs)
| sd_map n m ms : cell_at h n = CMap m -> stand_entries h m ms -> stands h n (GMap ms)
| sd_struct n sig l xs : cell_at h n = CStruct sig l -> stand_all h l xs -> stands h n (GStructure sig xs)
with stand_all (h : heap) : list nat -> list gval -> Prop :=
| sa_nil : stand_all h [] []
| sa_cons n l x xs : stands h n x -> stand_all h l xs -> stand_all h (n :: l) (x :: xs)
with stand_entries (h : heap) : list (bytes * nat) -> list (bytes * gval) -> Prop :=
| se_nil : stand_entries h [] []
| se_cons k n m x ms : stands h n x -> stand_entries h m ms -> stand_entries h ((k, n) :: m) ((k, x) :: ms).
Scheme stands_mut := Induction for stands Sort Prop
with stand_all_mut := Induction for stand_all Sort Prop
with stand_entries_mut := Induction for stand_entries Sort Prop.
Combined Scheme stands_all_ind from stands_mut, stand_all_mut, stand_entries_mut.

(** How following the references from a value fares, from left to right and depth first, until the first thing that cannot be
    sent: everything is accepted, or something is refused with an error, or a nil pointer is met. A value that is followed for
    ever fares in no way. Inside a structure the error is wrapped. *)
Definition verdict (o : option gerr) : ending := match o with None => EndOk | Some e => EndErr e end.
Definition in_struct (en : ending) : ending := match en with EndErr e => EndErr (EWrap (Some e) 0) | _ => en end.
Inductive fares (v : ver) (h : heap) : nat -> ending -> Prop :=
| fr_leaf n x : cell_at h n = CLeaf x -> fares v h n (verdict (first_reported (obstacles v 0 x)))
| fr_nil n : cell_at h n = CNilPtr -> fares v h n EndPanic
| fr_slice n l en : cell_at h n = CSlice l \/ cell_at h n = CTSlice l -> zlen l <= four_bytes -> fares_all v h l en -> fares v h n en
| fr_slice_long n l : cell_at h n = CSlice l \/ cell_at h n = CTSlice l -> four_bytes < zlen l -> fares v h n (EndErr (ENew TSliceTooLong))
| fr_map n m en : cell_at h n = CMap m -> zlen m <= four_bytes -> fares_entries v h m en -> fares v h n en
| fr_map_long n m : cell_at h n = CMap m -> four_bytes < zlen m -> fares v h n (EndErr (ENew TMapTooLong))
| fr_struct n sig l en : cell_at h n = CStruct sig l -> zlen l <= 65535 -> fares_all v h l en -> fares v h n (in_struct en)
| fr_struct_long n sig l : cell_at h n = CStruct sig l -> 65535 < zlen l -> fares v h n (EndErr (ENew TStructTooLong))
with fares_all (v : ver) (h : heap) : list nat -> ending -> Prop :=
| fa_nil : fares_all v h [] EndOk
| fa_stop n l en : fares v h n en -> en <> EndOk -> fares_all v h (n :: l) en
| fa_on n l en : fares v h n EndOk -> fares_all v h l en -> fares_all v h (n :: l) en
with fares_entries (v : ver) (h : heap) : list (bytes * nat) -> ending -> Prop :=
| fe_nil : fares_entries v h [] EndOk
| fe_long k n m : four_bytes < zlen k -> fares_entries v h ((k, n) :: m) (EndErr (ENew TStringTooLong))
| fe_stop k n m en : zlen k <= four_bytes -> fares v h n en -> en <> EndOk -> fares_entries v h ((k, n) :: m) en
| fe_on k n m en : zlen k <= four_bytes -> fares v h n EndOk -> fares_entries v h m en -> fares_entries v h ((k, n) :: m) en.
Scheme fares_mut := Induction for fares Sort Prop
with fares_all_mut := Induction for fares_all Sort Prop
with fares_entries_mut := Induction for fares_entries Sort Prop.
Combined Scheme fares_ind3 from fares_mut, fares_all_mut, fares_entries_mut.
(** The leaves are values the Go types allow. *)
Definition typed_heap (h : heap) : Prop := forall n x, cell_at h n = CLeaf x -> go_typed x = true.
