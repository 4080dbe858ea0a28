(** Encoding values as the program holds them: slices, maps and structures refer to their elements, which may be shared, may
    contain each other, or be nil pointers. Encoder.v walks trees; this is the same walk over references
    (encoding_v1/encoderV1.go:98-168, 296-422, encoding_v2/encoderV2.go:103-185, 465-591). *)
From Coq Require Import ZArith List Bool.
From Verif Require Import Bytes GoVal GoErr Encoder.
Import ListNotations.
Open Scope Z_scope.

(** A value and the positions of what it refers to. [CLeaf]: a value that refers to nothing (nil, numbers, strings, times, a
    type that is not supported). [CNilPtr]: a nil pointer to a type that implements structures.Structure: it is no nil
    interface, so the case structures.Structure is taken. A node or path with references in its fields is [CStruct] with the
    fields AllFields returns. Simplification: the texts of errors, which print the value they refuse, are not followed. *)
Inductive cell :=
| CLeaf (x : gval)
| CSlice (l : list nat)
| CTSlice (l : list nat)
| CMap (m : list (bytes * nat))
| CStruct (sig : Z) (fields : list nat)
| CNilPtr.
Definition heap := list cell.
(** Positions that do not exist stand for nil. *)
Definition cell_at (h : heap) (n : nat) : cell := nth n h (CLeaf GNil).

(** How a walk ends: it returns nil or an error, it panics, or it needs a deeper stack than there is. *)
Inductive ending := EndOk | EndErr (e : gerr) | EndPanic | EndDeep.
Definition trace := (list bytes * ending)%type.
Definition of_wseq (w : wseq) : trace := (fst w, match snd w with None => EndOk | Some e => EndErr e end).
Definition t_then (a b : trace) : trace := match snd a with EndOk => (fst a ++ fst b, snd b) | _ => a end.
(** encodeStructure wraps the error of a field (encoderV1.go:417, encoderV2.go:586). *)
Definition t_wrap (a : trace) : trace := match snd a with EndErr e => (fst a, EndErr (EWrap (Some e) 0)) | _ => a end.

Definition walk_all (w : nat -> trace) : list nat -> trace :=
  fix all l := match l with [] => ([], EndOk) | n :: l' => t_then (w n) (all l') end.
Definition walk_fields (w : nat -> trace) : list nat -> trace :=
  fix all l := match l with [] => ([], EndOk) | n :: l' => t_then (t_wrap (w n)) (all l') end.
Definition walk_entries (w : nat -> trace) : list (bytes * nat) -> trace :=
  fix all l := match l with [] => ([], EndOk) | (k, n) :: l' => t_then (of_wseq (enc_str k)) (t_then (w n) (all l')) end.
(** encode; [depth]: how many calls of encode fit on the stack *)
Fixpoint walk (v : ver) (h : heap) (depth : nat) (n : nat) : trace :=
  match depth with
  | O => ([], EndDeep)
  | S d =>
      match cell_at h n with
      | CLeaf x => of_wseq (encode v x)
      | CSlice l | CTSlice l => t_then (of_wseq (slice_hdr (zlen l))) (walk_all (walk v h d) l)
      | CMap m => t_then (of_wseq (map_hdr (zlen m))) (walk_entries (walk v h d) m)
      | CStruct sig fs => t_then (of_wseq (struct_hdr (zlen fs))) (t_then ([[zb sig]], EndOk) (walk_fields (walk v h d) fs))
      | CNilPtr => ([], EndPanic)     (* val.AllFields() (encoderV1.go:385, encoderV2.go:554) *)
      end
  end.
(** Encode: the writes are executed until one fails; after a panic or a stack overflow the process is gone, but what was
    written before is on its way *)
Definition encode_refs (v : ver) (e : encoder) (h : heap) (depth n : nat) : encoder * ending :=
  let '(ws, en) := walk v h depth n in
  let '(e1, r) := run_writes e ws in
  match r with
  | Some err => (e1, EndErr err)
  | None => match en with
            | EndOk => let '(e2, r2) := flush e1 in (e2, match r2 with None => EndOk | Some err => EndErr err end)
            | _ => (e1, en)
            end
  end.
