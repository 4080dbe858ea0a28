(** The memory that the decoders reserve (encoding_v1/decoderV1.go, encoding_v2/decoderV2.go). *)
From Coq Require Import ZArith List Bool.
From Verif Require Import Bytes GoVal GoErr Encoder Decoder.
Import ListNotations.
Open Scope Z_scope.

(** How many elements make is asked for before the first of them is read: decodeSlice (decoderV1.go:252,
    decoderV2.go:247) and decodeMap (decoderV1.go:265, decoderV2.go:260), by the marker and the size that the
    buffer begins with (decoderV1.go:182-226, decoderV2.go:177-221). A negative size of a map reserves
    nothing, one of a slice panics. *)
Definition sized (n : nat) (b : bytes) : Z := match read_int n b with Ok (s, _) => Z.max 0 s | _ => 0 end.
Definition reserved (buf : bytes) : Z :=
  match buf with
  | [] => 0
  | mb :: b =>
      let m := bz mb in
      if (m >=? TinySliceMarker) && (m <=? TinySliceMarker + 0x0F) then m - TinySliceMarker
      else if (m >=? TinyMapMarker) && (m <=? TinyMapMarker + 0x0F) then m - TinyMapMarker
      else if (m =? Slice8Marker) || (m =? Map8Marker) then sized 1 b
      else if (m =? Slice16Marker) || (m =? Map16Marker) then sized 2 b
      else if (m =? Slice32Marker) || (m =? Map32Marker) then sized 4 b
      else 0
  end.

(** decode (decoderV1.go:103-249, decoderV2.go:98-244) in a process that has memory for [room] elements more; if there is
    no more, the Go runtime ends it ([Panic]: it cannot be recovered from either). Simplification: only
    the elements of the slices and maps are counted that are being read, not what has been read, so that
    more memory is needed in truth. *)
Fixpoint decode_within (v : ver) (tz : zones) (fuel : nat) (room : Z) : parser gval :=
  match fuel with
  | O => fun _ => NoFuel
  | S f => fun b => if room <? reserved b then Panic else dec_body v tz (decode_within v tz f (room - reserved b)) b
  end.
Definition decode_in (v : ver) (tz : zones) (room : Z) (b : bytes) : res (gval * bytes) :=
  decode_within v tz (S (length b)) room b.
(** decode with a stack for [depth] calls of decode inside each other; [NoFuel]: it overflows, which ends the process *)
Definition decode_deep (v : ver) (tz : zones) (depth : nat) (b : bytes) : res (gval * bytes) := decode_fuel v tz depth b.
