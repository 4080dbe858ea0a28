(** The encoders: encoding/encoding_v1/encoderV1.go and encoding/encoding_v2/encoderV2.go. *)
From Coq Require Import ZArith List Bool.
From Verif Require Import Bytes GoVal GoErr.
Import ListNotations.
Open Scope Z_scope.

(** encoding/encode_consts/const.go:5-56 *)
Definition NilMarker := 0xC0.
Definition TrueMarker := 0xC3.
Definition FalseMarker := 0xC2.
Definition Int8Marker := 0xC8.
Definition Int16Marker := 0xC9.
Definition Int32Marker := 0xCA.
Definition Int64Marker := 0xCB.
Definition FloatMarker := 0xC1.
Definition TinyStringMarker := 0x80.
Definition String8Marker := 0xD0.
Definition String16Marker := 0xD1.
Definition String32Marker := 0xD2.
Definition TinySliceMarker := 0x90.
Definition Slice8Marker := 0xD4.
Definition Slice16Marker := 0xD5.
Definition Slice32Marker := 0xD6.
Definition TinyMapMarker := 0xA0.
Definition Map8Marker := 0xD8.
Definition Map16Marker := 0xD9.
Definition Map32Marker := 0xDA.
Definition TinyStructMarker := 0xB0.
Definition Struct8Marker := 0xDC.
Definition Struct16Marker := 0xDD.

(** encoding/encode_consts/const.go:78-81 *)
Definition EndMessage : bytes := [x00; x00].

(** encode and its callees perform a sequence of e.Write calls and return nil or an error.
    They are modelled as that sequence (each element is the argument of one Write call, in order)
    and the final error. Executing the sequence on the chunk buffer, and stopping at the first
    failing Write, is [run_writes] below. *)
Definition wseq := (list bytes * option gerr)%type.

Definition w_ok (l : list bytes) : wseq := (l, None).
Definition w_err (t : etag) : wseq := ([], Some (ENew t)).
Definition w_then (a b : wseq) : wseq :=
  match snd a with
  | None => (fst a ++ fst b, snd b)
  | Some e => (fst a, Some e)
  end.

(** encoderV1.go:185-240, encoderV2.go:354-409 encodeInt *)
Definition enc_int (val : Z) : wseq :=
  if (val >=? MinInt64) && (val <? MinInt32) then w_ok [[zb Int64Marker]; be 8 val]
  else if (val >=? MinInt32) && (val <? MinInt16) then w_ok [[zb Int32Marker]; be 4 (int32 val)]
  else if (val >=? MinInt16) && (val <? MinInt8) then w_ok [[zb Int16Marker]; be 2 (int16 val)]
  else if (val >=? MinInt8) && (val <? -16) then w_ok [[zb Int8Marker]; be 1 (int8 val)]
  else if (val >=? -16) && (val <=? MaxInt8) then w_ok [be 1 (int8 val)]
  else if (val >? MaxInt8) && (val <=? MaxInt16) then w_ok [[zb Int16Marker]; be 2 (int16 val)]
  else if (val >? MaxInt16) && (val <=? MaxInt32) then w_ok [[zb Int32Marker]; be 4 (int32 val)]
  else if (val >? MaxInt32) && (val <=? MaxInt64) then w_ok [[zb Int64Marker]; be 8 val]
  else w_err TIntTooLong.

(** encoderV1.go:242-253, encoderV2.go:411-422 encodeFloat (binary.Write of math.Float64bits) *)
Definition enc_float (bits : Z) : wseq := w_ok [[zb FloatMarker]; be 8 bits].

(** encoderV1.go:255-294, encoderV2.go:424-463 encodeString: header writes *)
Definition str_hdr (n : Z) : wseq :=
  if n <=? 15 then w_ok [[zb (Z.lor TinyStringMarker n)]]
  else if (n >? 15) && (n <=? MaxUint8) then w_ok [[zb String8Marker]; be 1 (int8 n)]
  else if (n >? MaxUint8) && (n <=? MaxUint16) then w_ok [[zb String16Marker]; be 2 (int16 n)]
  else if (n >? MaxUint16) && (n <=? MaxUint32) then w_ok [[zb String32Marker]; be 4 (int32 n)]
  else w_err TStringTooLong.
Definition enc_str (s : bytes) : wseq := w_then (str_hdr (zlen s)) (w_ok [s]).

(** encoderV1.go:296-336, encoderV2.go:465-505 encodeSlice: header writes *)
Definition slice_hdr (n : Z) : wseq :=
  if n <=? 15 then w_ok [[zb (Z.lor TinySliceMarker n)]]
  else if (n >? 15) && (n <=? MaxUint8) then w_ok [[zb Slice8Marker]; be 1 (int8 n)]
  else if (n >? MaxUint8) && (n <=? MaxUint16) then w_ok [[zb Slice16Marker]; be 2 (int16 n)]
  else if (n >=? MaxUint16) && (n <=? MaxUint32) then w_ok [[zb Slice32Marker]; be 4 (int32 n)]
  else w_err TSliceTooLong.

(** encoderV1.go:338-381, encoderV2.go:507-550 encodeMap: header writes *)
Definition map_hdr (n : Z) : wseq :=
  if n <=? 15 then w_ok [[zb (Z.lor TinyMapMarker n)]]
  else if (n >? 15) && (n <=? MaxUint8) then w_ok [[zb Map8Marker]; be 1 (int8 n)]
  else if (n >? MaxUint8) && (n <=? MaxUint16) then w_ok [[zb Map16Marker]; be 2 (int16 n)]
  else if (n >=? MaxUint16) && (n <=? MaxUint32) then w_ok [[zb Map32Marker]; be 4 (int32 n)]
  else w_err TMapTooLong.

(** encoderV1.go:383-422, encoderV2.go:552-591 encodeStructure: header writes *)
Definition struct_hdr (n : Z) : wseq :=
  if n <=? 15 then w_ok [[zb (Z.lor TinyStructMarker n)]]
  else if (n >? 15) && (n <=? MaxUint8) then w_ok [[zb Struct8Marker]; be 1 (int8 n)]
  else if (n >? MaxUint8) && (n <=? MaxUint16) then w_ok [[zb Struct16Marker]; be 2 (int16 n)]
  else w_err TStructTooLong.

(** encodeStructure wraps the error of a field (encoderV1.go:417, encoderV2.go:586). *)
Definition w_wrap (a : wseq) : wseq :=
  match snd a with None => a | Some e => (fst a, Some (EWrap (Some e) 0)) end.

(** encode (encoderV1.go:110-168, encoderV2.go:115-185) with encodeNil/encodeBool
    (encoderV1.go:170-183, encoderV2.go:339-352), the element loops of encodeSlice, encodeMap and
    encodeStructure, and the temporal encoders encoderV2.go:202-337 (struct header, signature,
    fields: same writes as encodeStructure). *)
Fixpoint enc (p : pv) : wseq :=
  let all := fix all (l : list pv) : wseq :=
    match l with [] => w_ok [] | x :: l' => w_then (enc x) (all l') end in
  let fields := fix fields (l : list pv) : wseq :=
    match l with [] => w_ok [] | x :: l' => w_then (w_wrap (enc x)) (fields l') end in
  let entries := fix entries (l : list (bytes * pv)) : wseq :=
    match l with [] => w_ok []
            | (k, x) :: l' => w_then (enc_str k) (w_then (enc x) (entries l')) end in
  match p with
  | PNull => w_ok [[zb NilMarker]]
  | PBool true => w_ok [[zb TrueMarker]]
  | PBool false => w_ok [[zb FalseMarker]]
  | PInt z => enc_int z
  | PFloat b => enc_float b
  | PStr s => enc_str s
  | PList l => w_then (slice_hdr (zlen l)) (all l)
  | PMap m => w_then (map_hdr (zlen m)) (entries m)
  | PStruct sig fs => w_then (struct_hdr (zlen fs)) (w_then (w_ok [[zb sig]]) (fields fs))
  | PErr t => w_err t
  end.

(** e.encode(iVal) *)
Definition encode (v : ver) (x : gval) : wseq := enc (lower v x).

(** The io.Writer below the encoder: everything written so far, and how many more bytes the link
    will carry before it dies ([None]: it never does). A Write that does not fit is cut short and
    reports an error. *)
Record writer := mkWriter { w_out : bytes; w_left : option nat }.

Definition w_write (w : writer) (p : bytes) : writer * option gerr :=
  match w_left w with
  | None => (mkWriter (w_out w ++ p) None, None)
  | Some k =>
      if Nat.leb (length p) k then (mkWriter (w_out w ++ p) (Some (k - length p)%nat), None)
      else (mkWriter (w_out w ++ firstn k p) (Some O), Some EBadConn)
  end.

(** EncoderV1/EncoderV2 objects (encoderV1.go:24-28, encoderV2.go:27-31). *)
Record encoder := mkEncoder { e_w : writer; e_buf : bytes; e_chunk : Z }.

(** NewEncoder (encoderV1.go:31-37, encoderV2.go:34-40) *)
Definition new_encoder (w : writer) (chunkSize : Z) : encoder := mkEncoder w [] chunkSize.

(** Write (encoderV1.go:47-73, encoderV2.go:50-76). The for loop returns in its first iteration,
    so at most one chunk is emitted per call. *)
Definition enc_write (e : encoder) (p : bytes) : encoder * option gerr :=
  let buf := e_buf e ++ p in
  let cs := e_chunk e in
  if zlen buf >=? cs then
    let '(w1, r1) := w_write (e_w e) (be 2 cs) in
    match r1 with
    | Some err => (mkEncoder w1 buf cs, Some (EWrap (Some err) 1))
    | None =>
        let '(w2, r2) := w_write w1 (firstn (Z.to_nat cs) buf) in
        let e2 := mkEncoder w2 (skipn (Z.to_nat cs) buf) cs in
        match r2 with
        | Some err => (e2, Some (EWrap (Some err) 2))
        | None => (e2, None)
        end
    end
  else (mkEncoder (e_w e) buf cs, None).

(** flush (encoderV1.go:76-95, encoderV2.go:79-100) *)
Definition flush (e : encoder) : encoder * option gerr :=
  let n := zlen (e_buf e) in
  let finish (w : writer) (buf : bytes) :=
    let '(w', r) := w_write w EndMessage in
    match r with
    | Some err => (mkEncoder w' buf (e_chunk e), Some (EWrap (Some err) 5))
    | None => (mkEncoder w' [] (e_chunk e), None)
    end in
  if n >? 0 then
    let '(w1, r1) := w_write (e_w e) (be 2 (uint16 n)) in
    match r1 with
    | Some err => (mkEncoder w1 (e_buf e) (e_chunk e), Some (EWrap (Some err) 3))
    | None =>
        let '(w2, r2) := w_write w1 (e_buf e) in
        match r2 with
        | Some err => (* bytes.Buffer.WriteTo keeps what was not written *)
            (mkEncoder w2 (skipn (length (w_out w2) - length (w_out w1)) (e_buf e)) (e_chunk e),
             Some (EWrap (Some err) 4))
        | None => finish w2 []
        end
    end
  else finish (e_w e) (e_buf e).

(** The writes of one encode call, executed in order until one fails. *)
Fixpoint run_writes (e : encoder) (ws : list bytes) : encoder * option gerr :=
  match ws with
  | [] => (e, None)
  | p :: ws' =>
      let '(e', r) := enc_write e p in
      match r with
      | Some err => (e', Some err)
      | None => run_writes e' ws'
      end
  end.

(** Encode (encoderV1.go:98-107, encoderV2.go:103-112). Simplification: the extra wrapping that
    inner functions add to a failing Write is dropped (the innermost error is the same). *)
Definition encoder_encode (v : ver) (e : encoder) (x : gval) : encoder * option gerr :=
  let '(ws, fin) := encode v x in
  let '(e1, r) := run_writes e ws in
  match r with
  | Some err => (e1, Some err)
  | None =>
      match fin with
      | Some err => (e1, Some err)
      | None => flush e1
      end
  end.

(** A link that never fails and has carried nothing yet. *)
Definition fresh_writer : writer := mkWriter [] None.

(** Marshal (encoderV1.go:40-44, encoderV2.go:43-47): the bytes produced and the error. *)
Definition marshal (v : ver) (x : gval) : bytes * option gerr :=
  let '(e, r) := encoder_encode v (new_encoder fresh_writer MaxUint16) x in
  (w_out (e_w e), r).
