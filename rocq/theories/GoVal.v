(** Go dynamic values (the contents of an interface{}) as far as the codec distinguishes them,
    and their translation to the tree of PackStream items that the encoder walks. *)
From Coq Require Import ZArith List Bool.
From Coq Require Import Floats.SpecFloat.
From Verif Require Import Bytes.
Import ListNotations.
Open Scope Z_scope.

(** Codec version: encoding/encoding_v1 or encoding/encoding_v2. *)
Inductive ver := V1 | V2.

(** Which errors.New / fmt.Errorf call site produced an error (texts are not modelled). *)
Inductive etag :=
| TUnrecognizedType      (* encoderV1.go:164, encoderV2.go:181 *)
| TIntegerTooBig         (* encoderV1.go:138, encoderV2.go:143 *)
| TIntTooLong            (* encoderV1.go:234, encoderV2.go:403 *)
| TStringTooLong | TSliceTooLong | TMapTooLong | TStructTooLong
| TUnrecognizedMarker    (* decoderV1.go:246, decoderV2.go:241 *)
| TUnrecognizedStruct    (* decoderV1.go:317, decoderV2.go:330 *)
| TKeyType               (* decoderV1.go:278, decoderV2.go:273 *)
| TFieldType             (* "Expected: ..., but got ..." *)
| TCast                  (* "unable to cast [..] to [..]" *)
| TZoneInfo              (* decoderV2.go:489 *)
| TShortRead             (* decoderV1.go:80, decoderV2.go:75: Read returned 0, nil *)
| TMsg (n : Z).          (* other call sites, numbered in Connection.v, Routing.v, Client.v *)

(** The ten built-in integer kinds of the type switches encoderV1.go:113-141, encoderV2.go:118-145
    (int and uint are 64 bits wide: 64-bit platform assumed). *)
Inductive ikind := KInt | KInt8 | KInt16 | KInt32 | KInt64 | KUint | KUint8 | KUint16 | KUint32 | KUint64.

(** Dynamic values.
    - floats are IEEE-754 bit patterns;
    - a Go map is the association list of its entries in the order in which [range] enumerates it
      (any order, keys pairwise different);
    - gotime values stand for the numbers their accessors return (the library is not part of /repo);
    - time.Time is (Unix seconds, nanosecond of the second, zone offset in seconds). *)
Inductive gval : Type :=
| GNil
| GBool (b : bool)
| GInt (k : ikind) (z : Z)
| GFloat32 (bits : Z)
| GFloat64 (bits : Z)
| GStr (s : bytes)
| GSlice (l : list gval)                          (* []interface{} *)
| GTSlice (l : list gval)                         (* any other slice type; elements as interfaces *)
| GMap (m : list (bytes * gval))                  (* map[string]interface{} *)
| GNode (id : Z) (labels : list bytes) (props : list (bytes * gval))      (* graph.Node *)
| GRel (id st en : Z) (ty : bytes) (props : list (bytes * gval))          (* graph.Relationship *)
| GURel (id : Z) (ty : bytes) (props : list (bytes * gval))               (* graph.UnboundRelationship *)
| GPath (nodes rels : list gval) (sequence : list Z)                      (* graph.Path *)
| GPoint2D (ptr : bool) (srid x y : Z)            (* types.Point2D (ptr=false) or *types.Point2D *)
| GPoint3D (ptr : bool) (srid x y z : Z)
| GDate (epochDays : Z)                           (* gotime.Date *)
| GClock (dayNano offset : Z)                     (* gotime.Clock *)
| GLocalClock (dayNano : Z)                       (* gotime.LocalClock *)
| GLocalTime (epochSec nano : Z)                  (* gotime.LocalTime, as local epoch *)
| GTime (sec nsec offset : Z)                     (* time.Time *)
| GDuration (d : Z)                               (* time.Duration, nanoseconds *)
| GSuccess (md : list (bytes * gval))             (* messages.SuccessMessage *)
| GFailure (md : list (bytes * gval))             (* messages.FailureMessage *)
| GRecord (fields : list gval)                    (* messages.RecordMessage *)
| GIgnored | GDiscardAll | GPullAll | GReset      (* messages without content *)
| GStructure (sig : Z) (fields : list gval)       (* any other type implementing structures.Structure *)
| GOther.                                         (* a value of any other type *)

(** PackStream items as the encoder walks them. [PErr] marks the place where encode returns an
    error instead of writing. *)
Inductive pv : Type :=
| PNull
| PBool (b : bool)
| PInt (z : Z)
| PFloat (bits : Z)
| PStr (s : bytes)
| PList (l : list pv)
| PMap (m : list (bytes * pv))
| PStruct (sig : Z) (fields : list pv)
| PErr (t : etag).

(** encoderV1.go:113-141 / encoderV2.go:118-145: integer cases of the type switch. Every kind is
    converted with int64(val); only uint64 is checked first. *)
Definition int_arg (k : ikind) (z : Z) : pv :=
  match k with
  | KUint64 => if z >? MaxInt64 then PErr TIntegerTooBig else PInt (int64 z)
  | _ => PInt (int64 z)
  end.

(** Go conversion float64(val) of a float32 (encoderV1.go:142-143, encoderV2.go:146-147), on bit
    patterns: sign, exponent and fraction fields re-packed; NaN payloads are kept and quieted. *)
Definition f32_to_f64 (b : Z) : Z :=
  let s := b / 2 ^ 31 in
  let e := (b / 2 ^ 23) mod 256 in
  let m := b mod 2 ^ 23 in
  if e =? 255 then
    if m =? 0 then s * 2 ^ 63 + 2047 * 2 ^ 52
    else s * 2 ^ 63 + 2047 * 2 ^ 52 + Z.lor (m * 2 ^ 29) (2 ^ 51)
  else if e =? 0 then
    if m =? 0 then s * 2 ^ 63
    else (* subnormal: value m * 2^-149, normalised *)
      let k := Z.log2 m in
      s * 2 ^ 63 + (k - 149 + 1023) * 2 ^ 52 + (m - 2 ^ k) * 2 ^ (52 - k)
  else s * 2 ^ 63 + (e - 127 + 1023) * 2 ^ 52 + m * 2 ^ 29.

(** IEEE-754 double arithmetic, used by encodeDuration only. *)
Definition f64_of_Z (z : Z) : spec_float := binary_normalize 53 1024 z 0 false.
Definition f64_add := SFadd 53 1024.
Definition f64_div := SFdiv 53 1024.

(** math.Float64bits (a uint64). *)
Definition f64_bits (f : spec_float) : Z :=
  let sg (s : bool) := if s then 2 ^ 63 else 0 in
  to_unsigned 8
  match f with
  | S754_zero s => sg s
  | S754_infinity s => sg s + 2047 * 2 ^ 52
  | S754_nan => 2047 * 2 ^ 52 + 2 ^ 51 + 1
  | S754_finite s m e =>
      if Zpos m <? 2 ^ 52 then sg s + Zpos m
      else sg s + (e + 1075) * 2 ^ 52 + (Zpos m - 2 ^ 52)
  end.

(** time.Duration.Seconds (Go library): float64(d/1e9) + float64(d%1e9)/1e9. *)
Definition dur_seconds (d : Z) : spec_float :=
  f64_add (f64_of_Z (Z.quot d 1000000000))
          (f64_div (f64_of_Z (Z.rem d 1000000000)) (f64_of_Z 1000000000)).

(** encoderV2.go:305-337 encodeDuration: months, days and seconds are float64, nanos is int64. *)
Definition duration_fields (d : Z) : list pv :=
  [ PFloat (f64_bits (f64_div (dur_seconds d) (f64_of_Z 2600640)));
    PFloat (f64_bits (f64_div (dur_seconds d) (f64_of_Z 86400)));
    PFloat (f64_bits (dur_seconds d));
    PInt d ].

(** time.Time.Add (Go library), on (Unix seconds, nanoseconds); the int64 range of the seconds is
    not modelled. *)
Definition time_add (sec nsec d : Z) : Z * Z :=
  let dsec := Z.quot d 1000000000 in
  let n := nsec + Z.rem d 1000000000 in
  if n >=? 1000000000 then (sec + dsec + 1, n - 1000000000)
  else if n <? 0 then (sec + dsec - 1, n + 1000000000)
  else (sec + dsec, n).

(** time.Unix (Go library): normalises the nanoseconds. *)
Definition time_unix (sec nsec : Z) : Z * Z :=
  if (nsec <? 0) || (nsec >=? 1000000000) then
    let n := Z.quot nsec 1000000000 in
    let nsec' := nsec - n * 1000000000 in
    if nsec' <? 0 then (sec + n - 1, nsec' + 1000000000) else (sec + n, nsec')
  else (sec, nsec).

(** encoderV2.go:275-303 encodeTime. time.Duration(offset) * time.Second wraps at 64 bits. *)
Definition time_fields (sec nsec off : Z) : list pv :=
  let '(s, n) := time_add sec nsec (int64 (off * 1000000000)) in
  [ PInt (int64 s); PInt n; PInt off ].

(** Signature bytes: structures/graph/*.go, structures/types/point.go, structures/messages/*.go,
    encoding/encode_consts/const.go:58-75. *)
Definition SigNode := 0x4E.
Definition SigRel := 0x52.
Definition SigPath := 0x50.
Definition SigURel := 0x72.
Definition SigPoint2D := 0x58.
Definition SigPoint3D := 0x59.
Definition SigRecord := 0x71.
Definition SigFailure := 0x7F.
Definition SigIgnored := 0x7E.
Definition SigSuccess := 0x70.
Definition SigDiscardAll := 0x2F.
Definition SigPullAll := 0x3F.
Definition SigReset := 0x0F.
Definition SigDate := 0x44.
Definition SigTime := 0x54.
Definition SigLocalTime := 0x74.
Definition SigLocalDateTime := 0x64.
Definition SigDateTimeOffset := 0x46.
Definition SigDateTimeZoneId := 0x66.
Definition SigDuration := 0x45.

(** The type switch encoderV1.go:110-168 / encoderV2.go:115-185 together with the AllFields and
    Signature methods it calls (structures/graph/node.go, relationship.go, unbound_relationship.go,
    path.go:18-35, structures/types/point.go:16-37, structures/messages/responses.go).
    Simplification: the switch is separated from the writing; the writes of the resulting tree are
    [enc] in Encoder.v. Points: the methods have pointer receivers, so only the pointer is a
    Structure. Version 1 has no temporal cases. Named map types, pointers, structs and named
    scalar types are [GOther]. Values are trees here; sharing, values that contain themselves and nil
    pointers to structures are in Refs.v. *)
Fixpoint lower (v : ver) (x : gval) : pv :=
  let lmap (m : list (bytes * gval)) := PMap (map (fun kv => (fst kv, lower v (snd kv))) m) in
  match x with
  | GNil => PNull
  | GBool b => PBool b
  | GInt k z => int_arg k z
  | GFloat32 b => PFloat (f32_to_f64 b)
  | GFloat64 b => PFloat b
  | GStr s => PStr s
  | GSlice l => PList (map (lower v) l)
  | GTSlice l => PList (map (lower v) l)
  | GMap m => lmap m
  | GNode id labels props => PStruct SigNode [PInt id; PList (map PStr labels); lmap props]
  | GRel id st en ty props => PStruct SigRel [PInt id; PInt st; PInt en; PStr ty; lmap props]
  | GURel id ty props => PStruct SigURel [PInt id; PStr ty; lmap props]
  | GPath nodes rels sq =>
      PStruct SigPath [PList (map (lower v) nodes); PList (map (lower v) rels); PList (map PInt sq)]
  | GPoint2D true srid x y => PStruct SigPoint2D [PInt srid; PFloat x; PFloat y]
  | GPoint3D true srid x y z => PStruct SigPoint3D [PInt srid; PFloat x; PFloat y; PFloat z]
  | GPoint2D false _ _ _ | GPoint3D false _ _ _ _ => PErr TUnrecognizedType
  | GDate d =>
      match v with V1 => PErr TUnrecognizedType | V2 => PStruct SigDate [PInt (int64 d)] end
  | GClock n off =>
      match v with V1 => PErr TUnrecognizedType | V2 => PStruct SigTime [PInt n; PInt off] end
  | GLocalClock n =>
      match v with V1 => PErr TUnrecognizedType | V2 => PStruct SigLocalTime [PInt n] end
  | GLocalTime s n =>
      match v with V1 => PErr TUnrecognizedType | V2 => PStruct SigLocalDateTime [PInt s; PInt n] end
  | GTime s n off =>
      match v with V1 => PErr TUnrecognizedType | V2 => PStruct SigDateTimeOffset (time_fields s n off) end
  | GDuration d =>
      match v with V1 => PErr TUnrecognizedType | V2 => PStruct SigDuration (duration_fields d) end
  | GSuccess md => PStruct SigSuccess [lmap md]
  | GFailure md => PStruct SigFailure [lmap md]
  | GRecord fs => PStruct SigRecord [PList (map (lower v) fs)]
  | GIgnored => PStruct SigIgnored []
  | GDiscardAll => PStruct SigDiscardAll []
  | GPullAll => PStruct SigPullAll []
  | GReset => PStruct SigReset []
  | GStructure sig fs => PStruct sig (map (lower v) fs)
  | GOther => PErr TUnrecognizedType
  end.
