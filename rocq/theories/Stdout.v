(** What the decoders write to the standard output (encoding_v1/decoderV1.go, encoding_v2/decoderV2.go): decodeLocalTime
    prints the number it has read (decoderV2.go:383). The decoder of Decoder.v, once more, with the lines printed. *)
From Coq Require Import ZArith List Bool.
From Verif Require Import Bytes GoVal GoErr Encoder Decoder.
Import ListNotations.
Open Scope Z_scope.

(** A decoding function and the numbers it prints, one on each line, in order. *)
Definition printer (A : Type) := bytes -> res (A * bytes) * list Z.
Definition silently {A} (p : parser A) : printer A := fun b => (p b, []).
Definition then_ {A B} (p : printer A) (f : A -> printer B) : printer B := fun b =>
  match p b with
  | (Ok (a, b'), l) => let (r, l') := f a b' in (r, l ++ l')
  | (Err e, l) => (Err e, l)
  | (Panic, l) => (Panic, l)
  | (NoFuel, l) => (NoFuel, l)
  end.
(** fmt.Println(z) *)
Definition println (z : Z) : printer unit := fun b => (Ok (tt, b), [z]).
Definition done {A} (a : A) : printer A := silently (pret a).
Notation "x <<- p ;;; k" := (then_ p (fun x => k)) (at level 100, p at next level, right associativity).

(** the loops of decodeSlice (decoderV1.go:251-262, decoderV2.go:246-257) and decodeMap (decoderV1.go:264-284, decoderV2.go:259-279) *)
Fixpoint print_items (dec : printer gval) (k : nat) (n : Z) : printer (list gval) :=
  if n <=? 0 then done []
  else match k with
       | O => silently (fun _ => NoFuel)
       | S k' => x <<- dec ;;; xs <<- print_items dec k' (n - 1) ;;; done (x :: xs)
       end.
Fixpoint print_entries (dec : printer gval) (k : nat) (n : Z) (acc : list (bytes * gval)) : printer (list (bytes * gval)) :=
  if n <=? 0 then done acc
  else match k with
       | O => silently (fun _ => NoFuel)
       | S k' => key <<- dec ;;; val <<- dec ;;;
           match key with
           | GStr s => print_entries dec k' (n - 1) (map_set acc s val)
           | _ => silently (perr TKeyType)
           end
       end.
Definition print_slice (dec : printer gval) (size : Z) : printer gval := fun b =>
  if size <? 0 then (Panic, [])
  else (l <<- print_items dec (S (length b)) size ;;; done (GSlice l)) b.
Definition print_map (dec : printer gval) (size : Z) : printer gval := fun b =>
  (m <<- print_entries dec (S (length b)) size [] ;;; done (GMap m)) b.

(** decodeNode (decoderV1.go:321-354, decoderV2.go:633-666) *)
Definition print_node (dec : printer gval) : printer gval :=
  x <<- dec ;;; id <<- silently (must_int64 x) ;;;
  y <<- dec ;;; l <<- silently (as_slice TFieldType y) ;;; labels <<- silently (lift (slice_to_str l)) ;;;
  z <<- dec ;;; props <<- silently (as_map TFieldType z) ;;;
  done (GNode id labels props).
(** decodeRelationship (decoderV1.go:356-397, decoderV2.go:668-709) *)
Definition print_rel (dec : printer gval) : printer gval :=
  x <<- dec ;;; id <<- silently (must_int64 x) ;;;
  x <<- dec ;;; st <<- silently (must_int64 x) ;;;
  x <<- dec ;;; en <<- silently (must_int64 x) ;;;
  y <<- dec ;;; ty <<- silently (as_str TFieldType y) ;;;
  z <<- dec ;;; props <<- silently (as_map TFieldType z) ;;;
  done (GRel id st en ty props).
(** decodePath (decoderV1.go:399-439, decoderV2.go:711-751) *)
Definition print_path (dec : printer gval) : printer gval :=
  x <<- dec ;;; l <<- silently (as_slice TFieldType x) ;;; nodes <<- silently (lift (slice_to is_node l)) ;;;
  y <<- dec ;;; l <<- silently (as_slice TFieldType y) ;;; rels <<- silently (lift (slice_to is_urel l)) ;;;
  z <<- dec ;;; l <<- silently (as_slice TFieldType z) ;;; sq <<- silently (lift (slice_to_int l)) ;;;
  done (GPath nodes rels sq).
(** decodeUnboundRelationship (decoderV1.go:441-470, decoderV2.go:753-782) *)
Definition print_urel (dec : printer gval) : printer gval :=
  x <<- dec ;;; id <<- silently (must_int64 x) ;;;
  y <<- dec ;;; ty <<- silently (as_str TFieldType y) ;;;
  z <<- dec ;;; props <<- silently (as_map TFieldType z) ;;;
  done (GURel id ty props).
(** decodeRecordMessage, decodeFailureMessage, decodeSuccessMessage (decoderV1.go:472-513, decoderV2.go:784-825) *)
Definition print_record (dec : printer gval) : printer gval :=
  x <<- dec ;;; l <<- silently (as_slice TFieldType x) ;;; done (GRecord l).
Definition print_failure (dec : printer gval) : printer gval :=
  x <<- dec ;;; m <<- silently (as_map TFieldType x) ;;; done (GFailure m).
Definition print_success (dec : printer gval) : printer gval :=
  x <<- dec ;;; m <<- silently (as_map TFieldType x) ;;; done (GSuccess m).
(** decodePoint2D (decoderV2.go:546-582), decodePoint3D (decoderV2.go:584-631) *)
Definition print_point2d (dec : printer gval) : printer gval :=
  a <<- dec ;;; srid <<- silently (as_int64 TCast a) ;;;
  b <<- dec ;;; x <<- silently (as_float TCast b) ;;;
  c <<- dec ;;; y <<- silently (as_float TCast c) ;;;
  done (GPoint2D false srid x y).
Definition print_point3d (dec : printer gval) : printer gval :=
  a <<- dec ;;; srid <<- silently (as_int64 TCast a) ;;;
  b <<- dec ;;; x <<- silently (as_float TCast b) ;;;
  c <<- dec ;;; y <<- silently (as_float TCast c) ;;;
  d <<- dec ;;; z <<- silently (as_float TCast d) ;;;
  done (GPoint3D false srid x y z).
(** decodeDate (decoderV2.go:334-347) *)
Definition print_date (dec : printer gval) : printer gval :=
  a <<- dec ;;; d <<- silently (as_int64 TCast a) ;;; done (GDate d).
(** decodeTime (decoderV2.go:349-374) *)
Definition print_time (dec : printer gval) : printer gval :=
  a <<- dec ;;; n <<- silently (as_int64 TCast a) ;;;
  b <<- dec ;;; off <<- silently (as_int64 TCast b) ;;;
  done (GClock n off).
(** decodeLocalTime (decoderV2.go:376-389): the number is printed before it is known to be one; the zero value stands for
    anything else *)
Definition print_localtime (dec : printer gval) : printer gval :=
  a <<- dec ;;; _ <<- println (match a with GInt KInt64 n => n | _ => 0 end) ;;;
  n <<- silently (as_int64 TCast a) ;;; done (GLocalClock n).
(** decodeLocalDateTime (decoderV2.go:391-413) *)
Definition print_localdatetime (dec : printer gval) : printer gval :=
  a <<- dec ;;; s <<- silently (as_int64 TCast a) ;;;
  b <<- dec ;;; n <<- silently (as_int64 TCast b) ;;;
  done (GLocalTime s n).
(** decodeDateTimeWithZoneOffset (decoderV2.go:415-453) *)
Definition print_datetime_offset (dec : printer gval) : printer gval :=
  a <<- dec ;;; s <<- silently (as_int64 TCast a) ;;;
  b <<- dec ;;; n <<- silently (as_int64 TCast b) ;;;
  c <<- dec ;;; off <<- silently (as_int64 TCast c) ;;;
  let '(s1, n1) := time_unix s n in
  let '(s2, n2) := time_add s1 n1 (neg_offset_dur off) in
  done (GTime s2 n2 off).
(** decodeTimeWithZoneId (decoderV2.go:456-499) *)
Definition print_datetime_zone (tz : zones) (dec : printer gval) : printer gval :=
  a <<- dec ;;; s <<- silently (as_int64 TCast a) ;;;
  b <<- dec ;;; n <<- silently (as_int64 TCast b) ;;;
  c <<- dec ;;; id <<- silently (as_str TCast c) ;;;
  match tz id with
  | None => silently (perr TZoneInfo)
  | Some zone =>
      let '(s1, n1) := time_unix s n in
      let off := zone s1 in
      let '(s2, n2) := time_add s1 n1 (neg_offset_dur off) in
      done (GTime s2 n2 (zone s2))
  end.
(** decodeDuration (decoderV2.go:502-544) *)
Definition print_duration (dec : printer gval) : printer gval :=
  a <<- dec ;;; months <<- silently (as_int64 TCast a) ;;;
  b <<- dec ;;; days <<- silently (as_int64 TCast b) ;;;
  c <<- dec ;;; seconds <<- silently (as_int64 TCast c) ;;;
  d <<- dec ;;; nanos <<- silently (as_int64 TCast d) ;;;
  done (GDuration (int64 (int64 (int64 (months * days) * seconds) * nanos))).

(** decodeStruct (decoderV1.go:286-319, decoderV2.go:281-332) *)
Definition print_struct (v : ver) (tz : zones) (dec : printer gval) : printer gval := fun buf =>
  match buf with
  | [] => (Err (EWrap (Some EEOF) 15), [])
  | sb :: b =>
      let s := bz sb in
      if s =? SigNode then print_node dec b
      else if s =? SigRel then print_rel dec b
      else if s =? SigPath then print_path dec b
      else if s =? SigURel then print_urel dec b
      else if s =? SigRecord then print_record dec b
      else if s =? SigFailure then print_failure dec b
      else if s =? SigIgnored then (Ok (GIgnored, b), [])
      else if s =? SigSuccess then print_success dec b
      else if s =? SigDiscardAll then (Ok (GDiscardAll, b), [])
      else if s =? SigPullAll then (Ok (GPullAll, b), [])
      else if s =? SigReset then (Ok (GReset, b), [])
      else
        match v with
        | V1 => (Err (ENew TUnrecognizedStruct), [])
        | V2 =>
            if s =? SigPoint2D then print_point2d dec b
            else if s =? SigPoint3D then print_point3d dec b
            else if s =? SigDate then print_date dec b
            else if s =? SigTime then print_time dec b
            else if s =? SigLocalTime then print_localtime dec b
            else if s =? SigLocalDateTime then print_localdatetime dec b
            else if s =? SigDateTimeOffset then print_datetime_offset dec b
            else if s =? SigDateTimeZoneId then print_datetime_zone tz dec b
            else if s =? SigDuration then print_duration dec b
            else (Err (ENew TUnrecognizedStruct), [])
        end
  end.

(** decode (decoderV1.go:103-249, decoderV2.go:98-244): slices, maps and structures are read by decode itself; what is
    read of anything else is as in Decoder.v and prints nothing *)
Definition print_body (v : ver) (tz : zones) (dec : printer gval) : printer gval := fun buf =>
  match buf with
  | [] => (Err (EWrap (Some EEOF) 16), [])
  | mb :: b =>
      let m := bz mb in
      if (m >=? TinySliceMarker) && (m <=? TinySliceMarker + 0x0F) then print_slice dec (m - TinySliceMarker) b
      else if m =? Slice8Marker then (n <<- silently (read_size 1) ;;; print_slice dec n) b
      else if m =? Slice16Marker then (n <<- silently (read_size 2) ;;; print_slice dec n) b
      else if m =? Slice32Marker then (n <<- silently (read_size 4) ;;; print_slice dec n) b
      else if (m >=? TinyMapMarker) && (m <=? TinyMapMarker + 0x0F) then print_map dec (m - TinyMapMarker) b
      else if m =? Map8Marker then (n <<- silently (read_size 1) ;;; print_map dec n) b
      else if m =? Map16Marker then (n <<- silently (read_size 2) ;;; print_map dec n) b
      else if m =? Map32Marker then (n <<- silently (read_size 4) ;;; print_map dec n) b
      else if (m >=? TinyStructMarker) && (m <=? TinyStructMarker + 0x0F) then print_struct v tz dec b
      else if m =? Struct8Marker then (n <<- silently (read_size 1) ;;; print_struct v tz dec) b
      else if m =? Struct16Marker then (n <<- silently (read_size 2) ;;; print_struct v tz dec) b
      else (dec_body v tz (fun _ => NoFuel) buf, [])
  end.
Fixpoint print_fuel (v : ver) (tz : zones) (fuel : nat) : printer gval :=
  match fuel with
  | O => silently (fun _ => NoFuel)
  | S f => print_body v tz (print_fuel v tz f)
  end.
Definition decode_printing (v : ver) (tz : zones) (b : bytes) : res (gval * bytes) * list Z := print_fuel v tz (S (length b)) b.

(** Decode (decoderV1.go:94-101, decoderV2.go:89-96): as [decoder_decode] *)
Definition decoder_prints (v : ver) (tz : zones) (r : reader) : list Z :=
  match read_message r with Ok (data, _) => snd (decode_printing v tz data) | _ => [] end.
