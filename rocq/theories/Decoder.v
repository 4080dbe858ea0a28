(** The decoders: encoding/encoding_v1/decoderV1.go and encoding/encoding_v2/decoderV2.go. *)
From Coq Require Import ZArith List Bool.
From Verif Require Import Bytes GoVal GoErr Encoder.
Import ListNotations.
Open Scope Z_scope.

(** ** The io.Reader below the decoder *)

(** What successive Read calls will deliver: the stream cut into fragments (a Read returns at most
    the rest of the current fragment; an empty fragment is a Read returning 0, nil), and the error
    every Read returns once the fragments are used up. *)
Record reader := mkReader { r_frags : list bytes; r_end : gerr }.

Definition r_bytes (r : reader) : bytes := concat (r_frags r).

(** One Read into a buffer of length n > 0: bytes delivered and remaining fragments. *)
Definition frag_read (n : nat) (fs : list bytes) : option (bytes * list bytes) :=
  match fs with
  | [] => None
  | f :: fs' =>
      if Nat.leb (length f) n then Some (f, fs')
      else Some (firstn n f, skipn n f :: fs')
  end.

(** io.ReadFull(r, buf) with len(buf) = n (Go library: ReadAtLeast). Reads of 0 bytes are retried.
    On failure: bytes got so far and the error (io.EOF becomes io.ErrUnexpectedEOF if some bytes
    were read). Structural on the fragments. *)
Fixpoint read_full (n : nat) (fs : list bytes) (got : bytes) (en : gerr)
  : (bytes * list bytes) + gerr :=
  match n with
  | O => inl (got, fs)
  | _ =>
      match fs with
      | [] => inr (match got, en with _ :: _, EEOF => EUnexpectedEOF | _, _ => en end)
      | f :: fs' =>
          if Nat.leb (length f) n then read_full (n - length f) fs' (got ++ f) en
          else inl (got ++ firstn n f, skipn n f :: fs')
      end
  end.

(** readData (decoderV1.go:71-91, decoderV2.go:66-86): Read until n bytes have arrived; an error or
    an empty read fails. *)
Fixpoint read_data (n : nat) (fs : list bytes) (got : bytes) (en : gerr)
  : (bytes * list bytes) + gerr :=
  match n with
  | O => inl (got, fs)
  | _ =>
      match fs with
      | [] => inr (EWrap (Some en) 10)
      | f :: fs' =>
          match f with
          | [] => inr (EWrap None 11)
          | _ =>
              if Nat.leb (length f) n then read_data (n - length f) fs' (got ++ f) en
              else inl (got ++ firstn n f, skipn n f :: fs')
          end
      end
  end.

(** read (decoderV1.go:42-69, decoderV2.go:37-64): chunks up to the first empty chunk, concatenated.
    Each iteration consumes two bytes, so [fuel] larger than the number of bytes is never exhausted
    (proved in DecoderFacts). A failed read leaves the stream where the failure occurred; the
    caller never reads on, so the remaining fragments are dropped in that case. *)
Fixpoint read_loop (fuel : nat) (fs : list bytes) (en : gerr) (out : bytes) : res (bytes * list bytes) :=
  match fuel with
  | O => NoFuel
  | S fuel' =>
      match read_full 2 fs [] en with
      | inr e => Err (EWrap (Some e) 12)
      | inl (hd, fs1) =>
          let messageLen := unbe hd in
          if messageLen =? 0 then Ok (out, fs1)
          else
            match read_data (Z.to_nat messageLen) fs1 [] en with
            | inr e => Err (EWrap (Some e) 13)
            | inl (data, fs2) => read_loop fuel' fs2 en (out ++ data)
            end
      end
  end.

Definition read_message (r : reader) : res (bytes * list bytes) :=
  read_loop (S (length (r_bytes r))) (r_frags r) (r_end r) [].

(** ** Decoding a complete message *)

(** A decoding function consumes bytes of the message buffer. *)
Definition parser (A : Type) := bytes -> res (A * bytes).

Definition pbind {A B} (p : parser A) (f : A -> parser B) : parser B :=
  fun b => match p b with
           | Ok (a, b') => f a b'
           | Err e => Err e
           | Panic => Panic
           | NoFuel => NoFuel
           end.
Definition pret {A} (a : A) : parser A := fun b => Ok (a, b).
Definition perr {A} (t : etag) : parser A := fun _ => Err (ENew t).
Definition ppanic {A} : parser A := fun _ => Panic.

Notation "p >>= f" := (pbind p f) (at level 50, left associativity).
Notation "x <- p ;; k" := (pbind p (fun x => k)) (at level 100, p at next level, right associativity).

(** binary.Read(buffer, binary.BigEndian, &x) for an n-byte integer: the raw unsigned value. *)
Definition read_be (n : nat) : parser Z := fun b =>
  if Nat.ltb (length b) n then
    Err (match b with [] => EEOF | _ => EUnexpectedEOF end)
  else Ok (unbe (firstn n b), skipn n b).

(** the same for a signed n-byte variable *)
Definition read_int (n : nat) : parser Z := x <- read_be n ;; pret (to_signed n x).

(** binary.Read of a size, with its error wrapped ("An error occurred reading string size"). *)
Definition read_size (n : nat) : parser Z := fun b => rwrap 14 (read_int n b).

(** string(buffer.Next(size)): returns what is left if the buffer is shorter; a negative size makes
    the slice expression inside Next panic. *)
Definition next (size : Z) : parser bytes := fun b =>
  if size <? 0 then Panic
  else let n := Z.to_nat (Z.min size (zlen b)) in Ok (firstn n b, skipn n b).

Definition pstr (size : Z) : parser gval := s <- next size ;; pret (GStr s).

(** mapp[key] = val *)
Fixpoint map_set {A} (m : list (bytes * A)) (k : bytes) (v : A) : list (bytes * A) :=
  match m with
  | [] => [(k, v)]
  | (k', v') :: m' => if bytes_eqb k k' then (k, v) :: m' else (k', v') :: map_set m' k v
  end.

(** mapp[key] (second result false: absent) *)
Fixpoint map_get {A} (m : list (bytes * A)) (k : bytes) : option A :=
  match m with
  | [] => None
  | (k', v) :: m' => if bytes_eqb k k' then Some v else map_get m' k
  end.

(** the loop of decodeSlice (decoderV1.go:251-262, decoderV2.go:246-257). [k] bounds the number of
    iterations; every iteration consumes a byte, so k larger than the buffer is never exhausted. *)
Fixpoint dec_items (dec : parser gval) (k : nat) (n : Z) : parser (list gval) :=
  if n <=? 0 then pret []
  else match k with
       | O => fun _ => NoFuel
       | S k' => x <- dec ;; xs <- dec_items dec k' (n - 1) ;; pret (x :: xs)
       end.

(** decodeSlice: make([]interface{}, size) panics for a negative size. *)
Definition dec_slice (dec : parser gval) (size : Z) : parser gval := fun b =>
  if size <? 0 then Panic
  else (l <- dec_items dec (S (length b)) size ;; pret (GSlice l)) b.

(** the loop of decodeMap (decoderV1.go:264-284, decoderV2.go:259-279) *)
Fixpoint dec_entries (dec : parser gval) (k : nat) (n : Z) (acc : list (bytes * gval))
  : parser (list (bytes * gval)) :=
  if n <=? 0 then pret acc
  else match k with
       | O => fun _ => NoFuel
       | S k' =>
           key <- dec ;;
           val <- dec ;;
           match key with
           | GStr s => dec_entries dec k' (n - 1) (map_set acc s val)
           | _ => perr TKeyType
           end
       end.

(** decodeMap: make(map, size) accepts any hint; a negative size skips the loop. *)
Definition dec_map (dec : parser gval) (size : Z) : parser gval := fun b =>
  (m <- dec_entries dec (S (length b)) size [] ;; pret (GMap m)) b.

(** x.(int64) without comma-ok: panics on any other dynamic type *)
Definition must_int64 (x : gval) : parser Z :=
  match x with GInt KInt64 z => pret z | _ => ppanic end.
(** v, ok := x.(T); if !ok { return error } *)
Definition as_int64 (t : etag) (x : gval) : parser Z :=
  match x with GInt KInt64 z => pret z | _ => perr t end.
Definition as_float (t : etag) (x : gval) : parser Z :=
  match x with GFloat64 z => pret z | _ => perr t end.
Definition as_str (t : etag) (x : gval) : parser bytes :=
  match x with GStr s => pret s | _ => perr t end.
Definition as_slice (t : etag) (x : gval) : parser (list gval) :=
  match x with GSlice l => pret l | _ => perr t end.
Definition as_map (t : etag) (x : gval) : parser (list (bytes * gval)) :=
  match x with GMap m => pret m | _ => perr t end.

(** encoding/util.go:8-18 SliceInterfaceToString *)
Fixpoint slice_to_str (l : list gval) : res (list bytes) :=
  match l with
  | [] => Ok []
  | GStr s :: l' => match slice_to_str l' with Ok r => Ok (s :: r) | e => e end
  | _ => Err (ENew TFieldType)
  end.

(** encoding/util.go:20-26 SliceInterfaceToInt: unchecked assertion *)
Fixpoint slice_to_int (l : list gval) : res (list Z) :=
  match l with
  | [] => Ok []
  | GInt KInt64 z :: l' => match slice_to_int l' with Ok r => Ok (z :: r) | e => e end
  | _ => Panic
  end.

(** encoding/util.go:28-38 SliceInterfaceToNode, 52-62 SliceInterfaceToUnboundRelationship *)
Definition is_node (x : gval) : bool := match x with GNode _ _ _ => true | _ => false end.
Definition is_urel (x : gval) : bool := match x with GURel _ _ _ => true | _ => false end.
Definition slice_to (f : gval -> bool) (l : list gval) : res (list gval) :=
  if forallb f l then Ok l else Err (ENew TFieldType).

Definition lift {A} (r : res A) : parser A := fun b =>
  match r with Ok a => Ok (a, b) | Err e => Err e | Panic => Panic | NoFuel => NoFuel end.

(** decodeNode (decoderV1.go:321-354, decoderV2.go:633-666) *)
Definition dec_node (dec : parser gval) : parser gval :=
  x <- dec ;; id <- must_int64 x ;;
  y <- dec ;; l <- as_slice TFieldType y ;; labels <- lift (slice_to_str l) ;;
  z <- dec ;; props <- as_map TFieldType z ;;
  pret (GNode id labels props).

(** decodeRelationship (decoderV1.go:356-397, decoderV2.go:668-709) *)
Definition dec_rel (dec : parser gval) : parser gval :=
  x <- dec ;; id <- must_int64 x ;;
  x <- dec ;; st <- must_int64 x ;;
  x <- dec ;; en <- must_int64 x ;;
  y <- dec ;; ty <- as_str TFieldType y ;;
  z <- dec ;; props <- as_map TFieldType z ;;
  pret (GRel id st en ty props).

(** decodePath (decoderV1.go:399-439, decoderV2.go:711-751) *)
Definition dec_path (dec : parser gval) : parser gval :=
  x <- dec ;; l <- as_slice TFieldType x ;; nodes <- lift (slice_to is_node l) ;;
  y <- dec ;; l <- as_slice TFieldType y ;; rels <- lift (slice_to is_urel l) ;;
  z <- dec ;; l <- as_slice TFieldType z ;; sq <- lift (slice_to_int l) ;;
  pret (GPath nodes rels sq).

(** decodeUnboundRelationship (decoderV1.go:441-470, decoderV2.go:753-782) *)
Definition dec_urel (dec : parser gval) : parser gval :=
  x <- dec ;; id <- must_int64 x ;;
  y <- dec ;; ty <- as_str TFieldType y ;;
  z <- dec ;; props <- as_map TFieldType z ;;
  pret (GURel id ty props).

(** decodeRecordMessage (decoderV1.go:472-483, decoderV2.go:784-795) *)
Definition dec_record (dec : parser gval) : parser gval :=
  x <- dec ;; l <- as_slice TFieldType x ;; pret (GRecord l).
(** decodeFailureMessage (decoderV1.go:485-496, decoderV2.go:797-808) *)
Definition dec_failure (dec : parser gval) : parser gval :=
  x <- dec ;; m <- as_map TFieldType x ;; pret (GFailure m).
(** decodeSuccessMessage (decoderV1.go:502-513, decoderV2.go:814-825) *)
Definition dec_success (dec : parser gval) : parser gval :=
  x <- dec ;; m <- as_map TFieldType x ;; pret (GSuccess m).

(** decodePoint2D (decoderV2.go:546-582), decodePoint3D (decoderV2.go:584-631): values, not pointers *)
Definition dec_point2d (dec : parser gval) : parser gval :=
  a <- dec ;; srid <- as_int64 TCast a ;;
  b <- dec ;; x <- as_float TCast b ;;
  c <- dec ;; y <- as_float TCast c ;;
  pret (GPoint2D false srid x y).
Definition dec_point3d (dec : parser gval) : parser gval :=
  a <- dec ;; srid <- as_int64 TCast a ;;
  b <- dec ;; x <- as_float TCast b ;;
  c <- dec ;; y <- as_float TCast c ;;
  d <- dec ;; z <- as_float TCast d ;;
  pret (GPoint3D false srid x y z).

(** decodeDate (decoderV2.go:334-347) *)
Definition dec_date (dec : parser gval) : parser gval :=
  a <- dec ;; d <- as_int64 TCast a ;; pret (GDate d).
(** decodeTime (decoderV2.go:349-374) *)
Definition dec_time (dec : parser gval) : parser gval :=
  a <- dec ;; n <- as_int64 TCast a ;;
  b <- dec ;; off <- as_int64 TCast b ;;
  pret (GClock n off).
(** decodeLocalTime (decoderV2.go:376-389); what it prints is in Stdout.v *)
Definition dec_localtime (dec : parser gval) : parser gval :=
  a <- dec ;; n <- as_int64 TCast a ;; pret (GLocalClock n).
(** decodeLocalDateTime (decoderV2.go:391-413) *)
Definition dec_localdatetime (dec : parser gval) : parser gval :=
  a <- dec ;; s <- as_int64 TCast a ;;
  b <- dec ;; n <- as_int64 TCast b ;;
  pret (GLocalTime s n).

(** time.Duration(-offset) * time.Second, with 64-bit wrap-around *)
Definition neg_offset_dur (off : Z) : Z := int64 (int64 (- off) * 1000000000).

(** decodeDateTimeWithZoneOffset (decoderV2.go:415-453) *)
Definition dec_datetime_offset (dec : parser gval) : parser gval :=
  a <- dec ;; s <- as_int64 TCast a ;;
  b <- dec ;; n <- as_int64 TCast b ;;
  c <- dec ;; off <- as_int64 TCast c ;;
  let '(s1, n1) := time_unix s n in
  let '(s2, n2) := time_add s1 n1 (neg_offset_dur off) in
  pret (GTime s2 n2 off).

(** time.LoadLocation: for each zone name, the offset in force at each Unix second (None: unknown
    zone). Operating-system data, hence a parameter. *)
Definition zones := bytes -> option (Z -> Z).

(** decodeTimeWithZoneId (decoderV2.go:456-499): the offset in force at the *local* seconds read as
    UTC is subtracted; the result carries the offset of the zone at the resulting instant. *)
Definition dec_datetime_zone (tz : zones) (dec : parser gval) : parser gval :=
  a <- dec ;; s <- as_int64 TCast a ;;
  b <- dec ;; n <- as_int64 TCast b ;;
  c <- dec ;; id <- as_str TCast c ;;
  match tz id with
  | None => perr TZoneInfo
  | Some zone =>
      let '(s1, n1) := time_unix s n in
      let off := zone s1 in
      let '(s2, n2) := time_add s1 n1 (neg_offset_dur off) in
      pret (GTime s2 n2 (zone s2))
  end.

(** decodeDuration (decoderV2.go:502-544): the product of the four components *)
Definition dec_duration (dec : parser gval) : parser gval :=
  a <- dec ;; months <- as_int64 TCast a ;;
  b <- dec ;; days <- as_int64 TCast b ;;
  c <- dec ;; seconds <- as_int64 TCast c ;;
  d <- dec ;; nanos <- as_int64 TCast d ;;
  pret (GDuration (int64 (int64 (int64 (months * days) * seconds) * nanos))).

(** decodeStruct (decoderV1.go:286-319, decoderV2.go:281-332). The size is not looked at. *)
Definition dec_struct (v : ver) (tz : zones) (dec : parser gval) : parser gval := fun buf =>
  match buf with
  | [] => Err (EWrap (Some EEOF) 15)
  | sb :: b =>
      let s := bz sb in
      if s =? SigNode then dec_node dec b
      else if s =? SigRel then dec_rel dec b
      else if s =? SigPath then dec_path dec b
      else if s =? SigURel then dec_urel dec b
      else if s =? SigRecord then dec_record dec b
      else if s =? SigFailure then dec_failure dec b
      else if s =? SigIgnored then Ok (GIgnored, b)
      else if s =? SigSuccess then dec_success dec b
      else if s =? SigDiscardAll then Ok (GDiscardAll, b)
      else if s =? SigPullAll then Ok (GPullAll, b)
      else if s =? SigReset then Ok (GReset, b)
      else
        match v with
        | V1 => Err (ENew TUnrecognizedStruct)
        | V2 =>
            if s =? SigPoint2D then dec_point2d dec b
            else if s =? SigPoint3D then dec_point3d dec b
            else if s =? SigDate then dec_date dec b
            else if s =? SigTime then dec_time dec b
            else if s =? SigLocalTime then dec_localtime dec b
            else if s =? SigLocalDateTime then dec_localdatetime dec b
            else if s =? SigDateTimeOffset then dec_datetime_offset dec b
            else if s =? SigDateTimeZoneId then dec_datetime_zone tz dec b
            else if s =? SigDuration then dec_duration dec b
            else Err (ENew TUnrecognizedStruct)
        end
  end.

(** decode (decoderV1.go:103-249, decoderV2.go:98-244): one value; the switch in source order *)
Definition dec_body (v : ver) (tz : zones) (dec : parser gval) : parser gval := fun buf =>
  match buf with
  | [] => Err (EWrap (Some EEOF) 16)
  | mb :: b =>
      let m := bz mb in
      let mi := int8 m in
      if m =? NilMarker then Ok (GNil, b)
      else if m =? TrueMarker then Ok (GBool true, b)
      else if m =? FalseMarker then Ok (GBool false, b)
      else if (mi >=? -16) && (mi <=? 127) then Ok (GInt KInt64 mi, b)
      else if m =? Int8Marker then (x <- read_int 1 ;; pret (GInt KInt64 x)) b
      else if m =? Int16Marker then (x <- read_int 2 ;; pret (GInt KInt64 x)) b
      else if m =? Int32Marker then (x <- read_int 4 ;; pret (GInt KInt64 x)) b
      else if m =? Int64Marker then (x <- read_int 8 ;; pret (GInt KInt64 x)) b
      else if m =? FloatMarker then (x <- read_be 8 ;; pret (GFloat64 x)) b
      else if (m >=? TinyStringMarker) && (m <=? TinyStringMarker + 0x0F) then
        let size := m - TinyStringMarker in
        if size =? 0 then Ok (GStr [], b) else pstr size b
      else if m =? String8Marker then (n <- read_size 1 ;; pstr n) b
      else if m =? String16Marker then (n <- read_size 2 ;; pstr n) b
      else if m =? String32Marker then (n <- read_size 4 ;; pstr n) b
      else if (m >=? TinySliceMarker) && (m <=? TinySliceMarker + 0x0F) then
        dec_slice dec (m - TinySliceMarker) b
      else if m =? Slice8Marker then (n <- read_size 1 ;; dec_slice dec n) b
      else if m =? Slice16Marker then (n <- read_size 2 ;; dec_slice dec n) b
      else if m =? Slice32Marker then (n <- read_size 4 ;; dec_slice dec n) b
      else if (m >=? TinyMapMarker) && (m <=? TinyMapMarker + 0x0F) then
        dec_map dec (m - TinyMapMarker) b
      else if m =? Map8Marker then (n <- read_size 1 ;; dec_map dec n) b
      else if m =? Map16Marker then (n <- read_size 2 ;; dec_map dec n) b
      else if m =? Map32Marker then (n <- read_size 4 ;; dec_map dec n) b
      else if (m >=? TinyStructMarker) && (m <=? TinyStructMarker + 0x0F) then dec_struct v tz dec b
      else if m =? Struct8Marker then (n <- read_size 1 ;; dec_struct v tz dec) b
      else if m =? Struct16Marker then (n <- read_size 2 ;; dec_struct v tz dec) b
      else Err (ENew TUnrecognizedMarker)
  end.

(** The recursion; [fuel] bounds the nesting depth. *)
Fixpoint decode_fuel (v : ver) (tz : zones) (fuel : nat) : parser gval :=
  match fuel with
  | O => fun _ => NoFuel
  | S f => dec_body v tz (decode_fuel v tz f)
  end.

(** d.decode(buffer) *)
Definition decode (v : ver) (tz : zones) (b : bytes) : res (gval * bytes) :=
  decode_fuel v tz (S (length b)) b.

(** Decode (decoderV1.go:94-101, decoderV2.go:89-96): one message; bytes of the message that decode
    leaves unread are dropped. Result: the value and the stream after the message. *)
Definition decoder_decode (v : ver) (tz : zones) (r : reader) : res (gval * reader) :=
  match read_message r with
  | Ok (data, fs) =>
      match decode v tz data with
      | Ok (x, _) => Ok (x, mkReader fs (r_end r))
      | Err e => Err e
      | Panic => Panic
      | NoFuel => NoFuel
      end
  | Err e => Err e
  | Panic => Panic
  | NoFuel => NoFuel
  end.

(** Unmarshal (decoderV1.go:37-39, decoderV2.go:32-34): bytes.Buffer delivers all it has at once,
    then io.EOF. *)
Definition unmarshal (v : ver) (tz : zones) (b : bytes) : res gval :=
  match decoder_decode v tz (mkReader (match b with [] => [] | _ => [b] end) EEOF) with
  | Ok (x, _) => Ok x
  | Err e => Err e
  | Panic => Panic
  | NoFuel => NoFuel
  end.
