(** Specification of the wire format, written from the published PackStream / Bolt description and
    independent of the encoder and decoder models: which byte sequences represent which items, and
    how a message is cut into chunks. Nothing here refers to Encoder.v or Decoder.v. *)
From Coq Require Import ZArith List Bool.
From Verif Require Import Bytes GoVal.
Import ListNotations.
Open Scope Z_scope.

(** Unsigned value of a big-endian byte sequence, most significant byte first. *)
Fixpoint be_value (l : bytes) : Z :=
  match l with
  | [] => 0
  | b :: l' => Z.of_N (Byte.to_N b) * 256 ^ Z.of_nat (length l') + be_value l'
  end.

(** [l] is the n-byte unsigned big-endian representation of [z]. *)
Definition unsigned_be (n : nat) (z : Z) (l : bytes) : Prop :=
  length l = n /\ be_value l = z.

(** [l] is the n-byte two's complement big-endian representation of [z]. *)
Definition signed_be (n : nat) (z : Z) (l : bytes) : Prop :=
  length l = n /\ - 2 ^ (8 * Z.of_nat n - 1) <= z < 2 ^ (8 * Z.of_nat n - 1)
  /\ be_value l = (if z <? 0 then z + 2 ^ (8 * Z.of_nat n) else z).

(** Size limits of the 8, 16 and 32 bit size fields. The format reads sizes as unsigned numbers. *)
Record limits := mkLimits { lim8 : Z; lim16 : Z; lim32 : Z }.
Definition format_limits : limits := mkLimits 256 65536 4294967296.
(** The sizes below which reading the size field as a signed number makes no difference. *)
Definition signed_limits : limits := mkLimits 128 32768 2147483648.

(** Header of a collection of [n] elements: [tiny] is the marker of the 4-bit form (high nibble),
    m8, m16, m32 the markers of the wider forms. *)
Inductive header (L : limits) (tiny : Z) (m8 m16 : byte) (m32 : option byte) (n : Z) : bytes -> Prop :=
| hd_tiny b : 0 <= n <= 15 -> Z.of_N (Byte.to_N b) = tiny + n -> header L tiny m8 m16 m32 n [b]
| hd_8 s : n < lim8 L -> unsigned_be 1 n s -> header L tiny m8 m16 m32 n (m8 :: s)
| hd_16 s : n < lim16 L -> unsigned_be 2 n s -> header L tiny m8 m16 m32 n (m16 :: s)
| hd_32 s m : m32 = Some m -> n < lim32 L -> unsigned_be 4 n s -> header L tiny m8 m16 m32 n (m :: s).

Definition string_header L := header L 128 xd0 xd1 (Some xd2).   (* 0x80, D0, D1, D2 *)
Definition list_header L := header L 144 xd4 xd5 (Some xd6).     (* 0x90, D4, D5, D6 *)
Definition map_header L := header L 160 xd8 xd9 (Some xda).      (* 0xA0, D8, D9, DA *)
Definition struct_header L := header L 176 xdc xdd None.         (* 0xB0, DC, DD *)

(** [packs L p bs]: [bs] is a valid representation of the item [p]. Any width that can hold the
    number or size is valid. *)
Inductive packs (L : limits) : pv -> bytes -> Prop :=
| pk_null : packs L PNull [xc0]
| pk_false : packs L (PBool false) [xc2]
| pk_true : packs L (PBool true) [xc3]
| pk_int_tiny z b : -16 <= z <= 127 -> signed_be 1 z [b] -> packs L (PInt z) [b]
| pk_int8 z s : signed_be 1 z s -> packs L (PInt z) (xc8 :: s)
| pk_int16 z s : signed_be 2 z s -> packs L (PInt z) (xc9 :: s)
| pk_int32 z s : signed_be 4 z s -> packs L (PInt z) (xca :: s)
| pk_int64 z s : signed_be 8 z s -> packs L (PInt z) (xcb :: s)
| pk_float b s : unsigned_be 8 b s -> packs L (PFloat b) (xc1 :: s)
| pk_string s h : string_header L (zlen s) h -> packs L (PStr s) (h ++ s)
| pk_list l h bs : list_header L (zlen l) h -> packs_seq L l bs -> packs L (PList l) (h ++ bs)
| pk_map m h bs : map_header L (zlen m) h -> packs_entries L m bs -> packs L (PMap m) (h ++ bs)
| pk_struct sig fs h b bs :
    struct_header L (zlen fs) h -> Z.of_N (Byte.to_N b) = sig -> packs_seq L fs bs ->
    packs L (PStruct sig fs) (h ++ b :: bs)
with packs_seq (L : limits) : list pv -> bytes -> Prop :=
| ps_nil : packs_seq L [] []
| ps_cons p l b bs : packs L p b -> packs_seq L l bs -> packs_seq L (p :: l) (b ++ bs)
with packs_entries (L : limits) : list (bytes * pv) -> bytes -> Prop :=
| pe_nil : packs_entries L [] []
| pe_cons k p m kb b bs :
    packs L (PStr k) kb -> packs L p b -> packs_entries L m bs ->
    packs_entries L ((k, p) :: m) (kb ++ b ++ bs).

(** Chunk framing: a message is a sequence of non-empty chunks, each preceded by its length as an
    unsigned 16-bit big-endian number, ended by an empty chunk. [frames p w]: [w] is a valid
    framing of payload [p]. *)
Inductive frames : bytes -> bytes -> Prop :=
| fr_end : frames [] [x00; x00]
| fr_chunk c h p w :
    c <> [] -> zlen c <= 65535 -> unsigned_be 2 (zlen c) h -> frames p w ->
    frames (c ++ p) (h ++ c ++ w).

(** ** What a received item means as a Go value *)

Fixpoint all_some {A} (l : list (option A)) : option (list A) :=
  match l with
  | [] => Some []
  | Some a :: l' => match all_some l' with Some r => Some (a :: r) | None => None end
  | None :: _ => None
  end.

Definition str_of (g : gval) : option bytes := match g with GStr s => Some s | _ => None end.
Definition int_of (g : gval) : option Z := match g with GInt KInt64 z => Some z | _ => None end.
Definition node_of (g : gval) : option gval := match g with GNode _ _ _ => Some g | _ => None end.
Definition urel_of (g : gval) : option gval := match g with GURel _ _ _ => Some g | _ => None end.

Fixpoint nodupb (l : list bytes) : bool :=
  match l with
  | [] => true
  | k :: l' => negb (existsb (bytes_eqb k) l') && nodupb l'
  end.

(** Structures of the Bolt protocol by signature character and field types. Version 1 of the codec
    knows graph entities and messages; version 2 also points and temporal values. Date-times with
    zone id and durations are specified separately (SpecValues.v). *)
Definition struct_meaning (v : ver) (sig : Z) (fs : list gval) : option gval :=
  if sig =? 78 (* 'N' *) then
    match fs with
    | [GInt KInt64 id; GSlice ls; GMap props] =>
        match all_some (map str_of ls) with
        | Some labels => Some (GNode id labels props)
        | None => None
        end
    | _ => None
    end
  else if sig =? 82 (* 'R' *) then
    match fs with
    | [GInt KInt64 id; GInt KInt64 st; GInt KInt64 en; GStr ty; GMap props] =>
        Some (GRel id st en ty props)
    | _ => None
    end
  else if sig =? 114 (* 'r' *) then
    match fs with [GInt KInt64 id; GStr ty; GMap props] => Some (GURel id ty props) | _ => None end
  else if sig =? 80 (* 'P' *) then
    match fs with
    | [GSlice ns; GSlice rs; GSlice sq] =>
        match all_some (map node_of ns), all_some (map urel_of rs), all_some (map int_of sq) with
        | Some ns', Some rs', Some sq' => Some (GPath ns' rs' sq')
        | _, _, _ => None
        end
    | _ => None
    end
  else if sig =? 112 (* 0x70 SUCCESS *) then
    match fs with [GMap md] => Some (GSuccess md) | _ => None end
  else if sig =? 127 (* 0x7F FAILURE *) then
    match fs with [GMap md] => Some (GFailure md) | _ => None end
  else if sig =? 113 (* 0x71 RECORD *) then
    match fs with [GSlice vs] => Some (GRecord vs) | _ => None end
  else if sig =? 126 (* 0x7E IGNORED *) then match fs with [] => Some GIgnored | _ => None end
  else if sig =? 47 (* 0x2F DISCARD_ALL *) then match fs with [] => Some GDiscardAll | _ => None end
  else if sig =? 63 (* 0x3F PULL_ALL *) then match fs with [] => Some GPullAll | _ => None end
  else if sig =? 15 (* 0x0F RESET *) then match fs with [] => Some GReset | _ => None end
  else
    match v with
    | V1 => None
    | V2 =>
        if sig =? 88 (* 'X' *) then
          match fs with
          | [GInt KInt64 srid; GFloat64 x; GFloat64 y] => Some (GPoint2D false srid x y)
          | _ => None
          end
        else if sig =? 89 (* 'Y' *) then
          match fs with
          | [GInt KInt64 srid; GFloat64 x; GFloat64 y; GFloat64 z] => Some (GPoint3D false srid x y z)
          | _ => None
          end
        else if sig =? 68 (* 'D' *) then
          match fs with [GInt KInt64 d] => Some (GDate d) | _ => None end
        else if sig =? 84 (* 'T' *) then
          match fs with [GInt KInt64 n; GInt KInt64 off] => Some (GClock n off) | _ => None end
        else if sig =? 116 (* 't' *) then
          match fs with [GInt KInt64 n] => Some (GLocalClock n) | _ => None end
        else if sig =? 100 (* 'd' *) then
          match fs with [GInt KInt64 s; GInt KInt64 n] => Some (GLocalTime s n) | _ => None end
        else if sig =? 70 (* 'F' *) then
          (* the seconds are local: instant + offset *)
          match fs with
          | [GInt KInt64 s; GInt KInt64 n; GInt KInt64 off] =>
              if (0 <=? n) && (n <? 1000000000) && (-2147483648 <=? off) && (off <? 2147483648)
              then Some (GTime (s - off) n off) else None
          | _ => None
          end
        else None
    end.

(** The Go value an item should be received as: integers as int64, lists as []interface{}, maps
    (with pairwise different keys) as map[string]interface{}, structures as above. *)
Fixpoint meaning (v : ver) (p : pv) : option gval :=
  match p with
  | PNull => Some GNil
  | PBool b => Some (GBool b)
  | PInt z => Some (GInt KInt64 z)
  | PFloat b => Some (GFloat64 b)
  | PStr s => Some (GStr s)
  | PList l => match all_some (map (meaning v) l) with Some gs => Some (GSlice gs) | None => None end
  | PMap m =>
      if nodupb (map fst m) then
        match all_some (map (fun kv => meaning v (snd kv)) m) with
        | Some gs => Some (GMap (combine (map fst m) gs))
        | None => None
        end
      else None
  | PStruct sig fs =>
      match all_some (map (meaning v) fs) with
      | Some gs => struct_meaning v sig gs
      | None => None
      end
  | PErr _ => None
  end.

(** ** Which items can be represented at all *)

(** A collection of n elements has a valid header that uses the narrowest possible size field. *)
Definition size_ok (L : limits) (n : Z) : bool :=
  if n <=? 15 then true
  else if n <=? 255 then n <? lim8 L
  else if n <=? 65535 then n <? lim16 L
  else n <? lim32 L.

(** Integers of 64 bits, floats of 64 bits, signatures of one byte, collections within the size
    limits, structures of at most 65535 fields, at every level. *)
Fixpoint packable (L : limits) (p : pv) : bool :=
  match p with
  | PNull | PBool _ => true
  | PInt z => (- 2 ^ 63 <=? z) && (z <? 2 ^ 63)
  | PFloat b => (0 <=? b) && (b <? 2 ^ 64)
  | PStr s => size_ok L (zlen s)
  | PList l => size_ok L (zlen l) && forallb (packable L) l
  | PMap m => size_ok L (zlen m)
              && forallb (fun kv => size_ok L (zlen (fst kv)) && packable L (snd kv)) m
  | PStruct sig fs => (0 <=? sig) && (sig <? 256) && (zlen fs <=? 65535) && size_ok L (zlen fs)
                      && forallb (packable L) fs
  | PErr _ => false
  end.

(** Sizes whose narrowest size field has its top bit set. *)
Definition top_bit (n : Z) : Prop :=
  128 <= n <= 255 \/ 32768 <= n <= 65535 \/ 2147483648 <= n <= 4294967295.

(** ** Vocabulary about byte strings *)

(** [r] is a suffix of [b]; a proper suffix. *)
Definition suffix (r b : bytes) := exists pre, b = pre ++ r.
Definition psuffix (r b : bytes) := exists pre, pre <> [] /\ b = pre ++ r.

(** Bytes that are neither the marker of a string or list with an explicit size field nor the
    signature of a graph structure. *)
Definition tame (b : byte) : Prop :=
  ~ In b [xd0; xd1; xd2; xd4; xd5; xd6; x4e; x52; x50; x72].

(** Whether the representation of an item ends with the content bytes of a string. *)
Fixpoint ends_open (p : pv) : bool :=
  let last_open := fix lo (l : list pv) : bool :=
    match l with [] => false | [x] => ends_open x | _ :: l' => lo l' end in
  match p with
  | PStr [] => false
  | PStr _ => true
  | PList l | PStruct _ l => last_open l
  | PMap m => (fix lo (m : list (bytes * pv)) : bool :=
                 match m with [] => false | [(_, x)] => ends_open x | _ :: m' => lo m' end) m
  | _ => false
  end.

(** A fragmentation of a stream in which no fragment is empty. *)
Definition nonempty (fs : list bytes) := Forall (fun f => f <> []) fs.

