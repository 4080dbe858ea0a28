(** Specification side: which Go values are well typed, which are supported, and what a value
    should be received as. Refers to Go values only, not to the codec. *)
From Coq Require Import ZArith List Bool Permutation.
From Verif Require Import Bytes GoVal SpecPack.
Import ListNotations.
Open Scope Z_scope.

(** Value range of each built-in integer kind (64-bit platform). *)
Definition kind_min (k : ikind) : Z :=
  match k with
  | KInt | KInt64 => - 2 ^ 63
  | KInt8 => - 2 ^ 7
  | KInt16 => - 2 ^ 15
  | KInt32 => - 2 ^ 31
  | _ => 0
  end.
Definition kind_max (k : ikind) : Z :=
  match k with
  | KInt | KInt64 => 2 ^ 63 - 1
  | KInt8 => 2 ^ 7 - 1
  | KInt16 => 2 ^ 15 - 1
  | KInt32 => 2 ^ 31 - 1
  | KUint | KUint64 => 2 ^ 64 - 1
  | KUint8 => 2 ^ 8 - 1
  | KUint16 => 2 ^ 16 - 1
  | KUint32 => 2 ^ 32 - 1
  end.
Definition in_kind (k : ikind) (z : Z) : bool := (kind_min k <=? z) && (z <=? kind_max k).
Definition is_int64 (z : Z) : bool := (- 2 ^ 63 <=? z) && (z <? 2 ^ 63).
Definition is_bits64 (b : Z) : bool := (0 <=? b) && (b <? 2 ^ 64).

(** What Go's type system guarantees of a value: numbers in the range of their type, map keys
    pairwise different, path elements of the right type, nanoseconds of a time within a second. A
    structure's signature is one byte (all structures of the driver; an obligation for user-defined
    ones). *)
Fixpoint go_typed (x : gval) : bool :=
  let props (m : list (bytes * gval)) :=
    nodupb (map fst m) && forallb (fun kv => go_typed (snd kv)) m in
  match x with
  | GInt k z => in_kind k z
  | GFloat32 b => (0 <=? b) && (b <? 2 ^ 32)
  | GFloat64 b => is_bits64 b
  | GSlice l | GTSlice l | GRecord l => forallb go_typed l
  | GMap m | GSuccess m | GFailure m => props m
  | GNode id _ m => is_int64 id && props m
  | GRel id st en _ m => is_int64 id && is_int64 st && is_int64 en && props m
  | GURel id _ m => is_int64 id && props m
  | GPath ns rs sq =>
      forallb go_typed ns && forallb (fun x => match x with GNode _ _ _ => true | _ => false end) ns
      && forallb go_typed rs && forallb (fun x => match x with GURel _ _ _ => true | _ => false end) rs
      && forallb is_int64 sq
  | GPoint2D _ srid x y => is_int64 srid && is_bits64 x && is_bits64 y
  | GPoint3D _ srid x y z => is_int64 srid && is_bits64 x && is_bits64 y && is_bits64 z
  | GDate d => is_int64 d
  | GClock n off => is_int64 n && is_int64 off
  | GLocalClock n => is_int64 n
  | GLocalTime s n => is_int64 s && is_int64 n
  | GTime s n off => is_int64 s && (0 <=? n) && (n <? 1000000000) && is_int64 off
  | GDuration d => is_int64 d
  | GStructure sig fs => (0 <=? sig) && (sig <? 256) && forallb go_typed fs
  | _ => true
  end.

(** Every element is of a type the codec version supports and no uint64 exceeds the int64 range.
    Points are supported through pointers (their methods have pointer receivers). *)
Fixpoint supported (v : ver) (x : gval) : bool :=
  let v2 := match v with V1 => false | V2 => true end in
  let props (m : list (bytes * gval)) := forallb (fun kv => supported v (snd kv)) m in
  match x with
  | GOther => false
  | GInt KUint64 z => z <? 2 ^ 63
  | GSlice l | GTSlice l | GRecord l | GStructure _ l => forallb (supported v) l
  | GMap m | GSuccess m | GFailure m | GNode _ _ m | GRel _ _ _ _ m | GURel _ _ m => props m
  | GPath ns rs _ => forallb (supported v) ns && forallb (supported v) rs
  | GPoint2D ptr _ _ _ | GPoint3D ptr _ _ _ _ => ptr
  | GDate _ | GClock _ _ | GLocalClock _ | GLocalTime _ _ | GTime _ _ _ | GDuration _ => v2
  | _ => true
  end.

(** The lengths of all strings and collections occurring in a value. *)
Fixpoint lens (x : gval) : list Z :=
  let props (m : list (bytes * gval)) :=
    zlen m :: flat_map (fun kv => zlen (fst kv) :: lens (snd kv)) m in
  match x with
  | GStr s => [zlen s]
  | GSlice l | GTSlice l | GRecord l => zlen l :: flat_map lens l
  | GMap m | GSuccess m | GFailure m => props m
  | GNode _ labels m => zlen labels :: map zlen labels ++ props m
  | GRel _ _ _ ty m | GURel _ ty m => zlen ty :: props m
  | GPath ns rs sq => zlen ns :: flat_map lens ns ++ zlen rs :: flat_map lens rs ++ [zlen sq]
  | GStructure _ fs => zlen fs :: flat_map lens fs
  | _ => []
  end.

(** No user-defined structure in the value has more than 65535 fields. *)
Fixpoint struct_sizes_ok (x : gval) : bool :=
  let props (m : list (bytes * gval)) := forallb (fun kv => struct_sizes_ok (snd kv)) m in
  match x with
  | GSlice l | GTSlice l | GRecord l => forallb struct_sizes_ok l
  | GMap m | GSuccess m | GFailure m | GNode _ _ m | GRel _ _ _ _ m | GURel _ _ m => props m
  | GPath ns rs _ => forallb struct_sizes_ok ns && forallb struct_sizes_ok rs
  | GStructure _ fs => (zlen fs <=? 65535) && forallb struct_sizes_ok fs
  | _ => true
  end.

(** The lengths of all byte strings (values, keys, labels, type names) in a value. *)
Fixpoint str_lens (x : gval) : list Z :=
  let props (m : list (bytes * gval)) := flat_map (fun kv => zlen (fst kv) :: str_lens (snd kv)) m in
  match x with
  | GStr s => [zlen s]
  | GSlice l | GTSlice l | GRecord l | GStructure _ l => flat_map str_lens l
  | GMap m | GSuccess m | GFailure m => props m
  | GNode _ labels m => map zlen labels ++ props m
  | GRel _ _ _ ty m | GURel _ ty m => zlen ty :: props m
  | GPath ns rs _ => flat_map str_lens ns ++ flat_map str_lens rs
  | _ => []
  end.

(** Values that have a received form: everything but durations and user-defined structures;
    integers fit int64; zone offsets are below 2^31 seconds and the local time fits int64. *)
Fixpoint plain (v : ver) (x : gval) : bool :=
  let v2 := match v with V1 => false | V2 => true end in
  let props (m : list (bytes * gval)) := forallb (fun kv => plain v (snd kv)) m in
  match x with
  | GOther | GDuration _ | GStructure _ _ => false
  | GInt _ z => z <? 2 ^ 63
  | GSlice l | GTSlice l | GRecord l => forallb (plain v) l
  | GMap m | GSuccess m | GFailure m | GNode _ _ m | GRel _ _ _ _ m | GURel _ _ m => props m
  | GPath ns rs _ => forallb (plain v) ns && forallb (plain v) rs
  | GPoint2D ptr _ _ _ | GPoint3D ptr _ _ _ _ => v2 && ptr
  | GTime s _ off => v2 && (- 2 ^ 31 <=? off) && (off <? 2 ^ 31) && is_int64 (s + off)
  | GDate _ | GClock _ _ | GLocalClock _ | GLocalTime _ _ => v2
  | _ => true
  end.

(** The Go value a sent value comes back as: the same, with integers as int64, float32 as the
    float64 [widen] says, slices as []interface{} and points by value. *)
Fixpoint received (widen : Z -> Z) (x : gval) : gval :=
  let props (m : list (bytes * gval)) := map (fun kv => (fst kv, received widen (snd kv))) m in
  match x with
  | GInt _ z => GInt KInt64 z
  | GFloat32 b => GFloat64 (widen b)
  | GSlice l | GTSlice l => GSlice (map (received widen) l)
  | GMap m => GMap (props m)
  | GSuccess m => GSuccess (props m)
  | GFailure m => GFailure (props m)
  | GRecord l => GRecord (map (received widen) l)
  | GNode id labels m => GNode id labels (props m)
  | GRel id st en ty m => GRel id st en ty (props m)
  | GURel id ty m => GURel id ty (props m)
  | GPath ns rs sq => GPath (map (received widen) ns) (map (received widen) rs) sq
  | GPoint2D _ srid x y => GPoint2D false srid x y
  | GPoint3D _ srid x y z => GPoint3D false srid x y z
  | _ => x
  end.

(** ** Numeric value of IEEE-754 bit patterns *)

(** Classification of a float64 bit pattern: NaN, infinity with sign, or a finite number given as
    sign and magnitude times 2^1074 (an integer: 2^-1074 is the smallest positive double). *)
Inductive fnum := FNaN | FInf (neg : bool) | FFin (neg : bool) (scaled : Z).

Definition num64 (b : Z) : fnum :=
  let neg := 2 ^ 63 <=? b in
  let e := (b / 2 ^ 52) mod 2048 in
  let m := b mod 2 ^ 52 in
  if e =? 2047 then (if m =? 0 then FInf neg else FNaN)
  else if e =? 0 then FFin neg m                           (* m * 2^-1074 *)
  else FFin neg ((2 ^ 52 + m) * 2 ^ (e - 1)).              (* (2^52+m) * 2^(e-1075) *)

(** The same for float32: smallest positive number 2^-149 = 2^925 * 2^-1074. *)
Definition num32 (b : Z) : fnum :=
  let neg := 2 ^ 31 <=? b in
  let e := (b / 2 ^ 23) mod 256 in
  let m := b mod 2 ^ 23 in
  if e =? 255 then (if m =? 0 then FInf neg else FNaN)
  else if e =? 0 then FFin neg (m * 2 ^ 925)
  else FFin neg ((2 ^ 23 + m) * 2 ^ (e - 1 + 925)).

(** ** Further relations between values *)

(** The PackStream item that represents a value with a received form, by the published structure
    definitions: date-times carry local seconds, nanoseconds and the offset. *)
Fixpoint item (widen : Z -> Z) (x : gval) : pv :=
  let props (m : list (bytes * gval)) := PMap (map (fun kv => (fst kv, item widen (snd kv))) m) in
  match x with
  | GNil => PNull
  | GBool b => PBool b
  | GInt _ z => PInt z
  | GFloat32 b => PFloat (widen b)
  | GFloat64 b => PFloat b
  | GStr s => PStr s
  | GSlice l | GTSlice l => PList (map (item widen) l)
  | GMap m => props m
  | GNode id labels m => PStruct 78 [PInt id; PList (map PStr labels); props m]
  | GRel id st en ty m => PStruct 82 [PInt id; PInt st; PInt en; PStr ty; props m]
  | GURel id ty m => PStruct 114 [PInt id; PStr ty; props m]
  | GPath ns rs sq =>
      PStruct 80 [PList (map (item widen) ns); PList (map (item widen) rs); PList (map PInt sq)]
  | GPoint2D _ srid x y => PStruct 88 [PInt srid; PFloat x; PFloat y]
  | GPoint3D _ srid x y z => PStruct 89 [PInt srid; PFloat x; PFloat y; PFloat z]
  | GDate d => PStruct 68 [PInt d]
  | GClock n off => PStruct 84 [PInt n; PInt off]
  | GLocalClock n => PStruct 116 [PInt n]
  | GLocalTime s n => PStruct 100 [PInt s; PInt n]
  | GTime s n off => PStruct 70 [PInt (s + off); PInt n; PInt off]
  | GSuccess m => PStruct 112 [props m]
  | GFailure m => PStruct 127 [props m]
  | GRecord l => PStruct 113 [PList (map (item widen) l)]
  | GIgnored => PStruct 126 []
  | GDiscardAll => PStruct 47 []
  | GPullAll => PStruct 63 []
  | GReset => PStruct 15 []
  | GDuration _ | GStructure _ _ | GOther => PErr TUnrecognizedType
  end.

(** Every typed slice replaced by the []interface{} with the same elements, at every depth. *)
Fixpoint untype (x : gval) : gval :=
  let props (m : list (bytes * gval)) := map (fun kv => (fst kv, untype (snd kv))) m in
  match x with
  | GSlice l | GTSlice l => GSlice (map untype l)
  | GMap m => GMap (props m)
  | GSuccess m => GSuccess (props m)
  | GFailure m => GFailure (props m)
  | GRecord l => GRecord (map untype l)
  | GNode id labels m => GNode id labels (props m)
  | GRel id st en ty m => GRel id st en ty (props m)
  | GURel id ty m => GURel id ty (props m)
  | GPath ns rs sq => GPath (map untype ns) (map untype rs) sq
  | GStructure sig l => GStructure sig (map untype l)
  | _ => x
  end.

(** Equal up to the enumeration order of maps, at every depth. *)
Inductive reorder : gval -> gval -> Prop :=
| ro_refl x : reorder x x
| ro_slice l l' : reorder_list l l' -> reorder (GSlice l) (GSlice l')
| ro_tslice l l' : reorder_list l l' -> reorder (GTSlice l) (GTSlice l')
| ro_record l l' : reorder_list l l' -> reorder (GRecord l) (GRecord l')
| ro_map m m' : reorder_props m m' -> reorder (GMap m) (GMap m')
| ro_success m m' : reorder_props m m' -> reorder (GSuccess m) (GSuccess m')
| ro_failure m m' : reorder_props m m' -> reorder (GFailure m) (GFailure m')
| ro_node id ls m m' : reorder_props m m' -> reorder (GNode id ls m) (GNode id ls m')
| ro_rel id st en ty m m' : reorder_props m m' -> reorder (GRel id st en ty m) (GRel id st en ty m')
| ro_urel id ty m m' : reorder_props m m' -> reorder (GURel id ty m) (GURel id ty m')
| ro_path ns ns' rs rs' sq : reorder_list ns ns' -> reorder_list rs rs' ->
    reorder (GPath ns rs sq) (GPath ns' rs' sq)
with reorder_list : list gval -> list gval -> Prop :=
| rl_nil : reorder_list [] []
| rl_cons x y l l' : reorder x y -> reorder_list l l' -> reorder_list (x :: l) (y :: l')
with reorder_props : list (bytes * gval) -> list (bytes * gval) -> Prop :=
| rp_nil : reorder_props [] []
| rp_cons k x y m m' : reorder x y -> reorder_props m m' -> reorder_props ((k, x) :: m) ((k, y) :: m')
| rp_perm m m' m'' : Permutation m m' -> reorder_props m' m'' -> reorder_props m m''.

(** Values without points, temporal values and user-defined structures. *)
Fixpoint graph_only (x : gval) : bool :=
  let props (m : list (bytes * gval)) := forallb (fun kv => graph_only (snd kv)) m in
  match x with
  | GSlice l | GTSlice l | GRecord l => forallb graph_only l
  | GMap m | GSuccess m | GFailure m | GNode _ _ m | GRel _ _ _ _ m | GURel _ _ m => props m
  | GPath ns rs _ => forallb graph_only ns && forallb graph_only rs
  | GPoint2D _ _ _ _ | GPoint3D _ _ _ _ _ | GDate _ | GClock _ _ | GLocalClock _ | GLocalTime _ _
  | GTime _ _ _ | GDuration _ | GStructure _ _ | GOther => false
  | _ => true
  end.

(** Values without temporal values, at every depth. *)
Fixpoint atemporal (x : gval) : bool :=
  let props (m : list (bytes * gval)) := forallb (fun kv => atemporal (snd kv)) m in
  match x with
  | GSlice l | GTSlice l | GRecord l | GStructure _ l => forallb atemporal l
  | GMap m | GSuccess m | GFailure m | GNode _ _ m | GRel _ _ _ _ m | GURel _ _ m => props m
  | GPath ns rs _ => forallb atemporal ns && forallb atemporal rs
  | GDate _ | GClock _ _ | GLocalClock _ | GLocalTime _ _ | GTime _ _ _ | GDuration _ => false
  | _ => true
  end.

(** ** Date-times with zone id and durations, as the server sends them *)

(** The instant [t] (Unix seconds) and [n] nanoseconds in the zone named [id] with offset [off] in
    force at [t]: local seconds, nanoseconds, zone name. *)
Definition zoned_item (t n : Z) (id : bytes) (off : Z) : pv := PStruct 102 [PInt (t + off); PInt n; PStr id].

(** A duration of months, days, seconds and nanoseconds, and the amount of time it denotes in
    nanoseconds when it has no months. *)
Definition duration_item (months days seconds nanos : Z) : pv :=
  PStruct 69 [PInt months; PInt days; PInt seconds; PInt nanos].
Definition duration_nanos (days seconds nanos : Z) : Z :=
  (days * 86400 + seconds) * 1000000000 + nanos.
