(** The language the decoder accepts, written as a grammar over bytes: which values the front of a
    byte sequence stands for, and on which byte sequences reading must end in a run-time panic.
    Independent of Decoder.v. Where the driver is more liberal than the published format this says
    how: sizes are read as signed numbers, a string may be cut short by the end of the message, the
    size of a structure is not looked at, a negative number of map entries is none, a repeated key
    takes its last value. *)
From Coq Require Import ZArith List Bool.
From Verif Require Import Bytes GoVal SpecPack SpecValues.
Import ListNotations.
Open Scope Z_scope.

Definition value (b : byte) : Z := Z.of_N (Byte.to_N b).

(** A header announcing [n] elements: the 4-bit form, or a marker and a signed size of 1, 2 or 4 bytes. *)
Inductive counted (tiny : Z) (m8 m16 m32 : byte) : Z -> bytes -> Prop :=
| co_tiny n b : 0 <= n <= 15 -> value b = tiny + n -> counted tiny m8 m16 m32 n [b]
| co_8 n s : signed_be 1 n s -> counted tiny m8 m16 m32 n (m8 :: s)
| co_16 n s : signed_be 2 n s -> counted tiny m8 m16 m32 n (m16 :: s)
| co_32 n s : signed_be 4 n s -> counted tiny m8 m16 m32 n (m32 :: s).
Definition string_head := counted 128 xd0 xd1 xd2.
Definition list_head := counted 144 xd4 xd5 xd6.
Definition map_head := counted 160 xd8 xd9 xda.
(** A structure header with any size. *)
Inductive struct_head : bytes -> Prop :=
| sh_tiny b : 176 <= value b <= 191 -> struct_head [b]
| sh_8 s : length s = 1%nat -> struct_head (xdc :: s)
| sh_16 s : length s = 2%nat -> struct_head (xdd :: s).

(** What the field of a structure must be. *)
Inductive kind := KId | KNum | KReal | KText | KTexts | KNodes | KURels | KSeq | KProps | KList.
Definition is_num (x : gval) : bool := match x with GInt KInt64 _ => true | _ => false end.
Definition is_text (x : gval) : bool := match x with GStr _ => true | _ => false end.
Definition fits (k : kind) (x : gval) : bool :=
  match k, x with
  | KId, GInt KInt64 _ | KNum, GInt KInt64 _ | KReal, GFloat64 _ | KText, GStr _ | KProps, GMap _
  | KList, GSlice _ => true
  | KTexts, GSlice l => forallb is_text l
  | KNodes, GSlice l => forallb (fun x => match x with GNode _ _ _ => true | _ => false end) l
  | KURels, GSlice l => forallb (fun x => match x with GURel _ _ _ => true | _ => false end) l
  | KSeq, GSlice l => forallb is_num l
  | _, _ => false
  end.
(** The fields of each structure; None: not known to this version. *)
Definition fields_of (v : ver) (sig : Z) : option (list kind) :=
  let v2 (l : list kind) := match v with V1 => None | V2 => Some l end in
  match sig with
  | 78 => Some [KId; KTexts; KProps]
  | 82 => Some [KId; KId; KId; KText; KProps]
  | 80 => Some [KNodes; KURels; KSeq]
  | 114 => Some [KId; KText; KProps]
  | 113 => Some [KList]
  | 127 | 112 => Some [KProps]
  | 126 | 47 | 63 | 15 => Some []
  | 88 => v2 [KNum; KReal; KReal]
  | 89 => v2 [KNum; KReal; KReal; KReal]
  | 68 | 116 => v2 [KNum]
  | 84 | 100 => v2 [KNum; KNum]
  | 70 => v2 [KNum; KNum; KNum]
  | 102 => v2 [KNum; KNum; KText]
  | 69 => v2 [KNum; KNum; KNum; KNum]
  | _ => None
  end.

Definition texts (l : list gval) : list bytes := flat_map (fun x => match x with GStr s => [s] | _ => [] end) l.
Definition nums (l : list gval) : list Z := flat_map (fun x => match x with GInt _ z => [z] | _ => [] end) l.
(** A number cut to 64 bits. *)
Definition wrap64 (z : Z) : Z := (z + 2 ^ 63) mod 2 ^ 64 - 2 ^ 63.
Definition billion : Z := 1000000000.
(** The instant [s] seconds and [n] nanoseconds (of either sign) minus an offset of [off] seconds, as
    whole seconds and nanoseconds within the second, shown with offset [shown]. *)
Definition instant (s n off : Z) (shown : Z -> Z) : gval :=
  let t := s * billion + n + wrap64 (- off * billion) in GTime (t / billion) (t mod billion) (shown (t / billion)).
(** The value a structure with fields of the right kinds stands for. [zone]: the known time zones. *)
Definition build (zone : bytes -> option (Z -> Z)) (sig : Z) (fs : list gval) : option gval :=
  match sig, fs with
  | 78, [GInt _ id; GSlice ls; GMap m] => Some (GNode id (texts ls) m)
  | 82, [GInt _ id; GInt _ st; GInt _ en; GStr ty; GMap m] => Some (GRel id st en ty m)
  | 80, [GSlice ns; GSlice rs; GSlice sq] => Some (GPath ns rs (nums sq))
  | 114, [GInt _ id; GStr ty; GMap m] => Some (GURel id ty m)
  | 113, [GSlice l] => Some (GRecord l)
  | 127, [GMap m] => Some (GFailure m)
  | 112, [GMap m] => Some (GSuccess m)
  | 126, [] => Some GIgnored
  | 47, [] => Some GDiscardAll
  | 63, [] => Some GPullAll
  | 15, [] => Some GReset
  | 88, [GInt _ srid; GFloat64 x; GFloat64 y] => Some (GPoint2D false srid x y)
  | 89, [GInt _ srid; GFloat64 x; GFloat64 y; GFloat64 z] => Some (GPoint3D false srid x y z)
  | 68, [GInt _ d] => Some (GDate d)
  | 116, [GInt _ n] => Some (GLocalClock n)
  | 84, [GInt _ n; GInt _ off] => Some (GClock n off)
  | 100, [GInt _ s; GInt _ n] => Some (GLocalTime s n)
  | 70, [GInt _ s; GInt _ n; GInt _ off] => Some (instant s n off (fun _ => off))
  | 102, [GInt _ s; GInt _ n; GStr id] =>
      match zone id with
      | Some z => Some (instant s n (z ((s * billion + n) / billion)) z)
      | None => None
      end
  | 69, [GInt _ months; GInt _ days; GInt _ seconds; GInt _ nanos] =>
      Some (GDuration (wrap64 (months * days * seconds * nanos)))
  | _, _ => None
  end.

(** A map from its entries in order: keys stay where they first stood, the last value counts. *)
Fixpoint put (m : list (bytes * gval)) (k : bytes) (x : gval) : list (bytes * gval) :=
  match m with
  | [] => [(k, x)]
  | (k', y) :: m' => if bytes_eqb k k' then (k, x) :: m' else (k', y) :: put m' k x
  end.
Definition as_map_value (kvs : list (bytes * gval)) : list (bytes * gval) :=
  fold_left (fun m kv => put m (fst kv) (snd kv)) kvs [].
(** Entries as they stand in the message: key, value, key, value. *)
Definition laid_out (kvs : list (bytes * gval)) : list gval := flat_map (fun kv => [GStr (fst kv); snd kv]) kvs.

Section Grammar.
  Variables (v : ver) (zone : bytes -> option (Z -> Z)).
  (** [gives b x r]: the front of [b] stands for [x] and [r] is what follows it. *)
  Inductive gives : bytes -> gval -> bytes -> Prop :=
  | gi_null r : gives (xc0 :: r) GNil r
  | gi_false r : gives (xc2 :: r) (GBool false) r
  | gi_true r : gives (xc3 :: r) (GBool true) r
  | gi_small b z r : signed_be 1 z [b] -> -16 <= z <= 127 -> gives (b :: r) (GInt KInt64 z) r
  | gi_int m w s z r : In (m, w) [(xc8, 1%nat); (xc9, 2%nat); (xca, 4%nat); (xcb, 8%nat)] -> signed_be w z s ->
      gives (m :: s ++ r) (GInt KInt64 z) r
  | gi_float s z r : unsigned_be 8 z s -> gives (xc1 :: s ++ r) (GFloat64 z) r
  | gi_string h n b : string_head n h -> 0 <= n ->
      gives (h ++ b) (GStr (firstn (Z.to_nat n) b)) (skipn (Z.to_nat n) b)
  | gi_list h n b xs r : list_head n h -> zlen xs = n -> gives_all b xs r -> gives (h ++ b) (GSlice xs) r
  | gi_map h n b kvs r : map_head n h -> zlen kvs = Z.max 0 n -> gives_all b (laid_out kvs) r ->
      gives (h ++ b) (GMap (as_map_value kvs)) r
  | gi_struct h sig ks b xs r x : struct_head h -> fields_of v (value sig) = Some ks -> gives_all b xs r ->
      length xs = length ks -> forallb (fun kx => fits (fst kx) (snd kx)) (combine ks xs) = true ->
      build zone (value sig) xs = Some x -> gives (h ++ sig :: b) x r
  with gives_all : bytes -> list gval -> bytes -> Prop :=
  | ga_nil b : gives_all b [] b
  | ga_cons b x b' xs r : gives b x b' -> gives_all b' xs r -> gives_all b (x :: xs) r.

  (** [crash b]: reading the front of [b] panics. A string or list announces a negative size; an
      identity is not a number; the sequence of a path holds something that is not a number; or
      this is so at a part that is reached. *)
  Definition fatal (k : kind) (x : gval) : bool :=
    match k, x with
    | KId, _ => negb (is_num x)
    | KSeq, GSlice l => negb (forallb is_num l)
    | _, _ => false
    end.
  Inductive crash : bytes -> Prop :=
  | cr_size h n r : string_head n h \/ list_head n h -> n < 0 -> crash (h ++ r)
  | cr_item h n b xs b' : list_head n h -> gives_all b xs b' -> zlen xs < n -> crash b' -> crash (h ++ b)
  | cr_key h n b kvs b' : map_head n h -> gives_all b (laid_out kvs) b' -> zlen kvs < n -> crash b' -> crash (h ++ b)
  | cr_value h n b kvs b' x b'' : map_head n h -> gives_all b (laid_out kvs) b' -> zlen kvs < n ->
      gives b' x b'' -> crash b'' -> crash (h ++ b)
  | cr_field h sig ks k ks' b xs b' : struct_head h -> fields_of v (value sig) = Some (ks ++ k :: ks') ->
      gives_all b xs b' -> length xs = length ks -> forallb (fun kx => fits (fst kx) (snd kx)) (combine ks xs) = true ->
      crash b' -> crash (h ++ sig :: b)
  | cr_kind h sig ks k ks' b xs b' x b'' : struct_head h -> fields_of v (value sig) = Some (ks ++ k :: ks') ->
      gives_all b xs b' -> length xs = length ks -> forallb (fun kx => fits (fst kx) (snd kx)) (combine ks xs) = true ->
      gives b' x b'' -> fatal k x = true -> crash (h ++ sig :: b).
End Grammar.
