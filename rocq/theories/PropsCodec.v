(** Theorems C01-C25, C82, C83, C114 and C115: the codec. Every theorem is followed by a concrete case of its hypotheses. *)
From Coq Require Import ZArith List Bool Permutation String.
From Verif Require Import Bytes GoVal GoErr Encoder Decoder SpecPack SpecValues SpecCodec SpecGrammar SpecRefuse Memory SpecMemory
  DecodeFacts ValueFacts ReadFacts TotalFacts CutFacts SpecCut CutExact LinkFacts ShapeFacts TimeFacts RecvFacts CodecFacts GrammarFacts RefuseFacts MemoryFacts.
Import ListNotations.
Open Scope Z_scope.

Notation str s := (list_byte_of_string s%string).
Definition no_zones : zones := fun _ => None.

(** A mixed value used in the examples: a node, a path, a typed slice, floats, a map. *)
Definition ann : gval := GNode 7 [str "Person"] [(str "name", GStr (str "Ann")); (str "age", GInt KInt64 41)].
Definition knows : gval := GURel 9 (str "KNOWS") [(str "since", GInt KInt16 1999)].
Definition mixed : gval :=
  GMap [(str "n", ann); (str "p", GPath [ann; ann] [knows] [1; 1]);
        (str "l", GTSlice [GInt KUint8 200; GInt KInt32 (-70000); GFloat32 1069547520; GNil]);
        (str "b", GBool true)].

(** ** C01 *)
Theorem C01_integers_survive v tz k z cs o :
  in_kind k z = true -> z < 2 ^ 63 -> 1 <= cs <= 65535 ->
  exists w, encoder_encode v (encoder_on o None cs) (GInt k z) = (encoder_on (o ++ w) None cs, None)
  /\ forall r rest, nonempty (r_frags r) -> r_bytes r = w ++ rest ->
     exists r', decoder_decode v tz r = Ok (GInt KInt64 z, r') /\ r_bytes r' = rest.
Proof. exact (ints_survive v tz k z cs o). Qed.
Print Assumptions C01_integers_survive.
Example C01_case :
  in_kind KInt (- 2 ^ 63) = true
  /\ fst (marshal V1 (GInt KInt (- 2 ^ 63)))
     = [x00; x09; xcb; x80; x00; x00; x00; x00; x00; x00; x00; x00; x00]
  /\ decoder_decode V1 no_zones (mkReader [[x00]; [x09; xcb; x80]; [x00; x00; x00; x00; x00; x00]; [x00; x00; x00; x05]] EEOF)
     = Ok (GInt KInt64 (- 2 ^ 63), mkReader [[x05]] EEOF).
Proof. vm_compute. auto. Qed.

(** ** C02: holds for every kind but uint *)
Theorem C02_too_large_refused_partial v k z e :
  in_kind k z = true -> 2 ^ 63 <= z -> k <> KUint ->
  exists err, encoder_encode v e (GInt k z) = (e, Some err).
Proof. exact (big_refused v k z e). Qed.
Print Assumptions C02_too_large_refused_partial.
Example C02_case : in_kind KUint64 (2 ^ 63) = true /\ marshal V2 (GInt KUint64 (2 ^ 63)) = ([], Some (ENew TIntegerTooBig)).
Proof. vm_compute. auto. Qed.

(** Every uint above the int64 range is sent as a negative number. *)
Theorem C02_uint_refuted v tz z : 2 ^ 63 <= z < 2 ^ 64 ->
  snd (encode v (GInt KUint z)) = None
  /\ decode v tz (payload v (GInt KUint z)) = Ok (GInt KInt64 (z - 2 ^ 64), []).
Proof. exact (uint_wraps v tz z). Qed.
Print Assumptions C02_uint_refuted.
Example C02_uint_case : marshal V1 (GInt KUint (2 ^ 64 - 1)) = ([x00; x01; xff; x00; x00], None).
Proof. vm_compute. reflexivity. Qed.

(** ** C03: holds when every size is below the signed limit of its size field and no chunk exceeds
    65535 bytes ([modest], see C10) *)
Theorem C03_round_trip_partial v tz cs x o : returns v x -> modest v cs x ->
  exists widen, exact_widening widen /\
  exists w, encoder_encode v (encoder_on o None cs) x = (encoder_on (o ++ w) None cs, None)
  /\ frames (payload v x) w
  /\ forall r rest, nonempty (r_frags r) -> r_bytes r = w ++ rest ->
     exists r', decoder_decode v tz r = Ok (received widen x, r') /\ r_bytes r' = rest.
Proof. exact (value_roundtrip v tz cs x o). Qed.
Print Assumptions C03_round_trip_partial.
Theorem C03_marshal_unmarshal_partial v tz x : returns v x -> modest v 65535 x ->
  exists w, marshal v x = (w, None) /\ unmarshal v tz w = Ok (received f32_to_f64 x).
Proof. exact (marshal_unmarshal v tz x). Qed.
Print Assumptions C03_marshal_unmarshal_partial.
Example C03_case : returns V1 mixed /\ modest V1 16 mixed
  /\ unmarshal V1 no_zones (fst (marshal V1 mixed)) = Ok (received f32_to_f64 mixed)
  /\ received f32_to_f64 mixed <> mixed.
Proof.
  split; [repeat split; vm_compute; reflexivity|]. split.
  - left. split; [easy|]. repeat (constructor; [easy|]). constructor.
  - split; [vm_compute; reflexivity|discriminate].
Qed.

(** Strings whose size field has its top bit set are encoded, and decoding them panics. *)
Theorem C03_string_refuted v tz s rest : top_bit (zlen s) ->
  snd (encode v (GStr s)) = None /\ decode v tz (payload v (GStr s) ++ rest) = Panic.
Proof. exact (string_top_bit v tz s rest). Qed.
Print Assumptions C03_string_refuted.
Theorem C03_slice_refuted v tz l rest : top_bit (zlen l) -> go_typed (GSlice l) = true ->
  snd (encode v (GSlice l)) = None -> decode v tz (payload v (GSlice l) ++ rest) = Panic.
Proof. exact (slice_top_bit v tz l rest). Qed.
Print Assumptions C03_slice_refuted.
Theorem C03_map_refuted v tz m rest : top_bit (zlen m) -> snd (encode v (GMap m)) = None ->
  exists unread, decode v tz (payload v (GMap m) ++ rest) = Ok (GMap [], unread ++ rest) /\ unread <> [].
Proof. exact (map_top_bit v tz m rest). Qed.
Print Assumptions C03_map_refuted.
Example C03_string_case : unmarshal V2 no_zones (fst (marshal V2 (GStr (repeat x61 128)))) = Panic
  /\ unmarshal V2 no_zones (fst (marshal V2 (GSlice (repeat GNil 200)))) = Panic
  /\ unmarshal V2 no_zones (fst (marshal V2 (GMap (map (fun n => ([zb (Z.of_nat n)], GNil)) (seq 0 130))))) = Ok (GMap []).
Proof. vm_compute. auto. Qed.

(** ** C04 *)
Theorem C04_valid_packstream v x : go_typed x = true -> snd (encode v x) = None ->
  exists widen, exact_widening widen /\
  exists p, packs format_limits p (payload v x) /\ (plain v x = true -> p = item widen x).
Proof. exact (encoder_valid_item v x). Qed.
Print Assumptions C04_valid_packstream.
Example C04_case : go_typed mixed = true /\ snd (encode V2 mixed) = None /\ plain V2 mixed = true
  /\ payload V2 (GSlice [GInt KInt 1; GStr (str "a")]) = [x92; x01; x81; x61].
Proof. vm_compute. auto. Qed.

(** ** C05 *)
Theorem C05_shortest_integers v k z L bs : in_kind k z = true -> z < 2 ^ 63 -> packs L (PInt z) bs ->
  zlen (payload v (GInt k z)) <= zlen bs.
Proof. exact (int_shortest v k z L bs). Qed.
Print Assumptions C05_shortest_integers.
Example C05_case : packs format_limits (PInt (-17)) [xc9; xff; xef] /\ payload V1 (GInt KInt (-17)) = [xc8; xef].
Proof. split; [|reflexivity]. apply pk_int16. repeat split; easy. Qed.

(** ** C06: holds for the encodings whose sizes stay below the signed limits *)
Theorem C06_accepts_valid_partial v tz p bs g rest :
  packs signed_limits p bs -> meaning v p = Some g -> decode v tz (bs ++ rest) = Ok (g, rest).
Proof. intros Hp Hm. exact (decode_packs_top v tz p bs g rest Hp Hm). Qed.
Print Assumptions C06_accepts_valid_partial.
Example C06_case : packs signed_limits (PList [PInt 5; PStr (str "ab")]) [xd5; x00; x02; xcb; x00; x00; x00; x00; x00; x00; x00; x05; xd0; x02; x61; x62]
  /\ meaning V1 (PList [PInt 5; PStr (str "ab")]) = Some (GSlice [GInt KInt64 5; GStr (str "ab")]).
Proof.
  split; [|reflexivity].
  apply (pk_list _ _ [xd5; x00; x02]); [apply hd_16; [easy|repeat split]|].
  apply (ps_cons _ _ _ [xcb; x00; x00; x00; x00; x00; x00; x00; x05]); [apply pk_int64; repeat split; easy|].
  apply (ps_cons _ _ _ [xd0; x02; x61; x62]); [|constructor].
  apply (pk_string _ (str "ab") [xd0; x02]). apply hd_8; [easy|repeat split].
Qed.
Theorem C06_string_refuted v tz s : 128 <= zlen s <= 255 ->
  exists bs, packs format_limits (PStr s) bs /\ decode v tz bs = Panic.
Proof. exact (string_valid_panics v tz s). Qed.
Print Assumptions C06_string_refuted.
Example C06_string_case : 128 <= zlen (repeat x61 200) <= 255. Proof. easy. Qed.

(** ** C07 *)
Theorem C07_terminates_suffix v tz b :
  match decode v tz b with Ok (_, r) => psuffix r b | NoFuel => False | _ => True end.
Proof. exact (decode_total v tz b). Qed.
Print Assumptions C07_terminates_suffix.
Theorem C07_stream_terminates v tz r : decoder_decode v tz r <> NoFuel.
Proof. exact (decoder_total v tz r). Qed.
Print Assumptions C07_stream_terminates.
Example C07_case : decode V2 no_zones [x92; x01; x81; x61; x09] = Ok (GSlice [GInt KInt64 1; GStr [x61]], [x09])
  /\ (exists e, decode V2 no_zones [xd6; x7f; xff; xff; xff; x01] = Err e).
Proof. split; [reflexivity|]. eexists. vm_compute. reflexivity. Qed.

(** ** C08: holds for inputs without explicit-size string/list markers and graph signatures *)
Theorem C08_no_panic_partial v tz b : Forall tame b -> decode v tz b <> Panic.
Proof. exact (decode_calm v tz b). Qed.
Print Assumptions C08_no_panic_partial.
Example C08_case : Forall tame [x92; x01; xb9; x46; xff].
Proof. repeat (apply Forall_cons; [unfold tame; cbn; intuition discriminate|]). apply Forall_nil. Qed.
Theorem C08_refuted v tz rest :
  decode v tz (xd0 :: xff :: rest) = Panic                (* string of size "-1" *)
  /\ decode v tz (xb3 :: x4e :: xc0 :: rest) = Panic.      (* node whose id is null *)
Proof. split; destruct v; reflexivity. Qed.
Print Assumptions C08_refuted.
(** The inputs on which it panics, exactly. *)
Theorem C08_exactly_when v tz b : decode v tz b = Panic <-> crash v tz b.
Proof. exact (decode_crash v tz b). Qed.
Print Assumptions C08_exactly_when.
Example C08_exactly_case : (* a list of two whose second item is a path with a text in its sequence *)
  crash V1 no_zones [x92; x01; xb3; x50; x90; x90; x92; x01; x81; x41]
  /\ decode V1 no_zones [x92; x01; xb3; x50; x90; x90; x92; x01; x81; x41] = Panic
  (* the same text among the labels of a node, and a number there *)
  /\ ~ crash V1 no_zones [xb3; x4e; x01; x91; x81; x41; xa0] /\ ~ crash V1 no_zones [xb3; x4e; x01; x91; x01; xa0].
Proof.
  split; [|split; [vm_compute; reflexivity|split; intros H; apply decode_crash in H; vm_compute in H; discriminate H]].
  apply (cr_item V1 no_zones [x92] 2 _ [GInt KInt64 1] [xb3; x50; x90; x90; x92; x01; x81; x41]).
  - apply co_tiny; [easy|reflexivity].
  - apply (ga_cons V1 no_zones _ _ [xb3; x50; x90; x90; x92; x01; x81; x41]); [|constructor].
    apply gi_small; [repeat split; easy|easy].
  - reflexivity.
  - apply (cr_kind V1 no_zones [xb3] x50 [KNodes; KURels] KSeq [] [x90; x90; x92; x01; x81; x41]
             [GSlice []; GSlice []] [x92; x01; x81; x41] (GSlice [GInt KInt64 1; GStr (str "A")]) []);
      try reflexivity; [now apply sh_tiny| |].
    + apply (ga_cons V1 no_zones _ _ [x90; x92; x01; x81; x41]); [|apply (ga_cons V1 no_zones _ _ [x92; x01; x81; x41]); [|constructor]];
        (eapply (gi_list V1 no_zones [x90] 0); [apply co_tiny; [easy|reflexivity]|reflexivity|constructor]).
    + apply (gi_list V1 no_zones [x92] 2); [apply co_tiny; [easy|reflexivity]|reflexivity|].
      apply (ga_cons V1 no_zones _ _ [x81; x41]); [apply gi_small; [repeat split; easy|easy]|].
      apply (ga_cons V1 no_zones _ _ []); [|constructor].
      apply (gi_string V1 no_zones [x81] 1 [x41]); [apply co_tiny; [easy|reflexivity]|easy].
Qed.

(** ** C09: holds for items that do not end with string content, and always on the wire *)
Theorem C09_cut_reported_partial v tz p q r g :
  packs signed_limits p (q ++ r) -> r <> [] -> meaning v p = Some g -> ends_open p = false ->
  forall x rest, decode v tz q <> Ok (x, rest).
Proof. exact (decode_cut v tz p q r g). Qed.
Print Assumptions C09_cut_reported_partial.
Theorem C09_cut_stream_reported v tz p q t r :
  frames p (q ++ t) -> t <> [] -> nonempty (r_frags r) -> r_bytes r = q ->
  exists e, decoder_decode v tz r = Err e.
Proof. exact (wire_cut v tz p q t r). Qed.
Print Assumptions C09_cut_stream_reported.
Example C09_case : packs signed_limits (PList [PStr (str "ab"); PInt 1]) ([x92; x82; x61] ++ [x62; x01])
  /\ ends_open (PList [PStr (str "ab"); PInt 1]) = false
  /\ frames [x01] ([x00; x01; x01; x00] ++ [x00]).
Proof.
  split; [|split; [reflexivity|]].
  - apply (pk_list _ _ [x92]); [apply hd_tiny; [easy|reflexivity]|].
    apply (ps_cons _ _ _ [x82; x61; x62]); [apply (pk_string _ (str "ab") [x82]); apply hd_tiny; [easy|reflexivity]|].
    apply (ps_cons _ _ _ [x01]); [|constructor]. apply pk_int_tiny; [easy|repeat split; easy].
  - apply (fr_chunk [x01] [x00; x01] [] [x00; x00]); [discriminate|easy|repeat split|constructor].
Qed.
Theorem C09_string_refuted v tz s c : zlen s <= 14 ->
  packs signed_limits (PStr (s ++ [c])) (zb (128 + zlen s + 1) :: s ++ [c])
  /\ decode v tz (zb (128 + zlen s + 1) :: s) = Ok (GStr s, []).
Proof. exact (string_cut v tz s c). Qed.
Print Assumptions C09_string_refuted.
Example C09_string_case : decode V1 no_zones [x83; x61; x62] = Ok (GStr (str "ab"), []).
Proof. reflexivity. Qed.
(** Exactly: a payload of which the end [r] is missing is accepted if and only if [r] is the end of the text it ends with (in its
    last field, element or value, however deep), and is then read as the value without these bytes; otherwise it is reported. *)
Theorem C09_exactly_when v tz p q r g : packs signed_limits p (q ++ r) -> r <> [] -> meaning v p = Some g ->
  (exists p' g', loses p r p' /\ meaning v p' = Some g' /\ decode v tz q = Ok (g', []))
  \/ ((forall p', ~ loses p r p') /\ exists e, decode v tz q = Err e).
Proof. exact (cut_exactly v tz p q r g). Qed.
Print Assumptions C09_exactly_when.
Example C09_exactly_case : packs signed_limits full_record ([xb1; x71; x92; x01; x83; x61] ++ [x62; x63])
  /\ loses full_record [x62; x63] (PStruct 113 [PList [PInt 1; PStr [x61]]])
  /\ decode V1 no_zones [xb1; x71; x92; x01; x83; x61] = Ok (GRecord [GInt KInt64 1; GStr [x61]], [])
  /\ (exists e, decode V1 no_zones [xb1; x71; x92; x01] = Err e).
Proof. split; [exact full_record_packs|]. split; [exact full_record_loses|]. split; [reflexivity|eexists; reflexivity]. Qed.

(** ** C10: holds for modest messages *)
Theorem C10_framing_partial v cs x o : modest v cs x -> snd (encode v x) = None ->
  exists w, encoder_encode v (encoder_on o None cs) x = (encoder_on (o ++ w) None cs, None)
            /\ frames (payload v x) w.
Proof. exact (encode_frames v cs x o). Qed.
Print Assumptions C10_framing_partial.
Example C10_case : modest V1 3 (GStr (str "hello")) /\ snd (encode V1 (GStr (str "hello"))) = None
  /\ w_out (e_w (fst (encoder_encode V1 (encoder_on [] None 3) (GStr (str "hello")))))
     = [x00; x03; x85; x68; x65; x00; x03; x6c; x6c; x6f; x00; x00].
Proof. split; [right; easy|]. split; vm_compute; reflexivity. Qed.
(** For every message exactly when the bytes left over for the last chunk are at most 65535; for a string
    exactly when it is at most 65530 bytes longer than the chunk size. *)
Theorem C10_exactly_when v cs x o : 1 <= cs <= 65535 -> snd (encode v x) = None ->
  exists w, encoder_encode v (encoder_on o None cs) x = (encoder_on (o ++ w) None cs, None)
            /\ (frames (payload v x) w <-> left_over cs 0 (map zlen (fst (encode v x))) <= 65535).
Proof. exact (framed_exactly v cs x o). Qed.
Print Assumptions C10_exactly_when.
Theorem C10_string_exactly_when v s o cs : 6 <= cs <= 65535 -> zlen s <= 4294967295 ->
  exists w, encoder_encode v (encoder_on o None cs) (GStr s) = (encoder_on (o ++ w) None cs, None)
            /\ (frames (payload v (GStr s)) w <-> zlen s <= 65530 + cs).
Proof. exact (string_framed_exactly v s o cs). Qed.
Print Assumptions C10_string_exactly_when.
Example C10_exact_case : snd (encode V1 (GStr (str "hello"))) = None /\ left_over 3 0 (map zlen (fst (encode V1 (GStr (str "hello"))))) = 3
  /\ zlen (repeat x61 (Z.to_nat 65539)) <= 65530 + 9 /\ ~ zlen (repeat x61 (Z.to_nat 65539)) <= 65530 + 8.
Proof. vm_compute. repeat split; discriminate || (intros H; now apply H). Qed.
Theorem C10_zero_chunk_refuted v x o : go_typed x = true -> snd (encode v x) = None ->
  exists w, encoder_encode v (encoder_on o None 0) x = (encoder_on (o ++ [x00; x00] ++ w) None 0, None)
            /\ w <> [] /\ forall p, ~ frames p ([x00; x00] ++ w).
Proof. exact (chunk_zero v x o). Qed.
Print Assumptions C10_zero_chunk_refuted.
Theorem C10_long_string_refuted v s o cs : 1 <= cs <= 65535 -> 65535 + cs < zlen s -> zlen s <= 4294967295 ->
  exists w, encoder_encode v (encoder_on o None cs) (GStr s) = (encoder_on (o ++ w) None cs, None)
            /\ ~ frames (payload v (GStr s)) w.
Proof. exact (long_string_unframed v s o cs). Qed.
Print Assumptions C10_long_string_refuted.
Example C10_long_case : 65535 + 65535 < zlen (repeat x61 (Z.to_nat 140000)) <= 4294967295
  /\ go_typed (GInt KInt 1) = true /\ snd (encode V1 (GInt KInt 1)) = None.
Proof. vm_compute. repeat split; discriminate. Qed.

(** ** C11 *)
Theorem C11_fragmentation_irrelevant v tz r1 r2 :
  nonempty (r_frags r1) -> nonempty (r_frags r2) -> r_bytes r1 = r_bytes r2 -> r_end r1 = r_end r2 ->
  match decoder_decode v tz r1, decoder_decode v tz r2 with
  | Ok (x, a), Ok (y, b) => x = y /\ r_bytes a = r_bytes b
  | Err e, Err e' => e = e'
  | Panic, Panic => True
  | _, _ => False
  end.
Proof. exact (fragmentation v tz r1 r2). Qed.
Print Assumptions C11_fragmentation_irrelevant.
Example C11_case :
  let r1 := mkReader [[x00; x02; x81; x61; x00; x00; x07]] EEOF in
  let r2 := mkReader [[x00]; [x02; x81]; [x61; x00]; [x00; x07]] EEOF in
  nonempty (r_frags r1) /\ nonempty (r_frags r2) /\ r_bytes r1 = r_bytes r2
  /\ decoder_decode V1 no_zones r1 = Ok (GStr [x61], mkReader [[x07]] EEOF).
Proof. cbn zeta. repeat split; repeat constructor; discriminate. Qed.

(** ** C12 (values and sizes as in C03) *)
Theorem C12_back_to_back v tz cs xs : Forall (returns v) xs -> Forall (modest v cs) xs ->
  exists widen, exact_widening widen /\
  forall o, exists w, encode_all v (encoder_on o None cs) xs = (encoder_on (o ++ w) None cs, None)
  /\ forall r rest, nonempty (r_frags r) -> r_bytes r = w ++ rest ->
     exists r', decode_n v tz (Datatypes.length xs) r = Ok (map (received widen) xs, r') /\ r_bytes r' = rest.
Proof. exact (value_sequence v tz cs xs). Qed.
Print Assumptions C12_back_to_back.
Example C12_case : Forall (returns V2) [GNil; mixed; GTime 5 0 3600] /\ Forall (modest V2 64) [GNil; mixed; GTime 5 0 3600].
Proof.
  split; repeat constructor; easy.
Qed.

(** ** C13 *)
Theorem C13_broken_link v x o k cs : 0 <= cs -> snd (encode v x) = None ->
  exists w, encoder_encode v (encoder_on o None cs) x = (encoder_on (o ++ w) None cs, None)
  /\ w_out (e_w (fst (encoder_encode v (encoder_on o (Some k) cs) x))) = o ++ firstn k w
  /\ (snd (encoder_encode v (encoder_on o (Some k) cs) x) = None <-> (Datatypes.length w <= k)%nat).
Proof. exact (encode_dying v x o k cs). Qed.
Print Assumptions C13_broken_link.
Example C13_case : w_out (e_w (fst (encoder_encode V1 (encoder_on [] (Some 4%nat) 3) (GStr (str "hello"))))) = [x00; x03; x85; x68]
  /\ snd (encoder_encode V1 (encoder_on [] (Some 4%nat) 3) (GStr (str "hello"))) <> None.
Proof. vm_compute. split; [reflexivity|discriminate]. Qed.

(** ** C14: holds exactly when the part encoded before the refusal does not fill a chunk *)
Theorem C14_refused_clean_partial v x o cs e : 1 <= cs -> snd (encode v x) = Some e ->
  (w_out (e_w (fst (encoder_encode v (encoder_on o None cs) x))) = o <-> zlen (payload v x) < cs)
  /\ snd (encoder_encode v (encoder_on o None cs) x) = Some e.
Proof. exact (refused_clean_iff v x o cs e). Qed.
Print Assumptions C14_refused_clean_partial.
Example C14_case : snd (encode V1 (GSlice [GStr (str "abc"); GOther])) = Some (ENew TUnrecognizedType)
  /\ zlen (payload V1 (GSlice [GStr (str "abc"); GOther])) = 5.
Proof. vm_compute. auto. Qed.
Theorem C14_leak_refuted v cs o : 1 <= cs <= 65535 ->
  exists x e, snd (encode v x) = Some e
  /\ snd (encoder_encode v (encoder_on o None cs) x) = Some e
  /\ w_out (e_w (fst (encoder_encode v (encoder_on o None cs) x))) <> o.
Proof. exact (refused_leak v cs o). Qed.
Print Assumptions C14_leak_refuted.
Example C14_leak_case :
  w_out (e_w (fst (encoder_encode V1 (encoder_on [] None 2) (GSlice [GStr (str "abc"); GOther]))))
  = [x00; x02; x92; x83; x00; x02; x61; x62].
Proof. vm_compute. reflexivity. Qed.

(** ** C15: holds when the refusal comes before the first byte *)
Theorem C15_reuse_partial v x y o cs e : snd (encode v x) = Some e -> fst (encode v x) = [] ->
  encoder_encode v (fst (encoder_encode v (encoder_on o None cs) x)) y
  = encoder_encode v (encoder_on o None cs) y.
Proof. exact (reuse_after v x y o cs e). Qed.
Print Assumptions C15_reuse_partial.
Example C15_case : encode V1 (GInt KUint64 (2 ^ 63)) = ([], Some (ENew TIntegerTooBig)).
Proof. reflexivity. Qed.
(** Otherwise the next message carries the left-over bytes of the refused one in front. *)
Theorem C15_reuse_refuted v x y o cs e :
  snd (encode v x) = Some e -> snd (encode v y) = None ->
  zlen (payload v x) < cs <= 65535 -> zlen (payload v x) + zlen (payload v y) <= 65535 ->
  exists w, fst (encoder_encode v (fst (encoder_encode v (encoder_on o None cs) x)) y)
            = encoder_on (o ++ w) None cs /\ frames (payload v x ++ payload v y) w.
Proof. exact (reuse_mixed v x y o cs e). Qed.
Print Assumptions C15_reuse_refuted.
Example C15_refuted_case :
  let x := GSlice [GStr (str "abc"); GOther] in
  payload V1 x <> [] /\
  decoder_decode V1 no_zones (mkReader [w_out (e_w (fst (encoder_encode V1
      (fst (encoder_encode V1 (encoder_on [] None 65535) x)) (GInt KInt 5))))] EEOF)
  = Ok (GSlice [GStr (str "abc"); GInt KInt64 5], mkReader [] EEOF).
Proof. cbn zeta. split; [discriminate|vm_compute; reflexivity]. Qed.

(** ** C16 *)
Theorem C16_map_order v tz m m' : Permutation m m' -> returns v (GMap m) ->
  exists r r', decode v tz (payload v (GMap m)) = Ok (GMap r, [])
  /\ decode v tz (payload v (GMap m')) = Ok (GMap r', [])
  /\ Permutation r r' /\ (forall k, map_get r k = map_get r' k).
Proof. exact (map_order v tz m m'). Qed.
Print Assumptions C16_map_order.
Theorem C16_map_order_deep v tz x y : reorder x y -> returns v x ->
  exists gx gy, decode v tz (payload v x) = Ok (gx, []) /\ decode v tz (payload v y) = Ok (gy, [])
  /\ reorder gx gy.
Proof. exact (map_order_deep v tz x y). Qed.
Print Assumptions C16_map_order_deep.
Example C16_case :
  let m := [(str "a", GInt KInt 1); (str "b", GNil)] in
  let m' := [(str "b", GNil); (str "a", GInt KInt 1)] in
  Permutation m m' /\ returns V1 (GMap m) /\ reorder (GSlice [GMap m]) (GSlice [GMap m'])
  /\ payload V1 (GMap m) <> payload V1 (GMap m').
Proof.
  cbn zeta. split; [constructor|]. split; [repeat split|]. split; [|discriminate].
  constructor. constructor; [|constructor]. constructor. eapply rp_perm; [apply perm_swap|].
  repeat (constructor; [constructor|]). constructor.
Qed.

(** ** C17 *)
Theorem C17_typed_slices v x : encode v (untype x) = encode v x.
Proof. exact (f_equal enc (lower_untype v x)). Qed.
Print Assumptions C17_typed_slices.
Example C17_case : untype mixed <> mixed /\ untype (GTSlice [GTSlice [GBool true]]) = GSlice [GSlice [GBool true]].
Proof. split; [discriminate|reflexivity]. Qed.

(** ** C18 *)
Theorem C18_float64_survive v tz b : is_bits64 b = true ->
  decode v tz (payload v (GFloat64 b)) = Ok (GFloat64 b, []).
Proof. exact (floats_survive v tz b). Qed.
Print Assumptions C18_float64_survive.
Theorem C18_float32_survive v tz b : 0 <= b < 2 ^ 32 ->
  exists b', decode v tz (payload v (GFloat32 b)) = Ok (GFloat64 b', []) /\ num64 b' = num32 b.
Proof. exact (floats32_survive v tz b). Qed.
Print Assumptions C18_float32_survive.
Example C18_case : (* signalling NaN, and the smallest float32 subnormal *)
  is_bits64 9218868437227405313 = true /\ num64 9218868437227405313 = FNaN
  /\ num32 1 = FFin false (2 ^ 925) /\ decode V1 no_zones (payload V1 (GFloat32 1)) = Ok (GFloat64 3936146074321813504, []).
Proof. vm_compute. auto. Qed.

(** ** C19 *)
Theorem C19_accepted_exactly v x : go_typed x = true ->
  (snd (encode v x) = None <->
   supported v x = true /\ forallb (size_ok format_limits) (lens x) = true /\ struct_sizes_ok x = true).
Proof. exact (encode_accepts v x). Qed.
Print Assumptions C19_accepted_exactly.
Example C19_case : supported V1 mixed = true /\ supported V1 (GSlice [mixed; GDate 3]) = false
  /\ snd (encode V1 (GSlice [mixed; GDate 3])) <> None.
Proof. vm_compute. repeat split; discriminate. Qed.

(** ** C20 *)
Theorem C20_datetime_offset tz s n off cs o :
  is_int64 s = true -> is_int64 (s + off) = true -> 0 <= n < 1000000000 -> - 2 ^ 31 <= off < 2 ^ 31 ->
  8 <= cs <= 65535 ->
  exists w, encoder_encode V2 (encoder_on o None cs) (GTime s n off) = (encoder_on (o ++ w) None cs, None)
  /\ forall r rest, nonempty (r_frags r) -> r_bytes r = w ++ rest ->
     exists r', decoder_decode V2 tz r = Ok (GTime s n off, r') /\ r_bytes r' = rest.
Proof. exact (datetime_roundtrip tz s n off cs o). Qed.
Print Assumptions C20_datetime_offset.
Example C20_case : is_int64 (-86400) = true
  /\ unmarshal V2 no_zones (fst (marshal V2 (GTime (-86400) 999999999 (-12600)))) = Ok (GTime (-86400) 999999999 (-12600)).
Proof. vm_compute. auto. Qed.

(** ** C21: holds where the zone's offset at the instant and at "instant + offset" agree *)
Theorem C21_zone_id_partial tz t n id zone bs rest :
  packs signed_limits (zoned_item t n id (zone t)) bs -> tz id = Some zone -> 0 <= n < 1000000000 ->
  -2147483648 <= zone t < 2147483648 -> zone (t + zone t) = zone t ->
  decode V2 tz (bs ++ rest) = Ok (GTime t n (zone t), rest).
Proof. exact (zoned_right tz t n id zone bs rest). Qed.
Print Assumptions C21_zone_id_partial.
Theorem C21_zone_id_refuted tz t n id zone bs rest :
  packs signed_limits (zoned_item t n id (zone t)) bs -> tz id = Some zone -> 0 <= n < 1000000000 ->
  -2147483648 <= zone (t + zone t) < 2147483648 -> zone (t + zone t) <> zone t ->
  exists t' off', decode V2 tz (bs ++ rest) = Ok (GTime t' n off', rest) /\ t' <> t.
Proof. exact (zoned_wrong tz t n id zone bs rest). Qed.
Print Assumptions C21_zone_id_refuted.
(** A zone that switches from +1h to +2h at 1000000: 999000 is sent, 995400 is received. *)
Definition one_switch : zones := fun id => if bytes_eqb id (str "Z") then Some (fun t => if t <? 1000000 then 3600 else 7200) else None.
Example C21_case :
  decode V2 one_switch (payload V2 (GStructure 102 [GInt KInt (999000 + 3600); GInt KInt 5; GStr (str "Z")])) = Ok (GTime 995400 5 3600, [])
  /\ decode V2 one_switch (payload V2 (GStructure 102 [GInt KInt (5000 + 3600); GInt KInt 5; GStr (str "Z")])) = Ok (GTime 5000 5 3600, [])
  /\ packs signed_limits (zoned_item 5000 5 (str "Z") 3600) [xb3; x66; xc9; x21; x98; x05; x81; x5a].
Proof.
  split; [vm_compute; reflexivity|]. split; [vm_compute; reflexivity|].
  apply (pk_struct _ 102 _ [xb3] x66); [apply hd_tiny; [easy|reflexivity]|reflexivity|].
  apply (ps_cons _ _ _ [xc9; x21; x98]); [apply pk_int16; repeat split; easy|].
  apply (ps_cons _ _ _ [x05]); [apply pk_int_tiny; [easy|repeat split; easy]|].
  apply (ps_cons _ _ _ [x81; x5a]); [|constructor].
  apply (pk_string _ (str "Z") [x81]). apply hd_tiny; [easy|reflexivity].
Qed.

(** ** C22: fails for every duration sent, and for received ones with zero months or other parts *)
Theorem C22_sent_duration_refuted tz d rest : is_int64 d = true ->
  snd (encode V2 (GDuration d)) = None
  /\ decode V2 tz (payload V2 (GDuration d) ++ rest) = Err (ENew TCast).
Proof. exact (duration_sent tz d rest). Qed.
Print Assumptions C22_sent_duration_refuted.
Theorem C22_received_duration_refuted tz d s n bs rest :
  packs signed_limits (duration_item 0 d s n) bs -> duration_nanos d s n <> 0 ->
  exists d', decode V2 tz (bs ++ rest) = Ok (GDuration d', rest) /\ d' <> duration_nanos d s n.
Proof.
  intros H1 H2. exact (ex_intro _ 0 (conj (duration_lost tz d s n bs rest H1) (fun E => H2 (eq_sym E)))).
Qed.
Print Assumptions C22_received_duration_refuted.
(** Exactly: what arrives is the product of the four components; without months it is right only of
    the empty duration. *)
Theorem C22_received_partial tz m d s n bs rest : packs signed_limits (duration_item m d s n) bs ->
  decode V2 tz (bs ++ rest) = Ok (GDuration (wrap64 (m * d * s * n)), rest)
  /\ (m = 0 -> (decode V2 tz (bs ++ rest) = Ok (GDuration (duration_nanos d s n), rest) <-> duration_nanos d s n = 0)).
Proof. exact (duration_exactly tz m d s n bs rest). Qed.
Print Assumptions C22_received_partial.
Example C22_case : is_int64 1500000000 = true
  /\ decode V2 no_zones (payload V2 (GStructure 69 [GInt KInt 0; GInt KInt 1; GInt KInt 30; GInt KInt 7])) = Ok (GDuration 0, [])
  /\ duration_nanos 1 30 7 = 86430000000007.
Proof. vm_compute. auto. Qed.

(** ** C23 *)
Theorem C23_same_bytes x : atemporal x = true -> encode V1 x = encode V2 x.
Proof. exact (encode_versions x). Qed.
Print Assumptions C23_same_bytes.
Theorem C23_v2_extends_v1 tz1 tz2 b x r : decode V1 tz1 b = Ok (x, r) -> decode V2 tz2 b = Ok (x, r).
Proof. exact (decode_v1_v2 tz1 tz2 b x r). Qed.
Print Assumptions C23_v2_extends_v1.
Example C23_case : atemporal mixed = true /\ decode V1 no_zones (payload V1 mixed) = Ok (received f32_to_f64 mixed, []).
Proof. split; [reflexivity|]. vm_compute. reflexivity. Qed.

(** ** C24: points sent through pointers arrive; points as received are refused when sent back *)
Theorem C24_points_partial tz srid x y z :
  is_int64 srid = true -> is_bits64 x = true -> is_bits64 y = true -> is_bits64 z = true ->
  decode V2 tz (payload V2 (GPoint2D true srid x y)) = Ok (GPoint2D false srid x y, [])
  /\ decode V2 tz (payload V2 (GPoint3D true srid x y z)) = Ok (GPoint3D false srid x y z, []).
Proof.
  intros H1 H2 H3 H4. exact (conj (point_roundtrip tz srid x y H1 H2 H3) (point3_roundtrip tz srid x y z H1 H2 H3 H4)).
Qed.
Print Assumptions C24_points_partial.
Theorem C24_resend_refuted v srid x y z :
  (exists e, encode v (GPoint2D false srid x y) = ([], Some e))
  /\ (exists e, encode v (GPoint3D false srid x y z) = ([], Some e)).
Proof. exact (conj (point_not_resent v srid x y) (point3_not_resent v srid x y z)). Qed.
Print Assumptions C24_resend_refuted.
Example C24_case : is_int64 4326 = true /\ is_bits64 4607182418800017408 = true
  /\ unmarshal V2 no_zones (fst (marshal V2 (GPoint2D true 4326 4607182418800017408 0))) = Ok (GPoint2D false 4326 4607182418800017408 0).
Proof. vm_compute. auto. Qed.

(** ** C25 (the second decoding is subject to the size limits of C03) *)
Theorem C25_received_again v tz b g r : decode v tz b = Ok (g, r) -> graph_only g = true ->
  snd (encode v g) = None
  /\ (forallb (size_ok signed_limits) (lens g) = true ->
      decode v tz (payload v g) = Ok (g, [])).
Proof. exact (received_again v tz b g r). Qed.
Print Assumptions C25_received_again.
Example C25_case : decode V1 no_zones (payload V1 mixed) = Ok (received f32_to_f64 mixed, [])
  /\ graph_only (received f32_to_f64 mixed) = true
  /\ forallb (size_ok signed_limits) (lens (received f32_to_f64 mixed)) = true.
Proof. split; [|split]; vm_compute; reflexivity. Qed.

(** ** C82 *)
Theorem C82_reads_this_grammar v tz b x r : decode v tz b = Ok (x, r) <-> gives v tz b x r.
Proof. exact (decode_gives v tz b x r). Qed.
Print Assumptions C82_reads_this_grammar.
Example C82_case : (* a text cut short by the end of the message *)
  gives V1 no_zones [xd0; x05; x41; x42] (GStr (str "AB")) []
  /\ decode V1 no_zones [xd0; x05; x41; x42] = Ok (GStr (str "AB"), [])
  (* a map of -1 entries, a repeated key, a node announcing nine fields *)
  /\ decode V1 no_zones [xd8; xff; x07] = Ok (GMap [], [x07])
  /\ decode V1 no_zones [xa3; x81; x41; x01; x81; x42; x02; x81; x41; x03] = Ok (GMap [(str "A", GInt KInt64 3); (str "B", GInt KInt64 2)], [])
  /\ decode V1 no_zones [xb9; x4e; x01; x90; xa0] = Ok (GNode 1 [] [], [])
  (* a date-time with more than a second of nanoseconds, and one with less than none *)
  /\ decode V2 no_zones (payload V2 (GStructure 70 [GInt KInt 100; GInt KInt 5000000007; GInt KInt 60])) = Ok (GTime 45 7 60, [])
  /\ decode V2 no_zones (payload V2 (GStructure 70 [GInt KInt 100; GInt KInt (-1); GInt KInt 60])) = Ok (GTime 39 999999999 60, []).
Proof.
  split; [|vm_compute; auto 10].
  apply (gi_string V1 no_zones [xd0; x05] 5 [x41; x42]); [|easy]. apply co_8. repeat split; easy.
Qed.

(** ** C83 *)
Theorem C83_first_obstacle v x : go_typed x = true -> snd (encode v x) = first_reported (obstacles v 0 x).
Proof. exact (refused_first v x). Qed.
Print Assumptions C83_first_obstacle.
Example C83_case : (* a record with a node holding a value of a foreign type, then a uint64 too large *)
  let x := GRecord [ann; GNode 1 [] [(str "p", GSlice [GInt KInt 1; GOther])]; GInt KUint64 (2 ^ 63)] in
  go_typed x = true /\ obstacles V1 0 x = [(2%nat, TUnrecognizedType); (1%nat, TIntegerTooBig)]
  /\ snd (encode V1 x) = Some (EWrap (Some (EWrap (Some (ENew TUnrecognizedType)) 0)) 0)
  /\ obstacles V2 0 (GSlice [GDate 3]) = [] /\ obstacles V1 0 (GSlice [GDate 3]) = [(0%nat, TUnrecognizedType)].
Proof. vm_compute. auto 10. Qed.

(** ** C114: decoding reserves no more elements than the message has bytes *)
(** False: whatever memory there is, [5 * k] bytes for some k ask for more before they are refused. *)
Theorem C114_boast_refuted v tz k room : (1 <= k)%nat -> room < Z.of_nat k * 2147483647 ->
  List.length (boasts k) = (5 * k)%nat /\ decode v tz (boasts k) = Err (EWrap (Some EEOF) 16) /\ decode_in v tz room (boasts k) = Panic.
Proof. intros Hk Hr. split; [exact (boasts_len k)|exact (boastful v tz k room Hk Hr)]. Qed.
Print Assumptions C114_boast_refuted.
(** What holds: a message that is accepted needs no more elements than it has bytes. *)
Theorem C114_accepted_partial v tz b x r : decode v tz b = Ok (x, r) -> decode_in v tz (zlen b) b = Ok (x, r).
Proof. exact (accepted v tz b x r). Qed.
Print Assumptions C114_accepted_partial.
(** Any other needs at most 2^31-1 elements for each byte. *)
Theorem C114_bound_partial v tz b room : 2147483647 * zlen b <= room -> decode_in v tz room b = decode v tz b.
Proof. exact (bounded v tz b room). Qed.
Print Assumptions C114_bound_partial.
Example C114_case :
  boasts 1 = [xd6; x7f; xff; xff; xff] /\ decode_in V1 no_zones 2147483646 (boasts 1) = Panic
  /\ decode_in V1 no_zones 2147483647 (boasts 1) = Err (EWrap (Some EEOF) 16)
  (* a map that announces 2^31-1 entries in the last field of a node *)
  /\ decode_in V2 no_zones 1000000 [xb3; x4e; x01; x90; xda; x7f; xff; xff; xff] = Panic
  /\ decode_in V1 no_zones (zlen (payload V1 mixed)) (payload V1 mixed) = Ok (received f32_to_f64 mixed, []).
Proof. vm_compute. auto 10. Qed.

(** ** C115: nesting in a message cannot exhaust the stack *)
(** False: for every depth of the stack there is a value that the encoder writes, that is read, and that overflows it. *)
Theorem C115_nested_refuted v tz d :
  payload v (onion d) = onions d /\ decode v tz (onions d) = Ok (onion d, []) /\ decode_deep v tz d (onions d) = NoFuel.
Proof. destruct (peeled v tz d) as (A & B & C). split; [exact C|split; [exact A|exact B]]. Qed.
Print Assumptions C115_nested_refuted.
(** What holds: no call is nested deeper than the bytes of the message that begin a list, map or structure. *)
Theorem C115_openings_partial v tz d b : (openings b < d)%nat -> decode_deep v tz d b = decode v tz b.
Proof. exact (shallow v tz d b). Qed.
Print Assumptions C115_openings_partial.
Example C115_case :
  onions 3 = [x91; x91; x91; xc0] /\ decode_deep V1 no_zones 3 (onions 3) = NoFuel /\ decode_deep V1 no_zones 4 (onions 3) = Ok (onion 3, [])
  /\ openings [x93; x83; x41; x42; x43; x07; xa0] = 2%nat
  /\ decode_deep V1 no_zones 3 [x93; x83; x41; x42; x43; x07; xa0] = Ok (GSlice [GStr (str "ABC"); GInt KInt64 7; GMap []], []).
Proof. vm_compute. auto 10. Qed.
