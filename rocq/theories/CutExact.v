(** Exactly what becomes of a payload that was cut short (proofs): C09. *)
From Coq Require Import ZArith List Bool Lia ZifyBool.
From Verif Require Import Bytes BytesFacts GoVal GoErr Encoder Decoder SpecPack PackFacts DecodeFacts TotalFacts CutFacts SpecCut.
Import ListNotations.
Open Scope Z_scope.
Ltac Zify.zify_post_hook ::= Z.div_mod_to_equations.

(** ** Values of the same kind *)
Inductive kin : gval -> gval -> Prop :=
| kn_same x : kin x x
| kn_str s s' : kin (GStr s) (GStr s')
| kn_slice l l' : Forall2 kin l l' -> kin (GSlice l) (GSlice l')
| kn_map m m' : kin (GMap m) (GMap m')
| kn_node a b c a' b' c' : kin (GNode a b c) (GNode a' b' c')
| kn_urel a b c a' b' c' : kin (GURel a b c) (GURel a' b' c')
| kn_rel a b c d e a' b' c' d' e' : kin (GRel a b c d e) (GRel a' b' c' d' e')
| kn_success m m' : kin (GSuccess m) (GSuccess m')
| kn_failure m m' : kin (GFailure m) (GFailure m')
| kn_record l l' : kin (GRecord l) (GRecord l')
| kn_path a b c a' b' c' : kin (GPath a b c) (GPath a' b' c').
Lemma kin_all_same l : Forall2 kin l l. Proof. induction l; constructor; [constructor|assumption]. Qed.
Lemma kin_str_of l l' r : Forall2 kin l l' -> all_some (map str_of l) = Some r -> exists r', all_some (map str_of l') = Some r'.
Proof.
  intros H. revert r. induction H as [|x y l l' K _ IH]; intros r E; [exists []; reflexivity|]. cbn [map all_some] in *.
  destruct (str_of x) eqn:X; [|discriminate]. destruct (all_some (map str_of l)) eqn:L; [|discriminate]. destruct (IH _ eq_refl) as (r' & R).
  destruct x; try discriminate. inversion K; subst; cbn [str_of]; rewrite R; eexists; reflexivity.
Qed.
Lemma kin_node_of l l' r : Forall2 kin l l' -> all_some (map node_of l) = Some r -> exists r', all_some (map node_of l') = Some r'.
Proof.
  intros H. revert r. induction H as [|x y l l' K _ IH]; intros r E; [exists []; reflexivity|]. cbn [map all_some] in *.
  destruct (node_of x) eqn:X; [|discriminate]. destruct (all_some (map node_of l)) eqn:L; [|discriminate]. destruct (IH _ eq_refl) as (r' & R).
  destruct x; try discriminate. inversion K; subst; cbn [node_of]; rewrite R; eexists; reflexivity.
Qed.
Lemma kin_urel_of l l' r : Forall2 kin l l' -> all_some (map urel_of l) = Some r -> exists r', all_some (map urel_of l') = Some r'.
Proof.
  intros H. revert r. induction H as [|x y l l' K _ IH]; intros r E; [exists []; reflexivity|]. cbn [map all_some] in *.
  destruct (urel_of x) eqn:X; [|discriminate]. destruct (all_some (map urel_of l)) eqn:L; [|discriminate]. destruct (IH _ eq_refl) as (r' & R).
  destruct x; try discriminate. inversion K; subst; cbn [urel_of]; rewrite R; eexists; reflexivity.
Qed.
Lemma kin_int_of l l' r : Forall2 kin l l' -> all_some (map int_of l) = Some r -> l' = l.
Proof.
  intros H. revert r. induction H as [|x y l l' K _ IH]; intros r E; [reflexivity|]. cbn [map all_some] in *.
  destruct (int_of x) eqn:X; [|discriminate]. destruct (all_some (map int_of l)) eqn:L; [|discriminate]. rewrite (IH _ eq_refl).
  destruct x; try discriminate. now inversion K.
Qed.
Ltac kin_inv := repeat match goal with
  | H : Forall2 kin (_ :: _) _ |- _ => inversion H; subst; clear H
  | H : Forall2 kin [] _ |- _ => inversion H; subst; clear H
  | H : kin (GInt _ _) _ |- _ => inversion H; subst; clear H
  | H : kin (GFloat64 _) _ |- _ => inversion H; subst; clear H
  end.
Lemma kin_struct v sig gs gs' g : struct_meaning v sig gs = Some g -> Forall2 kin gs gs' -> exists g', struct_meaning v sig gs' = Some g' /\ kin g g'.
Proof.
  unfold struct_meaning. intros Hm K.
  step_sig Hm 78; [cbv beta iota delta [Z.eqb Pos.eqb]|].
  { repeat match type of Hm with match ?x with _ => _ end = _ => destruct x eqn:?; try discriminate end. injection Hm as <-. kin_inv.
    match goal with H : kin (GSlice _) ?y, H2 : kin (GMap _) ?z |- _ => inversion H; subst; clear H; inversion H2; subst; clear H2 end;
    try (match goal with F : Forall2 kin _ _, E : all_some _ = _ |- _ => destruct (kin_str_of _ _ _ F E) as (r' & R); rewrite R end);
    try match goal with E : all_some _ = _ |- _ => rewrite E end; eexists; (split; [reflexivity|constructor]). }
  step_sig Hm 82; [cbv beta iota delta [Z.eqb Pos.eqb]|].
  { repeat match type of Hm with match ?x with _ => _ end = _ => destruct x eqn:?; try discriminate end. injection Hm as <-. kin_inv.
    match goal with H : kin (GStr _) ?y, H2 : kin (GMap _) ?z |- _ => inversion H; subst; clear H; inversion H2; subst; clear H2 end; eexists; (split; [reflexivity|constructor]). }
  step_sig Hm 114; [cbv beta iota delta [Z.eqb Pos.eqb]|].
  { repeat match type of Hm with match ?x with _ => _ end = _ => destruct x eqn:?; try discriminate end. injection Hm as <-. kin_inv.
    match goal with H : kin (GStr _) ?y, H2 : kin (GMap _) ?z |- _ => inversion H; subst; clear H; inversion H2; subst; clear H2 end; eexists; (split; [reflexivity|constructor]). }
  step_sig Hm 80; [cbv beta iota delta [Z.eqb Pos.eqb]|].
  { repeat match type of Hm with match ?x with _ => _ end = _ => destruct x eqn:?; try discriminate end. injection Hm as <-. kin_inv.
    assert (SL : forall l y, kin (GSlice l) y -> exists l', y = GSlice l' /\ Forall2 kin l l') by (intros ? ? H; inversion H; subst; eexists; (split; [reflexivity|]); [apply kin_all_same|assumption]).
    repeat match goal with H : kin (GSlice _) ?y |- _ => apply SL in H; destruct H as (? & -> & ?) end.
    match goal with F : Forall2 kin ?a _, E : all_some (map node_of ?a) = _ |- _ => destruct (kin_node_of _ _ _ F E) as (r1 & R1) end.
    match goal with F : Forall2 kin ?a _, E : all_some (map urel_of ?a) = _ |- _ => destruct (kin_urel_of _ _ _ F E) as (r2 & R2) end.
    match goal with F : Forall2 kin ?a _, E : all_some (map int_of ?a) = _ |- _ => pose proof (kin_int_of _ _ _ F E) as R3; subst; rewrite R1, R2, E end.
    eexists. split; [reflexivity|constructor]. }
  step_sig Hm 112; [cbv beta iota delta [Z.eqb Pos.eqb]|].
  { repeat match type of Hm with match ?x with _ => _ end = _ => destruct x eqn:?; try discriminate end. injection Hm as <-. kin_inv.
    match goal with H2 : kin (GMap _) ?z |- _ => inversion H2; subst; clear H2 end; eexists; (split; [reflexivity|constructor]). }
  step_sig Hm 127; [cbv beta iota delta [Z.eqb Pos.eqb]|].
  { repeat match type of Hm with match ?x with _ => _ end = _ => destruct x eqn:?; try discriminate end. injection Hm as <-. kin_inv.
    match goal with H2 : kin (GMap _) ?z |- _ => inversion H2; subst; clear H2 end; eexists; (split; [reflexivity|constructor]). }
  step_sig Hm 113; [cbv beta iota delta [Z.eqb Pos.eqb]|].
  { repeat match type of Hm with match ?x with _ => _ end = _ => destruct x eqn:?; try discriminate end. injection Hm as <-. kin_inv.
    match goal with H2 : kin (GSlice _) ?z |- _ => inversion H2; subst; clear H2 end; eexists; (split; [reflexivity|constructor]). }
  step_sig Hm 126; [cbv beta iota delta [Z.eqb Pos.eqb]|]. { destruct gs; [|discriminate]. kin_inv. eexists. split; [reflexivity|]. injection Hm as <-. constructor. }
  step_sig Hm 47; [cbv beta iota delta [Z.eqb Pos.eqb]|]. { destruct gs; [|discriminate]. kin_inv. eexists. split; [reflexivity|]. injection Hm as <-. constructor. }
  step_sig Hm 63; [cbv beta iota delta [Z.eqb Pos.eqb]|]. { destruct gs; [|discriminate]. kin_inv. eexists. split; [reflexivity|]. injection Hm as <-. constructor. }
  step_sig Hm 15; [cbv beta iota delta [Z.eqb Pos.eqb]|]. { destruct gs; [|discriminate]. kin_inv. eexists. split; [reflexivity|]. injection Hm as <-. constructor. }
  destruct v; [discriminate|].
  repeat match type of Hm with
  | (if ?s =? ?k then _ else _) = _ => destruct (Z.eqb_spec s k) as [->|?];
      [cbv beta iota delta [Z.eqb Pos.eqb];
       repeat match type of Hm with match ?x with _ => _ end = _ => destruct x eqn:?; try discriminate end;
       kin_inv; exists g; (split; [repeat match goal with E : ?c = true |- context [?c] => rewrite E end; try exact Hm|constructor])|]
  end; try discriminate.
Qed.

(** ** Reading a sequence that breaks off *)
Inductive breaks (dec : parser gval) : list gval -> bytes -> Prop :=
| br_here x gs b e : dec b = Err e -> breaks dec (x :: gs) b
| br_later x gs b b1 : dec b = Ok (x, b1) -> breaks dec gs b1 -> breaks dec (x :: gs) b.
Ltac brk :=
  repeat match goal with R : breaks _ (_ :: _) _ |- _ => inversion R; subst; clear R | R : breaks _ [] _ |- _ => inversion R end;
  unfold pbind;
  repeat (match goal with E : ?dec ?b = _ |- context [?dec ?b] => rewrite E end; cbn [must_int64 as_slice as_map as_str as_int64 as_float lift]; unfold pret).
Lemma struct_breaks v tz dec sb sig gs g b : Z.of_N (Byte.to_N sb) = sig -> struct_meaning v sig gs = Some g -> breaks dec gs b -> exists e, dec_struct v tz dec (sb :: b) = Err e.
Proof.
  intros Hs Hm R. unfold dec_struct. change (Z.of_N (Byte.to_N sb)) with (bz sb) in Hs. rewrite Hs.
  unfold struct_meaning in Hm.
  unfold SigNode, SigRel, SigPath, SigURel, SigRecord, SigFailure, SigIgnored, SigSuccess,
    SigDiscardAll, SigPullAll, SigReset, SigPoint2D, SigPoint3D, SigDate, SigTime, SigLocalTime,
    SigLocalDateTime, SigDateTimeOffset, SigDateTimeZoneId, SigDuration.
  clear Hs.
  step_sig Hm 78; [cbv beta iota delta [Z.eqb Pos.eqb]|].
  { repeat match type of Hm with match ?x with _ => _ end = _ => destruct x eqn:?; try discriminate end.
    unfold dec_node. match goal with E : all_some _ = Some _ |- _ => apply slice_to_str_ok in E end.
    brk; eexists; reflexivity. }
  step_sig Hm 82; [cbv beta iota delta [Z.eqb Pos.eqb]|].
  { repeat match type of Hm with match ?x with _ => _ end = _ => destruct x eqn:?; try discriminate end. unfold dec_rel. brk; eexists; reflexivity. }
  step_sig Hm 114; [cbv beta iota delta [Z.eqb Pos.eqb]|].
  { repeat match type of Hm with match ?x with _ => _ end = _ => destruct x eqn:?; try discriminate end. unfold dec_urel. brk; eexists; reflexivity. }
  step_sig Hm 80; [cbv beta iota delta [Z.eqb Pos.eqb]|].
  { repeat match type of Hm with match ?x with _ => _ end = _ => destruct x eqn:?; try discriminate end. unfold dec_path.
    match goal with E : all_some (map node_of _) = _ |- _ => apply (slice_to_ok node_of is_node _ _ node_of_spec) in E end.
    match goal with E : all_some (map urel_of _) = _ |- _ => apply (slice_to_ok urel_of is_urel _ _ urel_of_spec) in E end.
    brk; eexists; reflexivity. }
  step_sig Hm 112; [cbv beta iota delta [Z.eqb Pos.eqb]|].
  { repeat match type of Hm with match ?x with _ => _ end = _ => destruct x eqn:?; try discriminate end. unfold dec_success. brk; eexists; reflexivity. }
  step_sig Hm 127; [cbv beta iota delta [Z.eqb Pos.eqb]|].
  { repeat match type of Hm with match ?x with _ => _ end = _ => destruct x eqn:?; try discriminate end. unfold dec_failure. brk; eexists; reflexivity. }
  step_sig Hm 113; [cbv beta iota delta [Z.eqb Pos.eqb]|].
  { repeat match type of Hm with match ?x with _ => _ end = _ => destruct x eqn:?; try discriminate end. unfold dec_record. brk; eexists; reflexivity. }
  step_sig Hm 126; [destruct gs; [inversion R|discriminate]|].
  step_sig Hm 47; [destruct gs; [inversion R|discriminate]|].
  step_sig Hm 63; [destruct gs; [inversion R|discriminate]|].
  step_sig Hm 15; [destruct gs; [inversion R|discriminate]|].
  destruct v; [discriminate|].
  step_sig Hm 88; [cbv beta iota delta [Z.eqb Pos.eqb]|].
  { repeat match type of Hm with match ?x with _ => _ end = _ => destruct x eqn:?; try discriminate end. unfold dec_point2d. brk; eexists; reflexivity. }
  step_sig Hm 89; [cbv beta iota delta [Z.eqb Pos.eqb]|].
  { repeat match type of Hm with match ?x with _ => _ end = _ => destruct x eqn:?; try discriminate end. unfold dec_point3d. brk; eexists; reflexivity. }
  step_sig Hm 68; [cbv beta iota delta [Z.eqb Pos.eqb]|].
  { repeat match type of Hm with match ?x with _ => _ end = _ => destruct x eqn:?; try discriminate end. unfold dec_date. brk; eexists; reflexivity. }
  step_sig Hm 84; [cbv beta iota delta [Z.eqb Pos.eqb]|].
  { repeat match type of Hm with match ?x with _ => _ end = _ => destruct x eqn:?; try discriminate end. unfold dec_time. brk; eexists; reflexivity. }
  step_sig Hm 116; [cbv beta iota delta [Z.eqb Pos.eqb]|].
  { repeat match type of Hm with match ?x with _ => _ end = _ => destruct x eqn:?; try discriminate end. unfold dec_localtime. brk; eexists; reflexivity. }
  step_sig Hm 100; [cbv beta iota delta [Z.eqb Pos.eqb]|].
  { repeat match type of Hm with match ?x with _ => _ end = _ => destruct x eqn:?; try discriminate end. unfold dec_localdatetime. brk; eexists; reflexivity. }
  step_sig Hm 70; [cbv beta iota delta [Z.eqb Pos.eqb]|discriminate].
  repeat match type of Hm with match ?x with _ => _ end = _ => destruct x eqn:?; try discriminate end. unfold dec_datetime_offset. brk; eexists; reflexivity.
Qed.
Lemma fine_ok (dec : parser gval) n b x r : fine1 dec n -> (length b < n)%nat -> dec b = Ok (x, r) -> (length r < length b)%nat.
Proof. intros F H E. specialize (F b H). rewrite E in F. now apply psuffix_len. Qed.
Lemma reads_len (dec : parser gval) n gs b r : fine1 dec n -> (length b < n)%nat -> reads dec gs b r -> (length gs + length r <= length b)%nat.
Proof.
  intros F H R. revert H. induction R as [|x gs b b1 b2 E _ IH]; intros H; [cbn; lia|]. pose proof (fine_ok dec n b x b1 F H E). specialize (IH ltac:(lia)). cbn [length]. lia.
Qed.
Lemma items_reads (dec : parser gval) : forall gs k b r, reads dec gs b r -> (length gs <= k)%nat -> dec_items dec k (zlen gs) b = Ok (gs, r).
Proof.
  induction gs as [|x gs IH]; intros k b r R Hk; inversion R; subst; [destruct k; reflexivity|]. cbn [length] in Hk. destruct k; [lia|]. cbn [dec_items]. rewrite zlen_cons.
  pose proof (zlen_nonneg gs). destruct (1 + zlen gs <=? 0) eqn:E; [lia|]. unfold pbind. rewrite H1. replace (1 + zlen gs - 1) with (zlen gs) by lia. rewrite (IH k b1 r) by (auto; lia). reflexivity.
Qed.
Lemma items_breaks (dec : parser gval) n : fine1 dec n -> forall gs k b, breaks dec gs b -> (length b < n)%nat -> (length b < k)%nat -> exists e, dec_items dec k (zlen gs) b = Err e.
Proof.
  intros F. induction gs as [|x gs IH]; intros k b R Hn Hk; inversion R; subst; (destruct k; [lia|]); cbn [dec_items]; rewrite zlen_cons; pose proof (zlen_nonneg gs);
    (destruct (1 + zlen gs <=? 0) eqn:E; [lia|]); unfold pbind.
  - rewrite H2. eexists; reflexivity.
  - rewrite H1. pose proof (fine_ok dec n b x b1 F Hn H1). replace (1 + zlen gs - 1) with (zlen gs) by lia. destruct (IH k b1 H3 ltac:(lia) ltac:(lia)) as (e & ->). eexists; reflexivity.
Qed.
(** maps: keys and values alternate *)
Fixpoint weave (ks : list bytes) (gs : list gval) : list gval :=
  match ks, gs with k :: ks', g :: gs' => GStr k :: g :: weave ks' gs' | _, _ => [] end.
Lemma entries_reads (dec : parser gval) : forall ks gs k b r acc, reads dec (weave ks gs) b r -> length ks = length gs -> (length ks <= k)%nat -> NoDup (map fst acc ++ ks) ->
  dec_entries dec k (zlen ks) acc b = Ok (acc ++ combine ks gs, r).
Proof.
  induction ks as [|key ks IH]; intros gs k b r acc R L Hk ND.
  - inversion R; subst. destruct k; cbn; now rewrite app_nil_r.
  - destruct gs as [|g gs]; [discriminate|]. cbn [weave] in R. inversion R as [|? ? ? b1 ? E1 R1]; subst. inversion R1 as [|? ? ? b2 ? E2 R2]; subst.
    cbn [length] in Hk, L. destruct k; [lia|]. cbn [dec_entries]. rewrite zlen_cons. pose proof (zlen_nonneg ks). destruct (1 + zlen ks <=? 0) eqn:E; [lia|].
    unfold pbind. rewrite E1, E2. replace (1 + zlen ks - 1) with (zlen ks) by lia.
    assert (Hfr : ~ In key (map fst acc)). { intros Hin. apply NoDup_remove_2 in ND. apply ND. apply in_or_app. now left. }
    rewrite map_set_fresh by assumption. rewrite (IH gs k b2 r); auto; try lia; [cbn [combine]; now rewrite <- app_assoc|].
    rewrite map_app. cbn [map fst]. rewrite <- app_assoc. exact ND.
Qed.
Lemma entries_breaks (dec : parser gval) n : fine1 dec n -> forall ks gs k b acc, breaks dec (weave ks gs) b -> length ks = length gs -> (length b < n)%nat -> (length b < k)%nat ->
  exists e, dec_entries dec k (zlen ks) acc b = Err e.
Proof.
  intros F. induction ks as [|key ks IH]; intros gs k b acc R L Hn Hk; [inversion R|]. destruct gs as [|g gs]; [discriminate|]. cbn [weave] in R. cbn [length] in L.
  destruct k; [lia|]. cbn [dec_entries]. rewrite zlen_cons. pose proof (zlen_nonneg ks). destruct (1 + zlen ks <=? 0) eqn:E; [lia|]. unfold pbind.
  inversion R as [? ? ? ? E1|? ? ? b1 E1 R1]; subst; rewrite E1; [eexists; reflexivity|]. pose proof (fine_ok dec n b _ b1 F Hn E1).
  inversion R1 as [? ? ? ? E2|? ? ? b2 E2 R2]; subst; rewrite E2; [eexists; reflexivity|]. pose proof (fine_ok dec n b1 _ b2 F ltac:(lia) E2).
  replace (1 + zlen ks - 1) with (zlen ks) by lia. apply (IH gs); auto; lia.
Qed.

(** ** What is lost *)
Lemma loses_meaning v :
  (forall p r p', loses p r p' -> forall g, meaning v p = Some g -> exists g', meaning v p' = Some g' /\ kin g g')
  /\ (forall l r l', last_loses l r l' -> forall gs, all_some (map (meaning v) l) = Some gs -> exists gs', all_some (map (meaning v) l') = Some gs' /\ Forall2 kin gs gs')
  /\ (forall m r m', value_loses m r m' -> map fst m' = map fst m /\ forall gs, all_some (map (fun kv => meaning v (snd kv)) m) = Some gs ->
        exists gs', all_some (map (fun kv => meaning v (snd kv)) m') = Some gs').
Proof.
  apply loses_all_ind.
  - intros s r _ g H. injection H as <-. eexists. split; [reflexivity|constructor].
  - intros l l' r _ IH g H. cbn [meaning] in *. destruct (all_some (map (meaning v) l)) as [gs|] eqn:E; [|discriminate]. injection H as <-.
    destruct (IH gs eq_refl) as (gs' & -> & K). eexists. split; [reflexivity|now constructor].
  - intros m m' r _ [KE IH] g H. cbn [meaning] in *. rewrite KE. destruct (nodupb (map fst m)); [|discriminate].
    destruct (all_some (map (fun kv => meaning v (snd kv)) m)) as [gs|] eqn:E; [|discriminate]. injection H as <-. destruct (IH gs eq_refl) as (gs' & ->). eexists. split; [reflexivity|constructor].
  - intros sig l l' r _ IH g H. cbn [meaning] in *. destruct (all_some (map (meaning v) l)) as [gs|] eqn:E; [|discriminate].
    destruct (IH gs eq_refl) as (gs' & -> & K). exact (kin_struct v sig gs gs' g H K).
  - intros p p' r _ IH gs H. cbn [map all_some] in *. destruct (meaning v p) as [g|]; [|discriminate]. injection H as <-. destruct (IH g eq_refl) as (g' & -> & K). eexists. split; [reflexivity|now repeat constructor].
  - intros x l l' r _ IH gs H. cbn [map all_some] in *. destruct (meaning v x) as [g|]; [|discriminate]. destruct (all_some (map (meaning v) l)) as [gl|]; [|discriminate]. injection H as <-.
    destruct (IH gl eq_refl) as (gs' & -> & K). eexists. split; [reflexivity|]. constructor; [constructor|exact K].
  - intros k p p' r _ IH. split; [reflexivity|]. intros gs H. cbn [map all_some snd] in *. destruct (meaning v p) as [g|]; [|discriminate]. destruct (IH g eq_refl) as (g' & -> & K). eexists. reflexivity.
  - intros [k x] m m' r _ [KE IH]. split; [cbn; now rewrite KE|]. intros gs H. cbn [map all_some snd] in *. destruct (meaning v x) as [g|]; [|discriminate].
    destruct (all_some (map (fun kv => meaning v (snd kv)) m)) as [gl|]; [|discriminate]. destruct (IH gl eq_refl) as (gs' & ->). eexists. reflexivity.
Qed.
(** What is lost is shorter than the item. *)
Lemma loses_short L :
  (forall p r p', loses p r p' -> forall bs, packs L p bs -> (length r < length bs)%nat)
  /\ (forall l r l', last_loses l r l' -> forall bs, packs_seq L l bs -> (length r < length bs)%nat)
  /\ (forall m r m', value_loses m r m' -> forall bs, packs_entries L m bs -> (length r < length bs)%nat).
Proof.
  apply loses_all_ind.
  - intros s r _ bs H. inversion H as [| | | | | | | | |? h Hh| | |]; subst. apply header_nonempty in Hh. destruct h; [easy|]. cbn [app length]. rewrite !app_length. lia.
  - intros l l' r _ IH bs H. inversion H; subst. match goal with X : _ |- _ => specialize (IH _ X) end. rewrite app_length. lia.
  - intros l l' r _ IH bs H. inversion H; subst. match goal with X : _ |- _ => specialize (IH _ X) end. rewrite app_length. lia.
  - intros sig l l' r _ IH bs H. inversion H; subst. match goal with X : _ |- _ => specialize (IH _ X) end. rewrite app_length. cbn [length]. lia.
  - intros p p' r _ IH bs H. inversion H; subst. match goal with X : _ |- _ => specialize (IH _ X) end. rewrite app_length. lia.
  - intros x l l' r _ IH bs H. inversion H; subst. match goal with X : _ |- _ => specialize (IH _ X) end. rewrite app_length. lia.
  - intros k p p' r _ IH bs H. inversion H; subst. match goal with X : _ |- _ => specialize (IH _ X) end. rewrite !app_length. lia.
  - intros [k x] m m' r _ IH bs H. inversion H; subst. match goal with X : _ |- _ => specialize (IH _ X) end. rewrite !app_length. lia.
Qed.

(** ** Cuts, exactly *)
Lemma Forall2_length' {A B} (R : A -> B -> Prop) l l' : Forall2 R l l' -> length l = length l'.
Proof. induction 1; cbn; congruence. Qed.
Lemma all_some_length {A} (l : list (option A)) r : all_some l = Some r -> length l = length r.
Proof. revert r. induction l as [|[a|] l IH]; intros r H; cbn in H; try discriminate; [injection H as <-; reflexivity|]. destruct (all_some l); [|discriminate]. injection H as <-. cbn. f_equal. now apply IH. Qed.
Definition cutx (v : ver) (tz : zones) (p : pv) : Prop :=
  forall q r fuel g, packs signed_limits p (q ++ r) -> meaning v p = Some g -> r <> [] -> (length q < fuel)%nat ->
    (exists p' g', loses p r p' /\ meaning v p' = Some g' /\ decode_fuel v tz fuel q = Ok (g', []))
    \/ ((forall p', ~ loses p r p') /\ exists e, decode_fuel v tz fuel q = Err e).
Lemma prefix_cases' (a b q r : bytes) : a ++ b = q ++ r -> r <> [] ->
  (exists r1, r1 <> [] /\ a = q ++ r1 /\ r = r1 ++ b) \/ (exists q', q = a ++ q' /\ b = q' ++ r).
Proof.
  intros H Hr. destruct (prefix_cases a b q r H Hr) as [(r1 & H1 & H2)|H2]; [left|now right]. exists r1. split; [exact H1|]. split; [exact H2|].
  subst a. rewrite <- app_assoc in H. now apply app_inv_head in H.
Qed.
Lemma last_loses_inv p l r l' : last_loses (p :: l) r l' -> (l = [] /\ exists p', loses p r p') \/ exists l2, last_loses l r l2.
Proof. intros H. inversion H; subst; eauto. Qed.
Lemma cutx_seq v tz l : Forall (cutx v tz) l ->
  forall q r fuel gs, packs_seq signed_limits l (q ++ r) -> all_some (map (meaning v) l) = Some gs -> r <> [] -> (length q < fuel)%nat ->
    (exists l' gs', last_loses l r l' /\ all_some (map (meaning v) l') = Some gs' /\ reads (decode_fuel v tz fuel) gs' q [])
    \/ ((forall l', ~ last_loses l r l') /\ exists gs', Forall2 kin gs gs' /\ breaks (decode_fuel v tz fuel) gs' q).
Proof.
  induction 1 as [|p l Hp _ IH]; intros q r fuel gs Hb Hm Hr Hf.
  - inversion Hb. kill_nil.
  - inversion Hb as [|? ? b1 b2 H1 H2 E0 E]. subst. cbn [map all_some] in Hm. destruct (meaning v p) as [g|] eqn:Ep; [|discriminate].
    destruct (all_some (map (meaning v) l)) as [gl|] eqn:El; [|discriminate]. injection Hm as <-.
    apply prefix_cases' in E; [|assumption]. destruct E as [(r1 & Hr1 & E & Er)|(q' & E1 & E2)].
    + subst b1. assert (LONG : forall l2, ~ last_loses l r l2).
      { intros l2 X. pose proof (proj1 (proj2 (loses_short signed_limits)) _ _ _ X _ H2). subst r. rewrite app_length in H. lia. }
      destruct (Hp q r1 fuel g H1 Ep Hr1 ltac:(lia)) as [(p' & g' & X & Y & Z)|(X & e & Z)].
      * destruct l as [|p2 l].
        -- inversion H2; subst. rewrite app_nil_r in *. left. exists [p'], [g']. split; [now constructor|]. cbn. rewrite Y. split; [reflexivity|]. econstructor; [exact Z|constructor].
        -- right. split; [intros l' W; apply last_loses_inv in W as [[W _]|(l2 & W)]; [discriminate|exact (LONG l2 W)]|].
           destruct (proj1 (loses_meaning v) _ _ _ X g Ep) as (g2 & Y2 & K). exists (g' :: gl). split; [constructor; [congruence|apply kin_all_same]|].
           apply (br_later _ g' gl q [] Z). destruct gl as [|g3 gl]; [cbn in El; destruct (meaning v p2); [destruct (all_some (map (meaning v) l))|]; discriminate|].
           destruct fuel; [lia|]. eapply br_here. reflexivity.
      * right. split.
        -- intros l' W. apply last_loses_inv in W as [[-> (p' & W)]|(l2 & W)]; [|exact (LONG l2 W)]. inversion H2; subst. rewrite app_nil_r in *. exact (X p' W).
        -- exists (g :: gl). split; [apply kin_all_same|]. eapply br_here. exact Z.
    + subst q b2. rewrite app_length in Hf. pose proof (packs_len _ _ _ H1). pose proof (decode_packs v tz p b1 g q' fuel H1 Ep ltac:(lia)) as D. destruct (IH q' r fuel gl H2 eq_refl Hr ltac:(lia)) as [(l' & gs' & X & Y & Z)|(X & gs' & K & Z)].
      * left. exists (p :: l'), (g :: gs'). split; [now apply ll_more|]. cbn [map all_some]. rewrite Ep, Y. split; [reflexivity|]. econstructor; [exact D|exact Z].
      * right. split.
        -- intros l' W. apply last_loses_inv in W as [[-> _]|(l2 & W)]; [inversion H2; kill_nil|exact (X l2 W)].
        -- exists (g :: gs'). split; [constructor; [constructor|exact K]|]. exact (br_later _ _ _ _ _ D Z).
Qed.
(** maps *)
Lemma flat_value m r l' : last_loses (flat m) r l' -> exists m', value_loses m r m' /\ l' = flat m'.
Proof.
  revert l'. induction m as [|[k p] m IH]; intros l' H; [inversion H|]. change (flat ((k, p) :: m)) with (PStr k :: p :: flat m) in H.
  inversion H as [|? ? l1 ? H1]; subst. inversion H1 as [? p' ? X E|? ? l2 ? H2]; subst.
  - destruct m as [|[k2 p2] m]; [|discriminate]. exists [(k, p')]. split; [now constructor|reflexivity].
  - destruct (IH l2 H2) as (m' & Y & ->). exists ((k, p) :: m'). split; [now constructor|reflexivity].
Qed.
Lemma value_flat m r m' : value_loses m r m' -> last_loses (flat m) r (flat m').
Proof.
  intros H. induction H as [k p p' r X|[k p] m m' r _ IH]; [apply (ll_more (PStr k)); now constructor|].
  change (flat ((k, p) :: m)) with (PStr k :: p :: flat m). change (flat ((k, p) :: m')) with (PStr k :: p :: flat m'). now do 2 apply ll_more.
Qed.
Lemma flat_meaning v m gs : all_some (map (fun kv => meaning v (snd kv)) m) = Some gs -> all_some (map (meaning v) (flat m)) = Some (weave (map fst m) gs) /\ length gs = length m.
Proof.
  revert gs. induction m as [|[k p] m IH]; intros gs H; cbn [map all_some snd] in H; [injection H as <-; split; reflexivity|]. destruct (meaning v p) as [g|] eqn:E; [|discriminate].
  destruct (all_some (map (fun kv => meaning v (snd kv)) m)) as [gl|]; [|discriminate]. injection H as <-. destruct (IH gl eq_refl) as [I1 I2].
  change (flat ((k, p) :: m)) with (PStr k :: p :: flat m). cbn [map all_some meaning fst weave]. rewrite E, I1. split; [reflexivity|cbn; now rewrite I2].
Qed.
Lemma kin_weave ks gs gs' : length ks = length gs -> Forall2 kin (weave ks gs) gs' -> exists ks' gs2, gs' = weave ks' gs2 /\ length ks' = length gs2 /\ zlen ks' = zlen ks.
Proof.
  revert gs gs'. induction ks as [|k ks IH]; intros gs gs' L H; destruct gs as [|g gs]; try discriminate; cbn [weave] in H.
  - inversion H; subst. exists [], []. repeat split.
  - inversion H as [|? y ? ys K1 H1]; subst. inversion H1 as [|? z ? zs K2 H2]; subst. cbn in L. destruct (IH gs zs ltac:(lia) H2) as (ks' & gs2 & -> & L2 & Z2).
    inversion K1; subst; eexists (_ :: ks'), (z :: gs2); (split; [reflexivity|split; [cbn; now rewrite L2|rewrite !zlen_cons; lia]]).
Qed.
Lemma cutx_str v tz s : cutx v tz (PStr s).
Proof.
  intros q r fuel g Hb _ Hr Hf. inversion Hb as [| | | | | | | | |? h Hh E0 E| | |]. clear E0. destruct fuel; [lia|]. cbn [decode_fuel].
  apply prefix_cases' in E; [|assumption]. destruct E as [(r1 & Hr1 & E & Er)|(q' & E1 & E2)].
  - right. split.
    + intros p' X. assert (K : (length r <= length s)%nat) by (clear - X; inversion X; rewrite app_length; lia).
      rewrite Er, app_length in K. destruct r1; [easy|]. cbn in K. lia.
    + apply (cut_header v tz (decode_fuel v tz fuel) signed_limits 128 xd0 xd1 (Some xd2) (zlen s) h q r1); try assumption. left; auto.
  - left. exists (PStr q'), (GStr q'). subst s. split; [now constructor|]. split; [reflexivity|].
    assert (Hs : zlen (q' ++ r) =? 0 = false). { rewrite zlen_app. pose proof (zlen_nonneg q'). destruct r; [easy|]. rewrite zlen_cons. pose proof (zlen_nonneg r). lia. }
    assert (Hd : dec_body v tz (decode_fuel v tz fuel) (h ++ q') = pstr (zlen (q' ++ r)) q').
    { clear - Hh Hs. pose proof (zlen_nonneg (q' ++ r)). inversion Hh; subst h; cbn [app].
      - rewrite (body_tinystr _ _ _ _ (zlen (q' ++ r))) by assumption. now rewrite Hs.
      - rewrite body_str8. unfold pbind. rewrite (read_size_app 1 (zlen (q' ++ r))); auto; cbn in *; lia.
      - rewrite body_str16. unfold pbind. rewrite (read_size_app 2 (zlen (q' ++ r))); auto; cbn in *; lia.
      - match goal with X : Some _ = Some _ |- _ => injection X as <- end. rewrite body_str32. unfold pbind. rewrite (read_size_app 4 (zlen (q' ++ r))); auto; cbn in *; lia. }
    subst q. rewrite Hd. unfold pstr, next, pbind, pret. rewrite zlen_app. pose proof (zlen_nonneg q'). pose proof (zlen_nonneg r).
    destruct (zlen q' + zlen r <? 0) eqn:E; [lia|]. rewrite Z.min_r by lia. unfold zlen. rewrite Nat2Z.id. now rewrite firstn_all, skipn_all.
Qed.
Lemma one_byte_err v tz dec m q r : [m] = q ++ r -> r <> [] -> exists e, dec_body v tz dec q = Err e.
Proof. intros E Hr. destruct q as [|a q]; [eexists; reflexivity|]. cbn in E. injection E as _ E. kill_nil. Qed.
Lemma fixed_err v tz dec m k (f : Z -> parser gval) s q r :
  (forall b, dec_body v tz dec (m :: b) = pbind (read_be k) f b) -> length s = k -> m :: s = q ++ r -> r <> [] -> exists e, dec_body v tz dec q = Err e.
Proof.
  intros Hbody Hs E Hr. destruct q as [|a q]; [eexists; reflexivity|]. cbn in E. injection E as <- E. rewrite Hbody. unfold pbind, read_be.
  destruct (Nat.ltb (length q) k) eqn:El; [eexists; reflexivity|]. apply Nat.ltb_ge in El. apply (f_equal (@length byte)) in E. rewrite app_length in E. destruct r; [easy|]. cbn in E. lia.
Qed.
Theorem cutx_all v tz p : cutx v tz p.
Proof.
  induction p as [| b | z | b | s | l IH | m IH | sig fs IH | t] using pv_ind'.
  5: apply cutx_str.
  1-4: intros q r fuel g Hb Hm Hr Hf; (destruct fuel; [lia|]); cbn [decode_fuel]; right; (split; [intros p' X; inversion X|]).
  - inversion Hb as [E| | | | | | | | | | | |]. now apply (one_byte_err v tz _ xc0 q r).
  - inversion Hb as [|E0 E|E0 E| | | | | | | | | |]; [now apply (one_byte_err v tz _ xc2 q r)|now apply (one_byte_err v tz _ xc3 q r)].
  - inversion Hb as [| | |? b Hz Hs E0 E|? s Hs E0 E|? s Hs E0 E|? s Hs E0 E|? s Hs E0 E| | | | |]; destruct Hs as [Hl _].
    + now apply (one_byte_err v tz _ b q r).
    + eapply (fixed_err v tz _ xc8 1 (fun x => pret (GInt KInt64 (to_signed 1 x)))); eauto.
      intros b. rewrite body_int8. unfold read_int, pbind, pret. destruct (read_be 1 b) as [[? ?]| | |]; reflexivity.
    + eapply (fixed_err v tz _ xc9 2 (fun x => pret (GInt KInt64 (to_signed 2 x)))); eauto.
      intros b. rewrite body_int16. unfold read_int, pbind, pret. destruct (read_be 2 b) as [[? ?]| | |]; reflexivity.
    + eapply (fixed_err v tz _ xca 4 (fun x => pret (GInt KInt64 (to_signed 4 x)))); eauto.
      intros b. rewrite body_int32. unfold read_int, pbind, pret. destruct (read_be 4 b) as [[? ?]| | |]; reflexivity.
    + eapply (fixed_err v tz _ xcb 8 (fun x => pret (GInt KInt64 (to_signed 8 x)))); eauto.
      intros b. rewrite body_int64. unfold read_int, pbind, pret. destruct (read_be 8 b) as [[? ?]| | |]; reflexivity.
  - inversion Hb as [| | | | | | | |? s [H1 H2]| | | |]; subst. eapply (fixed_err v tz _ xc1 8 (fun x => pret (GFloat64 x))); eauto.
  - intros q r fuel g Hb Hm Hr Hf. (destruct fuel; [lia|]); cbn [decode_fuel].
    cbn [meaning] in Hm. destruct (all_some (map (meaning v) l)) as [gl|] eqn:El; [|discriminate].
    inversion Hb as [| | | | | | | | | |? h bs' Hh Hs E0 E| |]. clear E0.
    apply header_nonempty in Hh as Hne. assert (1 <= length h)%nat by (destruct h; [easy|cbn; lia]).
    apply prefix_cases' in E; [|assumption]. destruct E as [(r1 & Hr1 & E & Er)|(q' & E1 & E2)].
    + right. split.
      * intros p' X. inversion X; subst. pose proof (proj1 (proj2 (loses_short signed_limits)) _ _ _ ltac:(eassumption) _ Hs) as K. rewrite app_length in K. lia.
      * apply (cut_header v tz (decode_fuel v tz fuel) signed_limits 144 xd4 xd5 (Some xd6) (zlen l) h q r1); try assumption. right; left; auto.
    + subst q bs'. rewrite app_length in Hf. rewrite (hdr_list v tz _ (zlen l)) by (try assumption; apply zlen_nonneg). unfold dec_slice, pbind.
      destruct (zlen l <? 0) eqn:Ez; [pose proof (zlen_nonneg l); lia|].
      pose proof (decode_fuel_fine v tz fuel) as F.
      destruct (cutx_seq v tz l IH q' r fuel gl Hs El Hr ltac:(lia)) as [(l' & gs' & X & Y & Z)|(X & gs' & K & Z)].
      * left. exists (PList l'), (GSlice gs'). split; [now constructor|]. cbn [meaning]. rewrite Y. split; [reflexivity|].
        assert (ZL : zlen l = zlen gs').
        { destruct (proj1 (proj2 (loses_meaning v)) _ _ _ X gl El) as (gs2 & Y2 & K2). rewrite Y in Y2. injection Y2 as <-. unfold zlen. f_equal. rewrite <- (Forall2_length' _ _ _ K2). apply all_some_length in El; now rewrite map_length in El. }
        rewrite ZL. pose proof (reads_len _ fuel _ q' _ F ltac:(lia) Z). rewrite (items_reads _ gs' _ _ _ Z) by lia. reflexivity.
      * right. split; [intros p' W; inversion W; subst; eapply X; eassumption|].
        assert (ZL : zlen l = zlen gs') by (unfold zlen; f_equal; rewrite <- (Forall2_length' _ _ _ K); apply all_some_length in El; now rewrite map_length in El).
        rewrite ZL. destruct (items_breaks _ fuel F gs' (S (length q')) q' Z ltac:(lia) ltac:(lia)) as (e & ->). eexists. reflexivity.
  - intros q r fuel g Hb Hm Hr Hf. (destruct fuel; [lia|]); cbn [decode_fuel].
    cbn [meaning] in Hm. destruct (nodupb (map fst m)) eqn:Hnd; [|discriminate].
    destruct (all_some (map (fun kv => meaning v (snd kv)) m)) as [gl|] eqn:El; [|discriminate].
    inversion Hb as [| | | | | | | | | | |? h bs' Hh Hs E0 E|]. clear E0.
    apply header_nonempty in Hh as Hne. assert (1 <= length h)%nat by (destruct h; [easy|cbn; lia]).
    apply prefix_cases' in E; [|assumption]. destruct E as [(r1 & Hr1 & E & Er)|(q' & E1 & E2)].
    + right. split.
      * intros p' X. inversion X; subst. pose proof (proj2 (proj2 (loses_short signed_limits)) _ _ _ ltac:(eassumption) _ Hs) as K. rewrite app_length in K. lia.
      * apply (cut_header v tz (decode_fuel v tz fuel) signed_limits 160 xd8 xd9 (Some xda) (zlen m) h q r1); try assumption. right; right; left; auto.
    + subst q bs'. rewrite app_length in Hf. rewrite (hdr_map v tz _ (zlen m)) by (try assumption; apply zlen_nonneg). unfold dec_map, pbind.
      pose proof (decode_fuel_fine v tz fuel) as F. destruct (flat_meaning v m gl El) as [El' Lg].
      assert (IH' : Forall (cutx v tz) (flat m)).
      { clear - IH. induction IH as [|[k p] m H _ IHm]; [constructor|].
        change (flat ((k, p) :: m)) with (PStr k :: p :: flat m). constructor; [apply cutx_str|]. constructor; assumption. }
      assert (ZK : forall (ks : list bytes), length ks = length m -> zlen m = zlen ks) by (intros; unfold zlen; congruence).
      destruct (cutx_seq v tz (flat m) IH' q' r fuel _ (packs_entries_flat _ _ _ Hs) El' Hr ltac:(lia)) as [(l' & gs' & X & Y & Z)|(X & gs' & K & Z)].
      * destruct (flat_value m r l' X) as (m' & V & ->). destruct (proj2 (proj2 (loses_meaning v)) _ _ _ V) as [KE M]. destruct (M gl El) as (gl' & El2).
        destruct (flat_meaning v m' gl' El2) as [Y2 Lg2]. rewrite Y2 in Y. injection Y as <-. rewrite KE in Z.
        left. exists (PMap m'), (GMap (combine (map fst m') gl')). split; [now constructor|]. cbn [meaning]. rewrite KE, Hnd, El2. split; [reflexivity|].
        assert (LM : length m' = length m) by (rewrite <- (map_length fst m'), KE, map_length; reflexivity).
        rewrite (ZK (map fst m)) by apply map_length. pose proof (reads_len _ fuel _ q' _ F ltac:(lia) Z) as RL.
        assert (LW : length (weave (map fst m) gl') = (2 * length m)%nat).
        { assert (W : forall ks (gs : list gval), length ks = length gs -> length (weave ks gs) = (2 * length ks)%nat).
          { induction ks as [|k ks IHk]; intros [|x gs] HL; try discriminate; [reflexivity|]. cbn in HL. cbn [weave length]. rewrite IHk by lia. lia. }
          rewrite W; rewrite map_length; [reflexivity|congruence]. }
        rewrite (entries_reads _ (map fst m) gl' _ _ _ [] Z); [reflexivity|rewrite map_length; congruence|rewrite map_length; lia|cbn; now apply nodupb_NoDup].
      * right. split; [intros p' W; inversion W as [| |? m' ? V|]; subst; exact (X _ (value_flat _ _ _ V))|].
        destruct (kin_weave (map fst m) gl gs' ltac:(rewrite map_length; congruence) K) as (ks' & gs2 & -> & L2 & Z2).
        replace (zlen m) with (zlen ks') by (rewrite Z2; unfold zlen; now rewrite map_length).
        destruct (entries_breaks _ fuel F ks' gs2 (S (length q')) q' [] Z L2 ltac:(lia) ltac:(lia)) as (e & ->). eexists. reflexivity.
  - intros q r fuel g Hb Hm Hr Hf. (destruct fuel; [lia|]); cbn [decode_fuel].
    pose proof Hm as Hm0. cbn [meaning] in Hm. destruct (all_some (map (meaning v) fs)) as [gl|] eqn:El; [|discriminate].
    inversion Hb as [| | | | | | | | | | | |? ? h sb bs' Hh Hsig Hs E01 E].
    apply header_nonempty in Hh as Hne. assert (1 <= length h)%nat by (destruct h; [easy|cbn; lia]).
    apply prefix_cases' in E; [|assumption]. destruct E as [(r1 & Hr1 & E & Er)|(q' & E1 & E2)].
    + right. split.
      * intros p' X. inversion X; subst. pose proof (proj1 (proj2 (loses_short signed_limits)) _ _ _ ltac:(eassumption) _ Hs) as K. rewrite app_length in K. cbn in K. lia.
      * apply (cut_header v tz (decode_fuel v tz fuel) signed_limits 176 xdc xdd None (zlen fs) h q r1); try assumption. right; right; right; auto.
    + subst q. rewrite app_length in Hf. rewrite (hdr_struct signed_limits v tz _ (zlen fs)) by (try assumption; apply zlen_nonneg).
      destruct q' as [|sb' q'].
      * right. split; [|eexists; reflexivity]. cbn in E2. intros p' X. inversion X; subst. pose proof (proj1 (proj2 (loses_short signed_limits)) _ _ _ ltac:(eassumption) _ Hs) as K. cbn in K. lia.
      * cbn in E2. injection E2 as <- E2. subst bs'. cbn [length] in Hf.
        destruct (cutx_seq v tz fs IH q' r fuel gl Hs El Hr ltac:(lia)) as [(l' & gs' & X & Y & Z)|(X & gs' & K & Z)].
        -- left. destruct (proj1 (loses_meaning v) _ _ _ (ls_struct sig fs l' r X) g Hm0) as (g' & Y2 & _). exists (PStruct sig l'), g'. split; [now constructor|]. split; [exact Y2|].
           cbn [meaning] in Y2. rewrite Y in Y2. exact (struct_ok v tz _ sb sig gs' g' q' [] Hsig Y2 Z).
        -- right. split; [intros p' W; inversion W; subst; eapply X; eassumption|]. destruct (kin_struct v sig gl gs' g Hm K) as (g' & Hm' & _).
           exact (struct_breaks v tz _ sb sig gs' g' q' Hsig Hm' Z).
  - intros q r fuel g Hb Hm. discriminate.
Qed.
(** A cut payload is decoded if and only if the cut is inside the text it ends with, and then to the value without the missing bytes;
    otherwise it is reported. *)
Theorem cut_exactly v tz p q r g : packs signed_limits p (q ++ r) -> r <> [] -> meaning v p = Some g ->
  (exists p' g', loses p r p' /\ meaning v p' = Some g' /\ decode v tz q = Ok (g', [])) \/ ((forall p', ~ loses p r p') /\ exists e, decode v tz q = Err e).
Proof.
  intros Hp Hr Hm. exact (cutx_all v tz p q r (S (length q)) g Hp Hm Hr (Nat.lt_succ_diag_r _)).
Qed.

(** ** A record that lost the end of its text *)
Definition full_record : pv := PStruct 113 [PList [PInt 1; PStr [x61; x62; x63]]].
Lemma full_record_packs : packs signed_limits full_record ([xb1; x71; x92; x01; x83; x61] ++ [x62; x63]).
Proof.
  apply (pk_struct _ 113 [PList [PInt 1; PStr [x61; x62; x63]]] [xb1] x71 [x92; x01; x83; x61; x62; x63]); [apply hd_tiny; [easy|reflexivity]|reflexivity|].
  apply (ps_cons _ _ _ [x92; x01; x83; x61; x62; x63] []); [|constructor].
  apply (pk_list _ _ [x92]); [apply hd_tiny; [easy|reflexivity]|].
  apply (ps_cons _ _ _ [x01]); [apply pk_int_tiny; [easy|repeat split; easy]|].
  apply (ps_cons _ _ _ [x83; x61; x62; x63] []); [|constructor]. apply (pk_string _ [x61; x62; x63] [x83]). apply hd_tiny; [easy|reflexivity].
Qed.
Lemma full_record_loses : loses full_record [x62; x63] (PStruct 113 [PList [PInt 1; PStr [x61]]]).
Proof. apply ls_struct, ll_last, ls_list, ll_more, ll_last. apply (ls_text [x61]). discriminate. Qed.
