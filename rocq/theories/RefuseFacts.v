(** The error of an encoder is the first obstacle (proofs). *)
From Coq Require Import ZArith List Bool Lia ZifyBool.
From Verif Require Import Bytes BytesFacts GoVal GoErr Encoder SpecPack SpecValues SpecRefuse PackFacts ValueFacts.
Import ListNotations.
Open Scope Z_scope.
Ltac Zify.zify_post_hook ::= Z.div_mod_to_equations.

(** The same for items. *)
Fixpoint hurdles (d : nat) (p : pv) : list obstacle :=
  let text d (s : bytes) := too_many d TStringTooLong four_bytes (zlen s) in
  match p with
  | PInt z => if (- 2 ^ 63 <=? z) && (z <? 2 ^ 63) then [] else [(d, TIntTooLong)]
  | PStr s => text d s
  | PList l => too_many d TSliceTooLong four_bytes (zlen l) ++ flat_map (hurdles d) l
  | PMap m => too_many d TMapTooLong four_bytes (zlen m) ++ flat_map (fun kv => text d (fst kv) ++ hurdles d (snd kv)) m
  | PStruct _ fs => too_many d TStructTooLong 65535 (zlen fs) ++ flat_map (hurdles (S d)) fs
  | PErr t => [(d, t)]
  | _ => []
  end.

Definition orelse (a b : option gerr) : option gerr := match a with Some e => Some e | None => b end.
Lemma first_app a b : first_reported (a ++ b) = orelse (first_reported a) (first_reported b).
Proof. destruct a; reflexivity. Qed.
Lemma then_snd a b : snd (w_then a b) = orelse (snd a) (snd b).
Proof. unfold w_then. destruct a as [la [e|]]; reflexivity. Qed.
Definition deep (d : nat) (e : option gerr) : option gerr :=
  match e with Some e => Some (Nat.iter d (fun e => EWrap (Some e) 0) e) | None => None end.
Lemma deep_orelse d a b : deep d (orelse a b) = orelse (deep d a) (deep d b).
Proof. destruct a; reflexivity. Qed.
Lemma deep_wrap d a : deep d (snd (w_wrap a)) = deep (S d) (snd a).
Proof.
  unfold w_wrap. destruct a as [la [e|]]; [|reflexivity]. cbn [snd deep]. apply f_equal.
  induction d as [|d IH]; [reflexivity|]. exact (f_equal (fun e => EWrap (Some e) 0) IH).
Qed.
Lemma too_many_first d t L n (a : wseq) : (n <= L -> snd a = None) -> (L < n -> snd a = Some (ENew t)) ->
  deep d (snd a) = first_reported (too_many d t L n).
Proof. intros H1 H2. unfold too_many. destruct (n <=? L) eqn:E; [now rewrite H1 by lia|]. rewrite H2 by lia. reflexivity. Qed.
Ltac sizes := unfold MaxUint8, MaxUint16, MaxUint32, four_bytes in *; split_ifs; cbn; intros; try reflexivity; lia.
Lemma str_first d s : deep d (snd (enc_str s)) = first_reported (too_many d TStringTooLong four_bytes (zlen s)).
Proof. apply too_many_first; unfold enc_str; rewrite then_snd; pose proof (zlen_nonneg s); unfold str_hdr; sizes. Qed.
Lemma slice_first d n : 0 <= n -> deep d (snd (slice_hdr n)) = first_reported (too_many d TSliceTooLong four_bytes n).
Proof. intros H. apply too_many_first; unfold slice_hdr; sizes. Qed.
Lemma map_first d n : 0 <= n -> deep d (snd (map_hdr n)) = first_reported (too_many d TMapTooLong four_bytes n).
Proof. intros H. apply too_many_first; unfold map_hdr; sizes. Qed.
Lemma struct_first d n : 0 <= n -> deep d (snd (struct_hdr n)) = first_reported (too_many d TStructTooLong 65535 n).
Proof. intros H. apply too_many_first; unfold struct_hdr; sizes. Qed.

Lemma enc_hurdles p : forall d, deep d (snd (enc p)) = first_reported (hurdles d p).
Proof.
  induction p as [| b | z | b | s | l IH | m IH | sig fs IH | t] using pv_ind'; intros d; try reflexivity.
  - now destruct b.
  - cbn [enc hurdles]. unfold enc_int, MinInt64, MinInt32, MinInt16, MinInt8, MaxInt8, MaxInt16, MaxInt32, MaxInt64.
    change (2 ^ 63) with 9223372036854775808. split_ifs; try reflexivity; lia.
  - apply str_first.
  - rewrite enc_list_eq, then_snd, deep_orelse, slice_first by apply zlen_nonneg. cbn [hurdles]. rewrite first_app. f_equal.
    induction IH as [|x l Hx _ IHl]; [reflexivity|]. cbn [enc_all flat_map]. rewrite then_snd, deep_orelse, first_app. now rewrite Hx, IHl.
  - rewrite enc_map_eq, then_snd, deep_orelse, map_first by apply zlen_nonneg. cbn [hurdles]. rewrite first_app. f_equal.
    induction IH as [|[k x] m Hx _ IHm]; [reflexivity|]. cbn [enc_entries flat_map fst snd] in *.
    rewrite !then_snd, !deep_orelse, !first_app, str_first, Hx, IHm. now destruct (first_reported (too_many d TStringTooLong four_bytes (zlen k))).
  - rewrite enc_struct_eq, !then_snd, !deep_orelse, struct_first by apply zlen_nonneg. cbn [hurdles]. rewrite first_app. f_equal. cbn [orelse deep snd w_ok].
    induction IH as [|x l Hx _ IHl]; [reflexivity|]. cbn [enc_fields flat_map]. rewrite then_snd, deep_orelse, first_app, deep_wrap. now rewrite Hx, IHl.
Qed.

Lemma small_int d z : is_int64 z = true -> hurdles d (PInt z) = [].
Proof. unfold is_int64. cbn [hurdles]. now intros ->. Qed.
Lemma flat_map_same {A B} (f g : A -> list B) l : Forall (fun x => f x = g x) l -> flat_map f l = flat_map g l.
Proof. induction 1 as [|x l H _ IH]; [reflexivity|]. cbn. now rewrite H, IH. Qed.
Lemma flat_map_map {A B C} (f : A -> B) (g : B -> list C) l : flat_map g (map f l) = flat_map (fun x => g (f x)) l.
Proof. induction l as [|x l IH]; [reflexivity|]. cbn. now rewrite IH. Qed.
Lemma flat_map_nil {A B} (f : A -> list B) l : Forall (fun x => f x = []) l -> flat_map f l = [].
Proof. induction 1 as [|x l H _ IH]; [reflexivity|]. cbn. now rewrite H, IH. Qed.

Ltac bsp := repeat match goal with H : _ && _ = true |- _ => apply andb_prop in H; destruct H end.
Lemma each_same v d l : Forall (fun x => go_typed x = true -> forall d, hurdles d (lower v x) = obstacles v d x) l ->
  forallb go_typed l = true -> hurdles d (PList (map (lower v) l)) = too_many d TSliceTooLong four_bytes (zlen l) ++ flat_map (obstacles v d) l.
Proof.
  intros IH Ht. cbn [hurdles]. rewrite zlen_map, flat_map_map. f_equal. apply flat_map_same.
  rewrite forallb_forall in Ht. rewrite Forall_forall in *. intros x Hx. apply IH; auto.
Qed.
Lemma props_same v d m : Forall (fun kv => go_typed (snd kv) = true -> forall d, hurdles d (lower v (snd kv)) = obstacles v d (snd kv)) m ->
  forallb (fun kv => go_typed (snd kv)) m = true ->
  hurdles d (PMap (map (fun kv => (fst kv, lower v (snd kv))) m))
  = too_many d TMapTooLong four_bytes (zlen m)
    ++ flat_map (fun kv => too_many d TStringTooLong four_bytes (zlen (fst kv)) ++ obstacles v d (snd kv)) m.
Proof.
  intros IH Ht. cbn [hurdles]. rewrite zlen_map, flat_map_map. f_equal. apply flat_map_same.
  rewrite forallb_forall in Ht. rewrite Forall_forall in *. intros x Hx. cbn [fst snd]. rewrite (IH x Hx); auto.
Qed.
Lemma labels_same d l : hurdles d (PList (map PStr l))
  = too_many d TSliceTooLong four_bytes (zlen l) ++ flat_map (fun s => too_many d TStringTooLong four_bytes (zlen s)) l.
Proof. cbn [hurdles]. rewrite zlen_map, flat_map_map. reflexivity. Qed.
Lemma seq_same d l : forallb is_int64 l = true -> hurdles d (PList (map PInt l)) = too_many d TSliceTooLong four_bytes (zlen l).
Proof.
  intros H. cbn [hurdles]. rewrite zlen_map, flat_map_map.
  rewrite (flat_map_nil _ l), app_nil_r; [reflexivity|]. rewrite forallb_forall in H. apply Forall_forall. intros z Hz. now apply small_int, H.
Qed.
Lemma struct_small d sig fs : zlen fs <= 65535 -> hurdles d (PStruct sig fs) = flat_map (hurdles (S d)) fs.
Proof. intros H. cbn [hurdles]. unfold too_many. replace (zlen fs <=? 65535) with true by lia. reflexivity. Qed.
Lemma int64_in z : is_int64 (int64 z) = true.
Proof. unfold is_int64. pose proof (int64_range z). lia. Qed.

Lemma lower_obstacles v x : go_typed x = true -> forall d, hurdles d (lower v x) = obstacles v d x.
Proof.
  induction x using gval_ind'; intros Ht dep; cbn [go_typed] in Ht; cbn [lower obstacles]; bsp;
    try reflexivity.
  - destruct k; cbn [int_arg]; try (apply small_int, int64_in).
    unfold MaxInt64. change (2 ^ 63) with 9223372036854775808.
    destruct (z >? 9223372036854775807) eqn:E; [replace (z <? 9223372036854775808) with false by lia; reflexivity|].
    replace (z <? 9223372036854775808) with true by lia. apply small_int, int64_in.
  - now apply each_same.
  - now apply each_same.
  - now apply props_same.
  - rewrite struct_small by (cbn; lia). cbn [flat_map]. rewrite small_int, labels_same, props_same, app_nil_r by assumption. cbn [app].
    now rewrite <- app_assoc.
  - rewrite struct_small by (cbn; lia). cbn [flat_map]. rewrite !small_int, props_same, app_nil_r by assumption. reflexivity.
  - rewrite struct_small by (cbn; lia). cbn [flat_map]. rewrite !small_int, props_same, app_nil_r by assumption. reflexivity.
  - rewrite struct_small by (cbn; lia). cbn [flat_map]. rewrite !each_same, seq_same, app_nil_r by assumption. reflexivity.
  - destruct p; [|reflexivity]. rewrite struct_small by (cbn; lia). cbn [flat_map]. rewrite !small_int by assumption. reflexivity.
  - destruct p; [|reflexivity]. rewrite struct_small by (cbn; lia). cbn [flat_map]. rewrite !small_int by assumption. reflexivity.
  - destruct v; [reflexivity|]. rewrite struct_small by (cbn; lia). cbn [flat_map]. rewrite small_int by apply int64_in. reflexivity.
  - destruct v; [reflexivity|]. rewrite struct_small by (cbn; lia). cbn [flat_map]. rewrite !small_int by assumption. reflexivity.
  - destruct v; [reflexivity|]. rewrite struct_small by (cbn; lia). cbn [flat_map]. rewrite !small_int by assumption. reflexivity.
  - destruct v; [reflexivity|]. rewrite struct_small by (cbn; lia). cbn [flat_map]. rewrite !small_int by assumption. reflexivity.
  - destruct v; [reflexivity|]. destruct (time_fields_typed s n o) as [a [b [-> [Ha Hb]]]]; try assumption; [lia|].
    rewrite struct_small by (cbn; lia). cbn [flat_map]. rewrite !small_int; try assumption; try reflexivity;
    unfold is_int64; change (2 ^ 63) with 9223372036854775808; lia.
  - destruct v; [reflexivity|]. rewrite struct_small by (cbn; lia). unfold duration_fields. cbn [flat_map]. rewrite small_int by assumption. reflexivity.
  - rewrite struct_small by (cbn; lia). cbn [flat_map]. rewrite props_same, app_nil_r by assumption. reflexivity.
  - rewrite struct_small by (cbn; lia). cbn [flat_map]. rewrite props_same, app_nil_r by assumption. reflexivity.
  - rewrite struct_small by (cbn; lia). cbn [flat_map]. rewrite each_same, app_nil_r by assumption. reflexivity.
  - cbn [hurdles]. rewrite zlen_map, flat_map_map. f_equal. apply flat_map_same.
    match goal with Hb : forallb go_typed l = true, Hf : Forall _ l |- _ => rewrite forallb_forall in Hb; rewrite Forall_forall in *; intros x Hx; apply Hf; auto end.
Qed.
Theorem refused_first v x : go_typed x = true -> snd (encode v x) = first_reported (obstacles v 0 x).
Proof.
  intros Ht. rewrite <- (lower_obstacles v x Ht 0), <- enc_hurdles. unfold encode. now destruct (snd (enc (lower v x))).
Qed.
