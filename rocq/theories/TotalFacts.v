(** Decoding arbitrary bytes: termination, suffix property, panic-freedom, version agreement,
    truncation (proofs). *)
From Coq Require Import ZArith List Bool Lia ZifyBool.
From Verif Require Import Bytes BytesFacts GoVal GoErr Encoder Decoder SpecPack PackFacts DecodeFacts.
Import ListNotations.
Open Scope Z_scope.
Ltac Zify.zify_post_hook ::= Z.div_mod_to_equations.

(** ** Termination and suffixes *)

Lemma suffix_refl b : suffix b b. Proof. now exists []. Qed.
Lemma suffix_trans a b c : suffix a b -> suffix b c -> suffix a c.
Proof. intros [p ->] [q ->]. exists (q ++ p). now rewrite app_assoc. Qed.
Lemma psuffix_suffix a b : psuffix a b -> suffix a b.
Proof. intros [p [_ ->]]. now exists p. Qed.
Lemma psuffix_trans a b c : suffix a b -> psuffix b c -> psuffix a c.
Proof.
  intros [p ->] [q [Hq ->]]. exists (q ++ p). rewrite app_assoc. split; [|reflexivity].
  destruct q; [easy|discriminate].
Qed.
Lemma psuffix_trans' a b c : psuffix a b -> suffix b c -> psuffix a c.
Proof.
  intros [p [Hp ->]] [q ->]. exists (q ++ p). rewrite app_assoc. split; [|reflexivity].
  destruct p; [easy|]. now destruct q.
Qed.
Lemma suffix_len a b : suffix a b -> (length a <= length b)%nat.
Proof. intros [p ->]. rewrite app_length. lia. Qed.
Lemma psuffix_len a b : psuffix a b -> (length a < length b)%nat.
Proof. intros [p [Hp ->]]. rewrite app_length. destruct p; [easy|cbn; lia]. Qed.
Lemma suffix_skipn n b : suffix (skipn n b) b.
Proof. exists (firstn n b). now rewrite firstn_skipn. Qed.
Lemma suffix_cons x b : suffix b (x :: b). Proof. now exists [x]. Qed.

(** [fine p n]: on inputs shorter than n, p does not run out of fuel and what it leaves is a suffix. *)
Definition fine {A} (p : parser A) (n : nat) :=
  forall b, (length b < n)%nat ->
    match p b with Ok (_, r) => suffix r b | NoFuel => False | _ => True end.
(** the same, leaving a proper suffix *)
Definition fine1 {A} (p : parser A) (n : nat) :=
  forall b, (length b < n)%nat ->
    match p b with Ok (_, r) => psuffix r b | NoFuel => False | _ => True end.

Lemma fine1_fine {A} (p : parser A) n : fine1 p n -> fine p n.
Proof. intros H b Hb. specialize (H b Hb). destruct (p b) as [[a r]| | |]; auto. now apply psuffix_suffix. Qed.

Lemma fine_bind {A B} (p : parser A) (f : A -> parser B) n :
  fine p n -> (forall a, fine (f a) n) -> fine (pbind p f) n.
Proof.
  intros Hp Hf b Hb. unfold pbind. specialize (Hp b Hb). destruct (p b) as [[a r]| | |]; auto.
  specialize (Hf a r). apply suffix_len in Hp as Hl. specialize (Hf ltac:(lia)).
  destruct (f a r) as [[c r2]| | |]; auto. eapply suffix_trans; eauto.
Qed.
Lemma fine_ret {A} (a : A) n : fine (pret a) n.
Proof. intros b _. apply suffix_refl. Qed.
Lemma fine_err {A} t n : fine (@perr A t) n.
Proof. intros b _. exact I. Qed.
Lemma fine_panic {A} n : fine (@ppanic A) n.
Proof. intros b _. exact I. Qed.
Lemma fine_lift {A} (r : res A) n : r <> NoFuel -> fine (lift r) n.
Proof. intros H b _. unfold lift. destruct r; try exact I; try apply suffix_refl. easy. Qed.
Lemma fine_must_int64 x n : fine (must_int64 x) n.
Proof. destruct x; try apply fine_panic. destruct k; first [apply fine_ret|apply fine_panic]. Qed.
Lemma fine_as_int64 t x n : fine (as_int64 t x) n.
Proof. destruct x; try apply fine_err. destruct k; first [apply fine_ret|apply fine_err]. Qed.
Lemma fine_as_float t x n : fine (as_float t x) n.
Proof. destruct x; first [apply fine_ret|apply fine_err]. Qed.
Lemma fine_as_str t x n : fine (as_str t x) n.
Proof. destruct x; first [apply fine_ret|apply fine_err]. Qed.
Lemma fine_as_slice t x n : fine (as_slice t x) n.
Proof. destruct x; first [apply fine_ret|apply fine_err]. Qed.
Lemma fine_as_map t x n : fine (as_map t x) n.
Proof. destruct x; first [apply fine_ret|apply fine_err]. Qed.

Lemma slice_to_str_fuel l : slice_to_str l <> NoFuel.
Proof. induction l as [|x l IH]; cbn; [discriminate|]. destruct x; try discriminate. destruct (slice_to_str l); easy. Qed.
Lemma slice_to_int_fuel l : slice_to_int l <> NoFuel.
Proof. induction l as [|x l IH]; cbn; [discriminate|]. destruct x; try discriminate.
       destruct k; try discriminate. destruct (slice_to_int l); easy. Qed.
Lemma slice_to_fuel f l : slice_to f l <> NoFuel.
Proof. unfold slice_to. destruct (forallb f l); discriminate. Qed.

Lemma fine_read_be k n : fine (read_be k) n.
Proof.
  intros b _. unfold read_be. destruct (Nat.ltb (length b) k); [exact I|]. apply suffix_skipn.
Qed.
Lemma fine_read_int k n : fine (read_int k) n.
Proof. apply fine_bind; [apply fine_read_be|]. intros; apply fine_ret. Qed.
Lemma fine_read_size k n : fine (read_size k) n.
Proof.
  intros b Hb. unfold read_size. pose proof (fine_read_int k n b Hb) as H.
  destruct (read_int k b) as [[a r]| | |]; cbn; auto.
Qed.
Lemma fine_pstr s n : fine (pstr s) n.
Proof.
  apply fine_bind; [|intros; apply fine_ret]. intros b _. unfold next.
  destruct (s <? 0); [exact I|]. apply suffix_skipn.
Qed.

Lemma fine_items dec n : fine1 dec n -> forall k sz b, (length b < n)%nat -> (length b < k)%nat ->
  match dec_items dec k sz b with Ok (_, r) => suffix r b | NoFuel => False | _ => True end.
Proof.
  intros Hd. induction k as [|k IH]; intros sz b Hb Hk; [lia|]. cbn [dec_items].
  destruct (sz <=? 0); [apply suffix_refl|]. unfold pbind. specialize (Hd b Hb).
  destruct (dec b) as [[x r]| | |]; auto. apply psuffix_len in Hd as Hl.
  specialize (IH (sz - 1) r ltac:(lia) ltac:(lia)).
  destruct (dec_items dec k (sz - 1) r) as [[xs r2]| | |]; auto. cbn.
  eapply suffix_trans; [exact IH|]. now apply psuffix_suffix.
Qed.

Lemma fine_slice dec n sz : fine1 dec n -> fine (dec_slice dec sz) n.
Proof.
  intros Hd b Hb. unfold dec_slice. destruct (sz <? 0); [exact I|]. unfold pbind.
  pose proof (fine_items dec n Hd (S (length b)) sz b Hb ltac:(lia)) as H.
  destruct (dec_items _ _ _ _) as [[l r]| | |]; auto.
Qed.

Lemma fine_entries dec n : fine1 dec n -> forall k sz acc b, (length b < n)%nat -> (length b < k)%nat ->
  match dec_entries dec k sz acc b with Ok (_, r) => suffix r b | NoFuel => False | _ => True end.
Proof.
  intros Hd. induction k as [|k IH]; intros sz acc b Hb Hk; [lia|]. cbn [dec_entries].
  destruct (sz <=? 0); [apply suffix_refl|]. unfold pbind. pose proof (Hd b Hb) as H1.
  destruct (dec b) as [[x r]| | |]; auto. apply psuffix_len in H1 as Hl.
  pose proof (Hd r ltac:(lia)) as H2. destruct (dec r) as [[y r2]| | |]; auto.
  apply psuffix_len in H2 as Hl2.
  destruct x; try exact I. specialize (IH (sz - 1) (map_set acc s y) r2 ltac:(lia) ltac:(lia)).
  destruct (dec_entries _ _ _ _ _) as [[xs r3]| | |]; auto.
  eapply suffix_trans; [exact IH|]. apply psuffix_suffix.
  eapply psuffix_trans'; [exact H2|]. now apply psuffix_suffix.
Qed.

Lemma fine_map dec n sz : fine1 dec n -> fine (dec_map dec sz) n.
Proof.
  intros Hd b Hb. unfold dec_map, pbind.
  pose proof (fine_entries dec n Hd (S (length b)) sz [] b Hb ltac:(lia)) as H.
  destruct (dec_entries _ _ _ _ _) as [[l r]| | |]; auto.
Qed.

Ltac fine_tac :=
  repeat first
    [ apply fine_ret | apply fine_err | apply fine_panic
    | apply fine_must_int64 | apply fine_as_int64 | apply fine_as_float | apply fine_as_str
    | apply fine_as_slice | apply fine_as_map
    | apply fine_lift, slice_to_str_fuel | apply fine_lift, slice_to_int_fuel
    | apply fine_lift, slice_to_fuel | assumption
    | apply fine_bind; [|intros ?] ].

Lemma fine_struct v tz dec n : fine dec n -> fine (dec_struct v tz dec) n.
Proof.
  intros Hd b Hb. unfold dec_struct. destruct b as [|sb b]; [exact I|]. cbn [length] in Hb.
  assert (L : forall (p : parser gval), fine p n ->
      match p b with Ok (_, r) => suffix r (sb :: b) | NoFuel => False | _ => True end).
  { intros p Hp. specialize (Hp b ltac:(lia)). destruct (p b) as [[x r]| | |]; auto.
    eapply suffix_trans; [exact Hp|apply suffix_cons]. }
  repeat match goal with
         | |- match (if ?c then ?p b else _) with _ => _ end => destruct c; [apply (L p)|]
         | |- match (if ?c then Ok _ else _) with _ => _ end => destruct c; [apply suffix_cons|]
         end.
  1-7: unfold dec_node, dec_rel, dec_path, dec_urel, dec_record, dec_failure, dec_success; now fine_tac.
  destruct v; [exact I|].
  repeat match goal with
         | |- match (if ?c then ?p b else _) with _ => _ end => destruct c; [apply (L p)|]
         end; try exact I;
  unfold dec_point2d, dec_point3d, dec_date, dec_time, dec_localtime, dec_localdatetime,
    dec_datetime_offset, dec_datetime_zone, dec_duration; fine_tac.
  - destruct (time_unix _ _). destruct (time_add _ _ _). apply fine_ret.
  - destruct (tz _); [|apply fine_err]. destruct (time_unix _ _). destruct (time_add _ _ _). apply fine_ret.
Qed.

Lemma fine_body v tz dec n : fine1 dec n -> fine1 (dec_body v tz dec) (S n).
Proof.
  intros Hd b Hb. unfold dec_body. destruct b as [|mb b]; [exact I|]. cbn [length] in Hb.
  assert (C : psuffix b (mb :: b)) by (exists [mb]; split; [discriminate|reflexivity]).
  assert (L : forall (p : parser gval), fine p n ->
      match p b with Ok (_, r) => psuffix r (mb :: b) | NoFuel => False | _ => True end).
  { intros p Hp. specialize (Hp b ltac:(lia)). destruct (p b) as [[x r]| | |]; auto.
    eapply psuffix_trans; [exact Hp|exact C]. }
  assert (R : forall k, fine (x <- read_int k ;; pret (GInt KInt64 x)) n)
    by (intros; apply fine_bind; [apply fine_read_int|intros; apply fine_ret]).
  assert (Sz : forall k (f : Z -> parser gval), (forall s, fine (f s) n) -> fine (s <- read_size k ;; f s) n)
    by (intros; apply fine_bind; [apply fine_read_size|assumption]).
  cbv zeta.
  repeat match goal with
         | |- match (if ?c then Ok _ else _) with _ => _ end => destruct c; [exact C|]
         | |- match (if ?c then (if ?d then Ok _ else ?p b) else _) with _ => _ end =>
             destruct c; [destruct d; [exact C|apply (L p)]|]
         | |- match (if ?c then ?p b else _) with _ => _ end => destruct c; [apply (L p)|]
         end; try exact I; try apply R; try (apply Sz; intros);
  try apply fine_pstr; try (now apply fine_slice); try (now apply fine_map);
  try (now apply fine_struct, fine1_fine).
  apply fine_bind; [apply fine_read_be|intros; apply fine_ret].
Qed.

Theorem decode_fuel_fine v tz n : fine1 (decode_fuel v tz n) n.
Proof.
  induction n as [|n IH]; [intros b Hb; lia|]. cbn [decode_fuel]. now apply fine_body.
Qed.

(** Decoding always finishes and leaves a proper suffix. *)
Theorem decode_total v tz b :
  match decode v tz b with Ok (_, r) => psuffix r b | NoFuel => False | _ => True end.
Proof. apply (decode_fuel_fine v tz (S (length b)) b). lia. Qed.

(** ** Inputs on which decoding cannot panic *)

Definition calm {A} (p : parser A) :=
  forall b, Forall tame b -> match p b with Ok (_, r) => Forall tame r | Panic => False | _ => True end.

Lemma calm_bind {A B} (p : parser A) (f : A -> parser B) :
  calm p -> (forall a, calm (f a)) -> calm (pbind p f).
Proof.
  intros Hp Hf b Hb. unfold pbind. specialize (Hp b Hb). destruct (p b) as [[a r]| | |]; auto.
  apply Hf. assumption.
Qed.
Lemma calm_ret {A} (a : A) : calm (pret a). Proof. intros b Hb. exact Hb. Qed.
Lemma calm_err {A} t : calm (@perr A t). Proof. intros b Hb. exact I. Qed.
Lemma calm_as_int64 t x : calm (as_int64 t x).
Proof. destruct x; try apply calm_err. destruct k; first [apply calm_ret|apply calm_err]. Qed.
Lemma calm_as_float t x : calm (as_float t x).
Proof. destruct x; first [apply calm_ret|apply calm_err]. Qed.
Lemma calm_as_str t x : calm (as_str t x).
Proof. destruct x; first [apply calm_ret|apply calm_err]. Qed.
Lemma calm_as_slice t x : calm (as_slice t x).
Proof. destruct x; first [apply calm_ret|apply calm_err]. Qed.
Lemma calm_as_map t x : calm (as_map t x).
Proof. destruct x; first [apply calm_ret|apply calm_err]. Qed.
Lemma tame_skipn n b : Forall tame b -> Forall tame (skipn n b).
Proof. intros H. rewrite <- (firstn_skipn n b) in H. now apply Forall_app in H. Qed.
Lemma calm_read_be k : calm (read_be k).
Proof.
  intros b Hb. unfold read_be. destruct (Nat.ltb (length b) k); [exact I|]. now apply tame_skipn.
Qed.
Lemma calm_read_int k : calm (read_int k).
Proof. apply calm_bind; [apply calm_read_be|intros; apply calm_ret]. Qed.
Lemma calm_read_size k : calm (read_size k).
Proof.
  intros b Hb. unfold read_size. pose proof (calm_read_int k b Hb) as H.
  destruct (read_int k b) as [[a r]| | |]; cbn; auto.
Qed.
Lemma calm_pstr s : 0 <= s -> calm (pstr s).
Proof.
  intros Hs. apply calm_bind; [|intros; apply calm_ret]. intros b Hb. unfold next.
  destruct (s <? 0) eqn:E; [lia|]. now apply tame_skipn.
Qed.
Lemma calm_items dec : calm dec -> forall k sz, calm (dec_items dec k sz).
Proof.
  intros Hd. induction k as [|k IH]; intros sz; cbn [dec_items].
  - destruct (sz <=? 0); [apply calm_ret|]. intros b _. exact I.
  - destruct (sz <=? 0); [apply calm_ret|]. apply calm_bind; [assumption|intros].
    apply calm_bind; [apply IH|intros; apply calm_ret].
Qed.
Lemma calm_slice dec sz : calm dec -> 0 <= sz -> calm (dec_slice dec sz).
Proof.
  intros Hd Hs b Hb. unfold dec_slice. destruct (sz <? 0) eqn:E; [lia|].
  apply calm_bind; auto using calm_items. intros; apply calm_ret.
Qed.
Lemma calm_entries dec : calm dec -> forall k sz acc, calm (dec_entries dec k sz acc).
Proof.
  intros Hd. induction k as [|k IH]; intros sz acc; cbn [dec_entries].
  - destruct (sz <=? 0); [apply calm_ret|]. intros b _. exact I.
  - destruct (sz <=? 0); [apply calm_ret|]. apply calm_bind; [assumption|intros x].
    apply calm_bind; [assumption|intros y]. destruct x; try apply calm_err. apply IH.
Qed.
Lemma calm_map dec sz : calm dec -> calm (dec_map dec sz).
Proof.
  intros Hd b Hb. unfold dec_map. apply calm_bind; auto using calm_entries. intros; apply calm_ret.
Qed.

Ltac calm_tac :=
  repeat first
    [ apply calm_ret | apply calm_err
    | apply calm_as_int64 | apply calm_as_float | apply calm_as_str
    | apply calm_as_slice | apply calm_as_map | assumption
    | apply calm_bind; [|intros ?] ].

Lemma tame_not b n : tame b -> In (zb n) [xd0; xd1; xd2; xd4; xd5; xd6; x4e; x52; x50; x72] ->
  0 <= n < 256 -> (bz b =? n) = false.
Proof.
  intros Ht Hn Hr. destruct (bz b =? n) eqn:E; [|reflexivity]. exfalso. apply Ht.
  replace b with (zb n); [assumption|]. apply bz_inj. rewrite bz_zb. rewrite Z.mod_small by assumption. lia.
Qed.

Lemma calm_struct v tz dec : calm dec -> calm (dec_struct v tz dec).
Proof.
  intros Hd b Hb. unfold dec_struct. destruct b as [|sb b]; [exact I|]. inversion Hb as [|? ? Ht Hb']; subst.
  cbv zeta.
  rewrite (tame_not sb SigNode), (tame_not sb SigRel), (tame_not sb SigPath), (tame_not sb SigURel)
    by (first [assumption | cbn; tauto | unfold SigNode, SigRel, SigPath, SigURel; lia]).
  assert (L : forall (p : parser gval), calm p ->
      match p b with Ok (_, r) => Forall tame r | Panic => False | _ => True end).
  { intros p Hp. apply Hp. assumption. }
  repeat match goal with
         | |- match (if ?c then ?p b else _) with _ => _ end => destruct c; [apply (L p)|]
         | |- match (if ?c then Ok _ else _) with _ => _ end => destruct c; [assumption|]
         end.
  1-3: unfold dec_record, dec_failure, dec_success; now calm_tac.
  destruct v; [exact I|].
  repeat match goal with
         | |- match (if ?c then ?p b else _) with _ => _ end => destruct c; [apply (L p)|]
         end; try exact I;
  unfold dec_point2d, dec_point3d, dec_date, dec_time, dec_localtime, dec_localdatetime,
    dec_datetime_offset, dec_datetime_zone, dec_duration; calm_tac.
  - destruct (time_unix _ _). destruct (time_add _ _ _). apply calm_ret.
  - destruct (tz _); [|apply calm_err]. destruct (time_unix _ _). destruct (time_add _ _ _). apply calm_ret.
Qed.

Lemma calm_body v tz dec : calm dec -> calm (dec_body v tz dec).
Proof.
  intros Hd b Hb. unfold dec_body. destruct b as [|mb b]; [exact I|]. inversion Hb as [|? ? Ht Hb']; subst.
  cbv zeta.
  rewrite (tame_not mb String8Marker), (tame_not mb String16Marker), (tame_not mb String32Marker),
    (tame_not mb Slice8Marker), (tame_not mb Slice16Marker), (tame_not mb Slice32Marker)
    by (first [assumption | cbn; tauto
              | unfold String8Marker, String16Marker, String32Marker, Slice8Marker, Slice16Marker, Slice32Marker; lia]).
  assert (L : forall (p : parser gval), calm p ->
      match p b with Ok (_, r) => Forall tame r | Panic => False | _ => True end).
  { intros p Hp. apply Hp. assumption. }
  assert (R : forall k, calm (x <- read_int k ;; pret (GInt KInt64 x)))
    by (intros; apply calm_bind; [apply calm_read_int|intros; apply calm_ret]).
  assert (Sz : forall k (f : Z -> parser gval), (forall s, calm (f s)) -> calm (s <- read_size k ;; f s))
    by (intros; apply calm_bind; [apply calm_read_size|assumption]).
  repeat match goal with
         | |- match (if ?c then Ok _ else _) with _ => _ end => destruct c; [assumption|]
         | |- match (if ?c then (if ?d then Ok _ else ?p b) else _) with _ => _ end =>
             destruct c eqn:?; [destruct d; [assumption|apply (L p)]|]
         | |- match (if ?c then ?p b else _) with _ => _ end => destruct c eqn:?; [apply (L p)|]
         end; try exact I; try apply R; try (apply Sz; intros);
  try (apply calm_pstr; unfold TinyStringMarker in *; lia);
  try (apply calm_slice; [assumption|unfold TinySliceMarker in *; lia]); try (now apply calm_map);
  try (now apply calm_struct).
  apply calm_bind; [apply calm_read_be|intros; apply calm_ret].
Qed.

Theorem decode_calm v tz b : Forall tame b -> decode v tz b <> Panic.
Proof.
  assert (C : forall n, calm (decode_fuel v tz n)).
  { induction n as [|n IH]; cbn [decode_fuel]; [intros b' _; exact I|]. now apply calm_body. }
  intros Hb E. specialize (C (S (length b)) b Hb). unfold decode in E. now rewrite E in C.
Qed.

(** ** The version 2 decoder extends the version 1 decoder *)

Definition ext {A} (p q : parser A) := forall b x r, p b = Ok (x, r) -> q b = Ok (x, r).

Lemma ext_refl {A} (p : parser A) : ext p p. Proof. intros b x r H. exact H. Qed.
Lemma ext_bind {A B} (p q : parser A) (f g : A -> parser B) :
  ext p q -> (forall a, ext (f a) (g a)) -> ext (pbind p f) (pbind q g).
Proof.
  intros Hp Hf b x r. unfold pbind. destruct (p b) as [[a r']| | |] eqn:E; try discriminate.
  rewrite (Hp _ _ _ E). apply Hf.
Qed.
Lemma ext_items d1 d2 : ext d1 d2 -> forall k sz, ext (dec_items d1 k sz) (dec_items d2 k sz).
Proof.
  intros Hd. induction k as [|k IH]; intros sz; cbn [dec_items]; destruct (sz <=? 0); try apply ext_refl.
  apply ext_bind; [assumption|intros]. apply ext_bind; [apply IH|intros; apply ext_refl].
Qed.
Lemma ext_slice d1 d2 sz : ext d1 d2 -> ext (dec_slice d1 sz) (dec_slice d2 sz).
Proof.
  intros Hd b x r. unfold dec_slice. destruct (sz <? 0); [discriminate|].
  apply ext_bind; [now apply ext_items|intros; apply ext_refl].
Qed.
Lemma ext_entries d1 d2 : ext d1 d2 -> forall k sz acc, ext (dec_entries d1 k sz acc) (dec_entries d2 k sz acc).
Proof.
  intros Hd. induction k as [|k IH]; intros sz acc; cbn [dec_entries]; destruct (sz <=? 0); try apply ext_refl.
  apply ext_bind; [assumption|intros a]. apply ext_bind; [assumption|intros].
  destruct a; try apply ext_refl. apply IH.
Qed.
Lemma ext_map d1 d2 sz : ext d1 d2 -> ext (dec_map d1 sz) (dec_map d2 sz).
Proof.
  intros Hd b x r. unfold dec_map. apply ext_bind; [now apply ext_entries|intros; apply ext_refl].
Qed.

Lemma ext_struct tz1 tz2 d1 d2 : ext d1 d2 -> ext (dec_struct V1 tz1 d1) (dec_struct V2 tz2 d2).
Proof.
  intros Hd b x r. unfold dec_struct. destruct b as [|sb b]; [discriminate|]. cbv zeta.
  repeat match goal with
         | |- (if ?c then ?p b else _) = _ -> (if ?c then ?q b else _) = _ =>
             destruct c; [apply (fun H : ext p q => H b x r)|]
         | |- (if ?c then ?p else _) = _ -> _ => destruct c; [exact (fun H => H)|]
         end; try discriminate;
  unfold dec_node, dec_rel, dec_path, dec_urel, dec_record, dec_failure, dec_success;
  repeat first [assumption | apply ext_refl | apply ext_bind; [|intros ?]].
Qed.

Lemma ext_body tz1 tz2 d1 d2 : ext d1 d2 -> ext (dec_body V1 tz1 d1) (dec_body V2 tz2 d2).
Proof.
  intros Hd b x r. unfold dec_body. destruct b as [|mb b]; [discriminate|]. cbv zeta.
  repeat match goal with
         | |- (if ?c then ?p b else _) = _ -> (if ?c then ?q b else _) = _ =>
             destruct c; [apply (fun H : ext p q => H b x r)|]
         | |- (if ?c then ?p else _) = _ -> _ => destruct c; [exact (fun H => H)|]
         end; try discriminate;
  repeat first [assumption | apply ext_refl | (now apply ext_slice) | (now apply ext_map)
               | (now apply ext_struct) | apply ext_bind; [|intros ?]].
Qed.

Theorem decode_v1_v2 tz1 tz2 b x r : decode V1 tz1 b = Ok (x, r) -> decode V2 tz2 b = Ok (x, r).
Proof.
  assert (C : forall n, ext (decode_fuel V1 tz1 n) (decode_fuel V2 tz2 n)).
  { induction n as [|n IH]; cbn [decode_fuel]; [apply ext_refl|]. now apply ext_body. }
  apply C.
Qed.

(** More fuel does not change a successful outcome. *)
Lemma ext_struct_same v tz d1 d2 : ext d1 d2 -> ext (dec_struct v tz d1) (dec_struct v tz d2).
Proof.
  intros Hd b x r. unfold dec_struct. destruct b as [|sb b]; [discriminate|]. cbv zeta.
  destruct v;
  repeat match goal with
         | |- (if ?c then ?p b else _) = _ -> (if ?c then ?q b else _) = _ =>
             destruct c; [apply (fun H : ext p q => H b x r)|]
         | |- (if ?c then ?p else _) = _ -> _ => destruct c; [exact (fun H => H)|]
         end; try discriminate;
  unfold dec_node, dec_rel, dec_path, dec_urel, dec_record, dec_failure, dec_success,
    dec_point2d, dec_point3d, dec_date, dec_time, dec_localtime, dec_localdatetime,
    dec_datetime_offset, dec_datetime_zone, dec_duration;
  repeat first [assumption | apply ext_refl | apply ext_bind; [|intros ?]].
Qed.

Lemma ext_body_same v tz d1 d2 : ext d1 d2 -> ext (dec_body v tz d1) (dec_body v tz d2).
Proof.
  intros Hd b x r. unfold dec_body. destruct b as [|mb b]; [discriminate|]. cbv zeta.
  repeat match goal with
         | |- (if ?c then ?p b else _) = _ -> (if ?c then ?q b else _) = _ =>
             destruct c; [apply (fun H : ext p q => H b x r)|]
         | |- (if ?c then ?p else _) = _ -> _ => destruct c; [exact (fun H => H)|]
         end; try discriminate;
  repeat first [assumption | (now apply ext_slice) | (now apply ext_map)
               | (now apply ext_struct_same) | (apply ext_bind; [|intros ?]) | apply ext_refl].
Qed.

Lemma decode_fuel_ext v tz n : ext (decode_fuel v tz n) (decode_fuel v tz (S n)).
Proof.
  induction n as [|n IH]; [intros b x r H; discriminate H|].
  change (decode_fuel v tz (S n)) with (dec_body v tz (decode_fuel v tz n)) at 1.
  change (decode_fuel v tz (S (S n))) with (dec_body v tz (decode_fuel v tz (S n))).
  now apply ext_body_same.
Qed.

Lemma decode_fuel_more v tz n k : ext (decode_fuel v tz n) (decode_fuel v tz (k + n)).
Proof.
  induction k as [|k IH]; [apply ext_refl|]. intros b x r H. cbn [Nat.add].
  apply decode_fuel_ext. now apply IH.
Qed.
