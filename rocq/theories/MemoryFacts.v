(** Memory and stack of the decoders: C114, C115. *)
From Coq Require Import ZArith List Bool Lia ZifyBool.
From Verif Require Import Bytes BytesFacts GoVal GoErr Encoder Decoder SpecPack PackFacts DecodeFacts TotalFacts Memory SpecCodec SpecMemory.
Import ListNotations.
Open Scope Z_scope.
Ltac Zify.zify_post_hook ::= Z.div_mod_to_equations.

(** ** Two decoders that agree on short buffers of some kind *)
Section Agree.
Variable P : bytes -> Prop.
Hypothesis PS : forall a b, suffix a b -> P b -> P a.
Definition agree {A} (n : nat) (p q : parser A) := forall b, P b -> (length b < n)%nat -> p b = q b.
Lemma agree_refl {A} n (p : parser A) : agree n p p. Proof. intros b _ _. reflexivity. Qed.
Lemma agree_bind {A B} n (p q : parser A) (f g : A -> parser B) : agree n p q -> fine p n -> (forall a, agree n (f a) (g a)) -> agree n (pbind p f) (pbind q g).
Proof.
  intros Hp Hs Hf b Pb Hb. unfold pbind. rewrite <- (Hp b Pb Hb). specialize (Hs b Hb). destruct (p b) as [[a r]| | |]; auto.
  apply Hf; [eapply PS; eauto|]. apply suffix_len in Hs. lia.
Qed.
Lemma agree_items n dec dec' : agree n dec dec' -> fine1 dec n -> forall k sz b, P b -> (length b < n)%nat -> dec_items dec k sz b = dec_items dec' k sz b.
Proof.
  intros Ha Hf. induction k as [|k IH]; intros sz b Pb Hb; cbn [dec_items]; [reflexivity|]. destruct (sz <=? 0); [reflexivity|]. unfold pbind. rewrite <- (Ha b Pb Hb).
  specialize (Hf b Hb). destruct (dec b) as [[x r]| | |]; auto. assert (Pr : P r) by (eapply PS; [apply psuffix_suffix; eassumption|exact Pb]). apply psuffix_len in Hf. now rewrite IH by (trivial; lia).
Qed.
Lemma agree_entries n dec dec' : agree n dec dec' -> fine1 dec n -> forall k sz acc b, P b -> (length b < n)%nat -> dec_entries dec k sz acc b = dec_entries dec' k sz acc b.
Proof.
  intros Ha Hf. induction k as [|k IH]; intros sz acc b Pb Hb; cbn [dec_entries]; [reflexivity|]. destruct (sz <=? 0); [reflexivity|]. unfold pbind. rewrite <- (Ha b Pb Hb).
  pose proof (Hf b Hb) as F1. destruct (dec b) as [[x r]| | |]; auto. assert (Pr : P r) by (eapply PS; [apply psuffix_suffix; eassumption|exact Pb]). apply psuffix_len in F1. rewrite <- (Ha r Pr) by lia.
  pose proof (Hf r ltac:(lia)) as F2. destruct (dec r) as [[y r2]| | |]; auto. assert (Pr2 : P r2) by (eapply PS; [apply psuffix_suffix; eassumption|exact Pr]). apply psuffix_len in F2. destruct x; auto. now rewrite IH by (trivial; lia).
Qed.
Lemma agree_slice n dec dec' sz : agree n dec dec' -> fine1 dec n -> agree n (dec_slice dec sz) (dec_slice dec' sz).
Proof. intros Ha Hf b Pb Hb. unfold dec_slice. destruct (sz <? 0); [reflexivity|]. unfold pbind. now rewrite (agree_items n dec dec' Ha Hf _ _ _ Pb Hb). Qed.
Lemma agree_map n dec dec' sz : agree n dec dec' -> fine1 dec n -> agree n (dec_map dec sz) (dec_map dec' sz).
Proof. intros Ha Hf b Pb Hb. unfold dec_map, pbind. now rewrite (agree_entries n dec dec' Ha Hf _ _ _ _ Pb Hb). Qed.
Ltac agree_tac Ha :=
  repeat first [apply agree_refl | exact Ha | apply agree_bind; [| |intros ?] | fine_tac; fail | assumption].
Lemma agree_struct v tz n dec dec' : agree n dec dec' -> fine dec n -> agree n (dec_struct v tz dec) (dec_struct v tz dec').
Proof.
  intros Ha Hf b Pb Hb. unfold dec_struct. destruct b as [|sb b]; [reflexivity|]. cbn [length] in Hb. assert (Hb' : (length b < n)%nat) by lia. cbv zeta.
  apply (PS b) in Pb; [|apply suffix_cons].
  assert (L : forall p q : parser gval, agree n p q -> p b = q b) by (intros p q H; now apply H).
  repeat match goal with
         | |- (if ?c then Ok _ else _) = _ => destruct c; [reflexivity|]
         | |- (if ?c then ?p b else _) = (if ?c then ?q b else _) => destruct c; [apply (L p q)|]
         end.
  1-7: unfold dec_node, dec_rel, dec_path, dec_urel, dec_record, dec_failure, dec_success; agree_tac Ha; fine_tac.
  destruct v; [reflexivity|].
  repeat match goal with
         | |- (if ?c then ?p b else _) = (if ?c then ?q b else _) => destruct c; [apply (L p q)|]
         end; try reflexivity;
  unfold dec_point2d, dec_point3d, dec_date, dec_time, dec_localtime, dec_localdatetime,
    dec_datetime_offset, dec_datetime_zone, dec_duration; agree_tac Ha; fine_tac.
Qed.
Lemma agree_body v tz n dec dec' mb b : agree n dec dec' -> fine1 dec n -> P b -> (length b < n)%nat -> dec_body v tz dec (mb :: b) = dec_body v tz dec' (mb :: b).
Proof.
  intros Ha Hf Pb Hb. unfold dec_body. cbv zeta. assert (L : forall p q : parser gval, agree n p q -> p b = q b) by (intros p q H; now apply H).
  assert (Sz : forall k (f g : Z -> parser gval), (forall s, agree n (f s) (g s)) -> agree n (s <- read_size k ;; f s) (s <- read_size k ;; g s))
    by (intros; apply agree_bind; [apply agree_refl|apply fine_read_size|assumption]).
  repeat match goal with
         | |- (if ?c then Ok _ else _) = _ => destruct c; [reflexivity|]
         | |- (if ?c then (if ?d then Ok _ else ?p b) else _) = _ => destruct c; [destruct d; reflexivity|]
         | |- (if ?c then ?p b else _) = (if ?c then ?q b else _) => destruct c; [apply (L p q)|]
         end; try reflexivity; try apply agree_refl; try (apply Sz; intros);
  try apply agree_refl; try (now apply agree_slice); try (now apply agree_map); try (now apply agree_struct; [|apply fine1_fine]).
Qed.
End Agree.
Lemma sized_bound n b : (n = 1 \/ n = 2 \/ n = 4)%nat -> 0 <= sized n b <= 2147483647.
Proof.
  intros Hn. unfold sized, read_int, pbind, read_be, pret. destruct (Nat.ltb_spec (length b) n) as [|Hl]; [lia|].
  unfold to_signed. cbv zeta. set (u := unbe (firstn n b)). clearbody u. clear Hl.
  destruct Hn as [->|[->| ->]].
  - change (256 ^ Z.of_nat 1) with 256. change (256 / 2) with 128. destruct (Z.ltb_spec (u mod 256) 128); lia.
  - change (256 ^ Z.of_nat 2) with 65536. change (65536 / 2) with 32768. destruct (Z.ltb_spec (u mod 65536) 32768); lia.
  - change (256 ^ Z.of_nat 4) with 4294967296. change (4294967296 / 2) with 2147483648. destruct (Z.ltb_spec (u mod 4294967296) 2147483648); lia.
Qed.
Lemma reserved_bound b : 0 <= reserved b <= 2147483647.
Proof.
  unfold reserved. destruct b as [|mb b]; [lia|]. cbv zeta.
  repeat match goal with |- context [if ?c then _ else _] => destruct c eqn:? end; try (apply sized_bound; tauto); unfold TinySliceMarker, TinyMapMarker in *; lia.
Qed.
Theorem enough v tz : forall fuel room b, (length b < fuel)%nat -> 2147483647 * zlen b <= room -> decode_within v tz fuel room b = decode_fuel v tz fuel b.
Proof.
  induction fuel as [|f IH]; intros room b Hb Hr; [reflexivity|]. cbn [decode_within decode_fuel].
  pose proof (reserved_bound b) as R. destruct b as [|mb b]; [cbn in Hr; destruct (Z.ltb_spec room (reserved [])) as [X|X]; [change (reserved []) with 0 in X; unfold zlen in Hr; cbn in Hr; lia|reflexivity]|].
  rewrite zlen_cons in Hr. pose proof (zlen_nonneg b). destruct (Z.ltb_spec room (reserved (mb :: b))) as [X|X]; [lia|]. cbn [length] in Hb.
  symmetry. apply (agree_body (fun _ => True) (fun _ _ _ _ => I) v tz (S (length b))); [| |exact I|lia].
  - intros b' Hb'. symmetry. apply IH; [lia|]. unfold zlen in *. nia.
  - intros b' Hb'. apply (decode_fuel_fine v tz f b'). lia.
Qed.

(** ** What is accepted needs no more elements than it has bytes *)
Definition follows {A} (n : nat) (K : Z) (p q : parser A) :=
  forall b x r, (length b < n)%nat -> p b = Ok (x, r) -> zlen b <= zlen r + K -> q b = Ok (x, r).
Lemma follows_refl {A} n K (p : parser A) : follows n K p p. Proof. intros b x r _ E _. exact E. Qed.
Lemma follows_bind {A B} n K (p q : parser A) (f g : A -> parser B) : follows n K p q -> fine p n -> (forall a, follows n K (f a) (g a)) -> (forall a, fine (f a) n) ->
  follows n K (pbind p f) (pbind q g).
Proof.
  intros Hp Fp Hf Ff b x r Hb E Hk. unfold pbind in *. specialize (Fp b Hb). destruct (p b) as [[a r1]| | |] eqn:Ep; try discriminate.
  apply suffix_len in Fp. pose proof (Ff a r1 ltac:(lia)) as F2. rewrite E in F2. apply suffix_len in F2. unfold zlen in *.
  rewrite (Hp b a r1 Hb Ep) by (unfold zlen; lia). apply (Hf a); [lia|exact E|unfold zlen; lia].
Qed.
Lemma items_len n dec : fine1 dec n -> forall k sz b l r, (length b < n)%nat -> dec_items dec k sz b = Ok (l, r) -> zlen r + Z.max 0 sz <= zlen b.
Proof.
  intros Hf. induction k as [|k IH]; intros sz b l r Hb; cbn [dec_items]; destruct (Z.leb_spec sz 0) as [H|H]; try discriminate.
  - intros [= <- <-]. lia.
  - intros [= <- <-]. lia.
  - unfold pbind. specialize (Hf b Hb). destruct (dec b) as [[x r1]| | |]; try discriminate. apply psuffix_len in Hf.
    destruct (dec_items dec k (sz - 1) r1) as [[xs r2]| | |] eqn:E; try discriminate. intros [= <- <-]. apply IH in E; [|lia]. unfold zlen in *. lia.
Qed.
Lemma entries_len n dec : fine1 dec n -> forall k sz acc b l r, (length b < n)%nat -> dec_entries dec k sz acc b = Ok (l, r) -> zlen r + 2 * Z.max 0 sz <= zlen b.
Proof.
  intros Hf. induction k as [|k IH]; intros sz acc b l r Hb; cbn [dec_entries]; destruct (Z.leb_spec sz 0) as [H|H]; try discriminate.
  - intros [= <- <-]. lia.
  - intros [= <- <-]. lia.
  - unfold pbind. pose proof (Hf b Hb) as F1. destruct (dec b) as [[x r1]| | |]; try discriminate. apply psuffix_len in F1.
    pose proof (Hf r1 ltac:(lia)) as F2. destruct (dec r1) as [[y r2]| | |]; try discriminate. apply psuffix_len in F2.
    destruct x; try discriminate. intros E. apply IH in E; [|lia]. unfold zlen in *. lia.
Qed.
Lemma follows_items n K dec dec' : follows n K dec dec' -> fine1 dec n -> forall k sz b l r, (length b < n)%nat -> dec_items dec k sz b = Ok (l, r) ->
  zlen b <= zlen r + K + sz - 1 \/ sz <= 0 -> dec_items dec' k sz b = Ok (l, r).
Proof.
  intros Ha Hf. induction k as [|k IH]; intros sz b l r Hb; cbn [dec_items]; destruct (Z.leb_spec sz 0) as [H|H]; try (intros; assumption); try discriminate.
  unfold pbind. pose proof (Hf b Hb) as F. destruct (dec b) as [[x r1]| | |] eqn:E1; try discriminate. apply psuffix_len in F.
  destruct (dec_items dec k (sz - 1) r1) as [[xs r2]| | |] eqn:E; try discriminate. intros [= <- <-] HK. assert (Hb1 : (length r1 < n)%nat) by lia. pose proof (items_len n dec Hf _ _ _ _ _ Hb1 E) as L.
  unfold zlen in *. rewrite (Ha b x r1 Hb E1) by (unfold zlen; lia). rewrite (IH (sz - 1) r1 xs r2); [reflexivity|lia|exact E|lia].
Qed.
Lemma follows_entries n K dec dec' : follows n K dec dec' -> fine1 dec n -> forall k sz acc b l r, (length b < n)%nat -> dec_entries dec k sz acc b = Ok (l, r) ->
  zlen b <= zlen r + K + sz - 1 \/ sz <= 0 -> dec_entries dec' k sz acc b = Ok (l, r).
Proof.
  intros Ha Hf. induction k as [|k IH]; intros sz acc b l r Hb; cbn [dec_entries]; destruct (Z.leb_spec sz 0) as [H|H]; try (intros; assumption); try discriminate.
  unfold pbind. pose proof (Hf b Hb) as F1. destruct (dec b) as [[x r1]| | |] eqn:E1; try discriminate. apply psuffix_len in F1.
  pose proof (Hf r1 ltac:(lia)) as F2. destruct (dec r1) as [[y r2]| | |] eqn:E2; try discriminate. apply psuffix_len in F2.
  destruct x; try discriminate. intros E HK. assert (Hb2 : (length r2 < n)%nat) by lia. pose proof (entries_len n dec Hf _ _ _ _ _ _ Hb2 E) as L. unfold zlen in *.
  rewrite (Ha b _ r1 Hb E1) by (unfold zlen; lia). rewrite (Ha r1 y r2) by (try assumption; unfold zlen; lia). apply (IH (sz - 1)); [lia|exact E|lia].
Qed.
Ltac follows_tac Ha :=
  repeat first [apply follows_refl | exact Ha | apply follows_bind; [| |intros ?|intros ?] | fine_tac; fail | assumption].
Lemma follows_struct v tz n K dec dec' : follows n K dec dec' -> fine dec n -> follows n K (dec_struct v tz dec) (dec_struct v tz dec').
Proof.
  intros Ha Hf b x r Hb. unfold dec_struct. destruct b as [|sb b]; [discriminate|]. cbn [length] in Hb. cbv zeta.
  intros E HK. revert E. rewrite zlen_cons in HK.
  assert (L : forall p q : parser gval, follows n K p q -> p b = Ok (x, r) -> q b = Ok (x, r)) by (intros p q H E; apply H; [lia|exact E|lia]).
  repeat match goal with
         | |- (if ?c then Ok _ else _) = _ -> _ => destruct c; [intros E; exact E|]
         | |- (if ?c then ?p b else _) = _ -> (if ?c then ?q b else _) = _ => destruct c; [apply (L p q)|]
         end.
  1-7: unfold dec_node, dec_rel, dec_path, dec_urel, dec_record, dec_failure, dec_success; follows_tac Ha; fine_tac.
  destruct v; [discriminate|].
  repeat match goal with
         | |- (if ?c then ?p b else _) = _ -> (if ?c then ?q b else _) = _ => destruct c; [apply (L p q)|]
         end; try discriminate;
  unfold dec_point2d, dec_point3d, dec_date, dec_time, dec_localtime, dec_localdatetime,
    dec_datetime_offset, dec_datetime_zone, dec_duration; follows_tac Ha; fine_tac.
  all: try (destruct (time_unix _ _); destruct (time_add _ _ _); apply fine_ret).
  all: destruct (tz _); [|apply fine_err]; destruct (time_unix _ _); destruct (time_add _ _ _); apply fine_ret.
Qed.

(** What a marker announces does not depend on how the elements are read. *)
Lemma read_size_ok k b s b1 : read_size k b = Ok (s, b1) -> sized k b = Z.max 0 s /\ (length b1 <= length b)%nat.
Proof.
  unfold read_size, sized. intros E. destruct (read_int k b) as [[s' b1']| | |] eqn:Er; cbn in E; try discriminate. injection E as <- <-. split; [reflexivity|].
  pose proof (fine_read_int k (S (length b)) b ltac:(lia)) as X. rewrite Er in X. now apply suffix_len in X.
Qed.
Lemma read_size_fail k b : (forall s b1, read_size k b <> Ok (s, b1)) -> sized k b = 0.
Proof. unfold read_size, sized. intros H. destruct (read_int k b) as [[s b1]| | |]; try reflexivity. now destruct (H s b1). Qed.
Lemma body_kind v tz mb b :
  (exists c, reserved (mb :: b) = 0 /\ forall dec, dec_body v tz dec (mb :: b) = c)
  \/ (exists sz b1, reserved (mb :: b) = Z.max 0 sz /\ (length b1 <= length b)%nat /\ forall dec, dec_body v tz dec (mb :: b) = dec_slice dec sz b1)
  \/ (exists sz b1, reserved (mb :: b) = Z.max 0 sz /\ (length b1 <= length b)%nat /\ forall dec, dec_body v tz dec (mb :: b) = dec_map dec sz b1)
  \/ (exists b1, reserved (mb :: b) = 0 /\ (length b1 <= length b)%nat /\ forall dec, dec_body v tz dec (mb :: b) = dec_struct v tz dec b1).
Proof.
  unfold dec_body. cbv zeta.
  assert (RZ : forall m, m = bz mb -> ~ (144 <= m <= 175) -> ~ (212 <= m <= 214) -> ~ (216 <= m <= 218) -> reserved (mb :: b) = 0).
  { intros m -> H1 H2 H3. unfold reserved, TinySliceMarker, TinyMapMarker, Slice8Marker, Slice16Marker, Slice32Marker, Map8Marker, Map16Marker, Map32Marker.
    repeat match goal with |- context [if ?c then _ else _] => destruct c eqn:? end; lia. }
  pose proof (bz_range mb) as B. unfold NilMarker, TrueMarker, FalseMarker, Int8Marker, Int16Marker, Int32Marker, Int64Marker, FloatMarker, TinyStringMarker, String8Marker, String16Marker, String32Marker,
    TinySliceMarker, Slice8Marker, Slice16Marker, Slice32Marker, TinyMapMarker, Map8Marker, Map16Marker, Map32Marker, TinyStructMarker, Struct8Marker, Struct16Marker in *.
  set (m := bz mb) in *.
  assert (I8 : (int8 m >=? -16) && (int8 m <=? 127) = true -> m <= 127 \/ 240 <= m) by (unfold int8, to_signed; change (256 ^ Z.of_nat 1) with 256; cbv zeta; destruct (Z.ltb_spec (m mod 256) (256 / 2)); lia).
  assert (SZ : forall k (t1 t2 : Z), t1 = 212 /\ t2 = 216 /\ k = 1%nat \/ t1 = 213 /\ t2 = 217 /\ k = 2%nat \/ t1 = 214 /\ t2 = 218 /\ k = 4%nat -> m = t1 \/ m = t2 -> reserved (mb :: b) = sized k b).
  { intros k t1 t2 Hk Hm. unfold reserved, TinySliceMarker, TinyMapMarker, Slice8Marker, Slice16Marker, Slice32Marker, Map8Marker, Map16Marker, Map32Marker. fold m.
    repeat match goal with |- context [if ?c then _ else _] => destruct c eqn:? end; try lia; f_equal; lia. }
  Ltac body_fixed RZ m := left; eexists; split; [apply (RZ m eq_refl); lia|intros; reflexivity].
  Ltac body_size SZ k t1 t2 b side m :=
    let Er := fresh "Er" in
    assert (Er : reserved _ = sized k b) by (apply (SZ k t1 t2); lia); rewrite Er; clear Er;
    unfold pbind; destruct (read_size k b) as [[? ?]| | |] eqn:Er;
    [destruct (read_size_ok _ _ _ _ Er) as [-> ?]; side; do 2 eexists; split; [reflexivity|split; [eassumption|intros; reflexivity]]
    |left; eexists; split; [apply read_size_fail; intros ? ?; rewrite Er; discriminate|intros; reflexivity]..].
  Ltac body_next := match goal with |- context [if ?c then _ else _] => destruct c eqn:? end.
  do 13 (body_next; [body_fixed RZ m|]).
  body_next; [right; left; exists (m - 144), b; split; [|split; [lia|reflexivity]]|].
  { unfold reserved, TinySliceMarker. fold m. match goal with |- context [if ?c then _ else _] => destruct c eqn:? end; lia. }
  body_next; [body_size SZ 1%nat 212 216 b ltac:(right; left) m|].
  body_next; [body_size SZ 2%nat 213 217 b ltac:(right; left) m|].
  body_next; [body_size SZ 4%nat 214 218 b ltac:(right; left) m|].
  body_next; [right; right; left; exists (m - 160), b; split; [|split; [lia|reflexivity]]|].
  { unfold reserved, TinySliceMarker, TinyMapMarker. fold m. repeat match goal with |- context [if ?c then _ else _] => destruct c eqn:? end; lia. }
  body_next; [body_size SZ 1%nat 212 216 b ltac:(right; right; left) m|].
  body_next; [body_size SZ 2%nat 213 217 b ltac:(right; right; left) m|].
  body_next; [body_size SZ 4%nat 214 218 b ltac:(right; right; left) m|].
  body_next; [right; right; right; exists b; split; [apply (RZ m eq_refl); lia|split; [lia|reflexivity]]|].
  do 2 (body_next; [unfold pbind; match goal with |- context [read_size ?k b] => destruct (read_size k b) as [[? ?]| | |] eqn:Er end;
    [destruct (read_size_ok _ _ _ _ Er) as [_ ?]; right; right; right; eexists; split; [apply (RZ m eq_refl); lia|split; [eassumption|intros; reflexivity]]|body_fixed RZ m..]|]).
  body_fixed RZ m.
Qed.
Theorem accepted_within v tz : forall fuel room b x r, (length b < fuel)%nat -> decode_fuel v tz fuel b = Ok (x, r) -> zlen b <= zlen r + room ->
  decode_within v tz fuel room b = Ok (x, r).
Proof.
  induction fuel as [|f IH]; intros room b x r Hb; [discriminate|]. cbn [decode_within decode_fuel]. destruct b as [|mb b]; [discriminate|]. cbn [length] in Hb.
  intros E HK. rewrite zlen_cons in HK. set (n := S (length b)).
  assert (F1 : fine1 (decode_fuel v tz f) n) by (intros b' Hb'; apply (decode_fuel_fine v tz f b'); unfold n in Hb'; lia).
  assert (Fo : forall room', follows n room' (decode_fuel v tz f) (decode_within v tz f room')) by (intros room' b' x' r' Hb' E' HK'; apply IH; [unfold n in Hb'; lia|exact E'|exact HK']).
  assert (SL : forall sz, 0 <= sz -> forall b1, (length b1 <= length b)%nat -> dec_slice (decode_fuel v tz f) sz b1 = Ok (x, r) ->
     sz <= room /\ dec_slice (decode_within v tz f (room - sz)) sz b1 = Ok (x, r)).
  { intros sz Hz b1 Hl. unfold dec_slice. destruct (Z.ltb_spec sz 0); [lia|]. unfold pbind. destruct (dec_items _ _ _ _) as [[l r1]| | |] eqn:Ei; try discriminate. intros [= <- <-].
    assert (Hn : (length b1 < n)%nat) by (unfold n; lia). pose proof (items_len n _ F1 _ _ _ _ _ Hn Ei) as L. unfold zlen in *. split; [lia|].
    rewrite (follows_items n (room - sz) _ _ (Fo _) F1 _ _ _ _ _ Hn Ei); [reflexivity|]. unfold zlen. lia. }
  assert (MP : forall sz, forall b1, (length b1 <= length b)%nat -> dec_map (decode_fuel v tz f) sz b1 = Ok (x, r) ->
     Z.max 0 sz <= room /\ dec_map (decode_within v tz f (room - Z.max 0 sz)) sz b1 = Ok (x, r)).
  { intros sz b1 Hl. unfold dec_map, pbind. destruct (dec_entries _ _ _ _ _) as [[l r1]| | |] eqn:Ei; try discriminate. intros [= <- <-].
    assert (Hn : (length b1 < n)%nat) by (unfold n; lia). pose proof (entries_len n _ F1 _ _ _ _ _ _ Hn Ei) as L. unfold zlen in *. split; [lia|].
    rewrite (follows_entries n (room - Z.max 0 sz) _ _ (Fo _) F1 _ _ _ _ _ _ Hn Ei); [reflexivity|]. unfold zlen. lia. }
  pose proof (reserved_bound (mb :: b)) as R. destruct (body_kind v tz mb b) as [(c & R0 & H)|[(sz & b1 & R0 & L & H)|[(sz & b1 & R0 & L & H)|(b1 & R0 & L & H)]]]; rewrite H, ?R0 in *.
  - unfold zlen in HK. pose proof (decode_fuel_fine v tz (S f) (mb :: b) ltac:(cbn; lia)) as X. cbn [decode_fuel] in X. rewrite H, E in X. apply psuffix_len in X. cbn [length] in X.
    destruct (Z.ltb_spec room 0); [lia|exact E].
  - destruct (Z.ltb_spec sz 0) as [Hs|Hs]; [unfold dec_slice in E; destruct (Z.ltb_spec sz 0); [discriminate|lia]|].
    destruct (SL sz Hs b1 L E) as [S1 S2]. replace (Z.max 0 sz) with sz by lia. destruct (Z.ltb_spec room sz); [lia|]. exact S2.
  - destruct (MP sz b1 L E) as [S1 S2]. destruct (Z.ltb_spec room (Z.max 0 sz)); [lia|]. exact S2.
  - pose proof (fine_struct v tz _ n (fine1_fine _ _ F1) b1 ltac:(unfold n; lia)) as X. rewrite E in X. apply suffix_len in X. unfold zlen in HK.
    destruct (Z.ltb_spec room 0); [lia|]. apply (follows_struct v tz n (room - 0) _ _ (Fo _) (fine1_fine _ _ F1)); [unfold n; lia|exact E|unfold zlen; lia].
Qed.

(** ** Messages that reserve much *)
Lemma boasts_len k : length (boasts k) = (5 * k)%nat. Proof. induction k as [|k IH]; cbn [boasts boast app length]; lia. Qed.
Lemma boast_body v tz dec b : dec_body v tz dec (boast ++ b) = (l <- dec_items dec (S (length b)) 2147483647 ;; pret (GSlice l)) b.
Proof. reflexivity. Qed.
Lemma boast_reserved b : reserved (boast ++ b) = 2147483647. Proof. reflexivity. Qed.
Lemma boast_items dec k n b e : 0 < n -> dec b = e -> (forall x r, e <> Ok (x, r)) -> dec_items dec (S k) n b = (match e with Err x => Err x | Panic => Panic | _ => NoFuel end).
Proof. intros Hn <- H. cbn [dec_items]. destruct (Z.leb_spec n 0); [lia|]. unfold pbind. destruct (dec b) as [[x r]| | |]; try reflexivity. now destruct (H x r). Qed.
Lemma boasts_decode v tz : forall k f, (k < f)%nat -> decode_fuel v tz f (boasts k) = Err (EWrap (Some EEOF) 16).
Proof.
  induction k as [|k IH]; intros [|f] Hf; try lia; [reflexivity|]. cbn [decode_fuel boasts]. rewrite boast_body. unfold pbind.
  now rewrite (boast_items _ _ 2147483647 _ _ eq_refl (IH f (proj2 (Nat.succ_lt_mono _ _) Hf))) by discriminate.
Qed.
Lemma boasts_within v tz : forall k f room, (1 <= k < f)%nat -> room < Z.of_nat k * 2147483647 -> decode_within v tz f room (boasts k) = Panic.
Proof.
  induction k as [|k IH]; intros [|f] room Hf Hr; try lia. cbn [decode_within boasts]. rewrite boast_body, boast_reserved.
  destruct (Z.ltb_spec room 2147483647) as [|Hm]; [reflexivity|]. unfold pbind.
  assert (E : decode_within v tz f (room - 2147483647) (boasts k) = Panic) by (apply IH; lia).
  now rewrite (boast_items _ _ 2147483647 _ _ eq_refl E) by discriminate.
Qed.
Theorem boastful v tz k room : (1 <= k)%nat -> room < Z.of_nat k * 2147483647 ->
  decode v tz (boasts k) = Err (EWrap (Some EEOF) 16) /\ decode_in v tz room (boasts k) = Panic.
Proof.
  intros Hk Hr. unfold decode, decode_in. pose proof (boasts_len k). split; [apply boasts_decode|apply boasts_within]; lia.
Qed.
Theorem accepted v tz b x r : decode v tz b = Ok (x, r) -> decode_in v tz (zlen b) b = Ok (x, r).
Proof. intros E. apply accepted_within; [lia|exact E|unfold zlen; lia]. Qed.
Theorem bounded v tz b room : 2147483647 * zlen b <= room -> decode_in v tz room b = decode v tz b.
Proof. intros H. apply enough; [lia|exact H]. Qed.

(** ** Messages that are deep *)
Lemma onion_body v tz dec b : dec_body v tz dec (x91 :: b) = (l <- dec_items dec (S (length b)) 1 ;; pret (GSlice l)) b.
Proof. reflexivity. Qed.
Lemma onions_decode v tz : forall n f, (n < f)%nat -> decode_fuel v tz f (onions n) = Ok (onion n, []).
Proof.
  induction n as [|n IH]; intros [|f] Hf; try lia; [reflexivity|]. unfold onions. cbn [decode_fuel repeat app]. rewrite onion_body. unfold pbind at 1. cbn [dec_items]. change (1 <=? 0) with false. cbv iota. unfold pbind.
  fold (onions n). rewrite (IH f) by lia. destruct (length (onions n)); reflexivity.
Qed.
Lemma onions_deep v tz : forall n, decode_fuel v tz n (onions n) = NoFuel.
Proof.
  induction n as [|n IH]; [reflexivity|]. unfold onions. cbn [decode_fuel repeat app]. rewrite onion_body. unfold pbind at 1. cbn [dec_items]. change (1 <=? 0) with false. cbv iota. unfold pbind.
  fold (onions n). now rewrite IH.
Qed.
Lemma onions_encode v : forall n, payload v (onion n) = onions n /\ snd (encode v (onion n)) = None.
Proof.
  unfold payload, encode. induction n as [|n [IH1 IH2]]; [split; reflexivity|]. cbn [onion lower enc]. cbn [map enc].
  destruct (enc (lower v (onion n))) as [l e] eqn:E. cbn [fst snd] in *. subst e.
  change (zlen [lower v (onion n)]) with 1. unfold w_then, slice_hdr. change (1 <=? 15) with true. cbn. rewrite app_nil_r, IH1. split; reflexivity.
Qed.
Theorem peeled v tz d : decode v tz (onions d) = Ok (onion d, []) /\ decode_deep v tz d (onions d) = NoFuel /\ payload v (onion d) = onions d.
Proof. split; [|split; [apply onions_deep|apply onions_encode]]. unfold decode. apply onions_decode. unfold onions. rewrite app_length, repeat_length. cbn. lia. Qed.
Lemma openings_suffix a b : suffix a b -> (openings a <= openings b)%nat.
Proof. intros [p ->]. unfold openings. rewrite filter_app, app_length. lia. Qed.
Lemma closed_body v tz dec dec' mb b : opening mb = false -> dec_body v tz dec (mb :: b) = dec_body v tz dec' (mb :: b).
Proof.
  unfold opening. cbv zeta. intros H. unfold dec_body. cbv zeta.
  unfold NilMarker, TrueMarker, FalseMarker, Int8Marker, Int16Marker, Int32Marker, Int64Marker, FloatMarker, TinyStringMarker, String8Marker, String16Marker, String32Marker,
    TinySliceMarker, Slice8Marker, Slice16Marker, Slice32Marker, TinyMapMarker, Map8Marker, Map16Marker, Map32Marker, TinyStructMarker, Struct8Marker, Struct16Marker.
  repeat match goal with |- (if ?c then _ else _) = _ => destruct c eqn:?; [first [reflexivity|exfalso; lia]|] end. reflexivity.
Qed.
Lemma opens_few v tz : forall d f b, (openings b < d)%nat -> (length b < f)%nat -> decode_fuel v tz f b = decode_fuel v tz d b.
Proof.
  induction d as [|d IH]; intros [|f] b Hd Hf; try lia. cbn [decode_fuel]. destruct b as [|mb b]; [reflexivity|]. cbn [length] in Hf.
  destruct (opening mb) eqn:Ho; [|now apply closed_body].
  assert (Hd' : (openings b < d)%nat) by (unfold openings in *; cbn [filter] in Hd; rewrite Ho in Hd; cbn [length] in Hd; lia).
  apply (agree_body (fun b => (openings b < d)%nat)) with (n := f); [| |apply decode_fuel_fine|exact Hd'|lia].
  - intros x y S1 Hy. apply openings_suffix in S1. lia.
  - intros b' Hp Hl. now apply IH.
Qed.
Theorem shallow v tz d b : (openings b < d)%nat -> decode_deep v tz d b = decode v tz b.
Proof. intros H. unfold decode_deep, decode. symmetry. apply opens_few; [exact H|lia]. Qed.
