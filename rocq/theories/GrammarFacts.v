(** The decoder reads exactly the language of SpecGrammar.v (proofs). *)
From Coq Require Import ZArith List Bool Lia ZifyBool.
From Verif Require Import Bytes BytesFacts GoVal GoErr Encoder Decoder SpecPack SpecValues SpecGrammar PackFacts DecodeFacts TotalFacts TimeFacts.
Import ListNotations.
Open Scope Z_scope.
Ltac Zify.zify_post_hook ::= Z.div_mod_to_equations.

(** ** Fuel does not matter *)

Definition upto {A} (p q : parser A) := forall b, p b <> NoFuel -> q b = p b.
Lemma upto_refl {A} (p : parser A) : upto p p. Proof. easy. Qed.
Lemma upto_trans {A} (p q r : parser A) : upto p q -> upto q r -> upto p r.
Proof. intros H1 H2 b H. rewrite H2; [now apply H1|]. rewrite H1; assumption. Qed.
Lemma upto_bind {A B} (p q : parser A) (f g : A -> parser B) :
  upto p q -> (forall a, upto (f a) (g a)) -> upto (pbind p f) (pbind q g).
Proof.
  intros Hp Hf b. unfold pbind. intros H. rewrite Hp.
  - destruct (p b) as [[a r']| | |]; auto. now apply Hf.
  - intros E. now rewrite E in H.
Qed.
Lemma upto_items d1 d2 : upto d1 d2 -> forall k sz, upto (dec_items d1 k sz) (dec_items d2 k sz).
Proof.
  intros Hd. induction k as [|k IH]; intros sz; cbn [dec_items]; destruct (sz <=? 0); try apply upto_refl.
  apply upto_bind; [assumption|intros]. apply upto_bind; [apply IH|intros; apply upto_refl].
Qed.
Lemma upto_slice d1 d2 sz : upto d1 d2 -> upto (dec_slice d1 sz) (dec_slice d2 sz).
Proof.
  intros Hd b. unfold dec_slice. destruct (sz <? 0); [easy|].
  apply upto_bind; [now apply upto_items|intros; apply upto_refl].
Qed.
Lemma upto_entries d1 d2 : upto d1 d2 -> forall k sz acc, upto (dec_entries d1 k sz acc) (dec_entries d2 k sz acc).
Proof.
  intros Hd. induction k as [|k IH]; intros sz acc; cbn [dec_entries]; destruct (sz <=? 0); try apply upto_refl.
  apply upto_bind; [assumption|intros a]. apply upto_bind; [assumption|intros].
  destruct a; try apply upto_refl. apply IH.
Qed.
Lemma upto_map d1 d2 sz : upto d1 d2 -> upto (dec_map d1 sz) (dec_map d2 sz).
Proof.
  intros Hd b. unfold dec_map. apply upto_bind; [now apply upto_entries|intros; apply upto_refl].
Qed.
Lemma upto_struct v tz d1 d2 : upto d1 d2 -> upto (dec_struct v tz d1) (dec_struct v tz d2).
Proof.
  intros Hd b. unfold dec_struct. destruct b as [|sb b]; [easy|]. cbv zeta.
  destruct v;
  repeat match goal with
         | |- (if ?c then ?p b else _) <> _ -> (if ?c then ?q b else _) = _ =>
             destruct c; [apply (fun H : upto p q => H b)|]
         | |- (if ?c then ?p else _) <> _ -> _ => destruct c; [intros _; reflexivity|]
         end; try (intros _; reflexivity);
  unfold dec_node, dec_rel, dec_path, dec_urel, dec_record, dec_failure, dec_success,
    dec_point2d, dec_point3d, dec_date, dec_time, dec_localtime, dec_localdatetime,
    dec_datetime_offset, dec_datetime_zone, dec_duration;
  repeat first [assumption | apply upto_refl | apply upto_bind; [|intros ?]].
Qed.
Lemma upto_body v tz d1 d2 : upto d1 d2 -> upto (dec_body v tz d1) (dec_body v tz d2).
Proof.
  intros Hd b. unfold dec_body. destruct b as [|mb b]; [easy|]. cbv zeta.
  repeat match goal with
         | |- (if ?c then (if ?d then _ else ?p b) else _) <> _ -> _ => destruct c; [intros _; reflexivity|]
         | |- (if ?c then ?p b else _) <> _ -> (if ?c then ?q b else _) = _ =>
             destruct c; [apply (fun H : upto p q => H b)|]
         | |- (if ?c then ?p else _) <> _ -> _ => destruct c; [intros _; reflexivity|]
         end; try (intros _; reflexivity);
  repeat first [assumption | (now apply upto_slice) | (now apply upto_map) | (now apply upto_struct)
               | (apply upto_bind; [|intros ?]) | apply upto_refl].
Qed.
Lemma upto_more v tz n k : upto (decode_fuel v tz n) (decode_fuel v tz (k + n)).
Proof.
  assert (S1 : forall n, upto (decode_fuel v tz n) (decode_fuel v tz (S n))).
  { clear n. induction n as [|n IH]; [intros b H; now destruct H|].
    change (decode_fuel v tz (S (S n))) with (dec_body v tz (decode_fuel v tz (S n))).
    change (decode_fuel v tz (S n)) with (dec_body v tz (decode_fuel v tz n)) at 1. now apply upto_body. }
  induction k as [|k IH]; [apply upto_refl|]. eapply upto_trans; [apply IH|apply S1].
Qed.
Lemma decode_not_nofuel v tz b : decode v tz b <> NoFuel.
Proof. intros E. pose proof (decode_total v tz b) as H. now rewrite E in H. Qed.
Lemma upto_decode v tz n : upto (decode_fuel v tz n) (decode v tz).
Proof.
  intros b H. destruct (le_lt_dec n (S (length b))) as [L|L].
  - unfold decode. replace (S (length b)) with ((S (length b) - n) + n)%nat by lia. now apply upto_more.
  - unfold decode. replace n with ((n - S (length b)) + S (length b))%nat by lia. symmetry. apply upto_more.
    apply decode_not_nofuel.
Qed.
(** Reading a value is reading its marker and then its parts in the same way. *)
Theorem decode_step v tz b : decode v tz b = dec_body v tz (decode v tz) b.
Proof.
  symmetry. transitivity (dec_body v tz (decode_fuel v tz (length b)) b); [|reflexivity].
  apply (upto_body v tz _ _ (upto_decode v tz (length b))). apply (decode_not_nofuel v tz b).
Qed.

(** ** Outcomes up to the error *)
Definition alike {A} (p q : res A) : Prop :=
  match p, q with
  | Ok a, Ok b => a = b
  | Err _, Err _ | Panic, Panic | NoFuel, NoFuel => True
  | _, _ => False
  end.
Lemma alike_ok {A} (p q : res A) x : alike p q -> (p = Ok x <-> q = Ok x).
Proof. destruct p, q; cbn; intros H; try easy; subst; easy. Qed.
Lemma alike_panic {A} (p q : res A) : alike p q -> (p = Panic <-> q = Panic).
Proof. destruct p, q; cbn; intros H; easy. Qed.

Section Parts.
  Variable D : parser gval.
  (** Values one after another. *)
  Inductive many : bytes -> list gval -> bytes -> Prop :=
  | mn_nil b : many b [] b
  | mn_cons b x b' xs r : D b = Ok (x, b') -> many b' xs r -> many b (x :: xs) r.
  Hypothesis shrinks : forall b x r, D b = Ok (x, r) -> (length r < length b)%nat.

  Lemma items_ok k : forall n b, (length b < k)%nat -> forall xs r,
    dec_items D k n b = Ok (xs, r) <-> many b xs r /\ zlen xs = Z.max 0 n.
  Proof.
    induction k as [|k IH]; intros n b Hk xs r; [lia|]. cbn [dec_items]. destruct (n <=? 0) eqn:E.
    - unfold pret. split.
      + intros H. injection H as <- <-. split; [constructor|cbn; lia].
      + intros [H L]. inversion H; subst; [reflexivity|]. rewrite zlen_cons in L. pose proof (zlen_nonneg xs0). lia.
    - unfold pbind. split.
      + destruct (D b) as [[x b1]| | |] eqn:Ex; try discriminate. apply shrinks in Ex as Hs.
        destruct (dec_items D k (n - 1) b1) as [[ys r1]| | |] eqn:Ey; try discriminate. unfold pret.
        intros H. injection H as <- <-. apply IH in Ey; [|lia]. destruct Ey as [Em El].
        split; [econstructor; eassumption|]. rewrite zlen_cons. lia.
      + intros [H L]. inversion H; subst; [cbn in L; lia|]. match goal with E : D b = _ |- _ => rewrite E; apply shrinks in E end.
        rewrite zlen_cons in L. pose proof (zlen_nonneg xs0).
        match goal with E : many _ xs0 r |- _ => rename E into Em end.
        rewrite (proj2 (IH (n - 1) b' ltac:(lia) xs0 r)); [reflexivity|]. split; [assumption|lia].
  Qed.
  Lemma items_panic k : forall n b, (length b < k)%nat ->
    (dec_items D k n b = Panic <-> exists xs b', many b xs b' /\ zlen xs < n /\ D b' = Panic).
  Proof.
    induction k as [|k IH]; intros n b Hk; [lia|]. cbn [dec_items]. destruct (n <=? 0) eqn:E.
    - unfold pret. split; [discriminate|]. intros [xs [b' [_ [L _]]]]. pose proof (zlen_nonneg xs). lia.
    - unfold pbind. split.
      + destruct (D b) as [[x b1]| | |] eqn:Ex; try discriminate.
        * apply shrinks in Ex as Hs. destruct (dec_items D k (n - 1) b1) as [[ys r1]| | |] eqn:Ey; try discriminate.
          intros _. apply IH in Ey; [|lia]. destruct Ey as [xs [b' [Em [El Ep]]]].
          exists (x :: xs), b'. split; [econstructor; eassumption|]. rewrite zlen_cons. split; [lia|assumption].
        * intros _. exists [], b. split; [constructor|]. cbn. split; [lia|assumption].
      + intros [xs [b' [Hm [L Hp]]]]. inversion Hm; subst; [now rewrite Hp|].
        match goal with E : D b = _ |- _ => rewrite E; apply shrinks in E end.
        rewrite zlen_cons in L. rewrite (proj2 (IH (n - 1) b'0 ltac:(lia))); [reflexivity|].
        exists xs0, b'. split; [assumption|]. split; [lia|assumption].
  Qed.

  Lemma put_set (m : list (bytes * gval)) k x : map_set m k x = put m k x.
  Proof. induction m as [|[k' y] m IH]; cbn; [reflexivity|]. now rewrite IH. Qed.
  Definition puts (acc kvs : list (bytes * gval)) := fold_left (fun m kv => put m (fst kv) (snd kv)) kvs acc.

  Lemma entries_ok k : forall n acc b, (length b < k)%nat -> forall m r,
    dec_entries D k n acc b = Ok (m, r)
    <-> exists kvs, many b (laid_out kvs) r /\ zlen kvs = Z.max 0 n /\ m = puts acc kvs.
  Proof.
    induction k as [|k IH]; intros n acc b Hk m r; [lia|]. cbn [dec_entries]. destruct (n <=? 0) eqn:E.
    - unfold pret. split.
      + intros H. injection H as <- <-. exists []. split; [constructor|]. split; [cbn; lia|reflexivity].
      + intros [kvs [H [L ->]]]. destruct kvs as [|kv kvs]; [|rewrite zlen_cons in L; pose proof (zlen_nonneg kvs); lia].
        inversion H; subst. reflexivity.
    - unfold pbind. split.
      + destruct (D b) as [[x b1]| | |] eqn:Ex; try discriminate. apply shrinks in Ex as Hs.
        destruct (D b1) as [[y b2]| | |] eqn:Ey; try discriminate. apply shrinks in Ey as Ht.
        destruct x; try discriminate. intros H. apply IH in H; [|lia]. destruct H as [kvs [Hm [L ->]]].
        exists ((s, y) :: kvs). split; [cbn; econstructor; [eassumption|]; econstructor; eassumption|].
        rewrite zlen_cons. split; [lia|]. cbn. now rewrite put_set.
      + intros [kvs [H [L ->]]]. destruct kvs as [|[s y] kvs]; [cbn in L; lia|]. cbn in H.
        inversion H as [|? ? b1 ? ? E1 H1]; subst. inversion H1 as [|? ? b2 ? ? E2 H2]; subst.
        apply shrinks in E1 as Hs. apply shrinks in E2 as Ht. rewrite E1, E2. cbn [fst]. rewrite zlen_cons in L.
        apply IH; [lia|]. exists kvs. split; [assumption|]. split; [lia|]. rewrite put_set. reflexivity.
  Qed.
  Lemma entries_panic k : forall n acc b, (length b < k)%nat ->
    (dec_entries D k n acc b = Panic
     <-> exists kvs b', many b (laid_out kvs) b' /\ zlen kvs < n
         /\ (D b' = Panic \/ exists x b'', D b' = Ok (x, b'') /\ D b'' = Panic)).
  Proof.
    induction k as [|k IH]; intros n acc b Hk; [lia|]. cbn [dec_entries]. destruct (n <=? 0) eqn:E.
    - unfold pret. split; [discriminate|]. intros [kvs [b' [_ [L _]]]]. pose proof (zlen_nonneg kvs). lia.
    - unfold pbind. split.
      + destruct (D b) as [[x b1]| | |] eqn:Ex; try discriminate.
        * apply shrinks in Ex as Hs. destruct (D b1) as [[y b2]| | |] eqn:Ey; try discriminate.
          -- apply shrinks in Ey as Ht. destruct x; try discriminate. intros H. apply IH in H; [|lia].
             destruct H as [kvs [b' [Hm [L Hp]]]]. exists ((s, y) :: kvs), b'.
             split; [cbn; econstructor; [eassumption|]; econstructor; eassumption|]. rewrite zlen_cons. split; [lia|assumption].
          -- intros _. exists [], b. split; [constructor|]. split; [cbn; lia|]. right. eauto.
        * intros _. exists [], b. split; [constructor|]. split; [cbn; lia|]. now left.
      + intros [kvs [b' [H [L Hp]]]]. destruct kvs as [|[s y] kvs]; cbn in H.
        * inversion H; subst. destruct Hp as [Hp|[x [b'' [Hx Hp]]]]; [now rewrite Hp|]. now rewrite Hx, Hp.
        * inversion H as [|? ? b1 ? ? E1 H1]; subst. inversion H1 as [|? ? b2 ? ? E2 H2]; subst.
          apply shrinks in E1 as Hs. apply shrinks in E2 as Ht. rewrite E1, E2. cbn [fst]. rewrite zlen_cons in L.
          apply IH; [lia|]. exists kvs, b'. split; [assumption|]. split; [lia|assumption].
  Qed.

  (** The fields of a structure, by kind. *)
  Fixpoint by_kind (ks : list kind) : parser (list gval) :=
    match ks with
    | [] => pret []
    | k :: ks' =>
        x <- D ;; if fatal k x then ppanic
                  else if fits k x then (xs <- by_kind ks' ;; pret (x :: xs)) else perr TFieldType
    end.
  Lemma fits_not_fatal k x : fits k x = true -> fatal k x = false.
  Proof.
    destruct k; cbn; try reflexivity; destruct x; cbn; try discriminate; try reflexivity.
    - now destruct k.
    - intros ->. reflexivity.
  Qed.
  Lemma by_kind_ok ks : forall b xs r,
    by_kind ks b = Ok (xs, r)
    <-> many b xs r /\ length xs = length ks /\ forallb (fun kx => fits (fst kx) (snd kx)) (combine ks xs) = true.
  Proof.
    induction ks as [|k ks IH]; intros b xs r; cbn [by_kind].
    - unfold pret. split.
      + intros H. injection H as <- <-. split; [constructor|easy].
      + intros [H [L _]]. destruct xs; [|discriminate]. inversion H; subst. reflexivity.
    - unfold pbind. split.
      + destruct (D b) as [[x b1]| | |] eqn:Ex; try discriminate.
        destruct (fatal k x); [discriminate|]. destruct (fits k x) eqn:Ef; [|discriminate].
        destruct (by_kind ks b1) as [[ys r1]| | |] eqn:Ey; try discriminate. unfold pret.
        intros H. injection H as <- <-. apply IH in Ey. destruct Ey as [Em [El Ec]].
        split; [econstructor; eassumption|]. cbn. rewrite Ef, Ec. split; [now f_equal|reflexivity].
      + intros [H [L F]]. destruct xs as [|x xs]; [discriminate|]. cbn in F. apply andb_true_iff in F as [F1 F2].
        inversion H as [|? ? b1 ? ? E1 H1]; subst. rewrite E1, (fits_not_fatal _ _ F1), F1.
        rewrite (proj2 (IH b1 xs r)); [reflexivity|]. split; [assumption|]. split; [cbn in L; lia|assumption].
  Qed.
  Lemma by_kind_panic ks : forall b,
    by_kind ks b = Panic
    <-> exists ks1 k ks2 xs b', ks = ks1 ++ k :: ks2 /\ many b xs b' /\ length xs = length ks1
        /\ forallb (fun kx => fits (fst kx) (snd kx)) (combine ks1 xs) = true
        /\ (D b' = Panic \/ exists x b'', D b' = Ok (x, b'') /\ fatal k x = true).
  Proof.
    induction ks as [|k ks IH]; intros b; cbn [by_kind].
    - split; [discriminate|]. intros [ks1 [k [ks2 [xs [b' [H _]]]]]]. destruct ks1; discriminate.
    - unfold pbind. split.
      + destruct (D b) as [[x b1]| | |] eqn:Ex; try discriminate.
        * destruct (fatal k x) eqn:Et.
          -- intros _. exists [], k, ks, [], b. repeat split; [constructor|]. right. eauto.
          -- destruct (fits k x) eqn:Ef; [|discriminate].
             destruct (by_kind ks b1) as [[ys r1]| | |] eqn:Ey; try discriminate. intros _.
             apply IH in Ey. destruct Ey as [ks1 [k1 [ks2 [xs [b' [-> [Hm [L [F Hp]]]]]]]]].
             exists (k :: ks1), k1, ks2, (x :: xs), b'. split; [reflexivity|].
             split; [econstructor; eassumption|]. split; [cbn; now rewrite L|]. split; [|assumption]. cbn. now rewrite Ef, F.
        * intros _. exists [], k, ks, [], b. repeat split; [constructor|]. now left.
      + intros [ks1 [k1 [ks2 [xs [b' [E [Hm [L [F Hp]]]]]]]]]. destruct ks1 as [|k0 ks1].
        * injection E as <- <-. destruct xs; [|discriminate]. inversion Hm; subst.
          destruct Hp as [Hp|[x [b'' [Hx Hp]]]]; [now rewrite Hp|]. now rewrite Hx, Hp.
        * injection E as <- ->. destruct xs as [|x xs]; [discriminate|]. cbn in F. apply andb_true_iff in F as [F1 F2].
          inversion Hm as [|? ? b1 ? ? E1 H1]; subst. rewrite E1, (fits_not_fatal _ _ F1), F1.
          assert (Hb : by_kind (ks1 ++ k1 :: ks2) b1 = Panic)
            by (apply IH; exists ks1, k1, ks2, xs, b'; repeat split; auto).
          now rewrite Hb.
  Qed.

  Lemma to_str_spec l : slice_to_str l = if forallb is_text l then Ok (texts l) else Err (ENew TFieldType).
  Proof. induction l as [|x l IH]; [reflexivity|]. destruct x; cbn; try reflexivity. rewrite IH. now destruct (forallb is_text l). Qed.
  Lemma to_int_spec l : slice_to_int l = if forallb is_num l then Ok (nums l) else Panic.
  Proof. induction l as [|x l IH]; [reflexivity|]. destruct x; try reflexivity. destruct k; try reflexivity. cbn. rewrite IH. now destruct (forallb is_num l). Qed.
End Parts.

(** ** Times *)
Lemma int64_wrap z : int64 z = wrap64 z.
Proof.
  unfold int64, to_signed, wrap64. change (256 ^ Z.of_nat 8) with (2 ^ 64). change (2 ^ 64 / 2) with (2 ^ 63).
  destruct (z mod 2 ^ 64 <? 2 ^ 63) eqn:E; lia.
Qed.
Lemma wrap64_mul a b : wrap64 (wrap64 a * b) = wrap64 (a * b).
Proof.
  unfold wrap64. f_equal.
  rewrite <- (Z.add_mod_idemp_l ((_ - _) * b)) by lia. rewrite <- (Z.add_mod_idemp_l (a * b)) by lia. f_equal. f_equal.
  rewrite <- Z.mul_mod_idemp_l by lia. rewrite <- (Z.mul_mod_idemp_l a) by lia. f_equal. f_equal.
  rewrite Zminus_mod_idemp_l. f_equal. lia.
Qed.
Lemma normal_instant s n off :
  (let '(s1, n1) := time_unix s n in time_add s1 n1 (neg_offset_dur off))
  = (let t := s * billion + n + wrap64 (- off * billion) in (t / billion, t mod billion)).
Proof.
  assert (Hd : neg_offset_dur off = wrap64 (- off * billion)).
  { unfold neg_offset_dur. rewrite !int64_wrap. apply wrap64_mul. }
  rewrite Hd. generalize (wrap64 (- off * billion)). intros d. cbv zeta. unfold billion.
  unfold time_unix, time_add.
  destruct ((n <? 0) || (n >=? 1000000000)) eqn:E.
  - destruct (n - Z.quot n 1000000000 * 1000000000 <? 0) eqn:E2;
    repeat match goal with |- (if ?c then _ else _) = _ => destruct c eqn:? end; f_equal; Z.to_euclidean_division_equations; lia.
  - repeat match goal with |- (if ?c then _ else _) = _ => destruct c eqn:? end; f_equal; Z.to_euclidean_division_equations; lia.
Qed.
Lemma unix_seconds s n : fst (time_unix s n) = (s * billion + n) / billion.
Proof.
  unfold time_unix, billion. destruct ((n <? 0) || (n >=? 1000000000)) eqn:E.
  - destruct (n - Z.quot n 1000000000 * 1000000000 <? 0) eqn:E2; cbn [fst]; Z.to_euclidean_division_equations; lia.
  - cbn [fst]. Z.to_euclidean_division_equations; lia.
Qed.

(** ** Structures *)
Definition struct_out (v : ver) (tz : zones) (D : parser gval) (sig : byte) : parser gval := fun b =>
  match fields_of v (value sig) with
  | None => Err (ENew TFieldType)
  | Some ks => (xs <- by_kind D ks ;; match build tz (value sig) xs with Some x => pret x | None => perr TFieldType end) b
  end.
Ltac peel D :=
  repeat match goal with
  | |- context [slice_to ?f ?l] => unfold slice_to, is_node, is_urel
  | |- context [slice_to_str ?l] => rewrite (to_str_spec l)
  | |- context [slice_to_int ?l] => rewrite (to_int_spec l)
  | |- context [forallb ?f ?l] => destruct (forallb f l) eqn:?; cbn; try exact I
  | |- context [D ?b] =>
      let x := fresh "x" in
      destruct (D b) as [[x ?]| | |]; [|exact I|exact I|exact I]; destruct x; cbn; try exact I;
      try match goal with k : ikind |- _ => destruct k; cbn; try exact I end
  end; try reflexivity.
Lemma struct_alike v tz D sig b : alike (dec_struct v tz D (sig :: b)) (struct_out v tz D sig b).
Proof.
  destruct sig; try (destruct v; exact I); try reflexivity.
  all: unfold struct_out, value; cbn [Byte.to_N Z.of_N fields_of build].
  all: try (destruct v; [exact I|]).
  all: match goal with
       | |- alike (dec_struct ?v ?tz ?D (?s :: ?b)) _ =>
           let p := eval cbv beta iota zeta delta [dec_struct bz Byte.to_N Z.of_N Z.eqb Pos.eqb SigNode SigRel SigPath SigURel SigPoint2D SigPoint3D SigRecord SigFailure SigIgnored SigSuccess SigDiscardAll SigPullAll SigReset SigDate SigTime SigLocalTime SigLocalDateTime SigDateTimeOffset SigDateTimeZoneId SigDuration] in (dec_struct v tz D (s :: b)) in change (dec_struct v tz D (s :: b)) with p
       end.
  all: unfold dec_node, dec_rel, dec_path, dec_urel, dec_record, dec_failure, dec_success,
    dec_point2d, dec_point3d, dec_date, dec_time, dec_localtime, dec_localdatetime,
    dec_datetime_offset, dec_datetime_zone, dec_duration.
  all: cbn [by_kind]; unfold pbind.
  all: try (peel D).
  - rewrite !int64_wrap, !wrap64_mul. rewrite <- (wrap64_mul (z * z0 * z1)), <- (wrap64_mul (z * z0)), wrap64_mul. reflexivity.
  - pose proof (normal_instant z z0 z1) as H. destruct (time_unix z z0) as [s1 n1].
    destruct (time_add s1 n1 (neg_offset_dur z1)) as [s2 n2]. cbv zeta in H. injection H as -> ->. reflexivity.
  - destruct (tz s) as [zn|]; [|exact I]. pose proof (unix_seconds z z0) as Hs.
    set (off := zn ((z * billion + z0) / billion)) in *.
    pose proof (normal_instant z z0 off) as H. destruct (time_unix z z0) as [s1 n1]. cbn [fst] in Hs. subst s1. fold off.
    match goal with |- context [time_add ?x n1 ?y] => destruct (time_add x n1 y) as [s2 n2] end. cbv zeta in H. injection H as -> ->. reflexivity.
Qed.

(** ** Headers *)
Lemma read_int_inv w b n r : (0 < w)%nat -> read_int w b = Ok (n, r) -> exists s, b = s ++ r /\ signed_be w n s.
Proof.
  intros Hw. unfold read_int, pbind, read_be. destruct (Nat.ltb (length b) w) eqn:E; [discriminate|].
  apply Nat.ltb_ge in E. unfold pret. intros H. injection H as <- <-. exists (firstn w b).
  split; [now rewrite firstn_skipn|]. split; [rewrite firstn_length; lia|].
  pose proof (unbe_range (firstn w b)) as Hu. rewrite <- unbe_be_value. set (u := unbe (firstn w b)) in *.
  unfold zlen in Hu. rewrite firstn_length, Nat.min_l in Hu by lia.
  unfold to_signed. rewrite pow256 in *. rewrite Z.mod_small by lia.
  replace (8 * Z.of_nat w) with (1 + (8 * Z.of_nat w - 1)) in * by lia.
  rewrite (Z.pow_add_r 2 1) in * by lia. change (2 ^ 1) with 2 in *.
  replace (1 + (8 * Z.of_nat w - 1) - 1) with (8 * Z.of_nat w - 1) by lia.
  set (m := 2 ^ (8 * Z.of_nat w - 1)) in *.
  replace (2 * m / 2) with m by (rewrite Z.mul_comm, Z.div_mul; lia).
  destruct (u <? m) eqn:E1.
  - split; [lia|]. destruct (u <? 0) eqn:E2; lia.
  - split; [lia|]. destruct (u - 2 * m <? 0) eqn:E2; lia.
Qed.
Lemma read_int_no_panic w b : read_int w b <> Panic /\ read_int w b <> NoFuel.
Proof. unfold read_int, pbind, read_be. destruct (Nat.ltb (length b) w); split; discriminate. Qed.
Lemma sized w (f : Z -> parser gval) b o : (0 < w)%nat -> (forall e, o <> Err e) ->
  (n <- read_size w ;; f n) b = o -> exists n s r, b = s ++ r /\ signed_be w n s /\ f n r = o.
Proof.
  intros Hw Ho. unfold pbind, read_size. pose proof (read_int_no_panic w b) as [P1 P2].
  destruct (read_int w b) as [[n r]| | |] eqn:E; cbn; try easy.
  - intros H. apply read_int_inv in E; [|assumption]. destruct E as [s [-> Hs]]. eauto 6.
  - intros <-. now destruct (Ho (EWrap (Some e) 14)).
Qed.
Lemma sized_app w (f : Z -> parser gval) n s r : (0 < w)%nat -> signed_be w n s -> (n <- read_size w ;; f n) (s ++ r) = f n r.
Proof. intros Hw Hs. unfold pbind, read_size. now rewrite (read_int_app w n) by assumption. Qed.

Section Bodies.
  Variables (v : ver) (tz : zones) (D : parser gval).
  Lemma body_string n h b : string_head n h -> dec_body v tz D (h ++ b) = pstr n b.
  Proof.
    intros H. inversion H as [? m Hn Hm|? s Hs|? s Hs|? s Hs]; subst; cbn [app].
    - assert (n = 0 \/ n = 1 \/ n = 2 \/ n = 3 \/ n = 4 \/ n = 5 \/ n = 6 \/ n = 7 \/ n = 8 \/ n = 9 \/ n = 10 \/ n = 11 \/ n = 12 \/ n = 13 \/ n = 14 \/ n = 15) as C by lia.
      repeat (destruct C as [->|C]); try subst n; destruct m; try discriminate Hm; try reflexivity.
      unfold pstr, next, pbind. cbn. rewrite Z.min_l by apply zlen_nonneg. reflexivity.
    - exact (sized_app 1 pstr n s b ltac:(lia) Hs).
    - exact (sized_app 2 pstr n s b ltac:(lia) Hs).
    - exact (sized_app 4 pstr n s b ltac:(lia) Hs).
  Qed.
  Lemma body_list n h b : list_head n h -> dec_body v tz D (h ++ b) = dec_slice D n b.
  Proof.
    intros H. inversion H as [? m Hn Hm|? s Hs|? s Hs|? s Hs]; subst; cbn [app].
    - assert (n = 0 \/ n = 1 \/ n = 2 \/ n = 3 \/ n = 4 \/ n = 5 \/ n = 6 \/ n = 7 \/ n = 8 \/ n = 9 \/ n = 10 \/ n = 11 \/ n = 12 \/ n = 13 \/ n = 14 \/ n = 15) as C by lia.
      repeat (destruct C as [->|C]); try subst n; destruct m; try discriminate Hm; reflexivity.
    - exact (sized_app 1 (dec_slice D) n s b ltac:(lia) Hs).
    - exact (sized_app 2 (dec_slice D) n s b ltac:(lia) Hs).
    - exact (sized_app 4 (dec_slice D) n s b ltac:(lia) Hs).
  Qed.
  Lemma body_map n h b : map_head n h -> dec_body v tz D (h ++ b) = dec_map D n b.
  Proof.
    intros H. inversion H as [? m Hn Hm|? s Hs|? s Hs|? s Hs]; subst; cbn [app].
    - assert (n = 0 \/ n = 1 \/ n = 2 \/ n = 3 \/ n = 4 \/ n = 5 \/ n = 6 \/ n = 7 \/ n = 8 \/ n = 9 \/ n = 10 \/ n = 11 \/ n = 12 \/ n = 13 \/ n = 14 \/ n = 15) as C by lia.
      repeat (destruct C as [->|C]); try subst n; destruct m; try discriminate Hm; reflexivity.
    - exact (sized_app 1 (dec_map D) n s b ltac:(lia) Hs).
    - exact (sized_app 2 (dec_map D) n s b ltac:(lia) Hs).
    - exact (sized_app 4 (dec_map D) n s b ltac:(lia) Hs).
  Qed.
  Lemma any_signed w s : (0 < w)%nat -> length s = w -> exists n, signed_be w n s.
  Proof.
    intros Hw Hl. destruct (read_int w (s ++ [])) as [[n r]| | |] eqn:E.
    - apply read_int_inv in E; [|assumption]. destruct E as [s' [E Hs]]. exists n. destruct Hs as [L Hs].
      apply (f_equal (firstn w)) in E. rewrite <- Hl in E at 1. rewrite <- L in E. rewrite !firstn_app_exact in E. subst s'. now split.
    - unfold read_int, pbind in E. rewrite read_be_app in E by assumption. discriminate.
    - unfold read_int, pbind in E. rewrite read_be_app in E by assumption. discriminate.
    - unfold read_int, pbind in E. rewrite read_be_app in E by assumption. discriminate.
  Qed.
  Lemma body_struct h b : struct_head h -> dec_body v tz D (h ++ b) = dec_struct v tz D b.
  Proof.
    intros H. inversion H as [m Hm|s Hs|s Hs]; subst; cbn [app].
    - destruct m; try (exfalso; revert Hm; clear; unfold value; cbn; lia); reflexivity.
    - destruct (any_signed 1 s ltac:(lia) Hs) as [n Hn]. exact (sized_app 1 (fun _ => dec_struct v tz D) n s b ltac:(lia) Hn).
    - destruct (any_signed 2 s ltac:(lia) Hs) as [n Hn]. exact (sized_app 2 (fun _ => dec_struct v tz D) n s b ltac:(lia) Hn).
  Qed.

  (** Which of the forms a value has, unless there is an error. *)
  Inductive form (o : res (gval * bytes)) : bytes -> Prop :=
  | fm_null r : o = Ok (GNil, r) -> form o (xc0 :: r)
  | fm_false r : o = Ok (GBool false, r) -> form o (xc2 :: r)
  | fm_true r : o = Ok (GBool true, r) -> form o (xc3 :: r)
  | fm_small b z r : signed_be 1 z [b] -> -16 <= z <= 127 -> o = Ok (GInt KInt64 z, r) -> form o (b :: r)
  | fm_int m w s z r : In (m, w) [(xc8, 1%nat); (xc9, 2%nat); (xca, 4%nat); (xcb, 8%nat)] -> signed_be w z s ->
      o = Ok (GInt KInt64 z, r) -> form o (m :: s ++ r)
  | fm_float s z r : unsigned_be 8 z s -> o = Ok (GFloat64 z, r) -> form o (xc1 :: s ++ r)
  | fm_string h n b : string_head n h -> o = pstr n b -> form o (h ++ b)
  | fm_list h n b : list_head n h -> o = dec_slice D n b -> form o (h ++ b)
  | fm_map h n b : map_head n h -> o = dec_map D n b -> form o (h ++ b)
  | fm_struct h b : struct_head h -> o = dec_struct v tz D b -> form o (h ++ b).
  Lemma sized_int w m b o : In (m, w) [(xc8, 1%nat); (xc9, 2%nat); (xca, 4%nat); (xcb, 8%nat)] -> (forall e, o <> Err e) ->
    (x <- read_int w ;; pret (GInt KInt64 x)) b = o -> form o (m :: b).
  Proof.
    intros Hm Ho. assert (Hw : (0 < w)%nat) by (cbn in Hm; intuition; match goal with E : _ = (m, w) |- _ => injection E as <- <-; lia end).
    unfold pbind. pose proof (read_int_no_panic w b) as [P1 P2].
    destruct (read_int w b) as [[n r]|e| |] eqn:E; try easy.
    - intros <-. apply read_int_inv in E; [|assumption]. destruct E as [s [-> Hs]]. eapply fm_int; eauto.
    - intros <-. now destruct (Ho e).
  Qed.
  Lemma forms b o : dec_body v tz D b = o -> (forall e, o <> Err e) -> form o b.
  Proof.
    intros H Ho. destruct b as [|m b]; [exfalso; symmetry in H; exact (Ho _ H)|].
    assert (T : forall n, 0 <= n <= 15 -> value m = 128 + n -> pstr n b = o -> form o ([m] ++ b))
      by (intros n H1 H2 H3; apply (fm_string o [m] n b); [now apply co_tiny|auto]).
    assert (T2 : forall n, 0 <= n <= 15 -> value m = 144 + n -> dec_slice D n b = o -> form o ([m] ++ b))
      by (intros n H1 H2 H3; apply (fm_list o [m] n b); [now apply co_tiny|auto]).
    assert (T3 : forall n, 0 <= n <= 15 -> value m = 160 + n -> dec_map D n b = o -> form o ([m] ++ b))
      by (intros n H1 H2 H3; apply (fm_map o [m] n b); [now apply co_tiny|auto]).
    assert (T4 : 176 <= value m <= 191 -> dec_struct v tz D b = o -> form o ([m] ++ b))
      by (intros H1 H3; apply (fm_struct o [m] b); [now constructor|auto]).
    assert (T5 : forall z, signed_be 1 z [m] -> -16 <= z <= 127 -> Ok (GInt KInt64 z, b) = o -> form o (m :: b))
      by (intros z H1 H2 H3; apply (fm_small o m z b); auto).
    destruct m;
    match goal with
    | |- form _ (?m :: _) =>
      let x := eval vm_compute in (value m) in
      lazymatch eval vm_compute in (x <? 128, x <? 144, x <? 160, x <? 176, x <? 192, 240 <=? x) with
      | (true, _, _, _, _, _) => apply (T5 x); [repeat split; cbn; lia|lia|exact H]
      | (_, true, _, _, _, _) => let n := eval vm_compute in (x - 128) in
          first [ apply (T n); [lia|reflexivity|exact H]
                | apply (T 0); [lia|reflexivity|rewrite <- H; unfold pstr, next, pbind; cbn; rewrite Z.min_l by apply zlen_nonneg; reflexivity] ]
      | (_, _, true, _, _, _) => let n := eval vm_compute in (x - 144) in apply (T2 n); [lia|reflexivity|exact H]
      | (_, _, _, true, _, _) => let n := eval vm_compute in (x - 160) in apply (T3 n); [lia|reflexivity|exact H]
      | (_, _, _, _, true, _) => apply T4; [unfold value; cbn; lia|exact H]
      | (_, _, _, _, _, true) => let n := eval vm_compute in (x - 256) in apply (T5 n); [repeat split; cbn; lia|lia|exact H]
      | _ => idtac
      end
    end; clear T T2 T3 T4 T5.
    all: try (exfalso; symmetry in H; exact (Ho _ H)).
    - apply fm_null. symmetry. exact H.
    - change ((x <- read_be 8 ;; pret (GFloat64 x)) b = o) in H. unfold pbind, read_be in H.
      destruct (Nat.ltb (length b) 8) eqn:E; [exfalso; symmetry in H; exact (Ho _ H)|]. apply Nat.ltb_ge in E.
      rewrite <- (firstn_skipn 8 b). eapply fm_float; [|symmetry; exact H].
      split; [rewrite firstn_length; lia|now rewrite unbe_be_value].
    - apply fm_false. symmetry. exact H.
    - apply fm_true. symmetry. exact H.
    - apply (sized_int 1 _ b o); [cbn; auto|assumption|exact H].
    - apply (sized_int 2 _ b o); [cbn; auto|assumption|exact H].
    - apply (sized_int 4 _ b o); [cbn; auto|assumption|exact H].
    - apply (sized_int 8 _ b o); [cbn; auto|assumption|exact H].
    - destruct (sized 1 pstr b o ltac:(lia) Ho H) as [n [s [r [-> [Hs E]]]]]. apply (fm_string o (_ :: s) n r); [now constructor|auto].
    - destruct (sized 2 pstr b o ltac:(lia) Ho H) as [n [s [r [-> [Hs E]]]]]. apply (fm_string o (_ :: s) n r); [now constructor|auto].
    - destruct (sized 4 pstr b o ltac:(lia) Ho H) as [n [s [r [-> [Hs E]]]]]. apply (fm_string o (_ :: s) n r); [now constructor|auto].
    - destruct (sized 1 (dec_slice D) b o ltac:(lia) Ho H) as [n [s [r [-> [Hs E]]]]]. apply (fm_list o (_ :: s) n r); [now constructor|auto].
    - destruct (sized 2 (dec_slice D) b o ltac:(lia) Ho H) as [n [s [r [-> [Hs E]]]]]. apply (fm_list o (_ :: s) n r); [now constructor|auto].
    - destruct (sized 4 (dec_slice D) b o ltac:(lia) Ho H) as [n [s [r [-> [Hs E]]]]]. apply (fm_list o (_ :: s) n r); [now constructor|auto].
    - destruct (sized 1 (dec_map D) b o ltac:(lia) Ho H) as [n [s [r [-> [Hs E]]]]]. apply (fm_map o (_ :: s) n r); [now constructor|auto].
    - destruct (sized 2 (dec_map D) b o ltac:(lia) Ho H) as [n [s [r [-> [Hs E]]]]]. apply (fm_map o (_ :: s) n r); [now constructor|auto].
    - destruct (sized 4 (dec_map D) b o ltac:(lia) Ho H) as [n [s [r [-> [Hs E]]]]]. apply (fm_map o (_ :: s) n r); [now constructor|auto].
    - destruct (sized 1 (fun _ => dec_struct v tz D) b o ltac:(lia) Ho H) as [n [s [r [-> [[Hs _] E]]]]]. apply (fm_struct o (_ :: s) r); [now constructor|auto].
    - destruct (sized 2 (fun _ => dec_struct v tz D) b o ltac:(lia) Ho H) as [n [s [r [-> [[Hs _] E]]]]]. apply (fm_struct o (_ :: s) r); [now constructor|auto].
  Qed.
End Bodies.

(** ** The decoder and the grammar *)
Section Whole.
  Variables (v : ver) (tz : zones).
  Notation D := (decode v tz).
  Lemma shrink b x r : D b = Ok (x, r) -> (length r < length b)%nat.
  Proof. intros E. pose proof (decode_total v tz b) as H. rewrite E in H. now apply psuffix_len. Qed.

  Lemma slice_ok n b x r : dec_slice D n b = Ok (x, r) <-> exists xs, x = GSlice xs /\ zlen xs = n /\ many D b xs r.
  Proof.
    unfold dec_slice. destruct (n <? 0) eqn:E.
    - split; [discriminate|]. intros [xs [_ [L _]]]. pose proof (zlen_nonneg xs). lia.
    - unfold pbind. pose proof (items_ok D shrink (S (length b)) n b ltac:(lia)) as H.
      destruct (dec_items D (S (length b)) n b) as [[xs r']| | |].
      + unfold pret. split.
        * intros K. injection K as <- <-. exists xs. destruct (proj1 (H xs r') eq_refl) as [H1 H2]. split; [reflexivity|]. split; [lia|assumption].
        * intros [ys [-> [L Hm]]]. assert (K : Ok (xs, r') = Ok (ys, r)) by (apply H; split; [assumption|lia]). now injection K as <- <-.
      + split; [discriminate|]. intros [ys [-> [L Hm]]]. pose proof (proj2 (H ys r)) as K. discriminate K. split; [assumption|lia].
      + split; [discriminate|]. intros [ys [-> [L Hm]]]. pose proof (proj2 (H ys r)) as K. discriminate K. split; [assumption|lia].
      + split; [discriminate|]. intros [ys [-> [L Hm]]]. pose proof (proj2 (H ys r)) as K. discriminate K. split; [assumption|lia].
  Qed.
  Lemma slice_panic n b : dec_slice D n b = Panic
    <-> n < 0 \/ exists xs b', many D b xs b' /\ zlen xs < n /\ D b' = Panic.
  Proof.
    unfold dec_slice. destruct (n <? 0) eqn:E; [split; [left; lia|reflexivity]|].
    unfold pbind. pose proof (items_panic D shrink (S (length b)) n b ltac:(lia)) as H.
    destruct (dec_items D (S (length b)) n b) as [[xs r']| | |]; unfold pret.
    - split; [discriminate|]. intros [K|K]; [lia|]. now apply H in K.
    - split; [discriminate|]. intros [K|K]; [lia|]. now apply H in K.
    - split; [|reflexivity]. intros _. right. now apply H.
    - split; [discriminate|]. intros [K|K]; [lia|]. now apply H in K.
  Qed.
  Lemma map_ok n b x r : dec_map D n b = Ok (x, r)
    <-> exists kvs, x = GMap (as_map_value kvs) /\ zlen kvs = Z.max 0 n /\ many D b (laid_out kvs) r.
  Proof.
    unfold dec_map, pbind. pose proof (entries_ok D shrink (S (length b)) n [] b ltac:(lia)) as H.
    destruct (dec_entries D (S (length b)) n [] b) as [[m r']| | |]; unfold pret.
    - split.
      + intros K. injection K as <- <-. destruct (proj1 (H m r') eq_refl) as [kvs [H1 [H2 ->]]]. exists kvs. now split.
      + intros [kvs [-> [L Hm]]]. assert (K : Ok (m, r') = Ok (as_map_value kvs, r)) by (apply H; exists kvs; now split). now injection K as <- <-.
    - split; [discriminate|]. intros [kvs [-> [L Hm]]]. pose proof (proj2 (H (as_map_value kvs) r)) as K. discriminate K. exists kvs. now split.
    - split; [discriminate|]. intros [kvs [-> [L Hm]]]. pose proof (proj2 (H (as_map_value kvs) r)) as K. discriminate K. exists kvs. now split.
    - split; [discriminate|]. intros [kvs [-> [L Hm]]]. pose proof (proj2 (H (as_map_value kvs) r)) as K. discriminate K. exists kvs. now split.
  Qed.
  Lemma map_panic n b : dec_map D n b = Panic
    <-> exists kvs b', many D b (laid_out kvs) b' /\ zlen kvs < n
        /\ (D b' = Panic \/ exists x b'', D b' = Ok (x, b'') /\ D b'' = Panic).
  Proof.
    unfold dec_map, pbind. pose proof (entries_panic D shrink (S (length b)) n [] b ltac:(lia)) as H.
    destruct (dec_entries D (S (length b)) n [] b) as [[m r']| | |]; unfold pret; rewrite <- H; split; easy.
  Qed.
  Lemma struct_ok sig b x r : dec_struct v tz D (sig :: b) = Ok (x, r)
    <-> exists ks xs, fields_of v (value sig) = Some ks /\ many D b xs r /\ length xs = length ks
        /\ forallb (fun kx => fits (fst kx) (snd kx)) (combine ks xs) = true /\ build tz (value sig) xs = Some x.
  Proof.
    rewrite (alike_ok _ _ (x, r) (struct_alike v tz D sig b)). unfold struct_out.
    destruct (fields_of v (value sig)) as [ks|]; [|split; [discriminate|intros [ks [xs [K _]]]; discriminate]].
    unfold pbind. pose proof (by_kind_ok D shrink ks b) as H.
    split.
    - destruct (by_kind D ks b) as [[ys r']| | |]; try discriminate.
      destruct (build tz (value sig) ys) as [y|] eqn:Ey; [|discriminate]. unfold pret. intros K. injection K as <- <-.
      exists ks, ys. destruct (proj1 (H ys r') eq_refl) as [H1 [H2 H3]]. repeat split; assumption.
    - intros [ks' [xs [K [H1 [H2 [H3 H4]]]]]]. injection K as <-. rewrite (proj2 (H xs r)) by auto. rewrite H4. reflexivity.
  Qed.
  Lemma struct_panic sig b : dec_struct v tz D (sig :: b) = Panic
    <-> exists ks k ks' xs b', fields_of v (value sig) = Some (ks ++ k :: ks') /\ many D b xs b' /\ length xs = length ks
        /\ forallb (fun kx => fits (fst kx) (snd kx)) (combine ks xs) = true
        /\ (D b' = Panic \/ exists x b'', D b' = Ok (x, b'') /\ fatal k x = true).
  Proof.
    rewrite (alike_panic _ _ (struct_alike v tz D sig b)). unfold struct_out.
    destruct (fields_of v (value sig)) as [ks|]; [|split; [discriminate|intros [ks [k [ks' [xs [b' [K _]]]]]]; discriminate]].
    pose proof (by_kind_panic D ks b) as H. unfold pbind. split.
    - intros K. destruct (by_kind D ks b) as [[ys r']| | |]; try discriminate.
      + destruct (build tz (value sig) ys); discriminate.
      + destruct (proj1 H eq_refl) as [ks1 [k [ks2 [xs [b' [-> P]]]]]]. exists ks1, k, ks2, xs, b'. now split.
    - intros [ks1 [k [ks2 [xs [b' [K P]]]]]]. injection K as ->.
      rewrite (proj2 H); [reflexivity|]. exists ks1, k, ks2, xs, b'. now split.
  Qed.

  Lemma pstr_ok n b x r : pstr n b = Ok (x, r) <-> 0 <= n /\ x = GStr (firstn (Z.to_nat n) b) /\ r = skipn (Z.to_nat n) b.
  Proof.
    unfold pstr, next, pbind. destruct (n <? 0) eqn:E; [split; [discriminate|lia]|]. unfold pret.
    assert (F : firstn (Z.to_nat (Z.min n (zlen b))) b = firstn (Z.to_nat n) b
                /\ skipn (Z.to_nat (Z.min n (zlen b))) b = skipn (Z.to_nat n) b).
    { destruct (Z.leb_spec n (zlen b)); [now rewrite Z.min_l|]. rewrite Z.min_r by lia. unfold zlen in *.
      rewrite Nat2Z.id. rewrite !firstn_all2, !skipn_all2 by lia. now split. }
    destruct F as [-> ->]. split.
    - intros H. injection H as <- <-. split; [lia|now split].
    - now intros [_ [-> ->]].
  Qed.
  Lemma pstr_panic n b : pstr n b = Panic <-> n < 0.
  Proof. unfold pstr, next, pbind. destruct (n <? 0) eqn:E; [|split; [discriminate|lia]]. split; [lia|reflexivity]. Qed.

  Lemma many_gives n : (forall b, (length b < n)%nat -> forall x r, D b = Ok (x, r) -> gives v tz b x r) ->
    forall b xs r, (length b < n)%nat -> many D b xs r -> gives_all v tz b xs r.
  Proof.
    intros IH b xs r L H. revert L. induction H as [|b x b' xs r E H IHm]; intros L; [constructor|].
    apply shrink in E as Hs. econstructor; [apply IH; eassumption|]. apply IHm. lia.
  Qed.
  Lemma header_nonempty t a b c n h : counted t a b c n h -> (0 < length h)%nat.
  Proof. destruct 1; cbn; lia. Qed.
  Lemma struct_head_nonempty h : struct_head h -> (0 < length h)%nat.
  Proof. destruct 1; cbn; lia. Qed.

  Lemma decode_gives_fuel n : forall b, (length b < n)%nat -> forall x r, D b = Ok (x, r) -> gives v tz b x r.
  Proof.
    induction n as [|n IH]; intros b L x r H; [lia|]. rewrite decode_step in H.
    apply forms in H; [|discriminate].
    inversion H as [r0 E|r0 E|r0 E|b0 z r0 Hz Hr E|m w s z r0 Hm Hs E|s z r0 Hs E|h n0 b0 Hh E|h n0 b0 Hh E|h n0 b0 Hh E|h b0 Hh E]; subst.
    - injection E as -> ->. constructor.
    - injection E as -> ->. constructor.
    - injection E as -> ->. constructor.
    - injection E as -> ->. now constructor.
    - injection E as -> ->. econstructor; eassumption.
    - injection E as -> ->. now constructor.
    - symmetry in E. apply pstr_ok in E as [H1 [-> ->]]. now constructor.
    - symmetry in E. apply slice_ok in E as [xs [-> [Hl Hm]]]. econstructor; [eassumption|assumption|].
      apply (many_gives n); auto. apply header_nonempty in Hh. rewrite app_length in L. lia.
    - symmetry in E. apply map_ok in E as [kvs [-> [Hl Hm]]]. econstructor; [eassumption|assumption|].
      apply (many_gives n); auto. apply header_nonempty in Hh. rewrite app_length in L. lia.
    - symmetry in E. destruct b0 as [|sig b0]; [discriminate|]. apply struct_ok in E as [ks [xs [H1 [H2 [H3 [H4 H5]]]]]].
      econstructor; eauto. apply (many_gives n); auto. apply struct_head_nonempty in Hh. rewrite app_length in L. cbn in L. lia.
  Qed.

  Scheme gives_ind2 := Induction for gives Sort Prop with gives_all_ind2 := Induction for gives_all Sort Prop.
  Lemma gives_decode b x r : gives v tz b x r -> D b = Ok (x, r).
  Proof.
    intros H. apply (gives_ind2 v tz (fun b x r _ => D b = Ok (x, r)) (fun b xs r _ => many D b xs r)); try exact H; clear b x r H.
    - intros r. rewrite decode_step. reflexivity.
    - intros r. rewrite decode_step. reflexivity.
    - intros r. rewrite decode_step. reflexivity.
    - intros b z r Hz Hr. rewrite decode_step. now apply body_tinyint.
    - intros m w s z r Hm Hs. rewrite decode_step. cbn in Hm. destruct Hm as [E|[E|[E|[E|[]]]]]; injection E as <- <-.
      + change (dec_body v tz D (xc8 :: s ++ r)) with ((x <- read_int 1 ;; pret (GInt KInt64 x)) (s ++ r)). unfold pbind. now rewrite (read_int_app 1 z) by (assumption || lia).
      + change (dec_body v tz D (xc9 :: s ++ r)) with ((x <- read_int 2 ;; pret (GInt KInt64 x)) (s ++ r)). unfold pbind. now rewrite (read_int_app 2 z) by (assumption || lia).
      + change (dec_body v tz D (xca :: s ++ r)) with ((x <- read_int 4 ;; pret (GInt KInt64 x)) (s ++ r)). unfold pbind. now rewrite (read_int_app 4 z) by (assumption || lia).
      + change (dec_body v tz D (xcb :: s ++ r)) with ((x <- read_int 8 ;; pret (GInt KInt64 x)) (s ++ r)). unfold pbind. now rewrite (read_int_app 8 z) by (assumption || lia).
    - intros s z r [Hl Hv]. rewrite decode_step.
      change (dec_body v tz D (xc1 :: s ++ r)) with ((x <- read_be 8 ;; pret (GFloat64 x)) (s ++ r)). unfold pbind. rewrite read_be_app by assumption. now rewrite Hv.
    - intros h n b Hh Hn. rewrite decode_step, (body_string v tz D n h b Hh). now apply pstr_ok.
    - intros h n b xs r Hh Hl _ IH. rewrite decode_step, (body_list v tz D n h b Hh). apply slice_ok. exists xs. now split.
    - intros h n b kvs r Hh Hl _ IH. rewrite decode_step, (body_map v tz D n h b Hh). apply map_ok. exists kvs. now split.
    - intros h sig ks b xs r x Hh Hk _ IH Hl Hf Hb. rewrite decode_step, (body_struct v tz D h (sig :: b) Hh). apply struct_ok.
      exists ks, xs. repeat split; assumption.
    - intros b. constructor.
    - intros b x b' xs r _ IH1 _ IH2. econstructor; eassumption.
  Qed.
  Theorem decode_gives b x r : D b = Ok (x, r) <-> gives v tz b x r.
  Proof. split; [apply (decode_gives_fuel (S (length b))); lia|apply gives_decode]. Qed.
  Lemma many_iff b xs r : many D b xs r <-> gives_all v tz b xs r.
  Proof.
    split.
    - apply (many_gives (S (length b))); [|lia]. intros ? _ ? ? ?. now apply decode_gives.
    - induction 1 as [|b x b' xs r H1 H2 IH]; [constructor|]. econstructor; [apply decode_gives; eassumption|assumption].
  Qed.

  Lemma decode_crash_fuel n : forall b, (length b < n)%nat -> D b = Panic -> crash v tz b.
  Proof.
    induction n as [|n IH]; intros b L H; [lia|]. rewrite decode_step in H.
    apply forms in H; [|discriminate].
    assert (Sh : forall b xs b', many D b xs b' -> (length b' <= length b)%nat).
    { clear. induction 1 as [|b x b' xs r E Hm IH]; [lia|]. apply shrink in E. lia. }
    inversion H as [r0 E|r0 E|r0 E|b0 z r0 Hz Hr E|m w s z r0 Hm Hs E|s z r0 Hs E|h n0 b0 Hh E|h n0 b0 Hh E|h n0 b0 Hh E|h b0 Hh E]; subst; try discriminate E; symmetry in E.
    - apply pstr_panic in E. apply (cr_size v tz h n0); auto.
    - apply slice_panic in E. apply header_nonempty in Hh as Hp. rewrite app_length in L. destruct E as [E|[xs [b' [Hm [Hl E]]]]]; [apply (cr_size v tz h n0); auto|].
      apply Sh in Hm as Hs. apply (cr_item v tz h n0 b0 xs b'); auto; [now apply many_iff|]. apply IH; [lia|assumption].
    - apply map_panic in E. apply header_nonempty in Hh as Hp. rewrite app_length in L. destruct E as [kvs [b' [Hm [Hl [E|[x [b'' [Ex E]]]]]]]]; apply Sh in Hm as Hs.
      + apply (cr_key v tz h n0 b0 kvs b'); auto; [now apply many_iff|]. apply IH; [lia|assumption].
      + apply shrink in Ex as Hx. apply (cr_value v tz h n0 b0 kvs b' x b''); auto; [now apply many_iff|now apply decode_gives|]. apply IH; [lia|assumption].
    - apply struct_head_nonempty in Hh as Hp. rewrite app_length in L. destruct b0 as [|sig b0]; [discriminate|]. cbn in L.
      apply struct_panic in E. destruct E as [ks [k [ks' [xs [b' [Hk [Hm [Hl [Hf [E|[x [b'' [Ex E]]]]]]]]]]]]]; apply Sh in Hm as Hs.
      + apply (cr_field v tz h sig ks k ks' b0 xs b'); auto; [now apply many_iff|]. apply IH; [lia|assumption].
      + apply (cr_kind v tz h sig ks k ks' b0 xs b' x b''); auto; [now apply many_iff|]. now apply decode_gives.
  Qed.
  Lemma crash_decode b : crash v tz b -> D b = Panic.
  Proof.
    induction 1 as [h n r Hh Hn|h n b xs b' Hh Hm Hl Hc IH|h n b kvs b' Hh Hm Hl Hc IH|h n b kvs b' x b'' Hh Hm Hl Hx Hc IH
      |h sig ks k ks' b xs b' Hh Hk Hm Hl Hf Hc IH|h sig ks k ks' b xs b' x b'' Hh Hk Hm Hl Hf Hx Ht]; rewrite decode_step.
    - destruct Hh as [Hh|Hh].
      + rewrite (body_string v tz D n h r Hh). now apply pstr_panic.
      + rewrite (body_list v tz D n h r Hh). apply slice_panic. now left.
    - rewrite (body_list v tz D n h b Hh). apply slice_panic. right. exists xs, b'. rewrite many_iff. auto.
    - rewrite (body_map v tz D n h b Hh). apply map_panic. exists kvs, b'. rewrite many_iff. auto.
    - rewrite (body_map v tz D n h b Hh). apply map_panic. exists kvs, b'. rewrite many_iff. split; [assumption|]. split; [assumption|].
      right. exists x, b''. rewrite decode_gives. auto.
    - rewrite (body_struct v tz D h (sig :: b) Hh). apply struct_panic. exists ks, k, ks', xs, b'. rewrite many_iff. repeat split; auto.
    - rewrite (body_struct v tz D h (sig :: b) Hh). apply struct_panic. exists ks, k, ks', xs, b'. rewrite many_iff. repeat split; auto.
      right. exists x, b''. rewrite decode_gives. auto.
  Qed.
  Theorem decode_crash b : D b = Panic <-> crash v tz b.
  Proof. split; [apply (decode_crash_fuel (S (length b))); lia|apply crash_decode]. Qed.
End Whole.

(** C22 *)
Theorem duration_exactly tz m d s n bs rest : packs signed_limits (duration_item m d s n) bs ->
  decode V2 tz (bs ++ rest) = Ok (GDuration (wrap64 (m * d * s * n)), rest)
  /\ (m = 0 -> (decode V2 tz (bs ++ rest) = Ok (GDuration (duration_nanos d s n), rest) <-> duration_nanos d s n = 0)).
Proof.
  intros H. assert (E : decode V2 tz (bs ++ rest) = Ok (GDuration (wrap64 (m * d * s * n)), rest)).
  { rewrite (duration_received tz m d s n bs rest H), !int64_wrap, wrap64_mul. do 3 f_equal.
    replace (wrap64 (m * d) * s * n) with (wrap64 (m * d) * (s * n)) by ring. rewrite wrap64_mul. f_equal. ring. }
  split; [exact E|]. intros ->. rewrite E. cbn [Z.mul]. change (wrap64 0) with 0. split; [intros [= <-]; reflexivity|intros ->; reflexivity].
Qed.
