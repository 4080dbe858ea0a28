(** Decoding a payload that was cut short (proofs). *)
From Coq Require Import ZArith List Bool Lia ZifyBool.
From Verif Require Import Bytes BytesFacts GoVal GoErr Encoder Decoder SpecPack PackFacts DecodeFacts TotalFacts.
Import ListNotations.
Open Scope Z_scope.
Ltac Zify.zify_post_hook ::= Z.div_mod_to_equations.

Fixpoint last_open (l : list pv) : bool :=
  match l with [] => false | [x] => ends_open x | _ :: l' => last_open l' end.
Fixpoint last_open_m (m : list (bytes * pv)) : bool :=
  match m with [] => false | [(_, x)] => ends_open x | _ :: m' => last_open_m m' end.
Lemma ends_open_list l : ends_open (PList l) = last_open l. Proof. reflexivity. Qed.
Lemma ends_open_struct s l : ends_open (PStruct s l) = last_open l. Proof. reflexivity. Qed.
Lemma ends_open_map m : ends_open (PMap m) = last_open_m m. Proof. reflexivity. Qed.

(** ** Inversion of successful decoding *)

Lemma pbind_inv {A B} (p : parser A) (f : A -> parser B) b x r :
  pbind p f b = Ok (x, r) -> exists a b1, p b = Ok (a, b1) /\ f a b1 = Ok (x, r).
Proof. unfold pbind. destruct (p b) as [[a b1]| | |]; try discriminate. eauto. Qed.

Lemma as_inv {A} (p : parser A) b x r : (forall b x r, p b = Ok (x, r) -> r = b) -> p b = Ok (x, r) -> r = b.
Proof. eauto. Qed.
Lemma must_int64_inv y b x r : must_int64 y b = Ok (x, r) -> r = b.
Proof. destruct y; try discriminate. destruct k; try discriminate. cbn. unfold pret. congruence. Qed.
Lemma as_int64_inv t y b x r : as_int64 t y b = Ok (x, r) -> r = b.
Proof. destruct y; try discriminate. destruct k; try discriminate. cbn. unfold pret. congruence. Qed.
Lemma as_float_inv t y b x r : as_float t y b = Ok (x, r) -> r = b.
Proof. destruct y; try discriminate. cbn. unfold pret. congruence. Qed.
Lemma as_str_inv t y b x r : as_str t y b = Ok (x, r) -> r = b.
Proof. destruct y; try discriminate. cbn. unfold pret. congruence. Qed.
Lemma as_slice_inv t y b x r : as_slice t y b = Ok (x, r) -> r = b.
Proof. destruct y; try discriminate. cbn. unfold pret. congruence. Qed.
Lemma as_map_inv t y b x r : as_map t y b = Ok (x, r) -> r = b.
Proof. destruct y; try discriminate. cbn. unfold pret. congruence. Qed.
Lemma lift_inv {A} (y : res A) b x r : lift y b = Ok (x, r) -> r = b.
Proof. destruct y; try discriminate. cbn. congruence. Qed.

Ltac inv_parse :=
  repeat match goal with
    | H : pbind _ _ _ = Ok _ |- _ =>
        let a := fresh "a" in let b := fresh "b" in let E := fresh "E" in
        apply pbind_inv in H; destruct H as [a [b [E H]]]
    | H : must_int64 _ _ = Ok _ |- _ => apply must_int64_inv in H; subst
    | H : as_int64 _ _ _ = Ok _ |- _ => apply as_int64_inv in H; subst
    | H : as_float _ _ _ = Ok _ |- _ => apply as_float_inv in H; subst
    | H : as_str _ _ _ = Ok _ |- _ => apply as_str_inv in H; subst
    | H : as_slice _ _ _ = Ok _ |- _ => apply as_slice_inv in H; subst
    | H : as_map _ _ _ = Ok _ |- _ => apply as_map_inv in H; subst
    | H : lift _ _ = Ok _ |- _ => apply lift_inv in H; subst
    | H : pret _ _ = Ok _ |- _ => unfold pret in H; injection H as _ ?; subst
    end.

(** Number of values decodeStruct reads for a signature. *)
Definition arity (v : ver) (s : Z) : option nat :=
  if s =? SigNode then Some 3%nat else if s =? SigRel then Some 5%nat
  else if s =? SigPath then Some 3%nat else if s =? SigURel then Some 3%nat
  else if s =? SigRecord then Some 1%nat else if s =? SigFailure then Some 1%nat
  else if s =? SigIgnored then Some 0%nat else if s =? SigSuccess then Some 1%nat
  else if s =? SigDiscardAll then Some 0%nat else if s =? SigPullAll then Some 0%nat
  else if s =? SigReset then Some 0%nat
  else match v with
       | V1 => None
       | V2 =>
           if s =? SigPoint2D then Some 3%nat else if s =? SigPoint3D then Some 4%nat
           else if s =? SigDate then Some 1%nat else if s =? SigTime then Some 2%nat
           else if s =? SigLocalTime then Some 1%nat else if s =? SigLocalDateTime then Some 2%nat
           else if s =? SigDateTimeOffset then Some 3%nat else if s =? SigDateTimeZoneId then Some 3%nat
           else if s =? SigDuration then Some 4%nat else None
       end.

Ltac reads_tac := eexists; split; [repeat (econstructor; [eassumption|]); constructor|reflexivity].

Lemma dec_struct_inv v tz dec sb b g r : dec_struct v tz dec (sb :: b) = Ok (g, r) ->
  exists gs, reads dec gs b r /\ arity v (bz sb) = Some (length gs).
Proof.
  unfold dec_struct, arity. cbv zeta. intros H.
  repeat match type of H with
         | (if ?c then Ok _ else _) = _ => destruct c; [injection H as _ <-; exists []; split; [constructor|reflexivity]|]
         | (if ?c then _ else _) = _ => destruct c; [
             unfold dec_node, dec_rel, dec_path, dec_urel, dec_record, dec_failure, dec_success in H;
             inv_parse; reads_tac|]
         end.
  destruct v; [discriminate|].
  repeat match type of H with
         | (if ?c then _ else _) = _ => destruct c; [
             unfold dec_point2d, dec_point3d, dec_date, dec_time, dec_localtime, dec_localdatetime,
               dec_datetime_offset, dec_datetime_zone, dec_duration in H;
             inv_parse; try reads_tac|]
         end; try discriminate.
  - destruct (time_unix _ _), (time_add _ _ _). inv_parse. reads_tac.
  - destruct (tz _); [|discriminate]. destruct (time_unix _ _), (time_add _ _ _). inv_parse. reads_tac.
Qed.

Lemma struct_meaning_arity v s gs g : struct_meaning v s gs = Some g -> arity v s = Some (length gs).
Proof.
  unfold struct_meaning, arity.
  unfold SigNode, SigRel, SigPath, SigURel, SigRecord, SigFailure, SigIgnored, SigSuccess,
    SigDiscardAll, SigPullAll, SigReset, SigPoint2D, SigPoint3D, SigDate, SigTime, SigLocalTime,
    SigLocalDateTime, SigDateTimeOffset, SigDateTimeZoneId, SigDuration.
  intros Hm.
  repeat match type of Hm with
  | (if ?s =? ?k then _ else _) = _ => destruct (Z.eqb_spec s k) as [->|?];
      [cbv beta iota delta [Z.eqb Pos.eqb];
       repeat match type of Hm with match ?x with _ => _ end = _ => destruct x eqn:?; try discriminate end;
       reflexivity|]
  end.
  destruct v; [discriminate|].
  repeat match type of Hm with
  | (if ?s =? ?k then _ else _) = _ => destruct (Z.eqb_spec s k) as [->|?];
      [cbv beta iota delta [Z.eqb Pos.eqb];
       repeat match type of Hm with match ?x with _ => _ end = _ => destruct x eqn:?; try discriminate end;
       reflexivity|]
  end.
  discriminate.
Qed.

Lemma dec_items_inv dec k : forall sz b xs r, 0 <= sz -> dec_items dec k sz b = Ok (xs, r) ->
  reads dec xs b r /\ zlen xs = sz.
Proof.
  induction k as [|k IH]; intros sz b xs r Hs H; cbn [dec_items] in H; destruct (sz <=? 0) eqn:E;
    try discriminate.
  - unfold pret in H. injection H as <- <-. split; [constructor|cbn; lia].
  - unfold pret in H. injection H as <- <-. split; [constructor|cbn; lia].
  - apply pbind_inv in H as [x [b1 [E1 H]]]. apply pbind_inv in H as [ys [b2 [E2 H]]].
    unfold pret in H. injection H as <- <-. apply IH in E2; [|lia]. destruct E2 as [R L].
    split; [econstructor; eauto|]. rewrite zlen_cons. lia.
Qed.

Lemma dec_entries_inv dec k : forall sz acc b m r, 0 <= sz -> dec_entries dec k sz acc b = Ok (m, r) ->
  exists gs, reads dec gs b r /\ zlen gs = 2 * sz.
Proof.
  induction k as [|k IH]; intros sz acc b m r Hs H; cbn [dec_entries] in H; destruct (sz <=? 0) eqn:E;
    try discriminate.
  - unfold pret in H. injection H as <- <-. exists (@nil gval). split; [apply rd_nil|unfold zlen; cbn [length]; lia].
  - unfold pret in H. injection H as <- <-. exists (@nil gval). split; [apply rd_nil|unfold zlen; cbn [length]; lia].
  - apply pbind_inv in H as [x [b1 [E1 H]]]. apply pbind_inv in H as [y [b2 [E2 H]]].
    destruct x; try discriminate. apply IH in H; [|lia]. destruct H as [gs [R L]].
    exists (GStr s :: y :: gs). split; [repeat (econstructor; [eassumption|]); assumption|].
    rewrite !zlen_cons. lia.
Qed.

(** ** Cuts *)

Lemma prefix_cases (a b q r : bytes) : a ++ b = q ++ r -> r <> [] ->
  (exists r1, r1 <> [] /\ a = q ++ r1) \/ (exists q', q = a ++ q' /\ b = q' ++ r).
Proof.
  revert q. induction a as [|x a IH]; intros q H Hr.
  - right. exists q. auto.
  - destruct q as [|y q].
    + left. exists (x :: a). split; [discriminate|reflexivity].
    + cbn in H. injection H as <- H. apply IH in H; [|assumption].
      destruct H as [[r1 [H1 H2]]|[q' [H1 H2]]].
      * left. exists r1. split; [assumption|cbn; congruence].
      * right. exists q'. split; [cbn; congruence|assumption].
Qed.

Ltac kill_q :=
  match goal with
  | H : ?h = ?q ++ ?r, Hr : ?r <> [] |- _ =>
      destruct q as [|? [|? [|? [|? [|? q]]]]]; cbn [app] in H;
      inversion H; subst;
      first [eexists; reflexivity | exfalso; now apply Hr
            | exfalso; match goal with K : [] = _ ++ _ |- _ => symmetry in K; apply app_eq_nil in K; tauto end]
  end.

Lemma length_cases (s : bytes) n : length s = n -> (n <= 4)%nat ->
  s = [] /\ n = O \/ (exists a, s = [a] /\ n = 1%nat) \/ (exists a b, s = [a;b] /\ n = 2%nat)
  \/ (exists a b c, s = [a;b;c] /\ n = 3%nat) \/ (exists a b c d, s = [a;b;c;d] /\ n = 4%nat).
Proof.
  intros H Hn. destruct s as [|a [|b [|c [|d [|e s]]]]]; cbn in H; subst n; try lia; eauto 10.
Qed.

Lemma cut_header v tz dec L t m8 m16 m32 n h q r :
  (t = 128 /\ m8 = xd0 /\ m16 = xd1 /\ m32 = Some xd2
   \/ t = 144 /\ m8 = xd4 /\ m16 = xd5 /\ m32 = Some xd6
   \/ t = 160 /\ m8 = xd8 /\ m16 = xd9 /\ m32 = Some xda
   \/ t = 176 /\ m8 = xdc /\ m16 = xdd /\ m32 = None) ->
  header L t m8 m16 m32 n h -> h = q ++ r -> r <> [] -> exists e, dec_body v tz dec q = Err e.
Proof.
  intros Hk H E Hr. revert E.
  destruct H as [b Hn Hb|s Hn [Hs Hv]|s Hn [Hs Hv]|s m Hm Hn [Hs Hv]]; intros E.
  - destruct q as [|a q]; [eexists; reflexivity|]. exfalso.
    apply (f_equal (@length byte)) in E. rewrite app_length in E. cbn in E.
    destruct r; [easy|]. cbn in E. lia.
  - destruct s as [|a [|]]; try discriminate. subst.
    destruct Hk as [Hk|[Hk|[Hk|Hk]]]; destruct Hk as [-> [-> [-> ->]]]; clear - E Hr; kill_q.
  - destruct s as [|a [|b [|]]]; try discriminate. subst.
    destruct Hk as [Hk|[Hk|[Hk|Hk]]]; destruct Hk as [-> [-> [-> ->]]]; clear - E Hr; kill_q.
  - destruct s as [|a [|b [|c [|d [|]]]]]; try discriminate.
    destruct Hk as [Hk|[Hk|[Hk|Hk]]]; destruct Hk as [-> [-> [-> ->]]]; try discriminate;
      injection Hm as <-; clear - E Hr; kill_q.
Qed.

Ltac kill_nil :=
  exfalso; match goal with K : [] = _ ++ _ |- _ => symmetry in K; apply app_eq_nil in K; tauto end.

(** [cut v tz p]: decoding a proper prefix of a representation of [p] succeeds only if the
    representation ends inside a string, and then nothing is left over. *)
Definition cut (v : ver) (tz : zones) (p : pv) : Prop :=
  forall q r fuel g x rest, packs signed_limits p (q ++ r) -> meaning v p = Some g ->
    r <> [] -> (length (q ++ r) < fuel)%nat ->
    decode_fuel v tz fuel q = Ok (x, rest) -> rest = [] /\ ends_open p = true.

Lemma cut_seq v tz l : Forall (cut v tz) l ->
  forall q r fuel gs xs rest, packs_seq signed_limits l (q ++ r) -> all_some (map (meaning v) l) = Some gs ->
    r <> [] -> (length (q ++ r) < fuel)%nat ->
    reads (decode_fuel v tz fuel) xs q rest -> length xs = length l ->
    rest = [] /\ last_open l = true.
Proof.
  induction 1 as [|p l Hp _ IH]; intros q r fuel gs xs rest Hb Hm Hr Hf R Hl.
  - inversion Hb. kill_nil.
  - inversion Hb as [|? ? b1 b2 H1 H2 E0 E]. cbn [map all_some] in Hm.
    destruct (meaning v p) eqn:Ep; [|discriminate].
    destruct (all_some (map (meaning v) l)) as [gl|] eqn:El; [|discriminate]. injection Hm as <-.
    destruct xs as [|x xs]; [discriminate|]. cbn in Hl. injection Hl as Hl.
    inversion R as [|? ? ? b3 ? D R']; subst. rewrite <- E in Hf. rewrite app_length in Hf.
    apply prefix_cases in E; [|assumption]. destruct E as [[r1 [Hr1 E]]|[q' [E1 E2]]].
    + subst b1.
      destruct (Hp q r1 fuel g x b3 H1 Ep Hr1 ltac:(lia) D) as [-> Ho].
      destruct l as [|p2 l].
      * destruct xs; [|discriminate]. inversion R'; subst. auto.
      * destruct xs as [|x2 xs]; [discriminate|]. inversion R' as [|? ? ? b4 ? D2 R2]; subst.
        destruct fuel; discriminate D2.
    + subst q b2. rewrite (decode_packs v tz p b1 g q' fuel H1 Ep) in D by lia.
      injection D as <- <-.
      destruct l as [|p2 l].
      * inversion H2. kill_nil.
      * destruct (IH q' r fuel gl xs rest H2 eq_refl Hr ltac:(lia) R' Hl) as [-> Ho].
        split; [reflexivity|]. exact Ho.
Qed.

Definition flat (m : list (bytes * pv)) : list pv := flat_map (fun kv => [PStr (fst kv); snd kv]) m.

Lemma packs_entries_flat L m bs : packs_entries L m bs -> packs_seq L (flat m) bs.
Proof.
  revert bs. induction m as [|[k p] m IH]; intros bs H; inversion H; subst; cbn; [constructor|].
  constructor; [assumption|]. constructor; [assumption|]. now apply IH.
Qed.
Lemma last_open_flat m : last_open (flat m) = last_open_m m.
Proof.
  induction m as [|[k p] m IH]; [reflexivity|].
  change (flat ((k, p) :: m)) with (PStr k :: p :: flat m). cbn [last_open last_open_m].
  rewrite IH. destruct m as [|[k2 p2] m]; reflexivity.
Qed.
Lemma flat_length m : zlen (flat m) = 2 * zlen m.
Proof. induction m as [|[k p] m IH]; [reflexivity|].
  change (flat ((k, p) :: m)) with (PStr k :: p :: flat m). rewrite !zlen_cons, IH. lia. Qed.
Lemma all_some_flat v m gs : all_some (map (fun kv => meaning v (snd kv)) m) = Some gs ->
  exists gs', all_some (map (meaning v) (flat m)) = Some gs'.
Proof.
  revert gs. induction m as [|[k p] m IH]; intros gs H; [eexists; reflexivity|].
  cbn [map all_some snd] in H. destruct (meaning v p) eqn:E; [|discriminate].
  destruct (all_some (map (fun kv => meaning v (snd kv)) m)) eqn:E2; [|discriminate].
  destruct (IH l eq_refl) as [gs' E3]. change (flat ((k, p) :: m)) with (PStr k :: p :: flat m).
  cbn [map all_some meaning]. rewrite E, E3. eauto.
Qed.

Lemma cut_str v tz s : cut v tz (PStr s).
Proof.
  intros q r fuel g x rest Hb _ Hr Hf D. inversion Hb as [| | | | | | | | |? h Hh E0 E| | |]. clear E0.
  destruct fuel; [lia|]. cbn [decode_fuel] in D.
  apply prefix_cases in E; [|assumption]. destruct E as [[r1 [Hr1 E]]|[q' [E1 E2]]].
  - destruct (cut_header v tz (decode_fuel v tz fuel) signed_limits 128 xd0 xd1 (Some xd2) (zlen s) h q r1)
      as [e De]; try assumption; [left; auto|congruence].
  - assert (Hs : exists b s', s = b :: s').
    { destruct s; [|eauto]. symmetry in E2. apply app_eq_nil in E2. easy. }
    destruct Hs as [b0 [s' Hs]].
    split; [|rewrite Hs; reflexivity].
    assert (Hd : dec_body v tz (decode_fuel v tz fuel) (h ++ q') = pstr (zlen s) q').
    { clear - Hh Hs. pose proof (zlen_nonneg s). inversion Hh; subst h; cbn [app].
      - rewrite (body_tinystr _ _ _ _ (zlen s)) by assumption.
        destruct (zlen s =? 0) eqn:E; [|reflexivity]. rewrite Hs, zlen_cons in E.
        pose proof (zlen_nonneg s'). lia.
      - rewrite body_str8. unfold pbind. rewrite (read_size_app 1 (zlen s)); auto; cbn in *; lia.
      - rewrite body_str16. unfold pbind. rewrite (read_size_app 2 (zlen s)); auto; cbn in *; lia.
      - injection H0 as <-. rewrite body_str32. unfold pbind.
        rewrite (read_size_app 4 (zlen s)); auto; cbn in *; lia. }
    rewrite E1, Hd in D. unfold pstr, next in D. apply pbind_inv in D as [y [b1 [D1 D2]]].
    unfold pret in D2. injection D2 as _ <-. destruct (zlen s <? 0); [discriminate|].
    injection D1 as _ <-. rewrite E2, zlen_app. pose proof (zlen_nonneg r). rewrite Z.min_r by lia.
    unfold zlen. rewrite Nat2Z.id. now rewrite skipn_all.
Qed.

Lemma one_byte v tz dec m q r x rest :
  [m] = q ++ r -> r <> [] -> dec_body v tz dec q = Ok (x, rest) -> False.
Proof.
  intros E Hr D. destruct q as [|a q]; [discriminate D|]. cbn in E. injection E as _ E. kill_nil.
Qed.

Lemma cut_fixed v tz dec m k (f : Z -> parser gval) s q r x rest :
  (forall b, dec_body v tz dec (m :: b) = pbind (read_be k) f b) ->
  length s = k -> m :: s = q ++ r -> r <> [] -> dec_body v tz dec q = Ok (x, rest) -> False.
Proof.
  intros Hbody Hs E Hr D. destruct q as [|a q]; [discriminate|].
  cbn in E. injection E as <- E. rewrite Hbody in D. apply pbind_inv in D as [y [b1 [D1 D2]]].
  unfold read_be in D1. destruct (Nat.ltb (length q) k) eqn:El; [discriminate|].
  apply Nat.ltb_ge in El. apply (f_equal (@length byte)) in E. rewrite app_length in E.
  destruct r; [easy|]. cbn in E. lia.
Qed.

Theorem cut_all v tz p : cut v tz p.
Proof.
  induction p as [| b | z | b | s | l IH | m IH | sig fs IH | t] using pv_ind'.
  5: apply cut_str.
  1-4: intros q r fuel g x rest Hb Hm Hr Hf D; (destruct fuel; [lia|]); cbn [decode_fuel] in D;
    exfalso.
  - inversion Hb as [E| | | | | | | | | | | |]. now apply (one_byte v tz (decode_fuel v tz fuel) xc0 q r x rest).
  - inversion Hb as [|E0 E|E0 E| | | | | | | | | |];
      [now apply (one_byte v tz (decode_fuel v tz fuel) xc2 q r x rest)|now apply (one_byte v tz (decode_fuel v tz fuel) xc3 q r x rest)].
  - inversion Hb as [| | |? b Hz Hs E0 E|? s Hs E0 E|? s Hs E0 E|? s Hs E0 E|? s Hs E0 E| | | | |]; destruct Hs as [Hl _].
    + now apply (one_byte v tz (decode_fuel v tz fuel) b q r x rest).
    + eapply (cut_fixed v tz (decode_fuel v tz fuel) xc8 1 (fun x => pret (GInt KInt64 (to_signed 1 x)))); eauto.
      intros b. rewrite body_int8. unfold read_int, pbind, pret. destruct (read_be 1 b) as [[? ?]| | |]; reflexivity.
    + eapply (cut_fixed v tz (decode_fuel v tz fuel) xc9 2 (fun x => pret (GInt KInt64 (to_signed 2 x)))); eauto.
      intros b. rewrite body_int16. unfold read_int, pbind, pret. destruct (read_be 2 b) as [[? ?]| | |]; reflexivity.
    + eapply (cut_fixed v tz (decode_fuel v tz fuel) xca 4 (fun x => pret (GInt KInt64 (to_signed 4 x)))); eauto.
      intros b. rewrite body_int32. unfold read_int, pbind, pret. destruct (read_be 4 b) as [[? ?]| | |]; reflexivity.
    + eapply (cut_fixed v tz (decode_fuel v tz fuel) xcb 8 (fun x => pret (GInt KInt64 (to_signed 8 x)))); eauto.
      intros b. rewrite body_int64. unfold read_int, pbind, pret. destruct (read_be 8 b) as [[? ?]| | |]; reflexivity.
  - inversion Hb as [| | | | | | | |? s [H1 H2]| | | |]; subst.
    eapply (cut_fixed v tz (decode_fuel v tz fuel) xc1 8 (fun x => pret (GFloat64 x))); eauto.
  - intros q r fuel g x rest Hb Hm Hr Hf D. (destruct fuel; [lia|]); cbn [decode_fuel] in D.
    cbn [meaning] in Hm. destruct (all_some (map (meaning v) l)) as [gl|] eqn:El; [|discriminate].
    inversion Hb as [| | | | | | | | | |? h bs' Hh Hs E0 E| |]. clear E0.
    apply header_nonempty in Hh as Hne. assert (1 <= length h)%nat by (destruct h; [easy|cbn; lia]).
    rewrite <- E in Hf. rewrite app_length in Hf.
    apply prefix_cases in E; [|assumption]. destruct E as [[r1 [Hr1 E]]|[q' [E1 E2]]].
    + destruct (cut_header v tz (decode_fuel v tz fuel) signed_limits 144 xd4 xd5 (Some xd6) (zlen l) h q r1)
        as [e De]; try assumption; [right; left; auto|congruence].
    + subst q. rewrite (hdr_list v tz _ (zlen l)) in D by (try assumption; apply zlen_nonneg).
      unfold dec_slice in D. destruct (zlen l <? 0); [discriminate|].
      apply pbind_inv in D as [ys [b1 [D1 D2]]]. unfold pret in D2. injection D2 as _ <-.
      apply dec_items_inv in D1; [|apply zlen_nonneg]. destruct D1 as [R Hz].
      rewrite ends_open_list.
      eapply (cut_seq v tz l IH q' r fuel gl ys);  eauto; [congruence|subst; lia|]. unfold zlen in Hz. lia.
  - intros q r fuel g x rest Hb Hm Hr Hf D. (destruct fuel; [lia|]); cbn [decode_fuel] in D.
    cbn [meaning] in Hm. destruct (nodupb (map fst m)) eqn:Hnd; [|discriminate].
    destruct (all_some (map (fun kv => meaning v (snd kv)) m)) eqn:El; [|discriminate].
    inversion Hb as [| | | | | | | | | | |? h bs' Hh Hs E0 E|]. clear E0.
    apply header_nonempty in Hh as Hne. assert (1 <= length h)%nat by (destruct h; [easy|cbn; lia]).
    rewrite <- E in Hf. rewrite app_length in Hf.
    apply prefix_cases in E; [|assumption]. destruct E as [[r1 [Hr1 E]]|[q' [E1 E2]]].
    + destruct (cut_header v tz (decode_fuel v tz fuel) signed_limits 160 xd8 xd9 (Some xda) (zlen m) h q r1)
        as [e De]; try assumption; [right; right; left; auto|congruence].
    + subst q. rewrite (hdr_map v tz _ (zlen m)) in D by (try assumption; apply zlen_nonneg).
      unfold dec_map in D. apply pbind_inv in D as [ys [b1 [D1 D2]]]. unfold pret in D2. injection D2 as _ <-.
      apply dec_entries_inv in D1; [|apply zlen_nonneg]. destruct D1 as [xs [R Hz]].
      rewrite ends_open_map, <- last_open_flat.
      apply all_some_flat in El. destruct El as [gs' El].
      assert (IH' : Forall (cut v tz) (flat m)).
      { clear - IH. induction IH as [|[k p] m H _ IHm]; [constructor|].
        change (flat ((k, p) :: m)) with (PStr k :: p :: flat m). constructor; [apply cut_str|].
        constructor; assumption. }
      eapply (cut_seq v tz (flat m) IH' q' r fuel gs' xs); eauto.
      * rewrite <- E2. now apply packs_entries_flat.
      * rewrite <- E2. lia.
      * pose proof (flat_length m). unfold zlen in *. lia.
  - intros q r fuel g x rest Hb Hm Hr Hf D. (destruct fuel; [lia|]); cbn [decode_fuel] in D.
    cbn [meaning] in Hm. destruct (all_some (map (meaning v) fs)) eqn:El; [|discriminate].
    inversion Hb as [| | | | | | | | | | | |? ? h sb bs' Hh Hsig Hs E01 E]. subst sig.
    apply header_nonempty in Hh as Hne. assert (1 <= length h)%nat by (destruct h; [easy|cbn; lia]).
    rewrite <- E in Hf. rewrite app_length in Hf.
    apply prefix_cases in E; [|assumption]. destruct E as [[r1 [Hr1 E]]|[q' [E1 E2]]].
    + destruct (cut_header v tz (decode_fuel v tz fuel) signed_limits 176 xdc xdd None (zlen fs) h q r1)
        as [e De]; try assumption; [right; right; right; auto|congruence].
    + subst q. rewrite (hdr_struct signed_limits v tz _ (zlen fs)) in D by (try assumption; apply zlen_nonneg).
      destruct q' as [|sb' q']; [discriminate|]. cbn in E2. injection E2 as <- E2.
      apply dec_struct_inv in D. destruct D as [ys [R Ha]].
      apply struct_meaning_arity in Hm. change (bz sb) with (Z.of_N (Byte.to_N sb)) in Ha.
      rewrite Hm in Ha. injection Ha as Ha. rewrite ends_open_struct.
      cbn [length] in Hf.
      assert (Hlen : length l = length fs).
      { clear - El. revert l El. induction fs as [|f fs IH]; intros l El; cbn in El.
        - now injection El as <-.
        - destruct (meaning v f); [|discriminate]. destruct (all_some (map (meaning v) fs)); [|discriminate].
          injection El as <-. cbn. f_equal. now apply IH. }
      eapply (cut_seq v tz fs IH q' r fuel l ys); eauto; [congruence|subst; lia|]. congruence.
  - intros q r fuel g x rest Hb Hm. discriminate.
Qed.

(** A truncated payload never decodes to a value unless the cut is inside its final string. *)
Theorem decode_cut v tz p q r g :
  packs signed_limits p (q ++ r) -> r <> [] -> meaning v p = Some g -> ends_open p = false ->
  forall x rest, decode v tz q <> Ok (x, rest).
Proof.
  intros Hp Hr Hm Ho x rest D.
  assert (D' : decode_fuel v tz (S (length r) + S (length q)) q = Ok (x, rest))
    by (apply decode_fuel_more; exact D).
  destruct (cut_all v tz p q r (S (length r) + S (length q))%nat g x rest Hp Hm Hr) as [_ Ho']; auto; [|congruence].
  rewrite app_length. lia.
Qed.
