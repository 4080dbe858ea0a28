(** What decoding prints: C129. *)
From Coq Require Import ZArith List Bool Lia ZifyBool Permutation.
From Verif Require Import Bytes BytesFacts GoVal GoErr Encoder Decoder SpecPack PackFacts DecodeFacts TotalFacts ReadFacts Stdout SpecStdout.
Import ListNotations.
Open Scope Z_scope.

(** ** Printing does not change what is decoded *)
Definition erases {A} (w : printer A) (p : parser A) := forall b, fst (w b) = p b.
Lemma erases_silently {A} (p : parser A) : erases (silently p) p. Proof. intros b. reflexivity. Qed.
Lemma erases_done {A} (a : A) : erases (done a) (pret a). Proof. intros b. reflexivity. Qed.
Lemma erases_bind {A B} (w : printer A) p (f : A -> printer B) g : erases w p -> (forall a, erases (f a) (g a)) -> erases (then_ w f) (pbind p g).
Proof.
  intros H F b. unfold then_, pbind. specialize (H b). destruct (w b) as [[[a b']| | |] l]; cbn [fst] in H; rewrite <- H; try reflexivity.
  specialize (F a b'). destruct (f a b') as [r l']. exact F.
Qed.
Lemma erases_println z (f : unit -> printer gval) g : erases (f tt) g -> erases (then_ (println z) f) g.
Proof. intros H b. unfold then_, println. specialize (H b). destruct (f tt b). exact H. Qed.
Lemma then_eq {A B} (p : printer A) (f : A -> printer B) b : then_ p f b =
  match p b with (Ok (a, b'), l) => let (r, l') := f a b' in (r, l ++ l') | (Err e, l) => (Err e, l) | (Panic, l) => (Panic, l) | (NoFuel, l) => (NoFuel, l) end.
Proof. reflexivity. Qed.
Ltac erase := repeat first [apply erases_silently | apply erases_done | assumption | apply erases_println | apply erases_bind; [|intros ?]].
Lemma erases_items w dec : erases w dec -> forall k n, erases (print_items w k n) (dec_items dec k n).
Proof. intros H. induction k as [|k IH]; intros n; cbn [print_items dec_items]; destruct (n <=? 0); erase. apply IH. Qed.
Lemma erases_entries w dec : erases w dec -> forall k n acc, erases (print_entries w k n acc) (dec_entries dec k n acc).
Proof. intros H. induction k as [|k IH]; intros n acc; cbn [print_entries dec_entries]; destruct (n <=? 0); erase. destruct a; erase. apply IH. Qed.
Lemma erases_slice w dec n : erases w dec -> erases (print_slice w n) (dec_slice dec n).
Proof. intros H b. unfold print_slice, dec_slice. destruct (n <? 0); [reflexivity|]. revert b. intros b. refine (erases_bind _ _ _ _ (erases_items w dec H _ _) _ b). intros. erase. Qed.
Lemma erases_map w dec n : erases w dec -> erases (print_map w n) (dec_map dec n).
Proof. intros H b. unfold print_map, dec_map. refine (erases_bind _ _ _ _ (erases_entries w dec H _ _ _) _ b). intros. erase. Qed.
Lemma erases_struct v tz w dec : erases w dec -> erases (print_struct v tz w) (dec_struct v tz dec).
Proof.
  intros H b. unfold print_struct, dec_struct. destruct b as [|sb b]; [reflexivity|]. cbv zeta.
  repeat match goal with
         | |- fst (if ?c then (Ok _, []) else _) = _ => destruct c; [reflexivity|]
         | |- fst (if ?c then ?p b else _) = (if ?c then ?q b else _) => destruct c; [revert b; change (erases p q)|]
         end.
  1-7: unfold print_node, dec_node, print_rel, dec_rel, print_path, dec_path, print_urel, dec_urel, print_record, dec_record, print_failure, dec_failure, print_success, dec_success; erase.
  destruct v; [reflexivity|].
  repeat match goal with
         | |- fst (if ?c then ?p b else _) = (if ?c then ?q b else _) => destruct c; [revert b; change (erases p q)|]
         end; try reflexivity;
  unfold print_point2d, dec_point2d, print_point3d, dec_point3d, print_date, dec_date, print_time, dec_time, print_localtime, dec_localtime,
    print_localdatetime, dec_localdatetime, print_datetime_offset, dec_datetime_offset, print_datetime_zone, dec_datetime_zone, print_duration, dec_duration;
  erase.
  - destruct (time_unix a0 a2) as [s1 n1]. destruct (time_add s1 n1 (neg_offset_dur a4)) as [s2 n2]. erase.
  - destruct (tz a4) as [zone|]; [|erase]. destruct (time_unix a0 a2) as [s1 n1]. destruct (time_add s1 n1 (neg_offset_dur (zone s1))) as [s2 n2]. erase.
Qed.
Lemma erases_body v tz w dec : erases w dec -> erases (print_body v tz w) (dec_body v tz dec).
Proof.
  intros H b. destruct b as [|mb b]; [reflexivity|].
  assert (E : forall k (f : Z -> printer gval) g, (forall n, erases (f n) (g n)) -> erases (n <<- silently (read_size k) ;;; f n) (n <- read_size k ;; g n)) by (intros; erase; auto).
  destruct mb; first
    [ reflexivity
    | exact (erases_slice w dec _ H b) | exact (erases_map w dec _ H b) | exact (erases_struct v tz w dec H b)
    | exact (E _ _ _ (fun n => erases_slice w dec n H) b) | exact (E _ _ _ (fun n => erases_map w dec n H) b) | exact (E _ _ _ (fun _ => erases_struct v tz w dec H) b) ].
Qed.
Theorem prints_aside v tz : forall fuel, erases (print_fuel v tz fuel) (decode_fuel v tz fuel).
Proof. induction fuel as [|f IH]; [intros b; reflexivity|]. exact (erases_body v tz _ _ IH). Qed.
Theorem decode_aside v tz b : fst (decode_printing v tz b) = decode v tz b.
Proof. exact (prints_aside v tz _ b). Qed.

(** ** How much is printed *)
Definition trims {A} (p : parser A) := forall b, match p b with Ok (_, r) => suffix r b | _ => True end.
Lemma fine_trims {A} (p : parser A) : (forall n, fine p n) -> trims p.
Proof. intros H b. specialize (H (S (length b)) b ltac:(lia)). destruct (p b) as [[a r]| | |]; auto. Qed.
Section Cost.
Variables (v : ver) (c : bytes -> nat).
Hypothesis c_suffix : forall r b, suffix r b -> (c r <= c b)%nat.
Hypothesis c_t : v = V2 -> forall b, (S (c b) <= c (x74 :: b))%nat.
(** What is printed is paid for by what is consumed. *)
Definition pays {A} (w : printer A) := forall b, match w b with (Ok (_, r), l) => (length l + c r <= c b)%nat | (_, l) => (length l <= c b)%nat end.
Lemma pays_silently {A} (p : parser A) : trims p -> pays (silently p).
Proof. intros H b. specialize (H b). unfold silently. destruct (p b) as [[a r]| | |]; cbn [length]; try lia. now apply c_suffix in H. Qed.
Lemma pays_bind {A B} (w : printer A) (f : A -> printer B) : pays w -> (forall a, pays (f a)) -> pays (then_ w f).
Proof.
  intros H F b. unfold then_. specialize (H b). destruct (w b) as [[[a r]| | |] l]; auto. specialize (F a r). destruct (f a r) as [[[a' r']| | |] l']; rewrite app_length; lia.
Qed.
Ltac trim := apply fine_trims; intros ?; fine_tac.
Ltac pay := repeat first [apply pays_silently; solve [trim] | assumption | apply pays_bind; [|intros ?]].
Lemma pays_items w : pays w -> forall k n, pays (print_items w k n).
Proof. intros H. induction k as [|k IH]; intros n; cbn [print_items]; destruct (n <=? 0); pay; [|apply IH]. intros b. cbn. lia. Qed.
Lemma pays_entries w : pays w -> forall k n acc, pays (print_entries w k n acc).
Proof. intros H. induction k as [|k IH]; intros n acc; cbn [print_entries]; destruct (n <=? 0); pay; [intros b; cbn; lia|]. destruct a; pay. apply IH. Qed.
Lemma pays_slice w n : pays w -> pays (print_slice w n).
Proof. intros H b. unfold print_slice. destruct (n <? 0); [cbn; lia|]. apply (pays_bind _ _ (pays_items w H _ _)). intros. pay. Qed.
Lemma pays_map w n : pays w -> pays (print_map w n).
Proof. intros H b. unfold print_map. apply (pays_bind _ _ (pays_entries w H _ _ _)). intros. pay. Qed.
Lemma c_cons x b : (c b <= c (x :: b))%nat. Proof. apply c_suffix. apply suffix_cons. Qed.
Lemma pays_struct tz w : pays w -> pays (print_struct v tz w).
Proof.
  intros H b. unfold print_struct. destruct b as [|sb b]; [cbn; lia|]. cbv zeta.
  assert (L : forall p : printer gval, pays p -> match p b with (Ok (_, r), l) => (length l + c r <= c (sb :: b))%nat | (_, l) => (length l <= c (sb :: b))%nat end).
  { intros p P. specialize (P b). pose proof (c_cons sb b). destruct (p b) as [[[a r]| | |] l]; lia. }
  pose proof (c_cons sb b) as Cs.
  repeat match goal with
         | |- context [if ?e then (Ok _, []) else _] => destruct e; [cbn; lia|]
         | |- context [if ?e then ?p b else _] => destruct e; [apply (L p)|]
         end.
  1-7: unfold print_node, print_rel, print_path, print_urel, print_record, print_failure, print_success; pay.
  case_eq v; intros Ev; [cbn; lia|].
  repeat match goal with
         | |- context [if bz sb =? SigLocalTime then ?p b else _] => destruct (Z.eqb_spec (bz sb) SigLocalTime) as [Et|_]; [clear L|]
         | |- context [if ?e then ?p b else _] => destruct e; [apply (L p)|]
         end; try (cbn; lia);
  unfold print_point2d, print_point3d, print_date, print_time, print_localdatetime, print_datetime_offset, print_datetime_zone, print_duration; pay.
  - assert (sb = x74) as -> by (apply bz_inj; exact Et).
    match goal with |- match ?X with _ => _ end => change X with (print_localtime w b) end. unfold print_localtime. rewrite then_eq. specialize (H b). destruct (w b) as [[[a r]| | |] l]; try lia.
    pose proof (c_t Ev b) as Ct.
    assert (N : exists z q, ((_ <<- println match a with GInt KInt64 n => n | _ => 0 end ;;; n <<- silently (as_int64 TCast a);;; done (GLocalClock n)) r) = (q, [z]) /\ match q with Ok (_, r') => r' = r | _ => True end).
    { destruct a; try (eexists _, _; split; [reflexivity|exact I]). destruct k; eexists _, _; (split; [reflexivity|]); cbn; trivial. }
    cbv beta. destruct N as (z & q & Hq & Q). rewrite Hq. destruct q as [[x r']| | |]; rewrite app_length; cbn [length]; subst; lia.
  - destruct (time_unix a0 a2) as [s1 n1]. destruct (time_add s1 n1 (neg_offset_dur a4)) as [s2 n2]. pay.
  - destruct (tz a4) as [zone|]; [|pay]. destruct (time_unix a0 a2) as [s1 n1]. destruct (time_add s1 n1 (neg_offset_dur (zone s1))) as [s2 n2]. pay.
Qed.
Lemma pays_body tz w : pays w -> pays (print_body v tz w).
Proof.
  intros H b. destruct b as [|mb b]; [cbn; lia|].
  assert (L : forall m (p : printer gval), pays p -> print_body v tz w (m :: b) = p b -> match print_body v tz w (m :: b) with (Ok (_, r), l) => (length l + c r <= c (m :: b))%nat | (_, l) => (length l <= c (m :: b))%nat end).
  { intros m p P ->. specialize (P b). pose proof (c_cons m b). destruct (p b) as [[[a r]| | |] l]; lia. }
  assert (E : forall k (f : Z -> printer gval), (forall n, pays (f n)) -> pays (n <<- silently (read_size k) ;;; f n)).
  { intros k f F. apply pays_bind; [apply pays_silently; apply fine_trims; intros ?; apply fine_read_size|exact F]. }
  assert (F : forall m, print_body v tz w (m :: b) = (dec_body v tz (fun _ => Panic) (m :: b), []) ->
    match print_body v tz w (m :: b) with (Ok (_, r), l) => (length l + c r <= c (m :: b))%nat | (_, l) => (length l <= c (m :: b))%nat end).
  { intros m ->. apply (pays_silently (dec_body v tz (fun _ => Panic))). apply fine_trims. intros n. apply fine1_fine. destruct n; [intros ? ?; lia|]. apply fine_body. intros ? ?. exact I. }
  destruct mb; first
    [ apply F; reflexivity
    | apply (L _ _ (pays_struct tz w H)); reflexivity
    | refine (L _ _ (pays_slice w _ H) _); reflexivity
    | refine (L _ _ (pays_map w _ H) _); reflexivity
    | apply (L _ _ (E 1%nat (fun n => print_slice w n) (fun n => pays_slice w n H))); reflexivity
    | apply (L _ _ (E 2%nat (fun n => print_slice w n) (fun n => pays_slice w n H))); reflexivity
    | apply (L _ _ (E 4%nat (fun n => print_slice w n) (fun n => pays_slice w n H))); reflexivity
    | apply (L _ _ (E 1%nat (fun n => print_map w n) (fun n => pays_map w n H))); reflexivity
    | apply (L _ _ (E 2%nat (fun n => print_map w n) (fun n => pays_map w n H))); reflexivity
    | apply (L _ _ (E 4%nat (fun n => print_map w n) (fun n => pays_map w n H))); reflexivity
    | apply (L _ _ (E 1%nat (fun _ => print_struct v tz w) (fun n => pays_struct tz w H))); reflexivity
    | apply (L _ _ (E 2%nat (fun _ => print_struct v tz w) (fun n => pays_struct tz w H))); reflexivity
    | apply (L _ _ (E 4%nat (fun _ => print_struct v tz w) (fun n => pays_struct tz w H))); reflexivity ].
Qed.
Theorem pays_fuel tz : forall fuel, pays (print_fuel v tz fuel).
Proof. induction fuel as [|f IH]; [intros b; cbn; lia|]. exact (pays_body tz _ IH). Qed.
Theorem pays_decode tz b : (length (snd (decode_printing v tz b)) <= c b)%nat.
Proof. unfold decode_printing. pose proof (pays_fuel tz (S (length b)) b) as H. destruct (print_fuel v tz (S (length b)) b) as [[[x r]| | |] l]; cbn [snd]; lia. Qed.
End Cost.
Theorem first_version_silent tz b : snd (decode_printing V1 tz b) = [].
Proof.
  pose proof (pays_decode V1 (fun _ => 0%nat) (fun _ _ _ => le_n _) ltac:(discriminate) tz b) as H. destruct (snd (decode_printing V1 tz b)); [reflexivity|cbn in H; lia].
Qed.
Theorem at_most_t v tz b : (length (snd (decode_printing v tz b)) <= letters_t b)%nat.
Proof.
  apply (pays_decode v letters_t).
  - intros r b' [p ->]. unfold letters_t. rewrite count_occ_app. lia.
  - intros _ b'. unfold letters_t. cbn [count_occ]. destruct (Byte.byte_eq_dec x74 x74); [lia|congruence].
Qed.

(** ** What is printed of an accepted message *)
Lemma within_refl a : within a a. Proof. exists []. rewrite app_nil_r. reflexivity. Qed.
Lemma within_nil a : within [] a. Proof. exists a. reflexivity. Qed.
Lemma within_app a b l : within a b -> within a (b ++ l).
Proof. intros [o P]. exists (o ++ l). rewrite P, <- app_assoc. reflexivity. Qed.
Lemma within_trans a b d : within a b -> within b d -> within a d.
Proof. intros [o P] [o' P']. exists (o ++ o'). rewrite P', P, <- app_assoc. reflexivity. Qed.
Lemma within_mono a b l : within a b -> within (a ++ l) (b ++ l).
Proof. intros [o P]. exists o. rewrite P, <- !app_assoc. apply Permutation_app_head, Permutation_app_comm. Qed.
Lemma within_lift p a b : within a b -> within (p ++ a) (p ++ b).
Proof. intros [o P]. exists o. rewrite P, <- app_assoc. reflexivity. Qed.
Definition mclocks (m : list (bytes * gval)) := flat_map (fun kv => clocks (snd kv)) m.
(** Of what is known already and what is printed, all of the result is found. *)
Definition keeps {A} (acc : list Z) (f : A -> list Z) (w : printer A) := forall b a r l, w b = (Ok (a, r), l) -> within (f a) (acc ++ l).
Lemma keeps_bind {A B} acc (f : A -> list Z) g (w : printer A) (k : A -> printer B) : keeps acc f w -> (forall a, keeps (f a) g (k a)) -> keeps acc g (then_ w k).
Proof.
  intros H K b a r l E. rewrite then_eq in E. destruct (w b) as [[[x s]| | |] lx] eqn:Ew; try discriminate. destruct (k x s) as [q lk] eqn:Ek. injection E as -> <-.
  apply H in Ew. apply K in Ek. eapply within_trans; [exact Ek|]. rewrite app_assoc. now apply within_mono.
Qed.
Lemma keeps_drop {A} acc (w : printer A) : keeps acc (fun _ => acc) w.
Proof. intros b a r l _. apply within_app, within_refl. Qed.
Lemma keeps_done {A} acc (f : A -> list Z) a : within (f a) acc -> keeps acc f (done a).
Proof. intros H b a' r l E. injection E as <- _ <-. now apply within_app. Qed.
Lemma keeps_silently {A} acc (f : A -> list Z) (p : parser A) : (forall b a r, p b = Ok (a, r) -> within (f a) acc) -> keeps acc f (silently p).
Proof. intros H b a r l E. unfold silently in E. injection E as E <-. apply within_app. eauto. Qed.
Lemma keeps_more {A} acc (f : A -> list Z) w : keeps [] f w -> keeps acc (fun x => acc ++ f x) w.
Proof. intros H b a r l E. apply within_lift. exact (H _ _ _ _ E). Qed.
Lemma keeps_items w : keeps [] clocks w -> forall k n, keeps [] (flat_map clocks) (print_items w k n).
Proof.
  intros H. induction k as [|k IH]; intros n; cbn [print_items]; destruct (n <=? 0); try (apply keeps_done; apply within_nil).
  - apply keeps_silently. discriminate.
  - eapply keeps_bind; [exact H|]. intros x. eapply keeps_bind; [apply keeps_more, IH|]. intros xs. apply keeps_done. apply within_refl.
Qed.
Lemma mclocks_set m k x : within (mclocks (map_set m k x)) (mclocks m ++ clocks x).
Proof.
  induction m as [|[k' y] m IH]; cbn; [rewrite app_nil_r; apply within_refl|]. destruct (bytes_eqb k k'); cbn.
  - exists (clocks y). etransitivity; [apply Permutation_app_comm|]. rewrite <- (app_assoc (clocks x)). apply Permutation_app_head, Permutation_app_comm.
  - rewrite <- app_assoc. now apply within_lift.
Qed.
Lemma keeps_entries w : keeps [] clocks w -> forall k n acc, keeps (mclocks acc) mclocks (print_entries w k n acc).
Proof.
  intros H. induction k as [|k IH]; intros n acc; cbn [print_entries]; destruct (n <=? 0); try (apply keeps_done; apply within_refl).
  - apply keeps_silently. discriminate.
  - eapply keeps_bind; [apply keeps_drop|]. intros key. eapply keeps_bind; [apply keeps_more, H|]. intros x. cbv beta.
    destruct key; try (apply keeps_silently; discriminate).
    intros b a r l E. apply IH in E. eapply within_trans; [exact E|]. apply within_mono, mclocks_set.
Qed.
Lemma keeps_slice w n : keeps [] clocks w -> keeps [] clocks (print_slice w n).
Proof.
  intros H b. unfold print_slice. destruct (n <? 0); [discriminate|]. revert b. intros b. apply (keeps_bind [] (flat_map clocks) clocks); [now apply keeps_items|].
  intros l. apply keeps_done, within_refl.
Qed.
Lemma keeps_map w n : keeps [] clocks w -> keeps [] clocks (print_map w n).
Proof.
  intros H b. unfold print_map. apply (keeps_bind [] mclocks clocks); [now apply (keeps_entries w H _ _ [])|].
  intros l. apply keeps_done, within_refl.
Qed.
Lemma keeps_as_map acc t x : keeps (acc ++ clocks x) (fun m => acc ++ mclocks m) (silently (as_map t x)).
Proof. apply keeps_silently. intros b a r E. destruct x; try discriminate. injection E as -> _. apply within_refl. Qed.
Lemma keeps_as_slice acc t x : keeps (acc ++ clocks x) (fun m => acc ++ flat_map clocks m) (silently (as_slice t x)).
Proof. apply keeps_silently. intros b a r E. destruct x; try discriminate. injection E as -> _. apply within_refl. Qed.
Lemma keeps_slice_to acc f x : keeps (acc ++ flat_map clocks x) (fun m => acc ++ flat_map clocks m) (silently (lift (slice_to f x))).
Proof. apply keeps_silently. intros b a r E. unfold lift, slice_to in E. destruct (forallb f x); [|discriminate]. injection E as -> _. apply within_refl. Qed.
Ltac pass := eapply keeps_bind; [apply keeps_drop|intros ?].
Ltac take H := eapply keeps_bind; [apply keeps_more, H|intros ?].
Ltac close := apply keeps_done; first [apply within_nil | rewrite <- ?app_assoc; cbn [app]; apply within_refl].
Lemma keeps_struct v tz w : keeps [] clocks w -> keeps [] clocks (print_struct v tz w).
Proof.
  intros H b. unfold print_struct. destruct b as [|sb b]; [discriminate|]. cbv zeta.
  repeat match goal with
         | |- context [if ?e then (Ok (?y, b), []) else _] => destruct e; [intros a r l Ea; injection Ea as <- _ <-; apply within_nil|]
         | |- context [if ?e then ?p b else _] => destruct e; [revert b; change (keeps [] clocks p)|]
         end.
  - unfold print_node. do 5 pass. take H. eapply keeps_bind; [apply keeps_as_map|intros ?]. close.
  - unfold print_rel. do 8 pass. take H. eapply keeps_bind; [apply keeps_as_map|intros ?]. close.
  - unfold print_path. take H. eapply keeps_bind; [apply keeps_as_slice|intros ?]. eapply keeps_bind; [apply keeps_slice_to|intros ?].
    take H. eapply keeps_bind; [apply keeps_as_slice|intros ?]. eapply keeps_bind; [apply keeps_slice_to|intros ?]. do 3 pass. close.
  - unfold print_urel. do 4 pass. take H. eapply keeps_bind; [apply keeps_as_map|intros ?]. close.
  - unfold print_record. take H. eapply keeps_bind; [apply keeps_as_slice|intros ?]. close.
  - unfold print_failure. take H. eapply keeps_bind; [apply keeps_as_map|intros ?]. close.
  - unfold print_success. take H. eapply keeps_bind; [apply keeps_as_map|intros ?]. close.
  - destruct v; [discriminate|].
    repeat match goal with
         | |- context [if ?e then ?p b else _] => destruct e; [revert b; change (keeps [] clocks p)|]
         end; try discriminate.
    + unfold print_point2d. do 6 pass. close.
    + unfold print_point3d. do 8 pass. close.
    + unfold print_date. do 2 pass. close.
    + unfold print_time. do 4 pass. close.
    + unfold print_localtime. pass. intros b a' r l E. destruct a; try discriminate. destruct k; try discriminate. injection E as <- _ <-. apply within_refl.
    + unfold print_localdatetime. do 4 pass. close.
    + unfold print_datetime_offset. do 6 pass. destruct (time_unix _ _) as [s1 n1]. destruct (time_add _ _ _) as [s2 n2]. close.
    + unfold print_datetime_zone. do 6 pass. destruct (tz _) as [zone|]; [|apply keeps_silently; discriminate]. destruct (time_unix _ _) as [s1 n1]. destruct (time_add _ _ _) as [s2 n2]. close.
    + unfold print_duration. do 8 pass. close.
Qed.
Lemma keeps_body v tz w : keeps [] clocks w -> keeps [] clocks (print_body v tz w).
Proof.
  intros H b. destruct b as [|mb b]; [discriminate|].
  assert (L : forall m (p : printer gval), keeps [] clocks p -> print_body v tz w (m :: b) = p b -> forall a r l, print_body v tz w (m :: b) = (Ok (a, r), l) -> within (clocks a) ([] ++ l)).
  { intros m p P -> a r l E. exact (P _ _ _ _ E). }
  assert (E : forall k (f : Z -> printer gval), (forall n, keeps [] clocks (f n)) -> keeps [] clocks (n <<- silently (read_size k) ;;; f n)).
  { intros k f F. pass. apply F. }
  assert (F : forall m f g, print_body v tz w (m :: b) = silently (x <- f ;; pret (g x)) b -> (forall x : Z, clocks (g x) = []) -> forall a r l, print_body v tz w (m :: b) = (Ok (a, r), l) -> within (clocks a) ([] ++ l)).
  { intros m f g -> G a r l Ea. unfold silently, pbind in Ea. destruct (f b) as [[x s]| | |]; try discriminate. injection Ea as <- _ <-. rewrite G. apply within_nil. }
  assert (T : forall m n, print_body v tz w (m :: b) = silently (pstr n) b -> forall a r l, print_body v tz w (m :: b) = (Ok (a, r), l) -> within (clocks a) ([] ++ l)).
  { intros m n -> a r l Ea. unfold silently, pstr, pbind in Ea. destruct (next n b) as [[x s]| | |]; try discriminate. injection Ea as <- _ <-. apply within_nil. }
  assert (U : forall m k, print_body v tz w (m :: b) = silently (n <- read_size k ;; pstr n) b -> forall a r l, print_body v tz w (m :: b) = (Ok (a, r), l) -> within (clocks a) ([] ++ l)).
  { intros m k -> a r l Ea. unfold silently, pstr, pbind in Ea. destruct (read_size k b) as [[n s']| | |]; try discriminate. destruct (next n s') as [[x s]| | |]; try discriminate. injection Ea as <- _ <-. apply within_nil. }
  destruct mb; try first
    [ solve [intros a r l Ea; injection Ea as <- _ <-; apply within_nil]
    | solve [discriminate]
    | apply (L _ _ (keeps_struct v tz w H)); reflexivity
    | refine (L _ _ (keeps_slice w _ H) _); reflexivity
    | refine (L _ _ (keeps_map w _ H) _); reflexivity
    | apply (L _ _ (E 1%nat (fun n => print_slice w n) (fun n => keeps_slice w n H))); reflexivity
    | apply (L _ _ (E 2%nat (fun n => print_slice w n) (fun n => keeps_slice w n H))); reflexivity
    | apply (L _ _ (E 4%nat (fun n => print_slice w n) (fun n => keeps_slice w n H))); reflexivity
    | apply (L _ _ (E 1%nat (fun n => print_map w n) (fun n => keeps_map w n H))); reflexivity
    | apply (L _ _ (E 2%nat (fun n => print_map w n) (fun n => keeps_map w n H))); reflexivity
    | apply (L _ _ (E 4%nat (fun n => print_map w n) (fun n => keeps_map w n H))); reflexivity
    | apply (L _ _ (E 1%nat (fun _ => print_struct v tz w) (fun n => keeps_struct v tz w H))); reflexivity
    | apply (L _ _ (E 2%nat (fun _ => print_struct v tz w) (fun n => keeps_struct v tz w H))); reflexivity
    | apply (L _ _ (E 4%nat (fun _ => print_struct v tz w) (fun n => keeps_struct v tz w H))); reflexivity
    | refine (T _ _ _); reflexivity
    | apply (U _ 1%nat); reflexivity | apply (U _ 2%nat); reflexivity | apply (U _ 4%nat); reflexivity
    | apply (F _ (read_int 1) (GInt KInt64)); [reflexivity|reflexivity] | apply (F _ (read_int 2) (GInt KInt64)); [reflexivity|reflexivity]
    | apply (F _ (read_int 4) (GInt KInt64)); [reflexivity|reflexivity] | apply (F _ (read_int 8) (GInt KInt64)); [reflexivity|reflexivity]
    | apply (F _ (read_be 8) GFloat64); [reflexivity|reflexivity] ].
Qed.
Theorem keeps_fuel v tz : forall fuel, keeps [] clocks (print_fuel v tz fuel).
Proof. induction fuel as [|f IH]; [discriminate|]. exact (keeps_body v tz _ IH). Qed.
Theorem accepted_within v tz b x r : decode v tz b = Ok (x, r) -> within (clocks x) (snd (decode_printing v tz b)).
Proof.
  rewrite <- decode_aside. unfold decode_printing. destruct (print_fuel v tz (S (length b)) b) as [q l] eqn:E. cbn [fst snd]. intros ->. exact (keeps_fuel v tz _ _ _ _ _ E).
Qed.

(** ** What is printed of a valid message *)
Inductive printed (w : printer gval) : list gval -> bytes -> bytes -> Prop :=
| pr_nil b : printed w [] b b
| pr_cons g gs b b1 b2 : w b = (Ok (g, b1), clocks g) -> printed w gs b1 b2 -> printed w (g :: gs) b b2.
Ltac pd :=
  repeat match goal with
         | R : printed _ (_ :: _) _ _ |- _ => inversion R; subst; clear R
         | R : printed _ [] _ _ |- _ => inversion R; subst; clear R
         end;
  unfold then_, silently, println, done;
  repeat (match goal with E : ?dec ?b = (Ok _, _) |- context [?dec ?b] => rewrite E end;
          cbn [must_int64 as_slice as_map as_str as_int64 as_float clocks app]; unfold pret).
Lemma no_strings l l' : all_some (map str_of l) = Some l' -> flat_map clocks l = [].
Proof.
  revert l'. induction l as [|x l IH]; intros l' H; [reflexivity|]. cbn in *. destruct x; try discriminate. cbn in *.
  destruct (all_some (map str_of l)); [now eapply IH|discriminate].
Qed.
Lemma no_numbers l l' : all_some (map int_of l) = Some l' -> flat_map clocks l = [].
Proof.
  revert l'. induction l as [|x l IH]; intros l' H; [reflexivity|]. cbn in *. destruct x; try discriminate. match type of H with context [match ?k with _ => _ end] => destruct k; try discriminate end. cbn in *.
  destruct (all_some (map int_of l)); [now eapply IH|discriminate].
Qed.
Lemma all_same (f : gval -> option gval) l l' : (forall x y, f x = Some y -> y = x) -> all_some (map f l) = Some l' -> l = l'.
Proof.
  intros F. revert l'. induction l as [|x l IH]; intros l' H; cbn in *; [congruence|]. destruct (f x) eqn:E; [|discriminate].
  destruct (all_some (map f l)); [|discriminate]. injection H as <-. f_equal; [symmetry; now apply F|now apply IH].
Qed.
Lemma struct_printed v tz w sb sig gs g b rest :
  Z.of_N (Byte.to_N sb) = sig -> struct_meaning v sig gs = Some g -> printed w gs b rest -> print_struct v tz w (sb :: b) = (Ok (g, rest), clocks g).
Proof.
  intros Hs Hm R. unfold print_struct. change (Z.of_N (Byte.to_N sb)) with (bz sb) in Hs. rewrite Hs.
  unfold struct_meaning in Hm.
  unfold SigNode, SigRel, SigPath, SigURel, SigRecord, SigFailure, SigIgnored, SigSuccess,
    SigDiscardAll, SigPullAll, SigReset, SigPoint2D, SigPoint3D, SigDate, SigTime, SigLocalTime,
    SigLocalDateTime, SigDateTimeOffset, SigDateTimeZoneId, SigDuration.
  clear Hs.
  Ltac cases Hm := repeat match type of Hm with match ?x with _ => _ end = _ => destruct x eqn:?; try discriminate end; injection Hm as <-.
  step_sig Hm 78; [cbv beta iota delta [Z.eqb Pos.eqb]|].
  { cases Hm. unfold print_node. pd.
    match goal with E : all_some (map str_of ?l) = Some _ |- _ => rewrite (no_strings l _ E); apply slice_to_str_ok in E; rewrite E end.
    cbn [lift]. pd. unfold silently. now rewrite ?app_nil_r. }
  step_sig Hm 82; [cbv beta iota delta [Z.eqb Pos.eqb]|].
  { cases Hm. unfold print_rel. pd. unfold silently. now rewrite ?app_nil_r. }
  step_sig Hm 114; [cbv beta iota delta [Z.eqb Pos.eqb]|].
  { cases Hm. unfold print_urel. pd. unfold silently. now rewrite ?app_nil_r. }
  step_sig Hm 80; [cbv beta iota delta [Z.eqb Pos.eqb]|].
  { cases Hm. unfold print_path. pd.
    rewrite (slice_to_ok node_of is_node _ _ node_of_spec ltac:(eassumption)). cbn [lift]. pd.
    rewrite (slice_to_ok urel_of is_urel _ _ urel_of_spec ltac:(eassumption)). cbn [lift]. pd.
    match goal with E : all_some (map int_of ?l) = Some _ |- _ => rewrite (no_numbers l _ E); apply slice_to_int_ok in E; rewrite E end.
    cbn [lift]. rewrite ?app_nil_r.
    match goal with E : all_some (map node_of ?l) = Some _ |- _ => rewrite (all_same node_of l _ (fun x y H => proj2 (node_of_spec x y H)) E) end.
    match goal with E : all_some (map urel_of ?l) = Some _ |- _ => rewrite (all_same urel_of l _ (fun x y H => proj2 (urel_of_spec x y H)) E) end.
    reflexivity. }
  step_sig Hm 112; [cbv beta iota delta [Z.eqb Pos.eqb]|].
  { cases Hm. unfold print_success. pd. unfold silently. now rewrite ?app_nil_r. }
  step_sig Hm 127; [cbv beta iota delta [Z.eqb Pos.eqb]|].
  { cases Hm. unfold print_failure. pd. unfold silently. now rewrite ?app_nil_r. }
  step_sig Hm 113; [cbv beta iota delta [Z.eqb Pos.eqb]|].
  { cases Hm. unfold print_record. pd. unfold silently. now rewrite ?app_nil_r. }
  step_sig Hm 126; [cbv beta iota delta [Z.eqb Pos.eqb]|].
  { destruct gs; [|discriminate]. injection Hm as <-. pd. reflexivity. }
  step_sig Hm 47; [cbv beta iota delta [Z.eqb Pos.eqb]|].
  { destruct gs; [|discriminate]. injection Hm as <-. pd. reflexivity. }
  step_sig Hm 63; [cbv beta iota delta [Z.eqb Pos.eqb]|].
  { destruct gs; [|discriminate]. injection Hm as <-. pd. reflexivity. }
  step_sig Hm 15; [cbv beta iota delta [Z.eqb Pos.eqb]|].
  { destruct gs; [|discriminate]. injection Hm as <-. pd. reflexivity. }
  destruct v; [discriminate|].
  step_sig Hm 88; [cbv beta iota delta [Z.eqb Pos.eqb]|].
  { cases Hm. unfold print_point2d. pd. reflexivity. }
  step_sig Hm 89; [cbv beta iota delta [Z.eqb Pos.eqb]|].
  { cases Hm. unfold print_point3d. pd. reflexivity. }
  step_sig Hm 68; [cbv beta iota delta [Z.eqb Pos.eqb]|].
  { cases Hm. unfold print_date. pd. reflexivity. }
  step_sig Hm 84; [cbv beta iota delta [Z.eqb Pos.eqb]|].
  { cases Hm. unfold print_time. pd. reflexivity. }
  step_sig Hm 116; [cbv beta iota delta [Z.eqb Pos.eqb]|].
  { cases Hm. unfold print_localtime. pd. reflexivity. }
  step_sig Hm 100; [cbv beta iota delta [Z.eqb Pos.eqb]|].
  { cases Hm. unfold print_localdatetime. pd. reflexivity. }
  step_sig Hm 70; [cbv beta iota delta [Z.eqb Pos.eqb]|discriminate].
  cases Hm. unfold print_datetime_offset. pd.
  match goal with |- context [time_unix ?s ?n] =>
    match goal with |- context [neg_offset_dur ?o] =>
      destruct (time_roundtrip_dec s n o) as [Hu Ha]; [lia|lia|] end end.
  rewrite Hu, Ha. reflexivity.
Qed.
Lemma tiny_list v tz w m n b : Z.of_N (Byte.to_N m) = 144 + n -> 0 <= n <= 15 -> print_body v tz w (m :: b) = print_slice w n b.
Proof. intros H Hn. unfold print_body. change (Z.of_N (Byte.to_N m)) with (bz m) in H. rewrite H. cbv zeta. unfold TinySliceMarker. replace ((144 + n >=? 0x90) && (144 + n <=? 0x90 + 0x0F)) with true by lia. f_equal. lia. Qed.
Lemma tiny_map v tz w m n b : Z.of_N (Byte.to_N m) = 160 + n -> 0 <= n <= 15 -> print_body v tz w (m :: b) = print_map w n b.
Proof.
  intros H Hn. unfold print_body. change (Z.of_N (Byte.to_N m)) with (bz m) in H. rewrite H. cbv zeta. unfold TinySliceMarker, TinyMapMarker, Slice8Marker, Slice16Marker, Slice32Marker.
  replace ((160 + n >=? 0x90) && (160 + n <=? 0x90 + 0x0F)) with false by lia.
  destruct (160 + n =? 0xD4) eqn:?; [lia|]. destruct (160 + n =? 0xD5) eqn:?; [lia|]. destruct (160 + n =? 0xD6) eqn:?; [lia|].
  replace ((160 + n >=? 0xA0) && (160 + n <=? 0xA0 + 0x0F)) with true by lia. f_equal. lia.
Qed.
Lemma tiny_struct v tz w m n b : Z.of_N (Byte.to_N m) = 176 + n -> 0 <= n <= 15 -> print_body v tz w (m :: b) = print_struct v tz w b.
Proof.
  intros H Hn. assert (m = zb (176 + n)) as -> by now apply tiny_byte.
  assert (Q : n = 0 \/ n = 1 \/ n = 2 \/ n = 3 \/ n = 4 \/ n = 5 \/ n = 6 \/ n = 7 \/ n = 8 \/ n = 9 \/ n = 10 \/ n = 11 \/ n = 12 \/ n = 13 \/ n = 14 \/ n = 15) by lia.
  repeat destruct Q as [->|Q]; try reflexivity. now subst.
Qed.
Lemma print_hdr_list v tz w n h b : 0 <= n -> list_header signed_limits n h -> print_body v tz w (h ++ b) = print_slice w n b.
Proof.
  intros Hn H. assert (Z0 : forall q : res (gval * bytes) * list Z, (let (r, l) := q in (r, [] ++ l)) = q) by (intros [q l]; reflexivity).
  inversion H; subst; cbn [app].
  - now apply tiny_list.
  - etransitivity; [exact (then_eq (silently (read_size 1)) (print_slice w) (s ++ b))|]. unfold silently. rewrite (read_size_app 1 n); auto; cbn in *; lia.
  - etransitivity; [exact (then_eq (silently (read_size 2)) (print_slice w) (s ++ b))|]. unfold silently. rewrite (read_size_app 2 n); auto; cbn in *; lia.
  - injection H0 as <-. etransitivity; [exact (then_eq (silently (read_size 4)) (print_slice w) (s ++ b))|]. unfold silently. rewrite (read_size_app 4 n); auto; cbn in *; lia.
Qed.
Lemma print_hdr_map v tz w n h b : 0 <= n -> map_header signed_limits n h -> print_body v tz w (h ++ b) = print_map w n b.
Proof.
  intros Hn H. assert (Z0 : forall q : res (gval * bytes) * list Z, (let (r, l) := q in (r, [] ++ l)) = q) by (intros [q l]; reflexivity).
  inversion H; subst; cbn [app].
  - now apply tiny_map.
  - etransitivity; [exact (then_eq (silently (read_size 1)) (print_map w) (s ++ b))|]. unfold silently. rewrite (read_size_app 1 n); auto; cbn in *; lia.
  - etransitivity; [exact (then_eq (silently (read_size 2)) (print_map w) (s ++ b))|]. unfold silently. rewrite (read_size_app 2 n); auto; cbn in *; lia.
  - injection H0 as <-. etransitivity; [exact (then_eq (silently (read_size 4)) (print_map w) (s ++ b))|]. unfold silently. rewrite (read_size_app 4 n); auto; cbn in *; lia.
Qed.
Lemma print_hdr_struct v tz w n h b : 0 <= n -> struct_header signed_limits n h -> print_body v tz w (h ++ b) = print_struct v tz w b.
Proof.
  intros Hn H. assert (Z0 : forall q : res (gval * bytes) * list Z, (let (r, l) := q in (r, [] ++ l)) = q) by (intros [q l]; reflexivity).
  inversion H; subst; cbn [app].
  - eapply tiny_struct; eassumption.
  - etransitivity; [exact (then_eq (silently (read_size 1)) (fun _ => print_struct v tz w) (s ++ b))|]. unfold silently, read_size, read_int, pbind. rewrite read_be_app by apply H1. apply Z0.
  - etransitivity; [exact (then_eq (silently (read_size 2)) (fun _ => print_struct v tz w) (s ++ b))|]. unfold silently, read_size, read_int, pbind. rewrite read_be_app by apply H1. apply Z0.
  - discriminate.
Qed.
Lemma leaf_silent v tz w m b : bz m < 0x90 \/ 0xC0 <= bz m < 0xD4 \/ 0xDE <= bz m -> snd (print_body v tz w (m :: b)) = [].
Proof. intros H. destruct m; first [reflexivity | exfalso; match type of H with context [bz ?m] => let x := eval vm_compute in (bz m) in change (bz m) with x in H end; lia]. Qed.
Lemma tiny_int_byte m z : signed_be 1 z [m] -> -16 <= z <= 127 -> bz m < 0x90 \/ 0xC0 <= bz m < 0xD4 \/ 0xDE <= bz m.
Proof.
  intros H Hz. pose proof (bz_range m) as R. apply to_signed_of_signed in H; [|lia]. unfold be_value in H. cbn in H. unfold to_signed in H. cbn in H. unfold bz in *. revert H. cbn.
  destruct (_ <? _) eqn:?; intros; lia.
Qed.
Definition prints_clocks (v : ver) (tz : zones) (p : pv) : Prop :=
  forall bs g rest fuel, packs signed_limits p bs -> meaning v p = Some g -> (length bs < fuel)%nat -> print_fuel v tz fuel (bs ++ rest) = (Ok (g, rest), clocks g).
Lemma by_parts v tz p bs g rest fuel : packs signed_limits p bs -> meaning v p = Some g -> (length bs < fuel)%nat -> clocks g = [] ->
  snd (print_fuel v tz fuel (bs ++ rest)) = [] -> print_fuel v tz fuel (bs ++ rest) = (Ok (g, rest), clocks g).
Proof.
  intros Hb Hm Hf Hc Hs. pose proof (prints_aside v tz fuel (bs ++ rest)) as Ha. rewrite (decode_packs v tz p bs g rest fuel Hb Hm Hf) in Ha.
  destruct (print_fuel v tz fuel (bs ++ rest)) as [q l]. cbn [fst snd] in *. rewrite Ha, Hs, Hc. reflexivity.
Qed.
Lemma items_printed v tz l : Forall (prints_clocks v tz) l ->
  forall bs gs rest fuel k, packs_seq signed_limits l bs -> all_some (map (meaning v) l) = Some gs -> (length bs < fuel)%nat -> (length l <= k)%nat ->
    print_items (print_fuel v tz fuel) k (zlen l) (bs ++ rest) = (Ok (gs, rest), flat_map clocks gs).
Proof.
  induction 1 as [|p l Hp _ IH]; intros bs gs rest fuel k Hb Hm Hf Hk.
  - inversion Hb; subst. cbn in Hm. injection Hm as <-. destruct k; reflexivity.
  - inversion Hb as [|? ? b1 b2 H1 H2]; subst. cbn [map all_some] in Hm. destruct (meaning v p) eqn:Ep; [|discriminate].
    destruct (all_some (map (meaning v) l)) eqn:El; [|discriminate]. injection Hm as <-. rewrite app_length in Hf. cbn [length] in Hk. destruct k; [lia|].
    cbn [print_items]. rewrite zlen_cons. pose proof (zlen_nonneg l). destruct (1 + zlen l <=? 0) eqn:E; [lia|].
    rewrite then_eq, <- app_assoc. rewrite (Hp b1 g); auto; [|lia]. replace (1 + zlen l - 1) with (zlen l) by lia.
    rewrite then_eq, (IH b2 l0); auto; try lia. unfold done, silently, pret. cbn [flat_map]. now rewrite app_nil_r.
Qed.
Lemma fields_printed v tz l : Forall (prints_clocks v tz) l ->
  forall bs gs rest fuel, packs_seq signed_limits l bs -> all_some (map (meaning v) l) = Some gs -> (length bs < fuel)%nat -> printed (print_fuel v tz fuel) gs (bs ++ rest) rest.
Proof.
  induction 1 as [|p l Hp _ IH]; intros bs gs rest fuel Hb Hm Hf.
  - inversion Hb; subst. cbn in Hm. injection Hm as <-. constructor.
  - inversion Hb as [|? ? b1 b2 H1 H2]; subst. cbn [map all_some] in Hm. destruct (meaning v p) eqn:Ep; [|discriminate].
    destruct (all_some (map (meaning v) l)) eqn:El; [|discriminate]. injection Hm as <-. rewrite app_length in Hf. rewrite <- app_assoc. econstructor.
    + apply Hp; eauto. lia.
    + apply IH; auto. lia.
Qed.
Lemma mark_low m t n : bz m = t + n -> t + n < 0x90 -> bz m < 0x90 \/ 0xC0 <= bz m < 0xD4 \/ 0xDE <= bz m. Proof. lia. Qed.
Lemma str_printed v tz s bs rest fuel : packs signed_limits (PStr s) bs -> (length bs < fuel)%nat -> print_fuel v tz fuel (bs ++ rest) = (Ok (GStr s, rest), []).
Proof.
  intros H Hf. apply (by_parts v tz (PStr s)); auto. inversion H as [| | | | | | | | |? h Hh| | |]; subst. destruct fuel; [lia|]. cbn [print_fuel].
  inversion Hh; subst; cbn [app]; apply leaf_silent; try (right; left; split; [vm_compute; congruence|reflexivity]).
  - left. change (Z.of_N (Byte.to_N b)) with (bz b) in *. lia.
  - match goal with E : Some _ = Some m |- _ => injection E as <- end. right; left; split; [vm_compute; congruence|reflexivity].
Qed.
Lemma entries_printed v tz m : Forall (fun kv => prints_clocks v tz (snd kv)) m ->
  forall bs gs rest fuel k acc, packs_entries signed_limits m bs -> all_some (map (fun kv => meaning v (snd kv)) m) = Some gs ->
    (length bs < fuel)%nat -> (length m <= k)%nat -> NoDup (map fst acc ++ map fst m) ->
    print_entries (print_fuel v tz fuel) k (zlen m) acc (bs ++ rest) = (Ok (acc ++ combine (map fst m) gs, rest), mclocks (combine (map fst m) gs)).
Proof.
  induction 1 as [|[key p] m Hp _ IH]; intros bs gs rest fuel k acc Hb Hm Hf Hk Hnd.
  - inversion Hb; subst. cbn in Hm. injection Hm as <-. destruct k; cbn; unfold done, silently, pret; now rewrite app_nil_r.
  - inversion Hb as [|? ? ? kb b1 b2 H0 H1 H2]; subst. cbn [map all_some snd] in Hm. destruct (meaning v p) eqn:Ep; [|discriminate].
    destruct (all_some (map (fun kv => meaning v (snd kv)) m)) eqn:El; [|discriminate]. injection Hm as <-.
    rewrite !app_length in Hf. cbn [length] in Hk. destruct k; [lia|]. cbn [print_entries]. rewrite zlen_cons. pose proof (zlen_nonneg m).
    destruct (1 + zlen m <=? 0) eqn:E; [lia|].
    rewrite then_eq, <- !app_assoc. rewrite (str_printed _ _ key); auto; [|lia]. rewrite then_eq, (Hp b1 g); auto; [|lia].
    replace (1 + zlen m - 1) with (zlen m) by lia. cbn [map fst] in Hnd.
    assert (Hfr : ~ In key (map fst acc)).
    { intros Hin. apply NoDup_remove_2 in Hnd. apply Hnd. apply in_or_app. now left. }
    rewrite map_set_fresh by assumption. rewrite (IH b2 l); auto; try lia.
    + rewrite <- app_assoc. reflexivity.
    + rewrite map_app. cbn [map fst]. rewrite <- app_assoc. exact Hnd.
Qed.
Theorem packs_printed v tz p : prints_clocks v tz p.
Proof.
  induction p as [| b | z | b | s | l IH | m IH | sig fs IH | t] using pv_ind'; intros bs g rest fuel Hb Hm Hf.
  - apply (by_parts v tz PNull); auto; injection Hm as <-; [reflexivity|]. inversion Hb; subst. destruct fuel; [lia|]. reflexivity.
  - apply (by_parts v tz (PBool b)); auto; injection Hm as <-; [reflexivity|]. inversion Hb; subst; (destruct fuel; [lia|]); reflexivity.
  - apply (by_parts v tz (PInt z)); auto; injection Hm as <-; [reflexivity|]. destruct fuel; [lia|]. cbn [print_fuel].
    inversion Hb; subst; cbn [app]; try reflexivity. apply leaf_silent. eapply tiny_int_byte; eassumption.
  - apply (by_parts v tz (PFloat b)); auto; injection Hm as <-; [reflexivity|]. destruct fuel; [lia|]. cbn [print_fuel]. inversion Hb; subst. reflexivity.
  - injection Hm as <-. now apply str_printed.
  - destruct fuel; [lia|]. cbn [print_fuel]. cbn [meaning] in Hm. destruct (all_some (map (meaning v) l)) eqn:El; [|discriminate].
    injection Hm as <-. inversion Hb as [| | | | | | | | | |? h bs' Hh Hs| |]; subst. rewrite app_length in Hf.
    rewrite <- app_assoc. rewrite (print_hdr_list _ _ _ (zlen l)); [|apply zlen_nonneg|assumption].
    unfold print_slice. pose proof (zlen_nonneg l). destruct (zlen l <? 0) eqn:E; [lia|]. pose proof (packs_seq_len _ _ _ Hs).
    apply header_nonempty in Hh. assert (1 <= length h)%nat by (destruct h; [easy|cbn; lia]).
    rewrite then_eq, (items_printed v tz l IH bs' l0); auto; [|lia|rewrite app_length; lia]. unfold done, silently, pret. now rewrite app_nil_r.
  - destruct fuel; [lia|]. cbn [print_fuel]. cbn [meaning] in Hm. destruct (nodupb (map fst m)) eqn:Hnd; [|discriminate].
    destruct (all_some (map (fun kv => meaning v (snd kv)) m)) eqn:El; [|discriminate].
    injection Hm as <-. inversion Hb as [| | | | | | | | | | |? h bs' Hh Hs|]; subst. rewrite app_length in Hf.
    rewrite <- app_assoc. rewrite (print_hdr_map _ _ _ (zlen m)); [|apply zlen_nonneg|assumption].
    unfold print_map. pose proof (packs_entries_len _ _ _ Hs). apply header_nonempty in Hh. assert (1 <= length h)%nat by (destruct h; [easy|cbn; lia]).
    apply nodupb_NoDup in Hnd.
    rewrite then_eq, (entries_printed v tz m IH bs' l); auto; [|lia|rewrite app_length; lia]. unfold done, silently, pret. now rewrite app_nil_r.
  - destruct fuel; [lia|]. cbn [print_fuel]. cbn [meaning] in Hm. destruct (all_some (map (meaning v) fs)) eqn:El; [|discriminate].
    inversion Hb as [| | | | | | | | | | | |? ? h sb bs' Hh Hsig Hs]; subst. rewrite app_length in Hf. cbn [length] in Hf.
    rewrite <- app_assoc. rewrite (print_hdr_struct _ _ _ (zlen fs)); [|apply zlen_nonneg|assumption]. cbn [app]. eapply struct_printed; [reflexivity|exact Hm|].
    apply header_nonempty in Hh. assert (1 <= length h)%nat by (destruct h; [easy|cbn; lia]). eapply fields_printed; eauto. lia.
  - discriminate.
Qed.
Theorem valid_prints v tz p bs g rest : packs signed_limits p bs -> meaning v p = Some g -> decode_printing v tz (bs ++ rest) = (Ok (g, rest), clocks g).
Proof. intros. apply packs_printed with (p := p); auto. rewrite app_length. lia. Qed.

(** ** Whole messages *)
Theorem messages_print v tz p w q g rest r : frames q w -> packs signed_limits p q -> meaning v p = Some g -> nonempty (r_frags r) -> r_bytes r = w ++ rest ->
  decoder_prints v tz r = clocks g.
Proof.
  intros Hf Hp Hm Hn Hb. pose proof (read_message_flat r Hn) as H. rewrite Hb, (frames_flat_read _ q w rest Hf) in H. unfold decoder_prints.
  destruct (read_message r) as [[d fs]| | |]; cbn in H; try contradiction. destruct H as [-> _].
  pose proof (valid_prints v tz p q g [] Hp Hm) as V. rewrite app_nil_r in V. now rewrite V.
Qed.
Theorem messages_within v tz r x r' : decoder_decode v tz r = Ok (x, r') -> within (clocks x) (decoder_prints v tz r).
Proof.
  unfold decoder_decode, decoder_prints. destruct (read_message r) as [[d fs]| | |]; try discriminate. intros E.
  destruct (decode v tz d) as [[y s]| | |] eqn:D; try discriminate. injection E as -> _. exact (accepted_within v tz d x s D).
Qed.
Theorem messages_silent tz r : decoder_prints V1 tz r = [].
Proof. unfold decoder_prints. destruct (read_message r) as [[d fs]| | |]; try reflexivity. apply first_version_silent. Qed.

(** ** Cases: a map with a local time under a key given twice; a local time that is no number *)
Definition half_past : bytes := [xb1; x71; x92; xb1; x74; xc9; x12; x34; xb1; x74; x2a].
Definition twice : bytes := [xa2; x81; x61; xb1; x74; x01; x81; x61; xb1; x74; x02].
Definition not_a_time : bytes := [x92; xb1; x74; x07; xb1; x74; x81; x61].
Lemma half_past_printed tz : decode_printing V2 tz half_past = (Ok (GRecord [GLocalClock 4660; GLocalClock 42], []), [4660; 42]).
Proof. vm_compute. reflexivity. Qed.
Lemma twice_printed tz : decode_printing V2 tz twice = (Ok (GMap [([x61], GLocalClock 2)], []), [1; 2]).
Proof. vm_compute. reflexivity. Qed.
Lemma not_a_time_printed tz : exists e, decode_printing V2 tz not_a_time = (Err e, [7; 0]).
Proof. eexists. vm_compute. reflexivity. Qed.
Lemma not_silent : ~ (forall v tz r, decoder_prints v tz r = []).
Proof. intros H. specialize (H V2 (fun _ => None) (mkReader [[x00; x0b] ++ half_past ++ [x00; x00]] EEOF)). vm_compute in H. discriminate. Qed.
