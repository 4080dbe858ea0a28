(** The byte-level network behaves like the message-level one: simulation. *)
From Coq Require Import String ZArith List Bool Lia.
From Coq Require Import ZifyBool.
From Verif Require Import Bytes BytesFacts GoVal GoErr Encoder Decoder SpecPack SpecValues SpecCodec SpecParse ParseFacts
  DecodeFacts ValueFacts FrameFacts ReadFacts LinkFacts SpecServer Messages Connection Link ExecFacts Wire.
Import ListNotations.
Open Scope Z_scope.

(** ** The server's answers do not depend on what is still unread *)

Definition bare (s : srv) : srv := set_raw [] (set_out [] s).

(** The waiting result is one the judge decided. *)
Definition owned (J : judge) (s : srv) : Prop :=
  match s_stream s with Some (_, o) => exists n, o = j_outcome J n | None => True end.

Definition steady (J : judge) (f : srv -> srv) (s : srv) : Prop :=
  exists new, s_out (f s) = s_out s ++ new
  /\ s_out (f (bare s)) = new
  /\ bare (f (bare s)) = bare (f s)
  /\ s_raw (f (bare s)) = [] /\ s_raw (f s) = s_raw s
  /\ Forall (utterance J) new /\ owned J (f s).

Section Steady.
Variable J : judge.
Ltac now_steady := repeat split; repeat constructor; auto.

Lemma steady_id s : owned J s -> steady J (fun s => s) s.
Proof. intro H. exists []. rewrite app_nil_r. now_steady. Qed.
Lemma steady_gone s : owned J s -> steady J (in_mode Gone) s.
Proof. intro H. exists []. rewrite app_nil_r. now_steady. Qed.
Lemma steady_bye s : steady J (fun s => in_mode Gone (with_tx None (with_stream None s))) s.
Proof. exists []. rewrite app_nil_r. now_steady. Qed.
Lemma steady_ignored s : owned J s -> steady J (answer_with [GIgnored]) s.
Proof. intro H. exists [GIgnored]. now_steady. Qed.
Lemma steady_breach s : steady J (breach J) s.
Proof. exists [GFailure (j_breach J)]. unfold breach. destruct (j_strict J); now_steady. Qed.
Lemma steady_reset s : steady J reset_session s.
Proof. exists [GSuccess []]. now_steady. Qed.
Lemma steady_run text ps md s : steady J (fun s => serve_run J (mkStmt text ps (run_db md s)) s) s.
Proof.
  unfold steady, serve_run. change (s_next (bare s)) with (s_next s).
  pose proof (u_run J (s_next s)) as U. pose proof (u_refused J (s_next s)) as U2.
  assert (O : exists n, j_outcome J (s_next s) = j_outcome J n) by eauto.
  destruct (j_outcome J (s_next s)) as [m|rm l m|rm l m]; eexists; (split; [reflexivity|]); now_steady.
Qed.
Lemma steady_control k db text s : owned J s -> steady J (serve_control J k db text) s.
Proof.
  intro Hs. unfold steady, serve_control, breach. change (s_next (bare s)) with (s_next s). change (s_tx (bare s)) with (s_tx s).
  pose proof (u_run J (s_next s)) as U. pose proof (u_refused J (s_next s)) as U2.
  assert (O : exists n, j_outcome J (s_next s) = j_outcome J n) by eauto.
  destruct s as [ver0 md0 nx tx str0 pm dn out raw hung]. unfold owned in *. cbn in *.
  destruct k, tx as [[tdb l]|], text; try destruct (j_strict J);
    try destruct (j_outcome J nx) as [m|rm rl m|rm rl m]; cbn; eexists; (split; [reflexivity|]); now_steady.
Qed.
Lemma steady_pull b st o s : (exists n, o = j_outcome J n) -> steady J (serve_pull b st o) s.
Proof.
  intros [n ->]. destruct s as [ver0 md0 nx tx str0 pm dn out raw hung]. unfold steady, owned, serve_pull, take_effect. cbn.
  pose proof (u_refused J n) as U1. pose proof (u_broken J n) as U2. pose proof (u_produced J n) as U3. pose proof (u_row J n) as U4.
  destruct st as [st|].
  - destruct (j_outcome J n) as [m|rm l m|rm l m] eqn:E; cbn.
    + eexists; (split; [reflexivity|]); now_steady.
    + exists ((if b then map GRecord l else []) ++ [GFailure m]).
      split; [now rewrite <- app_assoc|]. repeat split. apply Forall_app. split; [|repeat constructor; eauto].
      destruct b; [|constructor]. apply Forall_forall. intros g Hg. apply in_map_iff in Hg as (r & <- & Hr). eauto.
    + exists ((if b then map GRecord l else []) ++ [GSuccess m]).
      assert (F : Forall (utterance J) ((if b then map GRecord l else []) ++ [GSuccess m])).
      { apply Forall_app. split; [|repeat constructor; eauto].
        destruct b; [|constructor]. apply Forall_forall. intros g Hg. apply in_map_iff in Hg as (r & <- & Hr). eauto. }
      destruct tx as [[tdb tl]|]; cbn; repeat split; exact F.
  - cbn. eexists; (split; [reflexivity|]); now_steady.
Qed.
Lemma steady_login s : owned J s ->
  steady J (fun s => match j_outcome J (s_next s) with
          | Refused md => in_mode Gone (answer_with [GFailure md] (judged [] s))
          | o => in_mode Ready (answer_with [GSuccess (run_md o)] (judged [] s))
          end) s.
Proof.
  destruct s as [ver0 md0 nx tx str0 pm dn out raw hung]. unfold steady, owned. cbn. intro Hs.
  pose proof (u_run J nx) as U. pose proof (u_refused J nx) as U2.
  destruct (j_outcome J nx) as [m|rm l m|rm l m]; cbn; eexists; (split; [reflexivity|]); now_steady.
Qed.

Lemma steady_serve q s : owned J s -> steady J (serve J q) s.
Proof.
  intro Hs.
  assert (E : forall f, (forall s', s_mode s' = s_mode s -> s_stream s' = s_stream s -> s_version s' = s_version s -> serve J q s' = f s') ->
              steady J f s -> steady J (serve J q) s).
  { intros f Hf H. unfold steady. rewrite !Hf by reflexivity. exact H. }
  destruct (s_mode s) eqn:Hm.
  - destruct q; try (apply (E (breach J)); [intros s' H1 _ _; unfold serve; now rewrite H1|apply steady_breach]).
    + eapply E; [intros s' H1 _ _; unfold serve; rewrite H1; reflexivity|now apply steady_login].
    + eapply E; [intros s' H1 _ _; unfold serve; rewrite H1; reflexivity|now apply steady_gone].
  - destruct (s_stream s) as [[st o]|] eqn:Hst.
    + assert (Ho : exists n, o = j_outcome J n) by (unfold owned in Hs; now rewrite Hst in Hs).
      destruct q; try (apply (E (breach J)); [intros s' H1 H2 _; unfold serve; now rewrite H1, H2|apply steady_breach]).
      * eapply E; [intros s' H1 H2 _; unfold serve; rewrite H1, H2; reflexivity|now apply steady_pull].
      * eapply E; [intros s' H1 H2 _; unfold serve; rewrite H1, H2; reflexivity|now apply steady_pull].
      * eapply E; [intros s' H1 H2 _; unfold serve; rewrite H1; reflexivity|apply steady_reset].
      * eapply E; [intros s' H1 H2 _; unfold serve; rewrite H1; reflexivity|apply steady_bye].
    + destruct q; try (apply (E (breach J)); [intros s' H1 H2 _; unfold serve; now rewrite H1, H2|apply steady_breach]).
      * destruct (control_of text) as [k|] eqn:Ek; [destruct (s_version s <=? 2) eqn:Ev|].
        -- eapply E; [intros s' H1 H2 H3; unfold serve; rewrite H1, H2, H3, Ev, Ek; reflexivity|now apply steady_control].
        -- eapply E; [intros s' H1 H2 H3; unfold serve; rewrite H1, H2, H3, Ev, Ek; reflexivity|apply steady_run].
        -- eapply E; [intros s' H1 H2 H3; unfold serve; rewrite H1, H2, Ek; reflexivity|apply steady_run].
      * eapply E; [intros s' H1 H2 H3; unfold serve; rewrite H1, H2; reflexivity|now apply steady_control].
      * eapply E; [intros s' H1 H2 H3; unfold serve; rewrite H1, H2; reflexivity|now apply steady_control].
      * eapply E; [intros s' H1 H2 H3; unfold serve; rewrite H1, H2; reflexivity|now apply steady_control].
      * eapply E; [intros s' H1 H2 _; unfold serve; rewrite H1; reflexivity|apply steady_reset].
      * eapply E; [intros s' H1 H2 _; unfold serve; rewrite H1; reflexivity|apply steady_bye].
  - destruct q; try (eapply E; [intros s' H1 _ _; unfold serve; rewrite H1; reflexivity|now apply steady_ignored]).
    + eapply E; [intros s' H1 H2 _; unfold serve; rewrite H1; reflexivity|apply steady_reset].
    + eapply E; [intros s' H1 H2 _; unfold serve; rewrite H1; reflexivity|now apply steady_gone].
  - apply (E (fun s => s)); [intros s' H1 _ _; unfold serve; now rewrite H1|now apply steady_id].
  - apply (E (fun s => s)); [intros s' H1 _ _; unfold serve; now rewrite H1|now apply steady_id].
Qed.
Lemma breach_clear s : s_mode (breach J s) <> Garbled.
Proof. unfold breach. destruct (j_strict J); discriminate. Qed.
Lemma serve_clear q s : s_mode s <> Garbled -> s_mode (serve J q s) <> Garbled.
Proof.
  intro Hc. unfold serve. destruct (s_mode s) eqn:Hm; try (rewrite Hm; exact Hc).
  - destruct q; try apply breach_clear; [|discriminate]. destruct (j_outcome J (s_next s)); discriminate.
  - assert (Hrun : forall st, s_mode (serve_run J st s) <> Garbled).
    { intro st. unfold serve_run. destruct (j_outcome J (s_next s)); cbn; rewrite ?Hm; discriminate. }
    assert (Hctl : forall k db t, s_mode (serve_control J k db t s) <> Garbled).
    { intros k db t. unfold serve_control. destruct k, (s_tx s) as [[? ?]|] eqn:Et, t, (j_outcome J (s_next s)); cbn;
        rewrite ?Et; cbn; rewrite ?Hm; try apply breach_clear; discriminate. }
    assert (Hpull : forall b st o, s_mode (serve_pull b st o s) <> Garbled).
    { intros b st o. unfold serve_pull, take_effect. destruct st, o; cbn; try destruct (s_tx s) as [[? ?]|]; cbn; rewrite ?Hm; discriminate. }
    destruct q, (s_stream s) as [[st o]|]; try apply breach_clear; try discriminate; auto.
    destruct (control_of text); [destruct (s_version s <=? 2)|]; auto.
  - destruct q; cbn; rewrite ?Hm; discriminate.
Qed.
End Steady.

(** ** The relation *)

Inductive spoken (v : ver) : list gval -> bytes -> Prop :=
| sp_nil : spoken v [] []
| sp_cons g l wb b : expresses v wb g -> spoken v l b -> spoken v (g :: l) (wb ++ b).
Lemma spoken_app v l l' b b' : spoken v l b -> spoken v l' b' -> spoken v (l ++ l') (b ++ b').
Proof.
  induction 1 as [|g l wb b Hg _ IH]; intro H'; [exact H'|]. cbn [app]. rewrite <- app_assoc. constructor; auto.
Qed.
Lemma expresses_nonempty v b g : expresses v b g -> b <> [].
Proof.
  intros (p & body & _ & _ & Hf). intros ->. inversion Hf as [|c h p' w Hc Hl Hh Hf' E1 E2]; subst.
  destruct Hh as [Hh _]. destruct h; [discriminate Hh|discriminate].
Qed.
Lemma spoken_nil v l : spoken v l [] -> l = [].
Proof.
  intro H. inversion H as [|g l' wb b Hg Hl E1 E2]; [reflexivity|]. exfalso.
  apply app_eq_nil in E2 as [-> _]. now apply expresses_nonempty in Hg.
Qed.

Section Simulation.
Variable P : peer.
Variable v : ver.
Hypothesis HP : sound v P.
Notation J := (p_judge P).
Notation I := (ideal (p_judge P) (p_looks P)).
Notation W := (wired P).

Lemma utter_spoken n l : Forall (utterance J) l -> spoken v l (utter P n l).
Proof.
  intro H. revert n. induction H as [|g l Hg _ IH]; intro n; [constructor|]. cbn [utter]. constructor; [|apply IH].
  now apply (so_say _ _ HP).
Qed.

Record mirrors (w : wire) (s : srv) : Prop := mkMirrors {
  m_clear : s_mode s <> Garbled;
  m_srv : w_srv w = bare s;
  m_raw : s_raw s = [];
  m_down : spoken v (s_out s) (w_down w);
  m_in : w_in w = [];
  m_dead : w_dead w = false;
  m_owned : owned J s
}.

Lemma parse_nothing : parse_message [] = None.
Proof. reflexivity. Qed.

Lemma absorb_rest f w : w_in w = [] -> absorb P f w = w.
Proof.
  intro H. destruct f; [reflexivity|]. cbn [absorb]. rewrite H, parse_nothing.
  destruct w; cbn in *; subst. now destruct (s_mode _).
Qed.

(** The server hears one complete message. *)
Lemma hear_message w s b p : mirrors w s -> (forall rest, parse_message (b ++ rest) = Some (Some p, rest)) ->
  mirrors (hear P b w) (serve J (read_request (s_version s) p) s).
Proof.
  intros [Hc Hs Hr Hd Hi Hx Ho] Hp. unfold hear. rewrite Hi. cbn [app absorb]. cbn [w_srv w_in].
  rewrite Hs. change (s_mode (bare s)) with (s_mode s). change (s_version (bare s)) with (s_version s).
  specialize (Hp []). rewrite app_nil_r in Hp. rewrite Hp.
  destruct (steady_serve J (read_request (s_version s) p) s Ho) as (new & N1 & N2 & N3 & N4 & N5 & N6 & N7).
  assert (M : mirrors (speak P (serve J (read_request (s_version s) p) (bare s)) [] (mkWire (bare s) b (w_down w) (w_said w) (w_ops w) (w_dead w)))
                (serve J (read_request (s_version s) p) s)).
  { constructor.
    - now apply serve_clear.
    - cbn [speak w_srv]. exact N3.
    - now rewrite N5.
    - cbn [speak w_down w_said]. rewrite N1, N2, N4. cbn [app]. apply spoken_app; [exact Hd|].
      now apply utter_spoken.
    - reflexivity.
    - exact Hx.
    - exact N7. }
  destruct (s_mode s) eqn:Hm; try (rewrite absorb_rest by reflexivity; exact M).
  unfold serve. rewrite Hm. constructor; cbn; auto. rewrite Hm. discriminate.
Qed.

Lemma hear_nothing w s : mirrors w s -> mirrors (hear P [] w) s.
Proof.
  intros M. destruct M as [Hc Hs Hr Hd Hi Hx Ho]. unfold hear. rewrite Hi. cbn [app]. rewrite absorb_rest by reflexivity.
  constructor; cbn; auto.
Qed.
Lemma tick_mirrors w s : mirrors w s -> mirrors (tick false w) s.
Proof. intros [Hc Hs Hr Hd Hi Hx Ho]. constructor; cbn; auto. now rewrite Hx. Qed.

Lemma fits_modest cs x : fits v cs x = true -> modest v cs x.
Proof.
  unfold fits, modest. rewrite orb_true_iff, !andb_true_iff, forallb_forall, Forall_forall.
  intros [[[H1 H2] H3]|[[H1 H2] H3]]; [left|right].
  - split; [lia|]. intros z Hz. apply H3 in Hz. lia.
  - lia.
Qed.

Lemma send_mirrors cs m w s s' r : mirrors w s -> n_send I v cs m s = (s', r) -> s_mode s' <> Garbled ->
  exists w', n_send W v cs m w = (w', r) /\ mirrors w' s'.
Proof.
  intros M E Hg. cbn [ideal n_send] in E. cbn [wired n_send]. unfold budget.
  rewrite (m_srv _ _ M), (m_dead _ _ M). change (s_hung (bare s)) with (s_hung s).
  destruct (s_hung s); [injection E as <- <-; now elim Hg|]. rewrite (so_left _ _ HP). cbn [orb].
  destruct (snd (encode v m)) as [e|] eqn:Ee.
  - destruct (refused v cs m) eqn:Er; injection E as <- <-; [|now elim Hg].
    unfold refused in Er. rewrite Ee in Er. apply andb_true_iff in Er as [H1 H2].
    destruct (refused_clean_iff v m [] cs e ltac:(lia) Ee) as [[_ H3] H4]. specialize (H3 ltac:(lia)).
    assert (Hl : w_left (e_w (fst (encoder_encode v (encoder_on [] None cs) m))) = None).
    { destruct (encode_refused v m [] cs [] e ltac:(lia) Ee) as (w0 & buf' & pl & E0 & _).
      unfold encoder_on, new_encoder. now rewrite E0. }
    destruct (encoder_encode v (encoder_on [] None cs) m) as [e1 r1]. cbn [fst snd] in *. subst r1.
    eexists. split; [reflexivity|]. rewrite H3. unfold spent. rewrite Hl. now apply hear_nothing, tick_mirrors.
  - destruct (sendable v cs m) eqn:Er; injection E as <- <-; [|now elim Hg].
    unfold sendable in Er. rewrite Ee in Er. rewrite andb_true_r in Er. apply andb_true_iff in Er as [H1 H2].
    apply fits_modest in H2.
    destruct (encode_frames v cs m [] H2 Ee) as (b & E1 & Hf). rewrite E1. cbn [app].
    eexists. split; [reflexivity|]. cbn [encoder_on new_encoder e_w w_out spent w_left].
    apply hear_message; [now apply tick_mirrors|]. intro rest.
    eapply parse_message_ok; [|exact Hf]. now apply encode_valid.
Qed.

Lemma recv_mirrors w s s' r : mirrors w s -> n_recv I v s = (s', r) -> 
  exists w', n_recv W v w = (w', r) /\ mirrors w' s'.
Proof.
  intros M E. cbn [ideal n_recv] in E. cbn [wired n_recv]. unfold seen, unseen, end_error.
  rewrite (so_late _ _ HP), (m_srv _ _ M), (m_dead _ _ M).
  change (s_hung (bare s)) with (s_hung s). change (s_mode (bare s)) with (s_mode s).
  pose proof (m_clear _ _ M) as Hc. pose proof (m_down _ _ M) as Hd.
  unfold is_garbled in E. replace (match s_mode s with Garbled => true | _ => false end) with false in E by (destruct (s_mode s); congruence).
  destruct (so_cut _ _ HP (w_ops w) (w_down w)) as [C1 C2].
  set (en := if s_hung s || false then EBadConn else match s_mode s with Gone => EEOF | _ => EBadConn end).
  assert (En : en = silence s) by (unfold en, silence; now rewrite orb_false_r).
  destruct (s_out s) as [|g o] eqn:Eo; injection E as <- <-.
  - assert (Ed : w_down w = []) by (inversion Hd; reflexivity). rewrite Ed in *.
    assert (Ef : p_cut P (w_ops w) [] = []).
    { destruct (p_cut P (w_ops w) []) as [|f fs]; [reflexivity|]. inversion C2; subst. cbn in C1.
      apply app_eq_nil in C1 as [-> _]. congruence. }
    rewrite Ef. cbn. rewrite En. eexists. split; [reflexivity|].
    constructor; try apply M; cbn; [rewrite Eo; constructor|now rewrite (m_dead _ _ M)].
  - inversion Hd as [|g' l wb b Hg Hl E1 E2]; subst g' l. destruct Hg as (p & body & Hm & Hp & Hf).
    destruct (decode_framed v (p_zones P) body wb g b (mkReader (p_cut P (w_ops w) (w_down w)) en) Hf) as (r' & D1 & D2 & _).
    + exists []. pose proof (decode_packs_top v (p_zones P) p body g [] Hp Hm) as H. now rewrite app_nil_r in H.
    + exact C2.
    + unfold r_bytes. cbn. rewrite C1. now symmetry.
    + rewrite E2. rewrite D1. eexists. split; [reflexivity|].
      constructor; try apply M; cbn; [|now rewrite (m_dead _ _ M)].
      rewrite D2, app_nil_r. exact Hl.
Qed.

Lemma hang_mirrors w s s' r : mirrors w s -> n_hang I s = (s', r) ->
  exists w', n_hang W w = (w', r) /\ mirrors w' s'.
Proof.
  intros M E. cbn in E. injection E as <- <-. eexists. split; [reflexivity|].
  constructor; cbn; try reflexivity.
  - unfold is_garbled. pose proof (m_clear _ _ M). destruct (s_mode s); try discriminate. congruence.
  - rewrite (m_srv _ _ M). reflexivity.
  - constructor.
  - apply (m_dead _ _ M).
Qed.
Lemma probe_mirrors w s s' r : mirrors w s -> n_probe I s = (s', r) -> s_mode s' <> Garbled ->
  exists w', n_probe W w = (w', r) /\ mirrors w' s'.
Proof.
  intros M E Hg. cbn [ideal n_probe] in E. cbn [wired n_probe]. destruct (p_looks P); [|injection E as <- <-; eauto].
  pose proof (m_down _ _ M) as Hd. destruct (s_out s) as [|g o] eqn:Eo; injection E as <- <-; [|now elim Hg].
  inversion Hd. rewrite (m_srv _ _ M). eexists. split; [reflexivity|]. exact M.
Qed.

(** ** Programs *)

(** Programs that use the codec of the connection's protocol version, never change the version, and
    use neither the raw link nor a new one. *)
Fixpoint well {A} (p : prog A) (c : conn) : Prop :=
  match p with
  | Ret _ => True
  | Get k => well (k c) c
  | Upd f k => c_proto (f c) = c_proto c /\ well k (f c)
  | Send u _ _ k => u = codec (c_proto c) /\ forall e, well (k e) c
  | Recv u k => u = codec (c_proto c) /\ forall r, well (k r) c
  | Hang k => forall e, well (k e) c
  | Probe k => forall e, well (k e) c
  | Lock k => well k c
  | Unlock k => well k c
  | Dial _ | RawWrite _ _ | RawRead _ _ => False
  end.

(** Garbled is never left. *)
Lemma garbled_stays {A} (p : prog A) : forall c s, s_mode s = Garbled -> s_mode (snd (fst (exec I p c s))) = Garbled.
Proof.
  induction p as [|k IH|f k IH|u cs m k IH|u k IH|k IH|k IH|b k IH|n k IH|k IH|k IH|k IH];
    intros c0 s0 Hs; cbn [exec]; auto.
  - destruct (n_send I u cs m s0) as [s' e] eqn:E. apply IH. cbn [ideal n_send] in E.
    destruct (s_hung s0); [injection E as <- _; reflexivity|].
    assert (Hsv : forall q, serve J q s0 = s0) by (intro q; unfold serve; now rewrite Hs).
    destruct (snd (encode u m)); [destruct (refused u cs m)|destruct (sendable u cs m)]; injection E as <- _; rewrite ?Hsv; auto.
  - destruct (n_recv I u s0) as [s' e] eqn:E. apply IH. cbn [ideal n_recv] in E. unfold is_garbled in E. rewrite Hs in E.
    now injection E as <- _.
  - apply IH. unfold hang_up, is_garbled. cbn. now rewrite Hs.
  - now apply IH.
  - destruct (n_write I b s0) as [s' e] eqn:E. apply IH. cbn [ideal n_write] in E. unfold is_garbled in E. rewrite Hs, orb_true_r in E.
    now injection E as <- _.
  - destruct (n_read I n s0) as [s' e] eqn:E. apply IH. cbn [ideal n_read] in E. unfold is_garbled in E. rewrite Hs in E.
    now injection E as <- _.
  - destruct (n_probe I s0) as [s' e] eqn:E. apply IH. cbn [ideal n_probe] in E.
    destruct (p_looks P); [destruct (s_out s0)|]; injection E as <- _; auto.
Qed.

Lemma simulation {A} (p : prog A) : forall c w s, codec (c_proto c) = v -> well p c -> mirrors w s ->
  s_mode (snd (fst (exec I p c s))) <> Garbled ->
  exists w', exec W p c w = (fst (fst (exec I p c s)), w', snd (exec I p c s)) /\ mirrors w' (snd (fst (exec I p c s))).
Proof.
  induction p as [r|k IH|f k IH|u cs m k IH|u k IH|k IH|k IH|b k IH|n k IH|k IH|k IH|k IH];
    intros c w s Hv Hw M Hg; cbn [exec well] in *; try contradiction; eauto.
  - destruct Hw as [Hp Hw]. apply IH; auto. now rewrite Hp.
  - destruct Hw as [Hu Hw]. rewrite Hv in Hu. subst u. destruct (n_send I v cs m s) as [s' e] eqn:E.
    assert (Hs' : s_mode s' <> Garbled) by (intro X; now apply Hg, garbled_stays).
    destruct (send_mirrors _ _ _ _ _ _ M E Hs') as (w' & -> & M'). apply IH; auto.
  - destruct Hw as [Hu Hw]. rewrite Hv in Hu. subst u. destruct (n_recv I v s) as [s' e] eqn:E.
    destruct (recv_mirrors _ _ _ _ M E) as (w' & -> & M'). apply IH; auto.
  - change (n_hang I s) with (hang_up s, @None gerr) in *.
    destruct (hang_mirrors w s (hang_up s) None M eq_refl) as (w' & -> & M'). apply IH; auto.
  - destruct (n_probe I s) as [s' e] eqn:E.
    assert (Hs' : s_mode s' <> Garbled) by (intro X; now apply Hg, garbled_stays).
    destruct (probe_mirrors _ _ _ _ M E Hs') as (w' & -> & M'). apply IH; auto.
Qed.
End Simulation.

(** ** The programs of the API are well-behaved *)

Lemma well_bindr {A B} (p : prog A) (f : res A -> prog B) : forall c, well p c -> (forall r c', well (f r) c') -> well (bindr p f) c.
Proof.
  induction p; intros c Hp Hf; cbn [bindr well] in *; auto.
  - destruct Hp. auto.
  - destruct Hp. auto.
  - destruct Hp. auto.
Qed.
Lemma well_bind {A B} (p : prog A) (f : A -> prog B) c : well p c -> (forall a c', well (f a) c') -> well (bind p f) c.
Proof. intros Hp Hf. apply well_bindr; [exact Hp|]. intros [] c'; cbn; auto. Qed.
Lemma well_send m c : well (send_message m) c.
Proof. cbn. split; [reflexivity|]. intros []; exact Logic.I. Qed.
Lemma well_recv c : well recv_message c.
Proof. cbn. auto. Qed.
Lemma well_pwrap {A} m (p : prog A) c : well p c -> well (pwrap m p) c.
Proof. intro H. apply well_bindr; [exact H|]. cbn. auto. Qed.

Ltac well_step := first
  [ exact Logic.I | assumption | apply well_send | apply well_recv
  | apply well_bind; [|intros] | apply well_bindr; [|intros] | apply well_pwrap
  | match goal with |- well (match ?x with _ => _ end) _ => destruct x end
  | progress cbn [well] | progress cbv zeta ].

Lemma well_tx_end cons t sel : (forall c, well cons c) -> forall c, well (tx_end cons t sel) c.
Proof.
  intros Hc c. unfold tx_end. cbn [well]. destruct (tx_closed c t); [exact Logic.I|].
  destruct (sel (c_proto c)) as [m n]. apply well_bind; [apply well_send|intros _ c1].
  apply well_bind; [destruct n; [exact Logic.I|apply well_send]|intros _ c2].
  apply well_bind; [apply Hc|intros r1 c3]. apply well_bind; [destruct n; [exact Logic.I|apply Hc]|intros r2 c4].
  destruct (negb (is_success r1)); [exact Logic.I|]. destruct (negb n && negb (is_success r2)); [exact Logic.I|].
  cbn. auto.
Qed.
Lemma well_close_with rb : (forall t c, well (rb t) c) -> forall c, well (close_with rb) c.
Proof.
  intros Hr c. unfold close_with. cbn [well]. destruct (c_closed c); [exact Logic.I|].
  apply well_bind; [destruct (c_transaction c); [apply Hr|exact Logic.I]|intros _ c1].
  apply well_bind; [destruct (get_close_message (c_proto c)); [apply well_send|exact Logic.I]|intros _ c2].
  cbn. intros e. split; [reflexivity|]. destruct e; exact Logic.I.
Qed.
Lemma well_core n : (forall c, well (consume n) c) /\ (forall c, well (reset n) c) /\ (forall c, well (reset_loop n) c)
  /\ (forall c, well (close n) c) /\ (forall t c, well (rollback n t) c).
Proof.
  induction n as [|n (H1 & H2 & H3 & H4 & H5)]; [repeat split; intros; exact Logic.I|].
  split; [|split; [|split; [|split]]].
  - intro c. cbn [consume]. apply well_bind; [apply well_recv|intros m c1]. destruct m; try exact Logic.I.
    apply well_bindr; [apply H2|]. intros [] c'; exact Logic.I.
  - intro c. cbn [reset]. apply well_bind; [apply well_pwrap, well_send|intros _ c1]. apply H3.
  - intro c. cbn [reset_loop]. apply well_bind; [apply well_pwrap, well_recv|intros m c1].
    destruct m; try exact Logic.I; try apply H3; (apply well_bindr; [apply H4|]; intros [] c'; exact Logic.I).
  - intro c. cbn [close]. apply well_close_with, H5.
  - intros t c. cbn [rollback]. apply well_tx_end, H1.
Qed.
Lemma well_fetch n k : forall acc c, well (fetch n k acc) c.
Proof.
  induction k as [|k IH]; intros acc c; [exact Logic.I|]. cbn [fetch]. apply well_bind; [apply well_core|intros m c1].
  destruct m; try exact Logic.I. apply IH.
Qed.
Lemma well_run_query n q ps db t c : well (run_query n q ps db t) c.
Proof.
  unfold run_query. cbn [well]. apply well_bindr; [|intros; exact Logic.I]. cbn [well]. destruct (c_closed c); [exact Logic.I|].
  apply well_bind; [apply well_send|intros _ c1]. apply well_bind; [apply well_send|intros _ c2].
  apply well_bind; [apply well_core|intros m c3]. destruct (is_success m); [apply well_fetch|exact Logic.I].
Qed.
Lemma well_query_db n q ps db t c : well (query_db n q ps db t) c.
Proof. unfold query_db. cbn [well]. destruct (negb _ && _); [exact Logic.I|apply well_run_query]. Qed.
Lemma well_begin n db c : well (begin_db n db) c.
Proof.
  unfold begin_db. cbn [well]. destruct (c_transaction c); [exact Logic.I|]. destruct (c_closed c); [exact Logic.I|].
  destruct (get_begin_message _ _ _) as [m nat]. apply well_bind; [apply well_send|intros _ c1].
  apply well_bind; [destruct nat; [exact Logic.I|apply well_send]|intros _ c2].
  apply well_bind; [apply well_core|intros r1 c3]. apply well_bind; [destruct nat; [exact Logic.I|apply well_core]|intros r2 c4].
  destruct (negb (is_success r1)); [exact Logic.I|]. destruct (negb nat && negb (is_success r2)); [exact Logic.I|].
  cbn. auto.
Qed.
Lemma well_pmap {A B} (f : A -> B) p c : well p c -> well (pmap f p) c.
Proof. intro H. apply well_bind; [exact H|]. intros; exact Logic.I. Qed.
Lemma well_call n o c : well (do_call n o) c.
Proof.
  destruct o; cbn [do_call]; try apply well_pmap; unfold exec_db;
    try (apply well_bind; [apply well_query_db|intros; exact Logic.I]);
    try apply well_query_db; try apply well_begin; try apply well_core.
  - apply well_tx_end, well_core.
  - unfold make_idle. cbn [well]. destruct (c_transaction c); [apply well_core|exact Logic.I].
  - unfold validate_open. cbn [well]. destruct (c_closed c); [exact Logic.I|]. cbn. intro e. exact Logic.I.
  - cbn. auto.
Qed.
