(** The servers of Demo.v conform, and what is played on them is a session. *)
From Coq Require Import String ZArith List Bool Lia.
From Verif Require Import Bytes BytesFacts GoVal GoErr Encoder Decoder SpecPack SpecValues SpecCodec SpecServer
  PackFacts ValueFacts LinkFacts Messages Connection Link Wire SpecSession Demo.
Import ListNotations.
Open Scope Z_scope.

Lemma plain_expressed v g : plain_response v g -> expresses v (fst (marshal v g)) g.
Proof.
  intros (H1 & H2 & H3 & H4 & H5).
  pose proof (plain_packable signed_limits v g H1 H2 H3) as Hp.
  destruct (enc_packs signed_limits (lower v g) signed_limits_ok Hp) as [He Hk].
  destruct (encode_frames v MaxUint16 g []) as (w & E & Hf); [right; split; [unfold MaxUint16; lia|exact H5]|exact He|].
  exists (lower v g), (payload v g). split; [|split; [exact Hk|]].
  - rewrite meaning_lower by assumption. now rewrite H4.
  - unfold marshal. change (new_encoder fresh_writer MaxUint16) with (encoder_on [] None MaxUint16). rewrite E. exact Hf.
Qed.

Lemma outcome_in v l n : Forall (fun o => Forall (plain_response v) (outcome_says o)) l ->
  plain_response v (GSuccess []) -> Forall (plain_response v) (outcome_says (nth n l (Produced [] [] []))).
Proof.
  intros H H0. revert n. induction H as [|o l Ho _ IH]; intros [|n]; cbn [nth]; auto; repeat constructor; auto; apply H0.
Qed.

Lemma demo_sound v version l strict looks : Forall (plain_response v) (script_says (script version l strict) l) ->
  sound v (demo v (script version l strict) looks).
Proof.
  intro H. unfold script_says in H. apply Forall_app in H as [H1 H2].
  inversion H1 as [|? ? K1 H3]; subst. inversion H3 as [|? ? K2 H4]; subst. inversion H4 as [|? ? K3 _]; subst.
  assert (Ho : forall n, Forall (plain_response v) (outcome_says (j_outcome (script version l strict) n))).
  { intro n. cbn. apply outcome_in; [|exact K1]. apply Forall_forall. intros o Hin. apply Forall_forall.
    intros g Hg. rewrite Forall_forall in H2. apply H2. apply in_flat_map. eauto. }
  constructor; try (intro; reflexivity).
  - intros n g U. cbn [p_judge p_say demo] in *. apply plain_expressed. destruct U as [| | |m md E|m|m rm rs md E|m rm rs md E|m rm rs md r E Hr]; auto.
    + pose proof (Ho m) as X. rewrite E in X. now inversion X.
    + pose proof (Ho m) as X. destruct (j_outcome _ m); cbn [outcome_says] in X; cbn [run_md]; inversion X; subst; auto.
    + pose proof (Ho m) as X. rewrite E in X. inversion X as [|? ? _ Y]. now inversion Y.
    + pose proof (Ho m) as X. rewrite E in X. inversion X as [|? ? _ Y]. now inversion Y.
    + pose proof (Ho m) as X. rewrite Forall_forall in X. apply X.
      destruct E as [E|E]; rewrite E; right; right; now apply in_map.
  - intros n b. cbn. destruct b; cbn; [split; [reflexivity|constructor]|]. rewrite app_nil_r. split; [reflexivity|].
    repeat constructor. discriminate.
Qed.

Lemma demo_conforming p l strict looks :
  Forall (plain_response (codec p)) (script_says (script (proto_number p) l strict) l) ->
  conforming p (demo (codec p) (script (proto_number p) l strict) looks).
Proof.
  intro H. constructor.
  - now destruct p.
  - now apply demo_sound.
  - intros b Hb. cbn. destruct b; [discriminate|reflexivity].
Qed.

Lemma clean_call_b_ok c o : clean_call_b c o = true -> clean_call c o.
Proof.
  assert (H : forall m, clean_b c m = true -> clean c m) by (intros m H; now apply orb_true_iff in H).
  destruct o; cbn [clean_call_b clean_call]; auto.
  intro X. apply andb_true_iff in X as [X Y]. apply Z.leb_le in X, Y. lia.
Qed.

Lemma history_cons {St} (N : net St) (C : conn -> call -> Prop) w o r w1 : C (fst w) o -> does N o w w1 r -> forall l w2, history N C w1 l w2 -> history N C w ((o, r) :: l) w2.
Proof.
  intros HC Hd l w2 H. induction H as [x|x l y o' r' z H IH HC' Hd'].
  - apply (hist_snoc N C w [] w o r x); [constructor|exact HC|exact Hd].
  - change ((o, r) :: l ++ [(o', r')]) with (((o, r) :: l) ++ [(o', r')]). eapply hist_snoc; eauto.
Qed.
Lemma play_history {St} (N : net St) n allowed (C : conn -> call -> Prop) : (forall c o, allowed c o = true -> C c o) ->
  forall calls w l w', play N n allowed calls w = Some (l, w') -> history N C w l w'.
Proof.
  intros HC. induction calls as [|o calls IH]; intros w l w'; cbn [play].
  - intro E. injection E as <- <-. constructor.
  - destruct (allowed (fst w) o) eqn:Ea; [|discriminate].
    destruct (exec N (do_call n o) (fst w) (snd w)) as [[c s] r] eqn:E. intro H.
    assert (X : r <> NoFuel /\ exists l', play N n allowed calls (c, s) = Some (l', w') /\ l = (o, r) :: l').
    { destruct (play N n allowed calls (c, s)) as [[l1 w1]|]; destruct r; try discriminate; injection H as <- <-;
        (split; [discriminate|]; eexists; split; reflexivity). }
    destruct X as (Hr & l' & Hp & ->). apply (history_cons N C w o r (c, s)); [now apply HC| |now apply IH].
    exists n. split; [exact E|exact Hr].
Qed.

Lemma play_session_ok p l strict looks n user password calls h w :
  let P := demo (codec p) (script (proto_number p) l strict) looks in
  Forall (plain_response (codec p)) (script_says (script (proto_number p) l strict) l) ->
  (zlen user <=? 65535) && (zlen password <=? 65535) = true ->
  play_session P n clean_call_b user password calls = Some (h, w) ->
  session clean_call p P user password h w.
Proof.
  intros P H Hu E. apply andb_true_iff in Hu as [H1 H2]. apply Z.leb_le in H1, H2.
  split; [now apply demo_conforming|]. split; [exact H1|]. split; [exact H2|].
  unfold play_session in E. destruct (exec (wired P) (create_bolt_conn n) (fresh_conn user password) new_wire) as [[c0 w0] [[]| | |]] eqn:E0; try discriminate.
  exists (c0, w0). split; [exists n; split; [exact E0|discriminate]|]. eapply play_history; [apply clean_call_b_ok|exact E].
Qed.
(** The same for calls that need not be clean. *)
Lemma play_any_ok p l strict looks n user password calls h w :
  let P := demo (codec p) (script (proto_number p) l strict) looks in
  Forall (plain_response (codec p)) (script_says (script (proto_number p) l strict) l) ->
  (zlen user <=? 65535) && (zlen password <=? 65535) = true ->
  play_session P n (fun _ _ => true) user password calls = Some (h, w) ->
  session (fun _ _ => True) p P user password h w.
Proof.
  intros P H Hu E. apply andb_true_iff in Hu as [H1 H2]. apply Z.leb_le in H1, H2.
  split; [now apply demo_conforming|]. split; [exact H1|]. split; [exact H2|].
  unfold play_session in E. destruct (exec (wired P) (create_bolt_conn n) (fresh_conn user password) new_wire) as [[c0 w0] [[]| | |]] eqn:E0; try discriminate.
  exists (c0, w0). split; [exists n; split; [exact E0|discriminate]|].
  apply (play_history (wired P) n (fun _ _ => true) (fun _ _ => True)) with calls; auto.
Qed.

(** One response at a time. *)
Ltac plain_one := repeat split; vm_compute; first [reflexivity | discriminate].
Ltac plain_all := repeat (constructor; [plain_one|]); constructor.
