(** A call reports the first FAILURE message that it got: C125. *)
From Coq Require Import String ZArith List Bool Lia.
From Verif Require Import Bytes GoVal GoErr Decoder Messages Errors Connection Link ExecFacts SpecSession WatchFacts Result GoStr Texts SpecTexts TextFacts SpecClient SpecRefusal ClientSeedFacts SpecReport.
Import ListNotations.
Open Scope Z_scope.

Definition report {A} (tr : list event) (r : res A) : Prop :=
  match complaints tr with
  | md :: _ => (r = Panic /\ In (VRecv Panic) tr) \/ r = NoFuel \/ exists m, r = Err (EWrap (Some (EFailure md)) m)
  | [] => (forall e md, r = Err e -> inner_most e = EFailure md -> second_hand tr md) /\ (r = Panic -> In (VRecv Panic) tr)
  end.
Definition reports {A} (p : prog A) : Prop :=
  forall St (N : net St) c s c' s' tr r, exec (watched N) p c (s, []) = (c', (s', tr), r) -> report tr r.

Lemma complaints_app a b : complaints (a ++ b) = complaints a ++ complaints b.
Proof. apply flat_map_app. Qed.
Lemma second_l a b md : second_hand a md -> second_hand (a ++ b) md.
Proof. intros (v & e & H & R). exists v, e. split; [apply in_or_app; auto|exact R]. Qed.
Lemma second_r a b md : second_hand b md -> second_hand (a ++ b) md.
Proof. intros (v & e & H & R). exists v, e. split; [apply in_or_app; auto|exact R]. Qed.
(** An outcome that leads to no failure. *)
Definition bland {A} (r : res A) : Prop := r <> Panic /\ forall e md, r = Err e -> inner_most e <> EFailure md.
Lemma rp_ret {A} (r : res A) : bland r -> reports (Ret r).
Proof.
  intros [H1 H2] St N c s c' s' tr r' E. cbn in E. injection E as _ _ <- <-. cbn. split; [|congruence].
  intros e md -> Hm. now destruct (H2 e md eq_refl).
Qed.
Lemma rp_ok {A} (a : A) : reports (Ret (Ok a)). Proof. apply rp_ret. split; [discriminate|discriminate]. Qed.
Lemma rp_new {A} (e : gerr) : (forall md, inner_most e <> EFailure md) -> reports (fail e : prog A).
Proof. intros H. apply rp_ret. split; [discriminate|]. intros e' md [= <-]. apply H. Qed.
Lemma rp_get {A} (k : conn -> prog A) : (forall c, reports (k c)) -> reports (Get k).
Proof. intros H St N c s c' s' tr r E. exact (H c St N c s c' s' tr r E). Qed.
Lemma rp_upd {A} f (k : prog A) : reports k -> reports (Upd f k).
Proof. intros H St N c s c' s' tr r E. exact (H St N (f c) s c' s' tr r E). Qed.
Lemma rp_bind {A B} (p : prog A) (f : A -> prog B) : reports p -> (forall a, reports (f a)) -> reports (bind p f).
Proof.
  intros Hp Hf St N c s c' s' tr r E. unfold bind in E. rewrite exec_bindr in E.
  destruct (exec (watched N) p c (s, [])) as [[c1 [s1 tr1]] r1] eqn:E1. pose proof (Hp _ _ _ _ _ _ _ _ E1) as G.
  unfold report in G. destruct r1 as [a|e| |].
  - destruct (complaints tr1) eqn:C1; [|now destruct G as [[G _]|[G|[? G]]]]. rewrite watched_prefix in E.
    destruct (exec (watched N) (f a) c1 (s1, [])) as [[c2 [s2 tr2]] r2] eqn:E2. cbn [fst snd] in E. injection E as <- <- <- <-.
    pose proof (Hf a _ _ _ _ _ _ _ _ E2) as G2. unfold report in *. rewrite complaints_app, C1. cbn [app].
    destruct (complaints tr2).
    + destruct G2 as [G2 G3]. split; [intros e md He Hm; apply second_r; eauto|]. intros ->. apply in_or_app. auto.
    + destruct G2 as [[-> G2]|[->|[m ->]]]; eauto. left. split; auto. apply in_or_app. auto.
  - cbn in E. injection E as _ _ <- <-. unfold report. destruct (complaints tr1).
    + destruct G as [G _]. split; [|discriminate]. intros e' md [= <-]. now apply G.
    + destruct G as [[[=] _]|[[=]|[m [= ->]]]]. eauto.
  - cbn in E. injection E as _ _ <- <-. unfold report. destruct (complaints tr1).
    + destruct G as [_ G]. split; [discriminate|auto].
    + destruct G as [[_ G]|[[=]|[m [=]]]]. auto.
  - cbn in E. injection E as _ _ <- <-. unfold report. destruct (complaints tr1); [split; discriminate|auto].
Qed.
Lemma rp_send m : reports (send_message m).
Proof.
  intros St N c s c' s' tr r E. unfold send_message in E. cbn [exec watched n_send] in E. cbn [fst snd] in E.
  destruct (n_send N _ _ m s) as [s1 [e|]]; cbn in E; injection E as _ _ <- <-; unfold report; cbn [complaints flat_map app]; (split; [|discriminate]).
  - intros e' md [= <-] Hm. exists (VSend m (Some e)), e. cbn. auto.
  - discriminate.
Qed.
Lemma rp_hang : reports (Hang (fun e => Upd set_closed (match e with Some e => fail e | None => ok_unit end))).
Proof.
  intros St N c s c' s' tr r E. cbn [exec watched n_hang] in E. cbn [fst snd] in E.
  destruct (n_hang N s) as [s1 [e|]]; cbn in E; injection E as _ _ <- <-; unfold report; cbn [complaints flat_map app]; (split; [|discriminate]).
  - intros e' md [= <-] Hm. exists (VHang (Some e)), e. cbn. auto.
  - discriminate.
Qed.
(** The programs that run while amends are made panic only if receiving did. *)
Definition calm_after {A} (p : prog A) : Prop :=
  forall St (N : net St) c s c' s' tr r, exec (watched N) p c (s, []) = (c', (s', tr), r) -> r = Panic -> In (VRecv Panic) tr.
Lemma ca_ret {A} (r : res A) : r <> Panic -> calm_after (Ret r).
Proof. intros H St N c s c' s' tr r' E. cbn in E. injection E as _ _ <- <-. congruence. Qed.
Lemma ca_get {A} (k : conn -> prog A) : (forall c, calm_after (k c)) -> calm_after (Get k).
Proof. intros H St N c s c' s' tr r E. exact (H c St N c s c' s' tr r E). Qed.
Lemma ca_upd {A} f (k : prog A) : calm_after k -> calm_after (Upd f k).
Proof. intros H St N c s c' s' tr r E. exact (H St N (f c) s c' s' tr r E). Qed.
Lemma ca_bindr {A B} (p : prog A) (f : res A -> prog B) : calm_after p -> (forall r, r <> Panic -> calm_after (f r)) -> calm_after (bindr p f).
Proof.
  intros Hp Hf St N c s c' s' tr r E Er. rewrite exec_bindr in E.
  destruct (exec (watched N) p c (s, [])) as [[c1 [s1 tr1]] r1] eqn:E1. rewrite watched_prefix in E.
  destruct (exec (watched N) (f r1) c1 (s1, [])) as [[c2 [s2 tr2]] r2] eqn:E2. cbn [fst snd] in E. injection E as <- <- <- <-.
  apply in_or_app. assert (D : r1 = Panic \/ r1 <> Panic) by (destruct r1; auto; right; discriminate). destruct D as [D|D].
  - left. exact (Hp _ _ _ _ _ _ _ _ E1 D).
  - right. exact (Hf r1 D _ _ _ _ _ _ _ _ E2 Er).
Qed.
Lemma ca_bind {A B} (p : prog A) (f : A -> prog B) : calm_after p -> (forall a, calm_after (f a)) -> calm_after (bind p f).
Proof. intros Hp Hf. apply ca_bindr; auto. intros [a|e| |] H; auto; try (apply ca_ret; discriminate). congruence. Qed.
Lemma ca_wrap {A} m (p : prog A) : calm_after p -> calm_after (pwrap m p).
Proof. intros Hp. apply ca_bindr; auto. intros [a|e| |] H; try (apply ca_ret; discriminate). congruence. Qed.
Lemma ca_send m : calm_after (send_message m).
Proof.
  intros St N c s c' s' tr r E. unfold send_message in E. cbn [exec watched n_send] in E. cbn [fst snd] in E.
  destruct (n_send N _ _ m s) as [s1 [e|]]; cbn in E; injection E as _ _ <- <-; discriminate.
Qed.
Lemma ca_recv : calm_after recv_message.
Proof.
  intros St N c s c' s' tr r E. unfold recv_message in E. cbn [exec watched n_recv] in E. cbn [fst snd] in E.
  destruct (n_recv N _ s) as [s1 [a|e| |]]; cbn in E; injection E as _ _ <- <-; try discriminate. intros _. now left.
Qed.
Lemma ca_hang : calm_after (Hang (fun e => Upd set_closed (match e with Some e => fail e | None => ok_unit end))).
Proof.
  intros St N c s c' s' tr r E. cbn [exec watched n_hang] in E. cbn [fst snd] in E.
  destruct (n_hang N s) as [s1 [e|]]; cbn in E; injection E as _ _ <- <-; discriminate.
Qed.
Ltac ret := apply ca_ret; discriminate.
Lemma ca_tx_end cons t sel : calm_after cons -> calm_after (tx_end cons t sel).
Proof.
  intro H. apply ca_get. intro c. destruct (tx_closed c t); [ret|]. destruct (sel (c_proto c)) as [m nat].
  apply ca_bind; [apply ca_send|intros _]. apply ca_bind; [destruct nat; [ret|apply ca_send]|intros _].
  apply ca_bind; [exact H|intro a]. apply ca_bind; [destruct nat; [ret|exact H]|intro b].
  destruct (negb (is_success a)); [ret|]. destruct (negb nat && _); [ret|]. apply ca_upd. ret.
Qed.
Lemma ca_close_with rb : (forall t, calm_after (rb t)) -> calm_after (close_with rb).
Proof.
  intros H. apply ca_get. intro c. destruct (c_closed c); [ret|].
  apply ca_bind; [destruct (c_transaction c); [apply H|ret]|intros _].
  apply ca_bind; [destruct (get_close_message _); [apply ca_send|ret]|intros _]. apply ca_hang.
Qed.
Lemma ca_core n : calm_after (consume n) /\ calm_after (reset n) /\ calm_after (reset_loop n) /\ calm_after (close n) /\ forall t, calm_after (rollback n t).
Proof.
  induction n as [|n (I1 & I2 & I3 & I4 & I5)]; [repeat split; intros; ret|]. repeat split.
  - cbn [consume]. apply ca_bind; [apply ca_recv|]. intros m. destruct m; try ret.
    apply ca_bindr; [exact I2|]. intros [a|e| |] H; try ret. congruence.
  - cbn [reset]. apply ca_bind; [apply ca_wrap, ca_send|]. intros _. exact I3.
  - cbn [reset_loop]. apply ca_bind; [apply ca_wrap, ca_recv|].
    assert (X : forall y, calm_after (bindr (close n) (fun r => match r with Panic => Ret Panic | NoFuel => Ret NoFuel | _ => fail y end) : prog unit)).
    { intros y. apply ca_bindr; auto. intros [a|e| |] H; try ret. congruence. }
    intros m. destruct m; try apply X; auto. ret.
  - cbn [close]. now apply ca_close_with.
  - intros t. cbn [rollback]. now apply ca_tx_end.
Qed.

(** ** Reports *)
Ltac rp := first [apply rp_ok | apply rp_new; discriminate | apply rp_ret; split; discriminate].
Lemma rp_consume n : reports (consume n).
Proof.
  destruct n as [|n]; [rp|]. intros St N c s c' s' tr r E. cbn [consume] in E. unfold bind in E. rewrite exec_bindr in E.
  unfold recv_message in E. cbn [exec watched n_recv] in E. cbn [fst snd] in E.
  destruct (n_recv N (codec (c_proto c)) s) as [s1 [a|e| |]] eqn:Er; cbn [exec app] in E.
  - assert (D : (exists md, a = GFailure md) \/ (forall md, a <> GFailure md)) by (destruct a; eauto; right; discriminate).
    destruct D as [[md ->]|D].
    + rewrite watched_prefix in E.
      match type of E with context [exec _ ?q c (s1, [])] => destruct (exec (watched N) q c (s1, [])) as [[c2 [s2 tr2]] r2] eqn:E2 end.
      cbn [fst snd] in E. injection E as <- <- <- <-. unfold report. cbn [complaints flat_map app].
      rewrite exec_bindr in E2. destruct (exec (watched N) (reset n) c (s1, [])) as [[c3 [s3 tr3]] r3] eqn:E3.
      pose proof (proj1 (proj2 (ca_core n)) _ _ _ _ _ _ _ _ E3) as K.
      destruct r3; cbn in E2; injection E2 as _ _ <- <-; eauto. left. split; [reflexivity|]. right. auto.
    + assert (tr = [VRecv (Ok a)] /\ r = Ok a) as [-> ->] by (destruct a; cbn in E; try (injection E as _ _ <- <-; split; reflexivity); now destruct (D md)).
      unfold report. replace (complaints [VRecv (Ok a)]) with (@nil gomap) by (destruct a; cbn; try reflexivity; now destruct (D md)). split; discriminate.
  - injection E as _ _ <- <-. unfold report. cbn. split; [|discriminate]. intros e' md [= <-] Hm. exists (VRecv (Err e)), e. cbn. auto.
  - injection E as _ _ <- <-. unfold report. cbn. split; [discriminate|auto].
  - injection E as _ _ <- <-. unfold report. cbn. split; discriminate.
Qed.
Lemma rp_tx_end n t sel : reports (tx_end (consume n) t sel).
Proof.
  apply rp_get. intro c. destruct (tx_closed c t); [rp|]. destruct (sel (c_proto c)) as [m nat].
  apply rp_bind; [apply rp_send|intros _]. apply rp_bind; [destruct nat; [rp|apply rp_send]|intros _].
  apply rp_bind; [apply rp_consume|intro a]. apply rp_bind; [destruct nat; [rp|apply rp_consume]|intro b].
  destruct (negb (is_success a)); [rp|]. destruct (negb nat && _); [rp|]. apply rp_upd. rp.
Qed.
Lemma rp_rollback n t : reports (rollback n t).
Proof. destruct n; [rp|]. apply rp_tx_end. Qed.
Lemma rp_close n : reports (close n).
Proof.
  destruct n; [rp|]. cbn [close]. apply rp_get. intro c. destruct (c_closed c); [rp|].
  apply rp_bind; [destruct (c_transaction c); [apply rp_rollback|rp]|intros _].
  apply rp_bind; [destruct (get_close_message _); [apply rp_send|rp]|intros _]. apply rp_hang.
Qed.
Lemma rp_fetch n k : forall acc, reports (fetch n k acc).
Proof.
  induction k as [|k IH]; intro acc; [rp|]. cbn [fetch]. apply rp_bind; [apply rp_consume|]. intro m.
  destruct m; try rp. apply IH.
Qed.
Lemma rp_query n q ps db t : reports (query_db n q ps db t).
Proof.
  apply rp_get. intro c. destruct (negb _ && _); [rp|]. unfold run_query.
  intros St N c1 s c' s' tr r E. change (exec (watched N) (Lock ?p) c1 (s, [])) with (exec (watched N) p c1 (s, [])) in E.
  rewrite exec_bindr in E.
  match type of E with context [exec _ ?p c1 (s, [])] =>
    assert (F : reports p); [|destruct (exec (watched N) p c1 (s, [])) as [[c2 [s2 tr2]] r2] eqn:E1] end.
  - apply rp_get. intro c2. destruct (c_closed c2); [rp|].
    apply rp_bind; [apply rp_send|intros _]. apply rp_bind; [apply rp_send|intros _]. apply rp_bind; [apply rp_consume|].
    intro m. destruct (is_success m); [apply rp_fetch|rp].
  - cbn in E. injection E as <- <- <- <-. exact (F _ _ _ _ _ _ _ _ E1).
Qed.
Lemma rp_call n o : reports (do_call n o).
Proof.
  assert (M : forall A B (f : A -> B) p, reports p -> reports (pmap f p)).
  { intros A B f p H. apply rp_bind; [exact H|intro; rp]. }
  assert (X : forall k q ps db t, reports (exec_db k q ps db t)).
  { intros. apply rp_bind; [apply rp_query|intro; rp]. }
  destruct o; cbn [do_call]; try apply M; try apply X; try apply rp_query; try apply rp_rollback; try apply rp_close.
  - apply rp_get. intro c. destruct (c_transaction c); [rp|]. destruct (c_closed c); [rp|].
    destruct (get_begin_message _ _ _) as [m nat].
    apply rp_bind; [apply rp_send|intros _]. apply rp_bind; [destruct nat; [rp|apply rp_send]|intros _].
    apply rp_bind; [apply rp_consume|intro a]. apply rp_bind; [destruct nat; [rp|apply rp_consume]|intro b].
    destruct (negb (is_success a)); [rp|]. destruct (negb nat && _); [rp|].
    apply rp_get. intro c'. apply rp_upd. rp.
  - apply rp_tx_end.
  - apply rp_get. intro c. destruct (c_transaction c); [apply rp_rollback|rp].
  - apply rp_get. intro c. destruct (c_closed c); [rp|].
    intros St N c1 s c' s' tr r E. cbn [exec watched n_probe] in E. cbn [fst snd] in E.
    destruct (n_probe N s) as [s1 e]. injection E as _ _ <- <-. cbn. split; discriminate.
  - apply rp_upd. rp.
Qed.
(** Nothing is received while shaking hands. *)
Lemma handshake_deaf {St} (N : net St) c s c' s' tr r : exec (watched N) handshake c (s, []) = (c', (s', tr), r) -> complaints tr = [] /\ r <> Panic.
Proof.
  intros E. unfold handshake in E. cbn [exec watched n_write] in E. cbn [fst snd] in E.
  destruct (n_write N _ s) as [s1 [w [e|]]]; cbn [app] in E; [cbn in E; injection E as _ _ <- <-; split; [reflexivity|discriminate]|].
  destruct (negb (w =? 20)); [cbn in E; injection E as _ _ <- <-; split; [reflexivity|discriminate]|].
  cbn [exec watched n_read] in E. cbn [fst snd] in E. destruct (n_read N 4 s1) as [s2 [b [e|]]]; cbn [app] in E.
  - cbn in E. injection E as _ _ <- <-. split; [reflexivity|discriminate].
  - destruct (negb (zlen b =? 4)); [injection E as _ _ <- <-; split; [reflexivity|discriminate]|].
    destruct (bytes_eqb _ _); injection E as _ _ <- <-; split; try reflexivity; discriminate.
Qed.
Lemma get_protocol_told vb p x : get_protocol (Some vb) <> (None, x, None) /\ forall e md, get_protocol (Some vb) = (p, x, Some e) -> inner_most e <> EFailure md.
Proof.
  unfold get_protocol. split.
  - repeat match goal with |- context [if ?b then _ else _] => destruct b | |- context [match ?l with [] => _ | _ => _ end] => destruct l end; discriminate.
  - intros e md.
    repeat match goal with |- context [if ?b then _ else _] => destruct b | |- context [match ?l with [] => _ | _ => _ end] => destruct l end;
      intros H; try discriminate H; injection H as _ _ <-; discriminate.
Qed.
Lemma report_after {A} v tr (r : res A) : complaints [v] = [] -> v <> VRecv Panic -> report tr r -> report (v :: tr) r.
Proof.
  intros Hv Hp H. unfold report in *. change (v :: tr) with ([v] ++ tr). rewrite complaints_app, Hv. cbn [app]. destruct (complaints tr).
  - destruct H as [H1 H2]. split; [intros e md He Hm; apply (second_r [v]); eauto|]. intros ->. right. auto.
  - destruct H as [[-> H]|[->|[m ->]]]; eauto. left. split; [reflexivity|now right].
Qed.
Lemma rp_create n : reports (create_bolt_conn n).
Proof.
  intros St N c s c' s' tr r E. unfold create_bolt_conn, initialize in E. cbn [exec watched n_dial] in E. cbn [fst snd] in E.
  destruct (n_dial N s) as [s1 [e|]]; cbn [app] in E.
  - cbn in E. injection E as _ _ <- <-. unfold report. cbn. split; [|discriminate]. intros e' md [= <-] Hm. exists (VDial (Some e)), e. cbn. auto.
  - rewrite watched_prefix in E.
    match type of E with context [exec _ ?q c (s1, [])] => destruct (exec (watched N) q c (s1, [])) as [[c2 [s2 tr2]] r2] eqn:E2 end.
    cbn [fst snd app] in E. injection E as <- <- <- <-. apply report_after; [reflexivity|discriminate|].
    rewrite exec_bindr in E2. destruct (exec (watched N) handshake c (s1, [])) as [[c3 [s3 tr3]] r3] eqn:E3.
    destruct (handshake_deaf N c s1 c3 s3 tr3 r3 E3) as [Q P]. rewrite watched_prefix in E2.
    match type of E2 with context [exec _ ?q c3 (s3, [])] => destruct (exec (watched N) q c3 (s3, [])) as [[c4 [s4 tr4]] r4] eqn:E4 end.
    cbn [fst snd app] in E2. injection E2 as <- <- <- <-.
    assert (G : report tr4 r4).
    { destruct r3 as [vb|e| |].
      - destruct (get_protocol (Some vb)) as [[[p|] x] e] eqn:Eg.
        + revert E4. apply rp_upd, rp_get. intros c0. unfold send_init. apply rp_bind; [apply rp_send|intros _]. apply rp_bind; [apply rp_consume|].
          intros m. destruct m; try apply rp_close. rp.
        + destruct (get_protocol_told vb None x) as [T1 T2]. destruct e as [e|].
          * revert E4. apply rp_new. intros md. now apply (T2 e md).
          * now destruct T1.
      - cbn in E4. injection E4 as _ _ <- <-. cbn. split; [|discriminate]. now intros e' md [= <-].
      - congruence.
      - cbn in E4. injection E4 as _ _ <- <-. cbn. split; discriminate. }
    unfold report in *. rewrite complaints_app, Q. cbn [app]. destruct (complaints tr4).
    + destruct G as [G1 G2]. split; [intros e md He Hm; apply second_r; eauto|]. intros ->. apply in_or_app. auto.
    + destruct G as [[-> G]|[->|[m ->]]]; eauto. left. split; [reflexivity|]. apply in_or_app. auto.
Qed.

(** ** What a call and an opening report *)
Definition first_told (tr : list event) {A} (r : res A) : Prop :=
  (forall md rest, complaints tr = md :: rest -> r <> Panic -> exists e, r = Err e /\ inner_most e = EFailure md)
  /\ (forall e md, r = Err e -> inner_most e = EFailure md -> (exists rest, complaints tr = md :: rest) \/ (complaints tr = [] /\ second_hand tr md))
  /\ (r = Panic -> In (VRecv Panic) tr).
Lemma report_told {A} tr (r : res A) : report tr r -> r <> NoFuel -> first_told tr r.
Proof.
  unfold report, first_told. intros H F. destruct (complaints tr) as [|md0 rest].
  - destruct H as [H1 H2]. split; [discriminate|]. split; [|exact H2]. intros e md He Hm. right. eauto.
  - split; [|split].
    + intros md l [= <- <-] P. destruct H as [[H _]|[H|[m ->]]]; try congruence. eexists. split; [reflexivity|]. reflexivity.
    + intros e md -> Hm. left. destruct H as [[[=] _]|[[=]|[m [= ->]]]]. cbn in Hm. injection Hm as <-. eauto.
    + intros ->. destruct H as [[_ H]|[[=]|[m [=]]]]. exact H.
Qed.
Theorem call_tells {St} (N : net St) o c s c' s' tr r : does (watched N) o (c, (s, [])) (c', (s', tr)) r -> first_told tr r.
Proof. intros (n & E & F). apply report_told; [exact (rp_call n o St N c s c' s' tr r E)|exact F]. Qed.
Theorem opening_tells {St} (N : net St) user password s c' s' tr r : opens (watched N) user password (s, []) (c', (s', tr)) r -> first_told tr r.
Proof. intros (n & E & F). apply report_told; [exact (rp_create n St N _ s c' s' tr r E)|exact F]. Qed.

(** ** How it reads *)
Lemma hears_code md s : hears md (str "code") s -> get_code md = s.
Proof. intros [s' H|H|v K H N|v K _ _]; unfold get_code; [now rewrite H|now rewrite H| |discriminate K]. rewrite H. destruct v; try reflexivity. now elim (N s0). Qed.
Lemma hears_message md s : hears md (str "message") s -> get_message md = s.
Proof. intros [s' H|H|v K _ _|v K H N]; unfold get_message; [now rewrite H|now rewrite H|discriminate K|]. rewrite H. destruct v; try reflexivity. now elim (N s0). Qed.
Theorem failure_reads md code message : hears md (str "code") code -> hears md (str "message") message ->
  failure_text md = str "code: [" ++ code ++ str "]; message: [" ++ message ++ str "]".
Proof. intros H1 H2. unfold failure_text. now rewrite (hears_code _ _ H1), (hears_message _ _ H2). Qed.
Theorem heard_always md : exists code message, hears md (str "code") code /\ hears md (str "message") message
  /\ failure_text md = str "code: [" ++ code ++ str "]; message: [" ++ message ++ str "]".
Proof.
  assert (A : exists code, hears md (str "code") code).
  { destruct (map_get md (str "code")) as [v|] eqn:E; [|eexists; now apply hears_none].
    destruct v; try (eexists; eapply hears_odd_code; [reflexivity|exact E|discriminate]). eexists. apply hears_it. exact E. }
  assert (B : exists message, hears md (str "message") message).
  { destruct (map_get md (str "message")) as [v|] eqn:E; [|eexists; now apply hears_none].
    destruct v; try (eexists; eapply hears_odd_message; [reflexivity|exact E|discriminate]). eexists. apply hears_it. exact E. }
  destruct A as [code A]. destruct B as [message B]. exists code, message. split; [exact A|]. split; [exact B|]. now apply failure_reads.
Qed.
Lemma until_bracket a1 a2 (x1 x2 : bytes) : ~ In "]"%byte a1 -> ~ In "]"%byte a2 -> a1 ++ "]"%byte :: x1 = a2 ++ "]"%byte :: x2 -> a1 = a2 /\ x1 = x2.
Proof.
  revert a2. induction a1 as [|y a1 IH]; intros [|z a2] H1 H2 E; cbn [app] in E; injection E.
  - auto.
  - intros _ <-. destruct H2. now left.
  - intros _ ->. destruct H1. now left.
  - intros E2 ->. destruct (IH a2) as [-> ->]; auto; intros H; [apply H1|apply H2]; now right.
Qed.
Theorem failure_readable md1 md2 : failure_text md1 = failure_text md2 -> ~ In "]"%byte (get_code md1) -> ~ In "]"%byte (get_code md2) ->
  get_code md1 = get_code md2 /\ get_message md1 = get_message md2.
Proof.
  unfold failure_text. intros E H1 H2. apply app_inv_head in E.
  change (str "]; message: [") with ("]"%byte :: str "; message: [") in E. cbn [app] in E.
  apply until_bracket in E as [E1 E2]; auto. split; [exact E1|]. apply app_inv_head in E2. now apply app_inv_tail in E2.
Qed.
Lemma inner_chain md : forall e, inner_most e = EFailure md -> e = EFailure md \/ exists m ms, chain (wrap (Some (EFailure md)) m) ms e.
Proof.
  fix IH 1. intros [t|[i| ] m|i t| | | | |n|md'|t] H; try discriminate H; [|now left].
  right. pose proof (IH i) as IHi. clear IH. cbn [inner_most] in H.
  assert (D : (exists j k, i = EWrap j k) \/ i = EFailure md).
  { destruct i as [t|j k|j t| | | | |n|md'|t]; try discriminate H; eauto. }
  destruct D as [(j & k & ->)| ->].
  - destruct (IHi H) as [E|(m0 & ms & C)]; [discriminate E|]. exists m0, (m :: ms). now apply (chain_wrap _ ms (EWrap j k) m).
  - exists m, []. constructor.
Qed.
(** Whatever is wrapped around it, the text of a failure can be read in the text of the error. *)
Theorem failure_shown W e md : plain_failures W -> inner_most e = EFailure md -> mentions (failure_text md) (error_text W e).
Proof.
  intros P H. apply inner_chain in H as [->|(m & ms & C)].
  - exists [], []. rewrite app_nil_r. exact (P md).
  - rewrite (text_of_foreign W (EFailure md) m ms e eq_refl C), P.
    exists (outline 0 (map (w_wrap W) (ms ++ [m])) ++ str "Internal Error(" ++ w_type W (EFailure md) ++ str "):"), (trailer (w_stack W (wrap (Some (EFailure md)) m))).
    now rewrite <- !app_assoc.
Qed.

(** ** When the reset fails too *)
Lemma reset_text W F e md : error_text (after_reset W F e) (EWrap (Some (EFailure md)) 21)
  = F (error_text W e) ++ [x0a] ++ str "Internal Error(" ++ w_type W (EFailure md) ++ str "):" ++ w_other W (EFailure md) ++ trailer (w_stack W (EWrap (Some (EFailure md)) 21)).
Proof.
  change (EWrap (Some (EFailure md)) 21) with (wrap (Some (EFailure md)) 21) at 1.
  rewrite (text_of_foreign (after_reset W F e) (EFailure md) 21 [] _ eq_refl (chain_start _)).
  cbn [map app outline repeat after_reset w_wrap w_type w_other w_stack]. rewrite <- !app_assoc. reflexivity.
Qed.
Theorem reset_told W F e md : formats F -> ~ In "%"%byte (error_text W e) ->
  in_order [error_text W e; w_other W (EFailure md)] (error_text (after_reset W F e) (EWrap (Some (EFailure md)) 21)).
Proof.
  intros [F1 _] H. rewrite reset_text, (F1 _ H). apply (in_order_more []).
  rewrite !app_assoc. rewrite <- (app_assoc _ (w_other W (EFailure md))). apply in_order_more. constructor.
Qed.

(** A server that answers what it is asked to, in turn. *)
Definition replies : net (list gval) := {|
  n_send _ _ _ s := (s, None);
  n_recv _ s := match s with [] => ([], Err EEOF) | m :: s' => (s', Ok m) end;
  n_hang s := (s, None);
  n_dial s := (s, None);
  n_write b s := (s, (zlen b, None));
  n_read _ s := (s, ([x00; x00; x00; x04], None));
  n_probe s := (s, Some ETimeout)
|}.
Definition first_md : gomap := [(str "code", GStr (str "Neo.ClientError.Statement.SyntaxError")); (str "message", GStr (str "no"))].
Definition second_md : gomap := [(str "code", GStr (str "Neo.DatabaseError.General.UnknownError")); (str "message", GStr (str "99%full"))].
Definition plain_words : wording := mkWording (fun _ => str "new") (fun _ => str "wrapped") (fun _ => str "sentinel") (fun _ => str "main.go:7")
  (fun _ => str "messages.FailureMessage") (fun e => match e with EFailure md => failure_text md | _ => str "other" end).
Lemma plain_plain : plain_failures plain_words. Proof. intros md. reflexivity. Qed.
Fixpoint before_percent (l : bytes) : bytes := match l with [] => [] | x :: l' => if Byte.eqb x "%" then [] else x :: before_percent l' end.
Theorem reset_garbled : exists c c' s' tr,
  does (watched replies) (CQuery (str "RETRUN 1") [] []) (c, ([GFailure first_md; GFailure second_md], [])) (c', (s', tr)) (Err (EWrap (Some (EFailure first_md)) 21))
  /\ complaints tr = [first_md; second_md]
  /\ (exists n c1 s1, exec replies (reset n) c [GFailure second_md] = (c1, s1, Err (EWrap (Some (EFailure second_md)) 24)))
  /\ forall F, formats F -> ~ mentions (str "99%full") (error_text (after_reset plain_words F (EWrap (Some (EFailure second_md)) 24)) (EWrap (Some (EFailure first_md)) 21)).
Proof.
  exists (set_proto P4 (fresh_conn [] [])). do 3 eexists. split; [exists 10%nat; split; [vm_compute; reflexivity|discriminate]|].
  split; [reflexivity|]. split; [exists 9%nat; do 2 eexists; vm_compute; reflexivity|].
  intros F [F1 F2].
  rewrite reset_text.
    set (t := error_text plain_words (EWrap (Some (EFailure second_md)) 24)).
    assert (E : exists a b, t = a ++ "%"%byte :: "f"%byte :: b /\ forallb (fun x => negb (Byte.eqb x "%")) a = true /\ forallb (fun x => negb (Byte.eqb x "%")) b = true
      /\ contains (str "99%full") (a ++ (str "%!" ++ "f"%byte :: str "(MISSING)" ++ b) ++ [x0a] ++ str "Internal Error(" ++ w_type plain_words (EFailure first_md)
           ++ str "):" ++ w_other plain_words (EFailure first_md) ++ trailer (w_stack plain_words (EWrap (Some (EFailure first_md)) 21))) = false).
    { exists (before_percent t), (skipn (length (before_percent t) + 2) t). vm_compute. auto. }
    destruct E as (a & b & -> & Ha & Hb & Hc).
    assert (K : forall l, forallb (fun x => negb (Byte.eqb x "%")) l = true -> ~ In "%"%byte l).
    { intros l H I. rewrite forallb_forall in H. specialize (H _ I). discriminate H. }
    rewrite F2; [|now apply K|vm_compute; split; discriminate]. rewrite (F1 b); [|now apply K].
    intros (x & y & E). rewrite <- app_assoc in E. rewrite E in Hc. rewrite contains_mid in Hc. discriminate Hc.
Qed.
