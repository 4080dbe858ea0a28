(** A call stops at the first error of the network: C106. *)
From Coq Require Import String ZArith List Bool Lia.
From Verif Require Import Bytes GoVal GoErr Messages Connection Link ExecFacts SpecSession WatchFacts SpecStop.
Import ListNotations.
Open Scope Z_scope.

Definition stops {A} (p : prog A) : Prop :=
  forall St (N : net St) c s c' s' tr r, exec (watched N) p c (s, []) = (c', (s', tr), r) -> gives_up tr r.

Lemma st_ret {A} (r : res A) : stops (Ret r).
Proof. intros St N c s c' s' tr r' E. injection E as _ _ <- _. left. intros v []. Qed.
Lemma st_get {A} (k : conn -> prog A) : (forall c, stops (k c)) -> stops (Get k).
Proof. intros H St N c s c' s' tr r E. exact (H c St N c s c' s' tr r E). Qed.
Lemma st_upd {A} f (k : prog A) : stops k -> stops (Upd f k).
Proof. intros H St N c s c' s' tr r E. exact (H St N (f c) s c' s' tr r E). Qed.
(** What follows an outcome that is no success does nothing and is no success either. *)
Lemma st_bindr {A B} (p : prog A) (f : res A -> prog B) : stops p -> (forall a, stops (f (Ok a))) ->
  (forall r, (forall a, r <> Ok a) -> exists r', f r = Ret r' /\ forall b, r' <> Ok b) -> stops (bindr p f).
Proof.
  intros Hp Hf Hn St N c s c' s' tr r E. rewrite exec_bindr in E.
  destruct (exec (watched N) p c (s, [])) as [[c1 [s1 tr1]] r1] eqn:E1. pose proof (Hp _ _ _ _ _ _ _ _ E1) as G.
  destruct (match r1 with Ok a => true | _ => false end) eqn:B1.
  - destruct r1 as [a| | |]; try discriminate B1. rewrite watched_prefix in E.
    destruct (exec (watched N) (f (Ok a)) c1 (s1, [])) as [[c2 [s2 tr2]] r2] eqn:E2. cbn [fst snd] in E. injection E as <- <- <- <-.
    destruct G as [G|(b1 & v1 & _ & _ & _ & G)]; [|now destruct (G a)].
    destruct (Hf a _ _ _ _ _ _ _ _ E2) as [H|(b & v & -> & H1 & H2 & H3)].
    + left. intros v Hv. apply in_app_or in Hv as [Hv|Hv]; auto.
    + right. exists (tr1 ++ b), v. rewrite app_assoc. repeat split; auto. intros u Hu. apply in_app_or in Hu as [Hu|Hu]; auto.
  - destruct (Hn r1) as (r' & Er & Nr); [intros a ->; discriminate B1|]. rewrite Er in E. cbn in E. injection E as <- <- <- <-.
    destruct G as [G|(b & v & G1 & G2 & G3 & _)]; [now left|right; eauto 10].
Qed.
Lemma st_bind {A B} (p : prog A) (f : A -> prog B) : stops p -> (forall a, stops (f a)) -> stops (bind p f).
Proof.
  intros Hp Hf. apply st_bindr; auto. intros [a|e| |] H; [now destruct (H a)|..]; (eexists; split; [reflexivity|discriminate]).
Qed.
Lemma st_wrap {A} m (p : prog A) : stops p -> stops (pwrap m p).
Proof.
  intros Hp. apply st_bindr; auto; [intros a; apply st_ret|].
  intros [a|e| |] H; [now destruct (H a)|..]; (eexists; split; [reflexivity|discriminate]).
Qed.
Lemma st_one v (Hv : failed v = false) : forall u, In u [v] -> failed u = false.
Proof. intros u [<-|[]]. exact Hv. Qed.
Lemma st_last {A} v (r : res A) : failed v = true -> (forall a, r <> Ok a) -> gives_up [v] r.
Proof. intros Hv Hr. right. exists [], v. repeat split; auto. intros u []. Qed.
Lemma st_send m : stops (send_message m).
Proof.
  intros St N c s c' s' tr r E. unfold send_message in E. cbn [exec watched n_send] in E. cbn [fst snd] in E.
  destruct (n_send N _ _ m s) as [s1 [e|]]; cbn in E; injection E as _ _ <- <-.
  - apply st_last; [reflexivity|discriminate].
  - left. now apply st_one.
Qed.
Lemma st_recv : stops recv_message.
Proof.
  intros St N c s c' s' tr r E. unfold recv_message in E. cbn [exec watched n_recv] in E. cbn [fst snd] in E.
  destruct (n_recv N _ s) as [s1 [a|e| |]]; cbn in E; injection E as _ _ <- <-.
  - left. now apply st_one.
  - apply st_last; [reflexivity|discriminate].
  - apply st_last; [reflexivity|discriminate].
  - apply st_last; [reflexivity|discriminate].
Qed.
Lemma st_hang : stops (Hang (fun e => Upd set_closed (match e with Some e => fail e | None => ok_unit end))).
Proof.
  intros St N c s c' s' tr r E. cbn [exec watched n_hang] in E. cbn [fst snd] in E.
  destruct (n_hang N s) as [s1 [e|]]; cbn in E; injection E as _ _ <- <-.
  - apply st_last; [reflexivity|discriminate].
  - left. now apply st_one.
Qed.
Lemma st_tx_end cons t sel : stops cons -> stops (tx_end cons t sel).
Proof.
  intro H. apply st_get. intro c. destruct (tx_closed c t); [apply st_ret|]. destruct (sel (c_proto c)) as [m nat].
  apply st_bind; [apply st_send|intros _]. apply st_bind; [destruct nat; [apply st_ret|apply st_send]|intros _].
  apply st_bind; [exact H|intro a]. apply st_bind; [destruct nat; [apply st_ret|exact H]|intro b].
  destruct (negb (is_success a)); [apply st_ret|]. destruct (negb nat && _); [apply st_ret|]. apply st_upd, st_ret.
Qed.
Lemma st_close_with rb : (forall t, stops (rb t)) -> stops (close_with rb).
Proof.
  intros H. apply st_get. intro c. destruct (c_closed c); [apply st_ret|].
  apply st_bind; [destruct (c_transaction c); [apply H|apply st_ret]|intros _].
  apply st_bind; [destruct (get_close_message _); [apply st_send|apply st_ret]|intros _]. apply st_hang.
Qed.
(** A failure of the server is an error of the call whatever becomes of the amends. *)
Lemma st_amends {A B} (p : prog A) (e : A -> gerr) (e' : gerr -> gerr) : stops p ->
  stops (bindr p (fun r => match r with Ok a => fail (e a) | Err x => fail (e' x) | Panic => Ret Panic | NoFuel => Ret NoFuel end) : prog B).
Proof.
  intros Hp. apply st_bindr; auto; [intros a; apply st_ret|].
  intros [a|x| |] H; [now destruct (H a)|..]; (eexists; split; [reflexivity|discriminate]).
Qed.
Lemma st_core n : stops (consume n) /\ stops (reset n) /\ stops (reset_loop n) /\ stops (close n) /\ forall t, stops (rollback n t).
Proof.
  induction n as [|n (I1 & I2 & I3 & I4 & I5)]; [repeat split; intros; apply st_ret|]. repeat split.
  - cbn [consume]. apply st_bind; [apply st_recv|]. intros m. destruct m; try apply st_ret.
    apply (st_amends _ (fun _ => EWrap (Some (EFailure _)) 20) (fun _ => EWrap (Some (EFailure _)) 21)). exact I2.
  - cbn [reset]. apply st_bind; [apply st_wrap, st_send|]. intros _. exact I3.
  - cbn [reset_loop]. apply st_bind; [apply st_wrap, st_recv|].
    assert (X : forall y, stops (bindr (close n) (fun r => match r with Panic => Ret Panic | NoFuel => Ret NoFuel | _ => fail y end) : prog unit)).
    { intros y. apply st_bindr; auto; [intros a; apply st_ret|].
      intros [a|x| |] H; [now destruct (H a)|..]; (eexists; split; [reflexivity|discriminate]). }
    intros m. destruct m; try apply X; auto. apply st_ret.
  - cbn [close]. now apply st_close_with.
  - intros t. cbn [rollback]. now apply st_tx_end.
Qed.
Lemma st_consume n : stops (consume n). Proof. apply st_core. Qed.
Lemma st_rollback n t : stops (rollback n t). Proof. apply st_core. Qed.
Lemma st_close n : stops (close n). Proof. apply st_core. Qed.
Lemma st_fetch n k : forall acc, stops (fetch n k acc).
Proof.
  induction k as [|k IH]; intro acc; [apply st_ret|]. cbn [fetch]. apply st_bind; [apply st_consume|]. intro m.
  destruct m; try apply st_ret. apply IH.
Qed.
Lemma st_query n q ps db t : stops (query_db n q ps db t).
Proof.
  apply st_get. intro c. destruct (negb _ && _); [apply st_ret|]. unfold run_query.
  intros St N c1 s c' s' tr r E. change (exec (watched N) (Lock ?p) c1 (s, [])) with (exec (watched N) p c1 (s, [])) in E.
  rewrite exec_bindr in E.
  match type of E with context [exec _ ?p c1 (s, [])] =>
    assert (F : stops p); [|destruct (exec (watched N) p c1 (s, [])) as [[c2 [s2 tr2]] r2] eqn:E1] end.
  - apply st_get. intro c2. destruct (c_closed c2); [apply st_ret|].
    apply st_bind; [apply st_send|intros _]. apply st_bind; [apply st_send|intros _]. apply st_bind; [apply st_consume|].
    intro m. destruct (is_success m); [apply st_fetch|apply st_ret].
  - cbn in E. injection E as <- <- <- <-. exact (F _ _ _ _ _ _ _ _ E1).
Qed.
Lemma st_call n o : stops (do_call n o).
Proof.
  assert (M : forall A B (f : A -> B) p, stops p -> stops (pmap f p)).
  { intros A B f p H. apply st_bind; [exact H|intro; apply st_ret]. }
  assert (X : forall k q ps db t, stops (exec_db k q ps db t)).
  { intros. apply st_bind; [apply st_query|intro; apply st_ret]. }
  destruct o; cbn [do_call]; try apply M; try apply X; try apply st_query; try apply st_rollback; try apply st_close.
  - apply st_get. intro c. destruct (c_transaction c); [apply st_ret|]. destruct (c_closed c); [apply st_ret|].
    destruct (get_begin_message _ _ _) as [m nat].
    apply st_bind; [apply st_send|intros _]. apply st_bind; [destruct nat; [apply st_ret|apply st_send]|intros _].
    apply st_bind; [apply st_consume|intro a]. apply st_bind; [destruct nat; [apply st_ret|apply st_consume]|intro b].
    destruct (negb (is_success a)); [apply st_ret|]. destruct (negb nat && _); [apply st_ret|].
    apply st_get. intro c'. apply st_upd, st_ret.
  - apply st_tx_end, st_consume.
  - apply st_get. intro c. destruct (c_transaction c); [apply st_rollback|apply st_ret].
  - apply st_get. intro c. destruct (c_closed c); [apply st_ret|].
    intros St N c1 s c' s' tr r E. cbn [exec watched n_probe] in E. cbn [fst snd] in E.
    destruct (n_probe N s) as [s1 e]. injection E as _ _ <- _. left. now apply st_one.
  - apply st_upd, st_ret.
Qed.
(** One effect before a program. *)
Lemma st_then {A} (p : prog A) St (N : net St) c s v c' s' tr r : stops p -> failed v = false ->
  exec (watched N) p c (s, [v]) = (c', (s', tr), r) -> gives_up tr r.
Proof.
  intros Hp Hv E. rewrite watched_prefix in E. destruct (exec (watched N) p c (s, [])) as [[c2 [s2 tr2]] r2] eqn:E2.
  cbn [fst snd] in E. injection E as <- <- <- <-. destruct (Hp _ _ _ _ _ _ _ _ E2) as [H|(b & u & -> & H1 & H2 & H3)].
  - left. intros u [<-|Hu]; auto.
  - right. exists (v :: b), u. repeat split; auto. intros x [<-|Hx]; auto.
Qed.
Lemma st_handshake : stops handshake.
Proof.
  intros St N c s c' s' tr r E. unfold handshake in E. cbn [exec watched n_write] in E. cbn [fst snd] in E.
  destruct (n_write N _ s) as [s1 [w [e|]]]; cbn in E.
  - injection E as _ _ <- <-. apply st_last; [reflexivity|discriminate].
  - apply (st_then (if negb (w =? 20) then fail (EFmt None (TMsg 12)) else RawRead 4 (fun r =>
          match r with
          | (_, Some e) => fail e
          | (b, None) =>
              if negb (zlen b =? 4) then fail (EFmt None (TMsg 13))
              else if bytes_eqb b no_version_supported then fail (ENew (TMsg 14))
              else Ret (Ok b)
          end)) St N c s1 (VWrite handshake_bytes (w, None)) c' s' tr r); [|reflexivity|exact E].
    destruct (negb (w =? 20)); [apply st_ret|]. clear. intros St N c s c' s' tr r E. cbn [exec watched n_read] in E. cbn [fst snd] in E.
    destruct (n_read N 4 s) as [s1 [b [e|]]]; cbn [app] in E.
    + cbn in E. injection E as _ _ <- <-. apply st_last; [reflexivity|discriminate].
    + left. assert (tr = [VRead (b, None)]) as -> by (destruct (negb _); [now injection E|destruct (bytes_eqb _ _); now injection E]).
      now apply st_one.
Qed.
Lemma st_create n : stops (create_bolt_conn n).
Proof.
  intros St N c s c' s' tr r E. unfold create_bolt_conn, initialize in E. cbn [exec watched n_dial] in E. cbn [fst snd] in E.
  destruct (n_dial N s) as [s1 [e|]]; cbn [app] in E.
  - cbn in E. injection E as _ _ <- <-. apply st_last; [reflexivity|discriminate].
  - eapply (st_then _ St N c s1 (VDial None)); [|reflexivity|exact E]. apply st_bindr; [apply st_handshake| |].
    + intros vb. destruct (get_protocol (Some vb)) as [[[p|] x] e]; [|destruct e; apply st_ret].
      apply st_upd, st_get. intros c0. unfold send_init. apply st_bind; [apply st_send|intros _]. apply st_bind; [apply st_consume|].
      intros m. destruct m; try apply st_close. apply st_ret.
    + intros [a|x| |] H; [now destruct (H a)|..]; (eexists; split; [reflexivity|discriminate]).
Qed.

Lemma call_stops {St} (N : net St) o c s c' s' tr r : does (watched N) o (c, (s, [])) (c', (s', tr)) r -> gives_up tr r.
Proof. intros (n & E & _). exact (st_call n o St N c s c' s' tr r E). Qed.
Lemma opening_stops {St} (N : net St) user password s c' s' tr r : opens (watched N) user password (s, []) (c', (s', tr)) r -> gives_up tr r.
Proof. intros (n & E & _). exact (st_create n St N _ s c' s' tr r E). Qed.
