(** The discipline of SpecTalk.v holds of every call on every network (proofs): C87. *)
From Coq Require Import String ZArith List Bool Lia.
From Verif Require Import Bytes GoVal GoErr Decoder Messages Connection ExecFacts Link SpecSession WatchFacts SpecTalk.
Import ListNotations.
Open Scope Z_scope.

Lemma walk_app a b st : walk st (a ++ b) = match walk st a with Some st' => walk st' b | None => None end.
Proof. revert st. induction a as [|v a IH]; intro st; [reflexivity|]. cbn. destruct (talk_next st v); auto. Qed.

Definition talks {A} (p : prog A) (st : talk) (Q : talk -> res A -> Prop) : Prop :=
  forall St (N : net St) c s c' s' tr r, exec (watched N) p c (s, []) = (c', (s', tr), r) -> exists st', walk st tr = Some st' /\ Q st' r.

Lemma t_ret {A} (r : res A) st (Q : talk -> res A -> Prop) : Q st r -> talks (Ret r) st Q.
Proof. intros H St N c s c' s' tr r' E. injection E as _ _ <- <-. exists st. auto. Qed.
Lemma t_get {A} (k : conn -> prog A) st Q : (forall c, talks (k c) st Q) -> talks (Get k) st Q.
Proof. intros H St N c s c' s' tr r E. exact (H c St N c s c' s' tr r E). Qed.
Lemma t_upd {A} f (k : prog A) st Q : talks k st Q -> talks (Upd f k) st Q.
Proof. intros H St N c s c' s' tr r E. exact (H St N (f c) s c' s' tr r E). Qed.
Lemma t_lock {A} (k : prog A) st Q : talks k st Q -> talks (Lock k) st Q.
Proof. intros H St N c s c' s' tr r E. exact (H St N c s c' s' tr r E). Qed.
Lemma t_unlock {A} (k : prog A) st Q : talks k st Q -> talks (Unlock k) st Q.
Proof. intros H St N c s c' s' tr r E. exact (H St N c s c' s' tr r E). Qed.
Lemma t_weak {A} (p : prog A) st (Q Q' : talk -> res A -> Prop) : talks p st Q -> (forall st r, Q st r -> Q' st r) -> talks p st Q'.
Proof. intros H Hq St N c s c' s' tr r E. destruct (H St N c s c' s' tr r E) as (st' & H1 & H2). eauto. Qed.
Lemma t_bindr {A B} (p : prog A) (f : res A -> prog B) st Q1 Q :
  talks p st Q1 -> (forall st1 r1, Q1 st1 r1 -> talks (f r1) st1 Q) -> talks (bindr p f) st Q.
Proof.
  intros Hp Hf St N c s c' s' tr r E. rewrite exec_bindr in E.
  destruct (exec (watched N) p c (s, [])) as [[c1 [s1 tr1]] r1] eqn:E1.
  destruct (Hp _ _ _ _ _ _ _ _ E1) as (st1 & W1 & H1).
  rewrite watched_prefix in E. destruct (exec (watched N) (f r1) c1 (s1, [])) as [[c2 [s2 tr2]] r2] eqn:E2.
  cbn [fst snd] in E. injection E as <- <- <- <-. destruct (Hf _ _ H1 _ _ _ _ _ _ _ _ E2) as (st2 & W2 & H2).
  exists st2. rewrite walk_app, W1. auto.
Qed.
(** The usual postcondition: success with [P], or an error after which nothing is left to do. *)
Definition fine_end {A} (P : talk -> A -> Prop) (st : talk) (r : res A) : Prop :=
  match r with Ok a => P st a | NoFuel => True | _ => settled_talk st = true end.
Lemma t_bind {A B} (p : prog A) (f : A -> prog B) st P1 P :
  talks p st (fine_end P1) -> (forall st1 a, P1 st1 a -> talks (f a) st1 (fine_end P)) -> talks (bind p f) st (fine_end P).
Proof. intros Hp Hf. unfold bind. eapply t_bindr; [exact Hp|]. intros st1 [a|e| |] H; [now apply Hf|..]; now apply t_ret. Qed.

Ltac it_walks := cbn; eexists; split; [reflexivity|]; cbn; auto.
Lemma t_send m n : is_reset m = false -> is_goodbye m = false -> talks (send_message m) (Owes n) (fine_end (fun st _ => st = Owes (S n))).
Proof.
  intros H1 H2 St N c s c' s' tr r E. unfold send_message in E. cbn [exec watched n_send fst snd] in E.
  destruct (n_send N _ _ m s) as [s1 [e|]]; cbn in E; injection E as _ _ <- <-; destruct n; cbn; rewrite H1, H2; it_walks.
Qed.
Lemma t_bye n : talks (send_message (GStructure 2 [])) (Owes n) (fine_end (fun st _ => st = Leaves)).
Proof.
  intros St N c s c' s' tr r E. unfold send_message in E. cbn [exec watched n_send fst snd] in E.
  destruct (n_send N _ _ _ s) as [s1 [e|]]; cbn in E; injection E as _ _ <- <-; destruct n; it_walks.
Qed.
Lemma t_send_reset : talks (send_message reset_message) Blamed (fine_end (fun st _ => st = Resets)).
Proof.
  intros St N c s c' s' tr r E. unfold send_message in E. cbn [exec watched n_send fst snd] in E.
  destruct (n_send N _ _ _ s) as [s1 [e|]]; cbn in E; injection E as _ _ <- <-; it_walks.
Qed.
Definition got (k : nat) (m : gval) : talk :=
  match m with GRecord _ => Owes (S k) | GFailure _ => Blamed | _ => Owes k end.
Lemma t_recv k : talks recv_message (Owes (S k)) (fine_end (fun st m => st = got k m)).
Proof.
  intros St N c s c' s' tr r E. unfold recv_message in E. cbn [exec watched n_recv fst snd] in E.
  destruct (n_recv N _ s) as [s1 [m|e| |]]; cbn in E; injection E as _ _ <- <-; it_walks.
Qed.
Lemma t_recv_reset : talks recv_message Resets (fine_end (fun st m => st = match m with GIgnored => Resets | _ => Owes 0 end)).
Proof.
  intros St N c s c' s' tr r E. unfold recv_message in E. cbn [exec watched n_recv fst snd] in E.
  destruct (n_recv N _ s) as [s1 [m|e| |]]; cbn in E; injection E as _ _ <- <-; it_walks.
Qed.
Lemma t_pwrap {A} m (p : prog A) st P : talks p st (fine_end P) -> talks (pwrap m p) st (fine_end P).
Proof. intros H. unfold pwrap. eapply t_bindr; [exact H|]. intros st1 [a|e| |] H1; now apply t_ret. Qed.
Lemma t_hang st n : st = Owes n \/ st = Leaves ->
  talks (Hang (fun e => Upd set_closed (match e with Some e => fail e | None => ok_unit end))) st (fine_end (fun st _ => st = Parted)).
Proof.
  intros Hst St N c s c' s' tr r E. cbn [exec watched n_hang fst snd] in E.
  destruct (n_hang N s) as [s1 [e|]]; cbn in E; injection E as _ _ <- <-; destruct Hst as [-> | ->]; try destruct n; it_walks.
Qed.

Lemma pull_plain p : is_reset (get_pull_all_message p) = false /\ is_goodbye (get_pull_all_message p) = false.
Proof. now destruct p. Qed.
Definition plain_msg (x : gval * bool) : Prop := is_reset (fst x) = false /\ is_goodbye (fst x) = false.

Definition eats (p : prog gval) : Prop := forall k, talks p (Owes (S k)) (fine_end (fun st m => match m with GFailure _ => False | _ => True end /\ st = got k m)).
Lemma two_answers (cons : prog gval) m native pull {A} (last : prog A) P e2 e3 j : eats cons ->
  is_reset m = false -> is_goodbye m = false -> is_reset pull = false -> is_goodbye pull = false ->
  talks last (Owes j) (fine_end P) ->
  talks (_ <~ send_message m ;; _ <~ (if native : bool then ok_unit else send_message pull) ;;
         runSucc <~ cons ;; pullSucc <~ (if native then Ret (Ok GNil) else cons) ;;
         if negb (is_success runSucc) then fail e2 else if negb native && negb (is_success pullSucc) then fail e3 else last)
    (Owes j) (fine_end P).
Proof.
  intros Hc H1 H2 H3 H4 Hl. eapply t_bind; [now apply t_send|]. cbn beta. intros st _ ->.
  apply t_bind with (P1 := fun st _ => st = if native then Owes (S j) else Owes (S (S j))).
  { destruct native; [now apply t_ret|]. eapply t_weak; [now apply t_send|]. intros st [a|e| |]; auto. }
  intros st _ ->. destruct native.
  - eapply t_bind; [apply (Hc j)|]. intros st m1 [Hf ->]. eapply t_bind; [apply t_ret with (Q := fine_end (fun st x => st = got j m1)); reflexivity|].
    intros st m2 ->. destruct m1; try contradiction; cbn; try (now apply t_ret). exact Hl.
  - eapply t_bind; [apply (Hc (S j))|]. intros st m1 [Hf ->].
    assert (exists k, got (S j) m1 = Owes (S k) /\ (is_success m1 = true -> k = j)) as (k & Ek & Hk).
    { destruct m1; try contradiction; cbn; eauto. exists (S j). split; [reflexivity|discriminate]. }
    rewrite Ek. eapply t_bind; [apply Hc|]. intros st m2 [Hf2 ->].
    destruct (is_success m1) eqn:E1; cbn [negb]; [|apply t_ret; now destruct m2].
    rewrite (Hk eq_refl). destruct (is_success m2) eqn:E2; cbn; [|apply t_ret; now destruct m2].
    destruct m2; try discriminate. exact Hl.
Qed.
Lemma t_tx_end cons t msg j : eats cons -> (forall p, plain_msg (msg p)) -> talks (tx_end cons t msg) (Owes j) (fine_end (fun st _ => st = Owes j)).
Proof.
  intros Hc Hm. apply t_get. intro c. destruct (tx_closed c t); [now apply t_ret|].
  specialize (Hm (c_proto c)). destruct (msg (c_proto c)) as [m native]. destruct Hm as [H1 H2]. cbn [fst] in *.
  destruct (pull_plain (c_proto c)). apply two_answers; auto. apply t_upd. now apply t_ret.
Qed.
Lemma plain_rollback p : plain_msg (get_rollback_message p). Proof. now destruct p. Qed.
Lemma plain_commit p : plain_msg (get_commit_message p). Proof. now destruct p. Qed.
Lemma t_core n : eats (consume n) /\ talks (reset n) Blamed (fine_end (fun st _ => st = Owes 0))
  /\ talks (reset_loop n) Resets (fine_end (fun st _ => st = Owes 0))
  /\ (forall j, talks (close n) (Owes j) (fine_end (fun st _ => st = Parted)))
  /\ (forall t j, talks (rollback n t) (Owes j) (fine_end (fun st _ => st = Owes j))).
Proof.
  induction n as [|n (IHc & IHr & IHl & IHcl & IHrb)]; [repeat split; repeat intro; eapply t_ret; eauto; exact Logic.I|].
  repeat split.
  - intros k. cbn [consume]. eapply t_bind; [apply t_recv|]. intros st m ->.
    destruct m; try (apply t_ret; cbn; auto).
    cbn. eapply t_bindr; [apply IHr|]. intros st1 [a|e| |] H; apply t_ret; cbn in *; try exact H. now rewrite H.
  - cbn [reset]. eapply t_bind; [apply t_pwrap, t_send_reset|]. intros st _ ->. apply IHl.
  - cbn [reset_loop]. eapply t_bind; [apply t_pwrap, t_recv_reset|]. intros st m ->.
    assert (Hclose : forall e, talks (bindr (close n) (fun r => match r with Panic => Ret Panic | NoFuel => Ret NoFuel | _ => fail (A := unit) e end))
              (Owes 0) (fine_end (fun st _ => st = Owes 0))).
    { intros e. eapply t_bindr; [apply IHcl|]. intros st1 [a|e'| |] H; apply t_ret; cbn in *; try exact H. now rewrite H. }
    destruct m; try apply Hclose; [now apply t_ret|exact IHl].
  - intro j. cbn [close]. apply t_get. intro c. destruct (c_closed c); [apply t_ret; cbn; auto|].
    apply t_bind with (P1 := fun st _ => st = Owes j); [destruct (c_transaction c); [apply IHrb|now apply t_ret]|]. intros st _ ->.
    apply t_bind with (P1 := fun st _ => st = Owes j \/ st = Leaves).
    { destruct (c_proto c); cbn [get_close_message]; try (apply t_ret; cbn; now left); (eapply t_weak; [apply t_bye|]);
        intros st [a|e| |] H; try exact H; cbn in *; now right. }
    intros st _ Hst. exact (t_hang st j Hst).
  - intros t j. cbn [rollback]. apply t_tx_end; [exact IHc|apply plain_rollback].
Qed.
Lemma t_consume n : eats (consume n). Proof. apply t_core. Qed.
Lemma t_fetch n k : forall acc, talks (fetch n k acc) (Owes 1) (fine_end (fun st _ => st = Owes 0)).
Proof.
  induction k as [|k IH]; intro acc; [now apply t_ret|]. cbn [fetch]. eapply t_bind; [apply t_consume|]. intros st m [Hf ->].
  destruct m; try contradiction; cbn; try (now apply t_ret). apply IH.
Qed.
Lemma run_plain p q ps db mode ac : is_reset (get_run_message p q ps db mode ac) = false /\ is_goodbye (get_run_message p q ps db mode ac) = false.
Proof. destruct p, ac; split; reflexivity. Qed.
Lemma begin_plain p db mode : plain_msg (get_begin_message p db mode). Proof. destruct p; split; reflexivity. Qed.
Definition to0 {A} : talk -> res A -> Prop := fine_end (fun st _ => st = Owes 0).
Lemma t_query n q ps db t : talks (query_db n q ps db t) (Owes 0) to0.
Proof.
  apply t_get. intro c. destruct (negb _ && _); [now apply t_ret|]. unfold run_query. apply t_lock.
  eapply t_bindr with (Q1 := to0); [|intros st1 r1 H; apply t_unlock; now apply t_ret].
  apply t_get. intro c2. destruct (c_closed c2); [now apply t_ret|]. destruct (run_plain (c_proto c2) q ps db (c_mode c2) (negb t)).
  destruct (pull_plain (c_proto c2)). eapply t_bind; [now apply t_send|]. intros st _ ->. eapply t_bind; [now apply t_send|]. intros st _ ->.
  eapply t_bind; [apply t_consume|]. intros st m [Hf ->]. destruct m; try contradiction; cbn; try (now apply t_ret). apply t_fetch.
Qed.
Lemma t_pmap {A B} (f : A -> B) p : talks p (Owes 0) to0 -> talks (pmap f p) (Owes 0) to0.
Proof. intros H. eapply t_bind; [exact H|]. intros st a ->. now apply t_ret. Qed.
Lemma t_call n o : o <> CClose -> talks (do_call n o) (Owes 0) to0.
Proof.
  assert (X : forall q ps db t, talks (exec_db n q ps db t) (Owes 0) to0).
  { intros. eapply t_bind; [apply t_query|]. intros st a ->. now apply t_ret. }
  intros Ho. destruct o; try (now elim Ho); cbn [do_call]; try apply t_pmap; try apply X; try apply t_query; try apply t_core.
  - apply t_get. intro c. destruct (c_transaction c); [now apply t_ret|]. destruct (c_closed c); [now apply t_ret|].
    pose proof (begin_plain (c_proto c) db (c_mode c)) as Hm. destruct (get_begin_message _ _ _) as [m native]. destruct Hm as [H1 H2]. cbn [fst] in *.
    destruct (pull_plain (c_proto c)). apply two_answers; auto; [apply t_consume|]. apply t_get. intro c'. apply t_upd. now apply t_ret.
  - apply t_tx_end; [apply t_consume|apply plain_commit].
  - apply t_get. intro c. destruct (c_transaction c); [apply t_core|now apply t_ret].
  - apply t_get. intro c. destruct (c_closed c); [now apply t_ret|].
    intros St N c1 s c' s' tr r E. cbn [exec watched n_probe fst snd] in E. destruct (n_probe N s) as [s1 e]. injection E as _ _ <- <-. it_walks.
  - apply t_upd. now apply t_ret.
Qed.
Lemma t_call_close n : talks (do_call n CClose) (Owes 0) (fine_end (fun st _ => st = Parted)).
Proof. cbn [do_call]. eapply t_bind; [apply t_core|]. intros st a H. now apply t_ret. Qed.
Lemma t_handshake : talks handshake (Owes 0) to0.
Proof.
  intros St N c s c' s' tr r E. unfold handshake in E. cbn [exec watched n_write n_read fst snd] in E.
  destruct (n_write N _ s) as [s1 [w [e|]]]; cbn in E; [injection E as _ _ <- <-; cbn; eauto|].
  destruct (negb (w =? 20)); [injection E as _ _ <- <-; cbn; eauto|]. cbn [exec watched n_read fst snd] in E.
  destruct (n_read N 4 s1) as [s2 [b [e|]]]; cbn in E; [injection E as _ _ <- <-; cbn; eauto|].
  destruct (negb (zlen b =? 4)); [injection E as _ _ <- <-; cbn; eauto|].
  destruct (bytes_eqb b no_version_supported); injection E as _ _ <- <-; it_walks.
Qed.
Lemma init_plain p cl tok : is_reset (get_init_message p cl tok) = false /\ is_goodbye (get_init_message p cl tok) = false.
Proof. destruct p; split; reflexivity. Qed.
Lemma t_open n : talks (create_bolt_conn n) (Owes 0) (fine_end (fun st _ => st = Owes 0 \/ st = Parted)).
Proof.
  unfold create_bolt_conn, initialize. intros St N c s c' s' tr r E. cbn [exec watched n_dial fst snd] in E.
  destruct (n_dial N s) as [s1 [e|]] eqn:Ed; cbn [exec fail] in E; [injection E as _ _ <- <-; it_walks|].
  match type of E with exec _ ?p c _ = _ => assert (T : talks p (Owes 0) (fine_end (fun st _ => st = Owes 0 \/ st = Parted))); [|set (p0 := p) in *; clearbody p0] end.
  { eapply t_bindr; [apply t_handshake|]. intros st1 [b|e| |] H; [|now apply t_ret..]. cbn in H. subst st1.
    destruct (get_protocol (Some b)) as [[[p|] z] [e|]]; try (now apply t_ret); apply t_upd, t_get; intro c1;
      (destruct (init_plain p client_id (auth_basic (c_user c1) (c_password c1))); unfold send_init;
       eapply t_bind; [now apply t_send|]; intros st _ ->; eapply t_bind; [apply t_consume|]; intros st m [Hf ->];
       destruct m; try contradiction; cbn [got]; try (apply t_ret; cbn; now left);
       (eapply t_weak; [apply t_core|]; intros st' [a|e'| |] H'; cbn in *; auto)). }
  rewrite watched_prefix in E. destruct (exec (watched N) p0 c (s1, [])) as [[c2 [s2 tr2]] r2] eqn:E2. cbn [fst snd] in E. injection E as _ _ <- <-.
  destruct (T _ _ _ _ _ _ _ _ E2) as (st & W & H). exists st. cbn [app walk talk_next unless]. auto.
Qed.

Theorem call_talk {St} (N : net St) o c s c' s' tr r : does (watched N) o (c, (s, [])) (c', (s', tr)) r ->
  exists st, walk (Owes 0) tr = Some st /\ settled_talk st = true
    /\ (forall a, r = Ok a -> st = match o with CClose => Parted | _ => Owes 0 end).
Proof.
  intros (n & E & Hn). cbn [fst snd] in E.
  assert (exists st, walk (Owes 0) tr = Some st /\ fine_end (fun st _ => st = match o with CClose => Parted | _ => Owes 0 end) st r) as (st & W & H).
  { assert (o = CClose \/ o <> CClose) as [-> | Ho] by (destruct o; try (now left); right; discriminate).
    - exact (t_call_close n _ _ _ _ _ _ _ _ E).
    - destruct (t_call n o Ho _ _ _ _ _ _ _ _ E) as (st & W & H). exists st. split; [exact W|]. destruct r; cbn in *; auto. now destruct o. }
  exists st. split; [exact W|]. destruct r as [a|e| |]; cbn in H; split; try exact H; try discriminate; try (now elim Hn).
  - subst st. now destruct o.
  - intros a' [= <-]. exact H.
Qed.
Theorem open_talk {St} (N : net St) user password s c' s' tr r : opens (watched N) user password (s, []) (c', (s', tr)) r ->
  exists st, walk (Owes 0) tr = Some st /\ settled_talk st = true /\ (r = Ok tt -> st = Owes 0 \/ st = Parted).
Proof.
  intros (n & E & Hn). cbn [fst snd] in E. destruct (t_open n _ _ _ _ _ _ _ _ E) as (st & W & H). exists st. split; [exact W|].
  destruct r as [[]| | |]; cbn in H; split; try exact H; try discriminate; try (now elim Hn); try (intros _; exact H). now destruct H as [-> | ->].
Qed.
