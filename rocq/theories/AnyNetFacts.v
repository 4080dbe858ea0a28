(** What holds of the connection on every network, whatever the peer does. *)
From Coq Require Import String ZArith List Bool Lia.
From Verif Require Import Bytes GoVal GoErr Encoder Decoder SpecPack SpecValues SpecCodec SpecServer
  Messages Connection Link ExecFacts Wire SpecSession.
Import ListNotations.
Open Scope Z_scope.

(** ** How the connection's fields evolve *)

Definition txs_ok (c : conn) : Prop := forall t, tx_closed c t = false <-> c_transaction c = Some t.

(** The transaction fields are unchanged, or the open transaction has ended. *)
Definition ages (c c' : conn) : Prop :=
  c_proto c' = c_proto c /\ c_mode c' = c_mode c /\ c_chunk c' = c_chunk c
  /\ (c_closed c = true -> c_closed c' = true)
  /\ (c_txs c' = c_txs c /\ c_transaction c' = c_transaction c
      \/ exists t, c_transaction c = Some t /\ c_transaction c' = None /\ c_txs c' = set_nth t (c_txs c)).

Lemma ages_refl c : ages c c.
Proof. unfold ages. auto 10. Qed.
Lemma ages_trans a b c : ages a b -> ages b c -> ages a c.
Proof.
  intros (A1 & A2 & A3 & A4 & A5) (B1 & B2 & B3 & B4 & B5). unfold ages.
  repeat split; try congruence; auto.
  destruct A5 as [[A5 A6]|(t & A5 & A6 & A7)], B5 as [[B5 B6]|(u & B5 & B6 & B7)].
  - left. split; congruence.
  - right. exists u. repeat split; congruence.
  - right. exists t. repeat split; congruence.
  - congruence.
Qed.
Lemma nth_set_nth' t u l : nth u (set_nth t l) true = if Nat.eqb u t then true else nth u l true.
Proof.
  revert t u. induction l as [|b l IH]; intros t u.
  - destruct t, u; cbn; try destruct (Nat.eqb _ _); reflexivity.
  - destruct t, u; cbn; auto.
Qed.
Lemma set_nth_twice t l : set_nth t (set_nth t l) = set_nth t l.
Proof. revert t. induction l as [|b l IH]; intros [|t]; cbn; try reflexivity. now rewrite IH. Qed.
Lemma set_nth_length t l : length (set_nth t l) = length l.
Proof. revert t. induction l as [|b l IH]; intros [|t]; cbn; auto. Qed.

Lemma ages_txs c c' : txs_ok c -> ages c c' -> txs_ok c'.
Proof.
  intros H (_ & _ & _ & _ & [[E1 E2]|(t & E1 & E2 & E3)]) u; unfold txs_ok, tx_closed in *.
  - rewrite E1, E2. apply H.
  - rewrite E2, E3, nth_set_nth'. split; [|discriminate]. destruct (Nat.eqb u t) eqn:E; [discriminate|].
    rewrite H, E1. intro X. injection X as ->. now rewrite Nat.eqb_refl in E.
Qed.
Lemma ages_end_tx c c' t : txs_ok c -> tx_closed c t = false -> ages c c' -> ages c (end_tx t c').
Proof.
  intros H Ht (A1 & A2 & A3 & A4 & A5). apply H in Ht. unfold ages, end_tx. cbn. repeat split; auto.
  right. exists t. repeat split; auto. destruct A5 as [[A5 A6]|(u & A5 & A6 & A7)].
  - now rewrite A5.
  - rewrite Ht in A5. injection A5 as <-. now rewrite A7, set_nth_twice.
Qed.
Lemma ages_set_closed c c' : ages c c' -> ages c (set_closed c').
Proof. unfold ages, set_closed. cbn. intuition. Qed.

(** [fine p]: running p ages the connection. *)
Definition fine {A} (p : prog A) : Prop :=
  forall St (N : net St) c s, txs_ok c -> ages c (fst (fst (exec N p c s))).

Lemma fine_ret {A} (r : res A) : fine (Ret r).
Proof. intros St N c s _. apply ages_refl. Qed.
Lemma fine_bindr {A B} (p : prog A) (f : res A -> prog B) : fine p -> (forall r, fine (f r)) -> fine (bindr p f).
Proof.
  intros Hp Hf St N c s H. rewrite exec_bindr. specialize (Hp St N c s H).
  destruct (exec N p c s) as [[c1 s1] r]. cbn in Hp. eapply ages_trans; [exact Hp|]. apply Hf. eapply ages_txs; eassumption.
Qed.
Lemma fine_bind {A B} (p : prog A) (f : A -> prog B) : fine p -> (forall a, fine (f a)) -> fine (bind p f).
Proof. intros Hp Hf. apply fine_bindr; [exact Hp|]. intros []; auto using fine_ret. Qed.
Lemma fine_get {A} (k : conn -> prog A) : (forall c, fine (k c)) -> fine (Get k).
Proof. intros H St N c s Hc. cbn [exec]. now apply H. Qed.
Lemma fine_send {A} v cs m (k : option gerr -> prog A) : (forall e, fine (k e)) -> fine (Send v cs m k).
Proof. intros H St N c s Hc. cbn [exec]. destruct (n_send N v cs m s) as [s' r]. now apply H. Qed.
Lemma fine_recv {A} v (k : res gval -> prog A) : (forall e, fine (k e)) -> fine (Recv v k).
Proof. intros H St N c s Hc. cbn [exec]. destruct (n_recv N v s) as [s' r]. now apply H. Qed.
Lemma fine_probe {A} (k : option gerr -> prog A) : (forall e, fine (k e)) -> fine (Probe k).
Proof. intros H St N c s Hc. cbn [exec]. destruct (n_probe N s) as [s' r]. now apply H. Qed.
Lemma fine_send_message m : fine (send_message m).
Proof. apply fine_get. intro c. apply fine_send. intros []; apply fine_ret. Qed.
Lemma fine_recv_message : fine recv_message.
Proof. apply fine_get. intro c. apply fine_recv. intro. apply fine_ret. Qed.
Lemma fine_pwrap {A} m (p : prog A) : fine p -> fine (pwrap m p).
Proof. intro H. apply fine_bindr; [exact H|]. intro. apply fine_ret. Qed.

Lemma fine_tx_end cons t sel : fine cons -> fine (tx_end cons t sel).
Proof.
  intros H St N c s Hc. unfold tx_end. rewrite exec_get. destruct (tx_closed c t) eqn:Et; [apply ages_refl|].
  destruct (sel (c_proto c)) as [m nat].
  set (pre := _ <~ send_message m ;;
      _ <~ (if nat then ok_unit else send_message (get_pull_all_message (c_proto c))) ;;
      runSucc <~ cons ;;
      pullSucc <~ (if nat then Ret (Ok GNil) else cons) ;; Ret (Ok (runSucc, pullSucc))).
  assert (Hpre : fine pre).
  { subst pre. apply fine_bind; [apply fine_send_message|intros _].
    apply fine_bind; [destruct nat; [apply fine_ret|apply fine_send_message]|intros _].
    apply fine_bind; [exact H|intro a]. apply fine_bind; [destruct nat; [apply fine_ret|exact H]|intro b]. apply fine_ret. }
  specialize (Hpre St N c s Hc).
  assert (E : forall (K : gval -> gval -> prog unit),
     exec N (_ <~ send_message m ;;
      _ <~ (if nat then ok_unit else send_message (get_pull_all_message (c_proto c))) ;;
      runSucc <~ cons ;;
      pullSucc <~ (if nat then Ret (Ok GNil) else cons) ;; K runSucc pullSucc) c s
     = exec N (x <~ pre ;; K (fst x) (snd x)) c s).
  { intro K. subst pre. repeat rewrite exec_bind.
    destruct (exec N (send_message m) c s) as [[c1 s1] []]; try reflexivity. rewrite !exec_bind.
    destruct (exec N (if nat then ok_unit else _) c1 s1) as [[c2 s2] []]; try reflexivity. rewrite !exec_bind.
    destruct (exec N cons c2 s2) as [[c3 s3] []]; try reflexivity. rewrite !exec_bind.
    destruct (exec N (if nat then Ret (Ok GNil) else cons) c3 s3) as [[c4 s4] []]; reflexivity. }
  rewrite (E (fun runSucc pullSucc => if negb (is_success runSucc) then fail (ENew (TMsg 2))
      else if negb nat && negb (is_success pullSucc) then fail (ENew (TMsg 3))
      else Upd (end_tx t) ok_unit)).
  rewrite exec_bind. destruct (exec N pre c s) as [[c1 s1] [[a b]| | |]]; cbn in Hpre; try exact Hpre.
  cbn [fst snd]. destruct (negb (is_success a)); [exact Hpre|]. destruct (negb nat && _); [exact Hpre|].
  cbn. now apply ages_end_tx.
Qed.

Lemma fine_hang : fine (Hang (fun e => Upd set_closed (match e with Some e => fail e | None => ok_unit end))).
Proof.
  intros St N c s _. cbn [exec]. destruct (n_hang N s) as [s' []]; cbn; apply ages_set_closed, ages_refl.
Qed.
Lemma fine_close_with rb : (forall t, fine (rb t)) -> fine (close_with rb).
Proof.
  intro H. apply fine_get. intro c. destruct (c_closed c); [apply fine_ret|].
  apply fine_bind; [destruct (c_transaction c); [apply H|apply fine_ret]|intros _].
  apply fine_bind; [destruct (get_close_message _); [apply fine_send_message|apply fine_ret]|intros _]. apply fine_hang.
Qed.

Lemma fine_core n : fine (consume n) /\ fine (reset n) /\ fine (reset_loop n) /\ fine (close n) /\ (forall t, fine (rollback n t)).
Proof.
  induction n as [|n (IHc & IHr & IHl & IHcl & IHrb)].
  { refine (conj _ (conj _ (conj _ (conj _ _)))); intros; apply fine_ret. }
  refine (conj _ (conj _ (conj _ (conj _ _)))).
  - cbn [consume]. apply fine_bind; [apply fine_recv_message|]. intro m. destruct m; try apply fine_ret.
    apply fine_bindr; [exact IHr|]. intros []; apply fine_ret.
  - cbn [reset]. apply fine_bind; [apply fine_pwrap, fine_send_message|intros _; exact IHl].
  - cbn [reset_loop]. apply fine_bind; [apply fine_pwrap, fine_recv_message|]. intro m.
    destruct m; try apply fine_ret; try exact IHl; (apply fine_bindr; [exact IHcl|intros []; apply fine_ret]).
  - cbn [close]. apply fine_close_with, IHrb.
  - intro t. cbn [rollback]. apply fine_tx_end, IHc.
Qed.
Lemma fine_fetch n k : forall acc, fine (fetch n k acc).
Proof.
  induction k as [|k IH]; intro acc; [apply fine_ret|]. cbn [fetch]. apply fine_bind; [apply fine_core|]. intro m.
  destruct m; try apply fine_ret. apply IH.
Qed.
Lemma fine_run_query n q ps db t : fine (run_query n q ps db t).
Proof.
  intros St N c s Hc. unfold run_query. change (exec N (Lock ?p) c s) with (exec N p c s). revert c s Hc.
  change (forall c s, txs_ok c -> ages c (fst (fst (exec N ?p c s)))) with (forall c s, txs_ok c -> ages c (fst (fst (exec N p c s)))).
  refine (fine_bindr _ _ _ _ St N).
  - apply fine_get. intro c. destruct (c_closed c); [apply fine_ret|].
    apply fine_bind; [apply fine_send_message|intros _]. apply fine_bind; [apply fine_send_message|intros _].
    apply fine_bind; [apply fine_core|]. intro m. destruct (is_success m); [apply fine_fetch|apply fine_ret].
  - intros r St' N' c s H. cbn. apply ages_refl.
Qed.
Lemma fine_query_db n q ps db t : fine (query_db n q ps db t).
Proof. apply fine_get. intro c. destruct (negb _ && _); [apply fine_ret|apply fine_run_query]. Qed.
Lemma fine_pmap {A B} (f : A -> B) p : fine p -> fine (pmap f p).
Proof. intro H. apply fine_bind; [exact H|]. intro. apply fine_ret. Qed.

(** Every call but Begin and SetChunkSize. *)
Definition plain_call (o : call) : Prop := match o with CBegin _ | CSetChunk _ => False | _ => True end.
Lemma fine_call n o : plain_call o -> fine (do_call n o).
Proof.
  destruct o; intro H; try elim H; cbn [do_call]; apply fine_pmap.
  - apply fine_query_db.
  - apply fine_bind; [apply fine_query_db|intro; apply fine_ret].
  - apply fine_query_db.
  - apply fine_bind; [apply fine_query_db|intro; apply fine_ret].
  - apply fine_bind; [apply fine_query_db|intro; apply fine_ret].
  - apply fine_tx_end, fine_core.
  - apply fine_core.
  - apply fine_core.
  - apply fine_get. intro c. destruct (c_transaction c); [apply fine_core|apply fine_ret].
  - apply fine_get. intro c. destruct (c_closed c); [apply fine_ret|]. apply fine_probe. intro. apply fine_ret.
Qed.

(** Begin. *)
Lemma begin_effect {St} (N : net St) n db c s c' s' r : txs_ok c ->
  exec N (begin_db n db) c s = (c', s', r) ->
  (r <> Panic -> True) /\
  (ages c c' /\ (forall t, r <> Ok t)
   \/ exists c1, ages c c1 /\ c_transaction c = None /\ c_transaction c1 = None /\ c_closed c = false
      /\ c' = new_tx c1 /\ r = Ok (length (c_txs c1))).
Proof.
  intros Hc E. split; [auto|]. unfold begin_db in E. rewrite exec_get in E.
  destruct (c_transaction c) as [t|] eqn:Et.
  { injection E as <- _ <-. left. split; [apply ages_refl|discriminate]. }
  destruct (c_closed c) eqn:Ecl.
  { injection E as <- _ <-. left. split; [apply ages_refl|discriminate]. }
  destruct (get_begin_message (c_proto c) db (c_mode c)) as [m nat].
  rewrite exec_bind in E. pose proof (fine_send_message m St N c s Hc) as H1.
  destruct (exec N (send_message m) c s) as [[c1 s1] r1]. cbn in H1.
  assert (Hc1 := ages_txs _ _ Hc H1).
  destruct r1; try (injection E as <- _ <-; left; split; [exact H1|discriminate]).
  rewrite exec_bind in E.
  assert (F2 : fine (if nat then ok_unit else send_message (get_pull_all_message (c_proto c)))).
  { destruct nat; [apply fine_ret|apply fine_send_message]. }
  specialize (F2 St N c1 s1 Hc1). destruct (exec N _ c1 s1) as [[c2 s2] r2]. cbn in F2.
  assert (Hc2 := ages_txs _ _ Hc1 F2). assert (A2 := ages_trans _ _ _ H1 F2).
  destruct r2; try (injection E as <- _ <-; left; split; [exact A2|discriminate]).
  rewrite exec_bind in E. pose proof (proj1 (fine_core n) St N c2 s2 Hc2) as F3.
  destruct (exec N (consume n) c2 s2) as [[c3 s3] r3]. cbn in F3.
  assert (Hc3 := ages_txs _ _ Hc2 F3). assert (A3 := ages_trans _ _ _ A2 F3).
  destruct r3 as [a3| | |]; try (injection E as <- _ <-; left; split; [exact A3|discriminate]).
  rewrite exec_bind in E.
  assert (F4 : fine (if nat then Ret (Ok GNil) else consume n)).
  { destruct nat; [apply fine_ret|apply fine_core]. }
  specialize (F4 St N c3 s3 Hc3). destruct (exec N _ c3 s3) as [[c4 s4] r4]. cbn in F4.
  assert (A4 := ages_trans _ _ _ A3 F4).
  destruct r4 as [a4| | |]; try (injection E as <- _ <-; left; split; [exact A4|discriminate]).
  destruct (negb (is_success a3)); [injection E as <- _ <-; left; split; [exact A4|discriminate]|].
  destruct (negb nat && _); [injection E as <- _ <-; left; split; [exact A4|discriminate]|].
  cbn [exec] in E. injection E as <- _ <-. right. exists c4. repeat split; auto; try apply A4.
  destruct A4 as (_ & _ & _ & _ & [[_ ->]|(t & X & _)]); [exact Et|congruence].
Qed.

Lemma new_tx_ok c : txs_ok c -> c_transaction c = None -> txs_ok (new_tx c).
Proof.
  intros Hi Ht t. unfold tx_closed, new_tx. cbn.
  destruct (Nat.lt_trichotomy t (length (c_txs c))) as [H|[H|H]].
  - rewrite app_nth1 by exact H. assert (E := Hi t). unfold tx_closed in E. rewrite E, Ht.
    split; intro E'; [discriminate|]. injection E' as <-. lia.
  - subst. rewrite app_nth2, Nat.sub_diag by lia. cbn. tauto.
  - rewrite nth_overflow by (rewrite app_length; cbn; lia). split; [discriminate|]. intro E. injection E as <-. lia.
Qed.

(** ** Invariants of histories *)

Record decent (c : conn) : Prop := mkDecent { d_txs : txs_ok c; d_mode : c_mode c = ReadMode }.

(** What only grows: closed connections and closed transactions stay closed; transactions stay known. *)
Definition later (c c' : conn) : Prop :=
  c_proto c' = c_proto c /\ (c_closed c = true -> c_closed c' = true)
  /\ (length (c_txs c) <= length (c_txs c'))%nat
  /\ (forall t, (t < length (c_txs c))%nat -> tx_closed c t = true -> tx_closed c' t = true).
Lemma later_refl c : later c c.
Proof. unfold later. auto. Qed.
Lemma later_trans a b c : later a b -> later b c -> later a c.
Proof.
  intros (A1 & A2 & A3 & A4) (B1 & B2 & B3 & B4). unfold later. repeat split; auto; try congruence; [lia|].
  intros t Ht E. apply B4; [lia|]. now apply A4.
Qed.
Lemma ages_later c c' : ages c c' -> later c c'.
Proof.
  intros (A1 & A2 & A3 & A4 & [[A5 A6]|(t & A5 & A6 & A7)]); unfold later, tx_closed.
  - rewrite A5. auto.
  - rewrite A7, set_nth_length. repeat split; auto. intros u _ E. rewrite nth_set_nth'. now destruct (Nat.eqb u t).
Qed.
Lemma new_tx_later c : later c (new_tx c).
Proof.
  unfold later, new_tx, tx_closed. cbn. rewrite app_length. repeat split; auto; [cbn; lia|].
  intros t Ht E. now rewrite app_nth1.
Qed.

Lemma call_decent {St} (N : net St) n o c s c' s' r : decent c -> exec N (do_call n o) c s = (c', s', r) ->
  decent c' /\ later c c'.
Proof.
  intros [H1 H2] E.
  assert (Hp : plain_call o \/ exists db, o = CBegin db \/ exists cs, o = CSetChunk cs).
  { destruct o; try (left; exact Logic.I); right; [exists db|exists []]; eauto. }
  destruct Hp as [Hp|(db & [->|(cs & ->)])].
  - assert (F := fine_call n o Hp St N c s H1). rewrite E in F. cbn in F. split; [|now apply ages_later].
    constructor; [eapply ages_txs; eassumption|]. destruct F as (_ & -> & _). exact H2.
  - cbn [do_call] in E. unfold pmap in E. rewrite exec_bind in E.
    destruct (exec N (begin_db n db) c s) as [[c1 s1] r1] eqn:E1.
    assert (c' = c1) by (destruct r1; injection E as <- _ _; reflexivity). subst c1. clear E.
    destruct (begin_effect N n db c s c' s1 r1 H1 E1) as (_ & [[A _]|(c1 & A & T0 & T1 & _ & -> & _)]).
    + split; [|now apply ages_later]. constructor; [eapply ages_txs; eassumption|]. destruct A as (_ & -> & _). exact H2.
    + split; [|eapply later_trans; [apply ages_later; exact A|apply new_tx_later]].
      constructor; [apply new_tx_ok; [eapply ages_txs; eassumption|exact T1]|]. cbn. destruct A as (_ & -> & _). exact H2.
  - cbn in E. injection E as <- _ _. split; [|unfold later, tx_closed; cbn; auto]. constructor; [exact H1|exact H2].
Qed.

Lemma history_decent {St} (N : net St) C w l w' : history N C w l w' -> decent (fst w) -> decent (fst w') /\ later (fst w) (fst w').
Proof.
  induction 1 as [w|w l w1 o r w2 H IH Hc (n & E & _)]; intro D; [split; [exact D|apply later_refl]|].
  destruct (IH D) as [D1 L1]. destruct (call_decent N n o _ _ _ _ _ D1 E) as [D2 L2].
  split; [exact D2|]. eapply later_trans; eassumption.
Qed.

Lemma fresh_txs user password p : txs_ok (set_proto p (fresh_conn user password)).
Proof. intro t. unfold tx_closed. cbn. destruct t; split; discriminate. Qed.

Lemma opens_decent {St} (N : net St) user password s w r : opens N user password s w r -> decent (fst w).
Proof.
  intros (n & E & _). unfold create_bolt_conn, initialize in E. cbn [exec] in E.
  assert (D0 : decent (fresh_conn user password)).
  { constructor; [|reflexivity]. intro t. unfold tx_closed. cbn. destruct t; split; discriminate. }
  destruct (n_dial N s) as [s1 [e|]]; [injection E as <- _ _; exact D0|].
  rewrite exec_bindr in E.
  assert (Hh : forall s1, fst (fst (exec N handshake (fresh_conn user password) s1)) = fresh_conn user password).
  { intro s2. unfold handshake. cbn [exec]. destruct (n_write N handshake_bytes s2) as [s3 [k [e|]]]; [reflexivity|].
    destruct (negb (k =? 20)); [reflexivity|]. cbn [exec]. destruct (n_read N 4 s3) as [s4 [b [e|]]]; [reflexivity|].
    destruct (negb (zlen b =? 4)); [reflexivity|]. now destruct (bytes_eqb b no_version_supported). }
  specialize (Hh s1). destruct (exec N handshake (fresh_conn user password) s1) as [[c2 s2] r2]. cbn in Hh. subst c2.
  destruct r2 as [vb| | |]; try (injection E as <- _ _; exact D0).
  destruct (get_protocol (Some vb)) as [[[p|] z] oe].
  - cbn [exec] in E. set (c := set_proto p (fresh_conn user password)) in *.
    assert (Hc : txs_ok c) by apply fresh_txs.
    assert (F : fine (send_init n (get_init_message p client_id (auth_basic (c_user c) (c_password c))))).
    { unfold send_init. apply fine_bind; [apply fine_send_message|intros _]. apply fine_bind; [apply fine_core|].
      intro m. destruct m; try apply fine_ret; apply fine_core. }
    specialize (F St N c s2 Hc). rewrite E in F. cbn in F. constructor; [eapply ages_txs; eassumption|].
    destruct F as (_ & -> & _). reflexivity.
  - destruct oe; injection E as <- _ _; exact D0.
Qed.

Lemma used_decent {St} (N : net St) l w : used N l w -> decent (fst w).
Proof.
  intros (user & password & s0 & w0 & Ho & Hh). apply opens_decent in Ho. now apply history_decent in Hh.
Qed.

(** ** C34, C35, C38: refusals without contact *)

Lemma refuses_intro {St} (N : net St) o w e :
  (exists m, forall n, (m <= n)%nat -> exec N (do_call n o) (fst w) (snd w) = (fst w, snd w, Err e)) -> refuses N o w.
Proof.
  intros [m H]. split.
  - exists e, m. split; [now apply H|discriminate].
  - intros [c' s'] r (n & E & Hr). cbn [fst snd] in E.
    assert (E' : exec N (do_call (Nat.max n m) o) (fst w) (snd w) = (c', s', r)).
    { rewrite <- E. apply less_do_call; [lia|]. now rewrite E. }
    rewrite H in E' by lia. injection E' as <- <- <-. split; [now destruct w|eauto].
Qed.

Lemma refuse_begin {St} (N : net St) c s t db : decent c -> tx_closed c t = false -> refuses N (CBegin db) (c, s).
Proof.
  intros D Ht. apply (d_txs _ D) in Ht. eapply refuses_intro. exists 0%nat. intros n _. cbn [fst snd do_call].
  unfold pmap, begin_db. rewrite exec_bind, exec_get, Ht. reflexivity.
Qed.
Lemma refuse_commit {St} (N : net St) c s t : tx_closed c t = true -> refuses N (CCommit t) (c, s).
Proof.
  intros Ht. eapply refuses_intro. exists 0%nat. intros n _. cbn [fst snd do_call].
  unfold pmap, commit, tx_end. rewrite exec_bind, exec_get, Ht. reflexivity.
Qed.
Lemma refuse_rollback {St} (N : net St) c s t : tx_closed c t = true -> refuses N (CRollback t) (c, s).
Proof.
  intros Ht. eapply refuses_intro. exists 1%nat. intros n Hn. cbn [fst snd do_call]. destruct n as [|n]; [lia|].
  cbn [rollback]. unfold pmap, tx_end. rewrite exec_bind, exec_get, Ht. reflexivity.
Qed.
Lemma refuse_closed_query {St} (N : net St) c s o : c_closed c = true -> statement_of o <> None -> refuses N o (c, s).
Proof.
  intros Hc Ho.
  assert (E : forall n q ps db t, exists e, exec N (query_db n q ps db t) c s = (c, s, Err e)
     /\ (e = EFmt None (TMsg 7) /\ negb (multi_database (c_proto c)) && negb (bytes_eqb db []) = true
         \/ e = ENew (TMsg 5) /\ negb (multi_database (c_proto c)) && negb (bytes_eqb db []) = false)).
  { intros n q ps db t. unfold query_db. rewrite exec_get. destruct (negb _ && _) eqn:Ed; [eexists; split; [reflexivity|auto]|].
    unfold run_query. change (exec N (Lock ?p) c s) with (exec N p c s). rewrite exec_bindr, exec_get, Hc.
    eexists; split; [reflexivity|auto]. }
  assert (E' : forall n m q ps db t e, exec N (query_db n q ps db t) c s = (c, s, Err e) -> exec N (query_db m q ps db t) c s = (c, s, Err e)).
  { intros n m q ps db t e H. destruct (E n q ps db t) as (e1 & H1 & H2), (E m q ps db t) as (e2 & H3 & H4).
    rewrite H1 in H. injection H as <-. rewrite H3. f_equal. f_equal. destruct H2 as [[-> X]|[-> X]], H4 as [[-> Y]|[-> Y]]; congruence. }
  destruct o; cbn in Ho; try (now elim Ho).
  - destruct (E 0%nat q params db false) as (e & H & _). apply (refuses_intro N _ _ e); exists 0%nat; intros k0 _.
    apply (E' _ k0) in H. cbn [fst snd do_call]. unfold pmap, exec_db. now rewrite !exec_bind, H.
  - destruct (E 0%nat q params db false) as (e & H & _). apply (refuses_intro N _ _ e); exists 0%nat; intros k0 _.
    apply (E' _ k0) in H. cbn [fst snd do_call]. unfold pmap, exec_db. now rewrite !exec_bind, H.
  - destruct (E 0%nat q params db true) as (e & H & _). apply (refuses_intro N _ _ e); exists 0%nat; intros k0 _.
    apply (E' _ k0) in H. cbn [fst snd do_call]. unfold pmap, exec_db. now rewrite !exec_bind, H.
  - destruct (E 0%nat q params db true) as (e & H & _). apply (refuses_intro N _ _ e); exists 0%nat; intros k0 _.
    apply (E' _ k0) in H. cbn [fst snd do_call]. unfold pmap, exec_db. now rewrite !exec_bind, H.
  - destruct (E 0%nat q params [] false) as (e & H & _). apply (refuses_intro N _ _ e); exists 0%nat; intros k0 _.
    apply (E' _ k0) in H. cbn [fst snd do_call]. unfold pmap, exec_db. now rewrite !exec_bind, H.
Qed.
Lemma refuse_closed_begin {St} (N : net St) c s db : c_closed c = true -> refuses N (CBegin db) (c, s).
Proof.
  intro Hc. destruct (c_transaction c) eqn:Et; eapply refuses_intro; exists 0%nat; intros k0 _; cbn [fst snd do_call];
    unfold pmap, begin_db; rewrite exec_bind, exec_get, Et, ?Hc; reflexivity.
Qed.
Lemma close_again {St} (N : net St) c s w r : c_closed c = true -> does N CClose (c, s) w r -> w = (c, s) /\ r = Err (ESentinel 4).
Proof.
  intros Hc (n & E & Hr). cbn [fst snd do_call] in E. unfold pmap in E. rewrite exec_bind in E.
  destruct n as [|n]; [cbn in E; injection E as _ _ <-; now elim Hr|].
  cbn [close] in E. unfold close_with in E. rewrite exec_get, Hc in E. cbn in E. destruct w. cbn in *. now injection E as <- <- <-.
Qed.

(** ** What a successful call leaves behind *)

Lemma begun_open {St} (N : net St) db c s c' s' t : decent c -> does N (CBegin db) (c, s) (c', s') (Ok (ATx t)) ->
  tx_closed c' t = false /\ c_closed c = false.
Proof.
  intros D (n & E & _). cbn [fst snd do_call] in E. unfold pmap in E. rewrite exec_bind in E.
  destruct (exec N (begin_db n db) c s) as [[c1 s1] r1] eqn:E1.
  destruct r1 as [t1| | |]; try discriminate. injection E as -> -> ->.
  destruct (begin_effect N n db c s c' s' (Ok t) (d_txs _ D) E1) as (_ & [[_ X]|(c1 & A & T0 & T1 & Hc & -> & X)]).
  - now elim (X t).
  - injection X as ->. split; [|exact Hc]. unfold tx_closed, new_tx. cbn. rewrite app_nth2, Nat.sub_diag by lia. reflexivity.
Qed.

Lemma tx_end_ok {St} (N : net St) cons t sel c s c' s' u : fine cons -> decent c ->
  exec N (tx_end cons t sel) c s = (c', s', Ok u) -> tx_closed c t = false /\ tx_closed c' t = true /\ (t < length (c_txs c'))%nat.
Proof.
  intros F D E. assert (Et : tx_closed c t = false).
  { unfold tx_end in E. rewrite exec_get in E. destruct (tx_closed c t); [discriminate|reflexivity]. }
  split; [exact Et|].
  assert (Hin : (t < length (c_txs c))%nat).
  { unfold tx_closed in Et. destruct (Nat.lt_ge_cases t (length (c_txs c))) as [H|H]; [exact H|].
    rewrite nth_overflow in Et by exact H. discriminate. }
  pose proof (fine_tx_end cons t sel F St N c s (d_txs _ D)) as A. rewrite E in A. cbn in A.
  assert (C' : exists c1, c' = end_tx t c1).
  { clear A. unfold tx_end in E. rewrite exec_get, Et in E. destruct (sel (c_proto c)) as [m nat].
    repeat (rewrite exec_bind in E; match type of E with match ?x with _ => _ end = _ => destruct x as [[? ?] []]; try discriminate end).
    destruct (negb (is_success a1)); [discriminate|]. destruct (negb nat && _); [discriminate|].
    cbn in E. injection E as <- _ _. eauto. }
  destruct C' as [c1 ->]. split.
  - unfold tx_closed, end_tx. cbn. rewrite nth_set_nth'. now rewrite Nat.eqb_refl.
  - destruct A as (_ & _ & _ & _ & [[A _]|(v & _ & _ & A)]); rewrite A, ?set_nth_length; exact Hin.
Qed.

Definition ends (o : call) (t : nat) : Prop := o = CCommit t \/ o = CRollback t.

Lemma ended_closed {St} (N : net St) o t c s c' s' a : decent c -> ends o t -> does N o (c, s) (c', s') (Ok a) ->
  tx_closed c t = false /\ tx_closed c' t = true /\ (t < length (c_txs c'))%nat.
Proof.
  intros D Ho (n & E & _). cbn [fst snd] in E.
  destruct Ho as [-> | ->]; cbn [do_call] in E; unfold pmap in E; rewrite exec_bind in E.
  - destruct (exec N (commit n t) c s) as [[c1 s1] []] eqn:E1; try discriminate. injection E as -> _ _.
    eapply tx_end_ok; [|exact D|exact E1]. apply fine_core.
  - destruct n as [|n]; [discriminate|].
    destruct (exec N (rollback (S n) t) c s) as [[c1 s1] []] eqn:E1; try discriminate. injection E as -> _ _.
    cbn [rollback] in E1. eapply tx_end_ok; [|exact D|exact E1]. apply fine_core.
Qed.

Lemma closed_closed {St} (N : net St) c s c' s' a : does N CClose (c, s) (c', s') (Ok a) -> c_closed c' = true.
Proof.
  intros (n & E & _). cbn [fst snd do_call] in E. unfold pmap in E. rewrite exec_bind in E.
  destruct n as [|n]; [discriminate|]. cbn [close] in E. unfold close_with in E. rewrite exec_get in E.
  destruct (c_closed c); [discriminate|].
  repeat (rewrite exec_bind in E;
    match type of E with context [match exec N ?p ?c0 ?s0 with _ => _ end] => destruct (exec N p c0 s0) as [[? ?] []]; try discriminate end).
  cbn [exec] in E. destruct (n_hang N _) as [s2 [e|]]; cbn in E; [discriminate|]. now injection E as <- _ _.
Qed.

(** ** C35, C38 over histories *)

Lemma history_later {St} (N : net St) C w l w' : history N C w l w' -> decent (fst w) -> later (fst w) (fst w').
Proof. intros H D. now apply (history_decent N C w l w' H). Qed.

Lemma ended_once {St} (N : net St) l w o t a w1 l' w2 : used N l w -> ends o t -> does N o w w1 (Ok a) ->
  history N (fun _ _ => True) w1 l' w2 -> refuses N (CCommit t) w2 /\ refuses N (CRollback t) w2.
Proof.
  intros U Ho Hd Hh. apply used_decent in U. destruct w as [c s], w1 as [c1 s1], w2 as [c2 s2]. cbn [fst] in U.
  destruct (ended_closed N o t c s c1 s1 a U Ho Hd) as (_ & H1 & H2).
  assert (D1 : decent c1). { destruct Hd as (n & E & _). cbn [fst snd] in E. now apply (call_decent N n o c s c1 s1 _ U) in E. }
  pose proof (history_later N _ _ _ _ Hh D1) as L. cbn [fst] in L. destruct L as (_ & _ & _ & L).
  specialize (L t H2 H1). split; [now apply refuse_commit|now apply refuse_rollback].
Qed.
Lemma closed_for_good {St} (N : net St) l w a w1 l' w2 : used N l w -> does N CClose w w1 (Ok a) ->
  history N (fun _ _ => True) w1 l' w2 ->
  c_closed (fst w2) = true.
Proof.
  intros U Hd Hh. apply used_decent in U. destruct w as [c s], w1 as [c1 s1], w2 as [c2 s2]. cbn [fst] in *.
  assert (D1 : decent c1). { destruct Hd as (n & E & _). cbn [fst snd] in E. now apply (call_decent N n CClose c s c1 s1 _ U) in E. }
  apply closed_closed in Hd. pose proof (history_later N _ _ _ _ Hh D1) as L. now apply L.
Qed.

(** ** C41: all ways of running a statement without a database are the same *)

Definition answer_meta (r : res answer) : res answer :=
  match r with Ok (ARows _ md) => Ok (AMeta md) | _ => r end.
Lemma run_same p q ps inTx : get_run_message p q ps [] ReadMode (negb inTx) = get_run_message p q ps [] ReadMode true.
Proof. destruct p, inTx; reflexivity. Qed.
Lemma query_same {St} (N : net St) n q ps c s inTx : c_mode c = ReadMode ->
  exec N (query_db n q ps [] inTx) c s = exec N (query_db n q ps [] false) c s.
Proof.
  intro Hm. unfold query_db. rewrite !exec_get. destruct (negb _ && _); [reflexivity|]. unfold run_query.
  change (exec N (Lock ?p) c s) with (exec N p c s). rewrite !exec_bindr, !exec_get, Hm.
  now rewrite (run_same (c_proto c) q ps inTx).
Qed.
Lemma same_request {St} (N : net St) n q ps t c s : c_mode c = ReadMode ->
  let '(c', s', r) := exec N (do_call n (CQuery q ps [])) c s in
  exec N (do_call n (CTxQuery t q ps [])) c s = (c', s', r)
  /\ exec N (do_call n (CExec q ps [])) c s = (c', s', answer_meta r)
  /\ exec N (do_call n (CTxExec t q ps)) c s = (c', s', answer_meta r)
  /\ exec N (do_call n (CTxExecDb t q ps [])) c s = (c', s', answer_meta r).
Proof.
  intro Hm. cbn [do_call]. unfold pmap, exec_db. rewrite !exec_bind. rewrite !(query_same N n q ps c s true Hm).
  destruct (exec N (query_db n q ps [] false) c s) as [[c' s'] []]; cbn; auto.
Qed.
