(** Facts about opening, giving up, telling a dead connection and making a connection idle. *)
From Coq Require Import String ZArith List Bool Lia.
From Coq Require Import ZifyBool.
From Verif Require Import Bytes BytesFacts GoVal GoErr Encoder Decoder SpecPack SpecValues SpecCodec SpecServer
  Messages Connection Errors Link ExecFacts ServeFacts CallFacts Wire WireFacts SpecSession OpenFacts ShapeFacts SessionFacts
  SpecShare.
Import ListNotations.
Open Scope Z_scope.

(** ** C74 *)
Lemma opens_accepted p P user password : conforming p P -> zlen user <= 65535 -> zlen password <= 65535 ->
  (exists c w r, opens (wired P) user password new_wire (c, w) r)
  /\ forall c w r, opens (wired P) user password new_wire (c, w) r ->
     match j_outcome (p_judge P) 0 with
     | Refused md => exists e, r = Err e /\ inner_most e = EFailure md
     | _ => r = Ok tt /\ ready w /\ c_closed c = false /\ rested (c, w)
     end.
Proof.
  intros [Hn Hs Hg] Hu Hp. split.
  - destruct (open_runs P p user password Hn Hs Hg Hu Hp) as (N & w' & HN & _).
    eexists _, w', _. exists N. cbn [fst snd]. split; [apply HN; lia|]. destruct (j_outcome (p_judge P) 0); discriminate.
  - intros c w r Ho. destruct (open_does P p user password c w r Hn Hs Hg Hu Hp Ho) as [-> H].
    destruct (j_outcome (p_judge P) 0) as [md|rm l md|rm l md].
    + destruct H as [-> _]. eexists. split; reflexivity.
    + destruct H as [-> L]. destruct (linked_quiet _ _ _ _ _ L eq_refl) as [Hq _].
      assert (E : w_srv w = bare (after_login p)) by apply L.
      split; [reflexivity|]. split; [split; [exact Hq|now rewrite E]|]. split; [reflexivity|].
      split; [exact Hq|]. split; [cbn [snd]; now rewrite E|]. now intros [|t].
    + destruct H as [-> L]. destruct (linked_quiet _ _ _ _ _ L eq_refl) as [Hq _].
      assert (E : w_srv w = bare (after_login p)) by apply L.
      split; [reflexivity|]. split; [split; [exact Hq|now rewrite E]|]. split; [reflexivity|].
      split; [exact Hq|]. split; [cbn [snd]; now rewrite E|]. now intros [|t].
Qed.

(** ** C75 *)
Lemma dial_refused {St} (N : net St) user password s c x r e :
  snd (n_dial N s) = Some e -> opens (watched N) user password (s, []) (c, x) r ->
  r = Err e /\ snd x = [VDial (Some e)] /\ socket_open (snd x) = false.
Proof.
  intros He (n & E & _). unfold create_bolt_conn, initialize in E. cbn [exec watched n_dial fst snd] in E.
  destruct (n_dial N s) as [s' d]. cbn [snd] in He. subst d. cbn in E. injection E as _ <- <-. auto.
Qed.

(** ** C76 *)
Section Dry.
Context {St : Type}.
Variables (N : net St) (left : St -> nat).
Hypothesis D : runs_dry N left.

Lemma exec_left {A} (p : prog A) : forall c s, (left (snd (fst (exec N p c s))) <= left s)%nat.
Proof.
  induction p as [r|k IH|f k IH|v cs m k IH|v k IH|k IH|k IH|b k IH|n k IH|k IH|k IH|k IH]; intros c s; cbn [exec]; auto.
  - pose proof (rd_send N left D v cs m s). destruct (n_send N v cs m s) as [s' r]. cbn [fst] in *. specialize (IH r c s'). lia.
  - pose proof (rd_recv N left D v s). destruct (n_recv N v s) as [s' r]. cbn [fst] in *. specialize (IH r c s'). lia.
  - pose proof (rd_hang N left D s). destruct (n_hang N s) as [s' r]. cbn [fst] in *. specialize (IH r c s'). lia.
  - pose proof (rd_dial N left D s). destruct (n_dial N s) as [s' r]. cbn [fst] in *. specialize (IH r c s'). lia.
  - pose proof (rd_write N left D b s). destruct (n_write N b s) as [s' r]. cbn [fst] in *. specialize (IH r c s'). lia.
  - pose proof (rd_read N left D n s). destruct (n_read N n s) as [s' r]. cbn [fst] in *. specialize (IH r c s'). lia.
  - pose proof (rd_probe N left D s). destruct (n_probe N s) as [s' r]. cbn [fst] in *. specialize (IH r c s'). lia.
Qed.

(** Ends while no more than [L] messages are to come. *)
Definition ends {A} (L : nat) (p : prog A) : Prop := forall c s, (left s <= L)%nat -> snd (exec N p c s) <> NoFuel.

Lemma ends_ret {A} L (r : res A) : r <> NoFuel -> ends L (Ret r).
Proof. intros H c s _. exact H. Qed.
Lemma ends_bindr {A B} L (p : prog A) (f : res A -> prog B) : ends L p -> (forall r, r <> NoFuel -> ends L (f r)) -> ends L (bindr p f).
Proof.
  intros Hp Hf c s Hl. rewrite exec_bindr. specialize (Hp c s Hl). pose proof (exec_left p c s) as X.
  destruct (exec N p c s) as [[c' s'] r]. cbn [fst snd] in *. apply Hf; [exact Hp|lia].
Qed.
Lemma ends_bind {A B} L (p : prog A) (f : A -> prog B) : ends L p -> (forall a, ends L (f a)) -> ends L (bind p f).
Proof.
  intros Hp Hf. unfold bind. apply ends_bindr; [exact Hp|]. intros [a|e| |] H; [apply Hf|apply ends_ret; discriminate..|now elim H].
Qed.
Lemma ends_get {A} L (f : conn -> prog A) : (forall c, ends L (f c)) -> ends L (Get f).
Proof. intros H c s Hl. cbn [exec]. now apply H. Qed.
Lemma ends_upd {A} L g (p : prog A) : ends L p -> ends L (Upd g p).
Proof. intros H c s Hl. cbn [exec]. now apply H. Qed.
Lemma ends_lock {A} L (p : prog A) : ends L p -> ends L (Lock p).
Proof. intros H c s Hl. cbn [exec]. now apply H. Qed.
Lemma ends_unlock {A} L (p : prog A) : ends L p -> ends L (Unlock p).
Proof. intros H c s Hl. cbn [exec]. now apply H. Qed.
Lemma ends_send L m : ends L (send_message m).
Proof.
  intros c s Hl. unfold send_message. cbn [exec]. destruct (n_send N _ _ m s) as [s' [e|]]; discriminate.
Qed.
(** A message that arrives is one less to come. *)
Lemma ends_recv {B} L (f : gval -> prog B) : (forall m, (1 <= L)%nat -> ends (L - 1) (f m)) -> ends L (m <~ recv_message ;; f m).
Proof.
  intros Hf c s Hl. rewrite exec_bind. unfold recv_message. cbn [exec].
  pose proof (rd_recv_ok N left D (codec (c_proto c)) s) as X. pose proof (rd_recv_ends N left D (codec (c_proto c)) s) as Y.
  destruct (n_recv N (codec (c_proto c)) s) as [s' [m|e| |]]; cbn [snd] in *; try discriminate; [|now elim Y].
  specialize (X s' m eq_refl). apply Hf; lia.
Qed.
Lemma ends_recv_wrapped {B} L k (f : gval -> prog B) : (forall m, (1 <= L)%nat -> ends (L - 1) (f m)) -> ends L (m <~ pwrap k recv_message ;; f m).
Proof.
  intros Hf c s Hl. rewrite exec_bind. unfold pwrap, recv_message. cbn [bindr exec].
  pose proof (rd_recv_ok N left D (codec (c_proto c)) s) as X. pose proof (rd_recv_ends N left D (codec (c_proto c)) s) as Y.
  destruct (n_recv N (codec (c_proto c)) s) as [s' [m|e| |]]; cbn [snd rwrap bindr exec] in *; try discriminate; [|now elim Y].
  specialize (X s' m eq_refl). apply Hf; lia.
Qed.
Lemma ends_tx_end L cons t sel : ends L cons -> ends L (tx_end cons t sel).
Proof.
  intro H. unfold tx_end. apply ends_get. intro c. destruct (tx_closed c t); [apply ends_ret; discriminate|].
  destruct (sel (c_proto c)) as [m b]. apply ends_bind; [apply ends_send|intros _].
  apply ends_bind; [destruct b; [apply ends_ret; discriminate|apply ends_send]|intros _].
  apply ends_bind; [exact H|intro r1]. apply ends_bind; [destruct b; [apply ends_ret; discriminate|exact H]|intro r2].
  destruct (negb (is_success r1)); [apply ends_ret; discriminate|].
  destruct (negb b && negb (is_success r2)); [apply ends_ret; discriminate|]. apply ends_upd, ends_ret. discriminate.
Qed.
Lemma ends_close_with L rb : (forall t, ends L (rb t)) -> ends L (close_with rb).
Proof.
  intro H. unfold close_with. apply ends_get. intro c. destruct (c_closed c); [apply ends_ret; discriminate|].
  apply ends_bind; [destruct (c_transaction c); [apply H|apply ends_ret; discriminate]|intros _].
  apply ends_bind; [destruct (get_close_message (c_proto c)); [apply ends_send|apply ends_ret; discriminate]|intros _].
  intros c1 s1 _. cbn [exec]. destruct (n_hang N s1) as [s2 [e|]]; discriminate.
Qed.
Lemma ends_core : forall L n, (5 * L + 3 <= n)%nat ->
  ends L (consume n) /\ ends L (reset n) /\ ends L (reset_loop n) /\ ends L (close n) /\ (forall t, ends L (rollback n t)).
Proof.
  assert (G : forall L,
    (forall n, (5 * L + 1 <= n)%nat -> ends L (consume n)) /\ (forall n, (5 * L + 2 <= n)%nat -> ends L (reset n))
    /\ (forall n, (5 * L + 1 <= n)%nat -> ends L (reset_loop n)) /\ (forall n, (5 * L + 3 <= n)%nat -> ends L (close n))
    /\ (forall n t, (5 * L + 2 <= n)%nat -> ends L (rollback n t))).
  { induction L as [|L (IHc & IHr & IHl & IHcl & IHrb)].
    - assert (C : forall n, (1 <= n)%nat -> ends 0 (consume n)).
      { intros [|n] Hn; [lia|]. cbn [consume]. apply ends_recv. lia. }
      assert (LP : forall n, (1 <= n)%nat -> ends 0 (reset_loop n)).
      { intros [|n] Hn; [lia|]. cbn [reset_loop]. apply ends_recv_wrapped. lia. }
      assert (RB : forall n t, (2 <= n)%nat -> ends 0 (rollback n t)).
      { intros [|n] t Hn; [lia|]. cbn [rollback]. apply ends_tx_end, C. lia. }
      repeat apply conj; try exact C; try exact LP; try exact RB.
      + intros [|n] Hn; [lia|]. cbn [reset]. apply ends_bind; [|intros _; apply LP; lia].
        unfold pwrap. apply ends_bindr; [apply ends_send|]. intros r Hr. apply ends_ret. destruct r; [discriminate..|now elim Hr].
      + intros [|n] Hn; [lia|]. cbn [close]. apply ends_close_with. intro t. apply RB. lia.
    - assert (C : forall n, (5 * S L + 1 <= n)%nat -> ends (S L) (consume n)).
      { intros [|n] Hn; [lia|]. cbn [consume]. apply ends_recv. intros m _. rewrite Nat.sub_succ, Nat.sub_0_r.
        destruct m; try (apply ends_ret; discriminate). apply ends_bindr; [apply IHr; lia|].
        intros [r|e| |] Hr; try (apply ends_ret; discriminate). now elim Hr. }
      assert (LP : forall n, (5 * S L + 1 <= n)%nat -> ends (S L) (reset_loop n)).
      { intros [|n] Hn; [lia|]. cbn [reset_loop]. apply ends_recv_wrapped. intros m _. rewrite Nat.sub_succ, Nat.sub_0_r.
        assert (X : forall e, ends L (bindr (close n) (fun r => match r with Panic => Ret Panic | NoFuel => Ret NoFuel | _ => fail (A := unit) e end))).
        { intro e. apply ends_bindr; [apply IHcl; lia|]. intros [r|x| |] Hr; try (apply ends_ret; discriminate). now elim Hr. }
        destruct m; first [apply X | apply ends_ret; discriminate | apply IHl; lia]. }
      assert (RB : forall n t, (5 * S L + 2 <= n)%nat -> ends (S L) (rollback n t)).
      { intros [|n] t Hn; [lia|]. cbn [rollback]. apply ends_tx_end, C. lia. }
      repeat apply conj; try exact C; try exact LP; try exact RB.
      + intros [|n] Hn; [lia|]. cbn [reset]. apply ends_bind; [|intros _; apply LP; lia].
        unfold pwrap. apply ends_bindr; [apply ends_send|]. intros r Hr. apply ends_ret. destruct r; [discriminate..|now elim Hr].
      + intros [|n] Hn; [lia|]. cbn [close]. apply ends_close_with. intro t. apply RB. lia. }
  intros L n Hn. destruct (G L) as (H1 & H2 & H3 & H4 & H5). repeat apply conj; [apply H1|apply H2|apply H3|apply H4|intro t; apply H5]; lia.
Qed.
(** What consume leaves is less than what there was. *)
Lemma consume_left n c s c' s' m : exec N (consume n) c s = (c', s', Ok m) -> (left s' < left s)%nat.
Proof.
  destruct n as [|n]; [discriminate|]. cbn [consume]. rewrite exec_bind. unfold recv_message. cbn [exec].
  pose proof (rd_recv_ok N left D (codec (c_proto c)) s) as X.
  destruct (n_recv N (codec (c_proto c)) s) as [s1 [m1|e| |]]; try discriminate. specialize (X s1 m1 eq_refl).
  destruct m1; try (cbn [exec]; intros [= <- <- <-]; exact X).
  rewrite exec_bindr. destruct (exec N (reset n) c s1) as [[c2 s2] r]. destruct r; discriminate.
Qed.
Lemma ends_fetch n : forall L k acc, (5 * L + 3 <= n)%nat -> (L + 1 <= k)%nat -> ends L (fetch n k acc).
Proof.
  intros L k. revert L. induction k as [|k IH]; intros L acc Hn Hk; [lia|]. cbn [fetch]. intros c s Hl. rewrite exec_bind.
  pose proof (proj1 (ends_core L n Hn) c s Hl) as X. pose proof (consume_left n c s) as Y.
  destruct (exec N (consume n) c s) as [[c' s'] [m|e| |]]; cbn [snd] in X; try discriminate; [|now elim X].
  specialize (Y c' s' m eq_refl). destruct m; try discriminate. apply (IH (L - 1)%nat); lia.
Qed.
Lemma ends_run L n q ps db b : (5 * L + 3 <= n)%nat -> ends L (run_query n q ps db b).
Proof.
  intro Hn. unfold run_query. apply ends_lock, ends_bindr; [|intros r Hr; now apply ends_unlock, ends_ret].
  apply ends_get. intro c. destruct (c_closed c); [apply ends_ret; discriminate|].
  apply ends_bind; [apply ends_send|intros _]. apply ends_bind; [apply ends_send|intros _].
  apply ends_bind; [now apply ends_core|intro m]. destruct (is_success m); [|apply ends_ret; discriminate].
  apply ends_fetch; lia.
Qed.
Lemma ends_query L n q ps db b : (5 * L + 3 <= n)%nat -> ends L (query_db n q ps db b).
Proof. intro Hn. unfold query_db. apply ends_get. intro c. destruct (_ && _); [apply ends_ret; discriminate|now apply ends_run]. Qed.
Lemma ends_exec L n q ps db b : (5 * L + 3 <= n)%nat -> ends L (exec_db n q ps db b).
Proof. intro Hn. unfold exec_db. apply ends_bind; [now apply ends_query|]. intro. apply ends_ret. discriminate. Qed.
Lemma ends_pmap {A B} L (f : A -> B) p : ends L p -> ends L (pmap f p).
Proof. intro H. unfold pmap. apply ends_bind; [exact H|]. intro. apply ends_ret. discriminate. Qed.
Lemma ends_call L n o : (5 * L + 3 <= n)%nat -> ends L (do_call n o).
Proof.
  intro Hn. destruct (ends_core L n Hn) as (Hc & _ & _ & Hcl & Hrb). destruct o; cbn [do_call]; try apply ends_pmap.
  - now apply ends_query.
  - now apply ends_exec.
  - unfold begin_db. apply ends_get. intro c. destruct (c_transaction c); [apply ends_ret; discriminate|].
    destruct (c_closed c); [apply ends_ret; discriminate|]. destruct (get_begin_message (c_proto c) db (c_mode c)) as [m b].
    apply ends_bind; [apply ends_send|intros _].
    apply ends_bind; [destruct b; [apply ends_ret; discriminate|apply ends_send]|intros _].
    apply ends_bind; [exact Hc|intro r1]. apply ends_bind; [destruct b; [apply ends_ret; discriminate|exact Hc]|intro r2].
    destruct (negb (is_success r1)); [apply ends_ret; discriminate|].
    destruct (negb b && negb (is_success r2)); [apply ends_ret; discriminate|]. apply ends_get. intro. apply ends_upd, ends_ret. discriminate.
  - now apply ends_query.
  - now apply ends_exec.
  - now apply ends_exec.
  - unfold commit. now apply ends_tx_end.
  - apply Hrb.
  - exact Hcl.
  - unfold make_idle. apply ends_get. intro c. destruct (c_transaction c); [apply Hrb|apply ends_ret; discriminate].
  - unfold validate_open. apply ends_get. intro c. destruct (c_closed c); [apply ends_ret; discriminate|].
    intros c1 s1 _. cbn [exec]. destruct (n_probe N s1) as [s2 e]. discriminate.
  - apply ends_upd, ends_ret. discriminate.
Qed.
Lemma ends_open L n : (5 * L + 3 <= n)%nat -> ends L (create_bolt_conn n).
Proof.
  intros Hn c s Hl. unfold create_bolt_conn, initialize. cbn [exec]. pose proof (rd_dial N left D s) as X.
  destruct (n_dial N s) as [s1 [e|]]; [discriminate|]. cbn [fst] in X. rewrite exec_bindr.
  pose proof (exec_left handshake c s1) as Y.
  assert (Z : snd (exec N handshake c s1) <> NoFuel /\ snd (exec N handshake c s1) <> Panic).
  { unfold handshake. cbn [exec]. destruct (n_write N _ s1) as [s2 [k [e|]]]; [split; discriminate|].
    destruct (negb (k =? 20)); [split; discriminate|]. cbn [exec]. destruct (n_read N 4 s2) as [s3 [b [e|]]]; [split; discriminate|].
    destruct (negb (zlen b =? 4)); [split; discriminate|]. destruct (bytes_eqb _ _); split; discriminate. }
  destruct (exec N handshake c s1) as [[c2 s2] [vb|e| |]]; cbn [fst snd] in *; try discriminate; [|now elim (proj1 Z)].
  destruct (get_protocol (Some vb)) as [[[p|] z] [e|]]; try discriminate; cbn [exec].
  - apply (ends_bind L); [apply ends_send| |lia]. intros _. apply ends_bind; [now apply ends_core|]. intro m.
    destruct m; try (now apply ends_core). apply ends_ret. discriminate.
  - apply (ends_bind L); [apply ends_send| |lia]. intros _. apply ends_bind; [now apply ends_core|]. intro m.
    destruct m; try (now apply ends_core). apply ends_ret. discriminate.
Qed.
Lemma dry_returns o c s : exists c' s' r, does N o (c, s) (c', s') r.
Proof.
  pose proof (ends_call (left s) (5 * left s + 3) o (le_n _) c s (le_n _)) as H.
  destruct (exec N (do_call (5 * left s + 3) o) c s) as [[c' s'] r] eqn:E. exists c', s', r. exists (5 * left s + 3)%nat. auto.
Qed.
Lemma dry_opens user password s : exists c' s' r, opens N user password s (c', s') r.
Proof.
  pose proof (ends_open (left s) (5 * left s + 3) (le_n _) (fresh_conn user password) s (le_n _)) as H.
  destruct (exec N (create_bolt_conn (5 * left s + 3)) (fresh_conn user password) s) as [[c' s'] r] eqn:E. exists c', s', r. exists (5 * left s + 3)%nat. auto.
Qed.
End Dry.

(** ** C77 *)
Lemma validate_tells p P user password l c w c' w' r : session clean_call p P user password l (c, w) -> p_looks P = true ->
  does (wired P) CValidate (c, w) (c', w') r ->
  (c', w') = (c, w) /\ exists b, r = Ok (ABool b) /\ (b = true <-> c_closed c = false /\ s_mode (w_srv w) <> Gone).
Proof.
  intros Hs Hk (n & E & _). destruct (session_linked _ _ _ _ _ _ _ Hs) as (s & _ & L & _).
  cbn [fst snd do_call] in E. unfold pmap, validate_open in E. rewrite exec_bind, exec_get in E.
  destruct (c_closed c) eqn:Hc.
  - cbn in E. injection E as <- <- <-. split; [reflexivity|]. eexists. split; [reflexivity|]. split; [discriminate|].
    intros [H _]. discriminate.
  - destruct (linked_quiet _ _ _ _ _ L Hc) as [(Hd & _ & _) _]. cbn [exec wired n_probe] in E. rewrite Hk, Hd in E.
    cbn [exec] in E. injection E as <- <- <-. split; [reflexivity|]. eexists. split; [reflexivity|].
    assert (Hh : s_hung (w_srv w) = false).
    { rewrite (m_srv _ _ _ _ (l_mirrors _ _ _ _ _ L)). apply (i_open _ _ (l_inv _ _ _ _ _ L) Hc). }
    rewrite Hh. destruct (s_mode (w_srv w)); cbn; split; try discriminate; try (intros [_ H]; now elim H); intros _; first [reflexivity | split; [reflexivity|discriminate]].
Qed.

(** Looking never changes anything. *)
Lemma validate_harmless p P user password l c w c' w' b : session clean_call p P user password l (c, w) ->
  does (wired P) CValidate (c, w) (c', w') (Ok (ABool b)) ->
  (c', w') = (c, w) /\ (b = true -> c_closed c = false) /\ (b = false -> c_closed c = true \/ s_mode (w_srv w) = Gone).
Proof.
  intros Hs (n & E & _). destruct (session_linked _ _ _ _ _ _ _ Hs) as (s & _ & L & _).
  cbn [fst snd do_call] in E. unfold pmap, validate_open in E. rewrite exec_bind, exec_get in E.
  destruct (c_closed c) eqn:Hc.
  - cbn in E. injection E as <- <- <-. split; [reflexivity|]. split; [discriminate|auto].
  - destruct (linked_quiet _ _ _ _ _ L Hc) as [(Hd & _ & _) _]. cbn [exec wired n_probe] in E. rewrite Hd in E.
    assert (Hh : s_hung (w_srv w) = false).
    { rewrite (m_srv _ _ _ _ (l_mirrors _ _ _ _ _ L)). apply (i_open _ _ (l_inv _ _ _ _ _ L) Hc). }
    rewrite Hh in E. destruct (p_looks P); cbn in E; injection E as <- <- <-; (split; [reflexivity|]); (split; [auto|]); [|discriminate].
    destruct (s_mode (w_srv w)); auto; discriminate.
Qed.
Lemma validate_same p P user password l c w c' w' b : session clean_call p P user password l (c, w) ->
  does (wired P) CValidate (c, w) (c', w') (Ok (ABool b)) -> (c', w') = (c, w) /\ (b = true -> c_closed c = false).
Proof. intros H1 H2. destruct (validate_harmless _ _ _ _ _ _ _ _ _ _ H1 H2) as (A & B & _). auto. Qed.

(** ** C78 *)
(** The server has no transaction that the client has forgotten. *)
Definition tied (c : conn) (s : srv) : Prop := c_transaction c = None -> s_tx s = None.
Lemma tied_end J k c s t : inv c s -> tied c s -> k <> KBegin ->
  tied (fst (fst (a_end J k c s t))) (snd (fst (a_end J k c s t)))
  /\ forall a, snd (a_end J k c s t) = Ok a -> c_transaction (fst (fst (a_end J k c s t))) = None.
Proof.
  intros Hi Ht Hk. unfold a_end. destruct (tx_closed c t) eqn:Ec; [split; [exact Ht|discriminate]|].
  assert (X : c_transaction c = Some t) by now apply (i_txs _ _ Hi).
  destruct (s_mode s); try (split; [exact Ht|discriminate]).
  unfold control_error, after_control. destruct (control_fits k s) eqn:Ef.
  - destruct (j_outcome J (s_next s)); cbn [fst snd].
    + split; [intros H; congruence|discriminate].
    + split; [intros _; destruct k; [now elim Hk|reflexivity..]|reflexivity].
    + split; [intros _; destruct k; [now elim Hk|reflexivity..]|reflexivity].
  - cbn [fst snd]. split; [intros _; reflexivity|discriminate].
Qed.
Lemma tied_step J looks o c s : inv c s -> tied c s -> ordinary_call (c_proto c) o ->
  tied (fst (fst (astep J looks o c s))) (snd (fst (astep J looks o c s))).
Proof.
  intros Hi Ht Ho.
  assert (Q : forall q ps db b, ordinary (c_proto c) q = true -> tied c (fst (a_query J c s q ps db b))).
  { intros q ps db b Hq. unfold a_query. destruct (negb _ && _); [exact Ht|]. destruct (c_closed c) eqn:Hc; [exact Ht|].
    destruct (snd (encode _ _)); [exact Ht|]. destruct (s_mode s); try exact Ht.
    rewrite (control_ordinary c s q Hi Hc Hq). intro X. specialize (Ht X). cbn [fst after_stmt s_tx].
    rewrite Ht. now destruct (j_outcome J (s_next s)). }
  destruct o; cbn [astep]; try (apply Q; exact Ho); try exact Ht.
  - unfold a_begin. destruct (c_transaction c) eqn:Et; [exact Ht|]. destruct (c_closed c) eqn:Hc; [exact Ht|].
    destruct (snd (encode _ _)); [exact Ht|]. destruct (s_mode s); try exact Ht.
    unfold control_error, after_control, control_fits. rewrite (Ht Et).
    destruct (j_outcome J (s_next s)); cbn; intro X; [reflexivity|discriminate..].
  - pose proof (tied_end J KCommit c s t Hi Ht ltac:(discriminate)) as [H _]. now destruct (a_end J KCommit c s t) as [[? ?] ?].
  - pose proof (tied_end J KRollback c s t Hi Ht ltac:(discriminate)) as [H _]. now destruct (a_end J KRollback c s t) as [[? ?] ?].
  - unfold a_close, a_idle. destruct (c_closed c); [exact Ht|]. destruct (c_transaction c) as [t|] eqn:Et.
    + pose proof (tied_end J KRollback c s t Hi Ht ltac:(discriminate)) as [H _].
      destruct (a_end J KRollback c s t) as [[? ?] [?|?| |]]; try exact H. cbn. intros _. reflexivity.
    + cbn. intros _. reflexivity.
  - unfold a_idle. destruct (c_transaction c) as [t|] eqn:Et; [|exact Ht].
    pose proof (tied_end J KRollback c s t Hi Ht ltac:(discriminate)) as [H _]. now destruct (a_end J KRollback c s t) as [[? ?] ?].
Qed.

Lemma history_polite {St} (N : net St) w l w' : history N polite w l w' -> history N clean_call w l w'.
Proof. induction 1; [constructor|]. econstructor; [eassumption| |eassumption]. now destruct H0. Qed.
Lemma session_polite p P user password l x : session polite p P user password l x -> session clean_call p P user password l x.
Proof.
  intros (H1 & H2 & H3 & w0 & H4 & H5). split; [exact H1|]. split; [exact H2|]. split; [exact H3|]. exists w0.
  split; [exact H4|now apply history_polite].
Qed.
(** One more call. *)
Lemma session_more C p P user password l x o r y : session C p P user password l x -> C (fst x) o -> does (wired P) o x y r ->
  session C p P user password (l ++ [(o, r)]) y.
Proof.
  intros (H1 & H2 & H3 & w0 & H4 & H5) Hc Hd. split; [exact H1|]. split; [exact H2|]. split; [exact H3|]. exists w0.
  split; [exact H4|]. econstructor; eassumption.
Qed.
Lemma session_tied p P user password l c w : session polite p P user password l (c, w) ->
  exists s, linked P (codec p) c w s /\ c_proto c = p /\ sound (codec p) P /\ tied c s.
Proof.
  intros ([Hn Hs Hg] & Hu & Hp & [c0 w0] & Ho & Hh).
  destruct (open_does P p user password c0 w0 (Ok tt) Hn Hs Hg Hu Hp Ho) as [-> H].
  assert (L : linked P (codec p) (set_proto p (fresh_conn user password)) w0 (after_login p)).
  { destruct (j_outcome (p_judge P) 0); destruct H as [H1 H2]; [discriminate|exact H2..]. }
  clear H Ho. remember (set_proto p (fresh_conn user password), w0) as x eqn:Ex. remember (c, w) as y eqn:Ey. revert c w Ey.
  induction Hh as [x|x l [c1 w1] o r y H IH Hcl Hd]; intros c w Ey; subst.
  - injection Ey as <- <-. exists (after_login p). split; [exact L|]. split; [reflexivity|]. split; [exact Hs|intros _; reflexivity].
  - destruct (IH eq_refl c1 w1 eq_refl) as (s1 & L1 & Hp1 & _ & T1). destruct Hcl as [Hc1 Hc2]. cbn [fst] in *.
    destruct (wire_does P (codec p) Hs o c1 w1 s1 c w r L1 Hc1 Hd) as (s2 & E & L2).
    pose proof (tied_step (p_judge P) (p_looks P) o c1 s1 (l_inv _ _ _ _ _ L1) T1 Hc2) as T2.
    pose proof (astep_proto P o c1 s1) as X. rewrite E in T2, X. cbn [fst snd] in T2, X.
    exists s2. split; [exact L2|]. split; [congruence|]. split; [exact Hs|exact T2].
Qed.
Lemma tied_rested p P c w s : linked P (codec p) c w s -> tied c s -> c_transaction c = None -> c_closed c = false -> rested (c, w).
Proof.
  intros L T Ht Hc. destruct (linked_quiet _ _ _ _ _ L Hc) as [Hq _]. split; [exact Hq|]. cbn [fst snd].
  split; [rewrite (m_srv _ _ _ _ (l_mirrors _ _ _ _ _ L)); now apply T|].
  intro t. destruct (tx_closed c t) eqn:E; [reflexivity|]. apply (i_txs _ _ (l_inv _ _ _ _ _ L)) in E. congruence.
Qed.
Lemma idle_rested p P user password l c w c' w' a : session polite p P user password l (c, w) ->
  does (wired P) CMakeIdle (c, w) (c', w') (Ok a) -> c_closed c' = c_closed c /\ (c_closed c = false -> rested (c', w')).
Proof.
  intros Hs Hd. destruct (session_tied _ _ _ _ _ _ _ Hs) as (s & L & Hp & HP & T).
  destruct (wire_does P (codec p) HP CMakeIdle c w s c' w' (Ok a) L Logic.I Hd) as (s' & E & L').
  pose proof (tied_step (p_judge P) (p_looks P) CMakeIdle c s (l_inv _ _ _ _ _ L) T Logic.I) as T'. rewrite E in T'. cbn [fst snd] in T'.
  cbn [astep] in E. unfold a_idle in E. destruct (c_transaction c) as [t|] eqn:Et.
  - pose proof (tied_end (p_judge P) KRollback c s t (l_inv _ _ _ _ _ L) T ltac:(discriminate)) as [_ H].
    assert (K : c_closed (fst (fst (a_end (p_judge P) KRollback c s t))) = c_closed c).
    { unfold a_end. destruct (tx_closed c t); [reflexivity|]. destruct (s_mode s); try reflexivity.
      destruct (control_error (p_judge P) KRollback (native (c_proto c)) s); reflexivity. }
    destruct (a_end (p_judge P) KRollback c s t) as [[c1 s1] [u|e| |]]; cbn in E; try discriminate.
    injection E as <- <- <-. cbn [fst snd] in *. specialize (H u eq_refl). split; [exact K|].
    intro Hc. apply (tied_rested p P c1 w' s1 L' T' H). congruence.
  - cbn in E. injection E as <- <- <-. split; [reflexivity|]. intro Hc. now apply (tied_rested p P c w' s).
Qed.
