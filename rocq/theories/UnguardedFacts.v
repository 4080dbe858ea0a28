(** The calls that do not take the connection's mutex run to their end while somebody else holds it: C42. *)
From Coq Require Import String ZArith List Bool Lia.
From Verif Require Import Bytes GoVal GoErr SpecServer Messages Connection SpecSession Concurrency ConcurFacts.
Import ListNotations.
Open Scope Z_scope.

Fixpoint lockless {A} (p : prog A) : Prop :=
  match p with
  | Ret _ => True
  | Get k => forall c, lockless (k c)
  | Upd _ k => lockless k
  | Send _ _ _ k => forall r, lockless (k r)
  | Recv _ k => forall r, lockless (k r)
  | Hang k => forall r, lockless (k r)
  | Dial k => forall r, lockless (k r)
  | RawWrite _ k => forall r, lockless (k r)
  | RawRead _ k => forall r, lockless (k r)
  | Probe k => forall r, lockless (k r)
  | Lock _ | Unlock _ => False
  end.
Lemma ll_bindr {A B} (p : prog A) (f : res A -> prog B) : lockless p -> (forall r, lockless (f r)) -> lockless (bindr p f).
Proof. induction p; cbn; intros Hp Hf; auto; contradiction. Qed.
Lemma ll_bind {A B} (p : prog A) (f : A -> prog B) : lockless p -> (forall a, lockless (f a)) -> lockless (bind p f).
Proof. intros Hp Hf. apply ll_bindr; [exact Hp|]. intros [a| | |]; cbn; auto. Qed.
Lemma ll_send m : lockless (send_message m).
Proof. cbn. intros _ [e|]; exact I. Qed.
Lemma ll_recv : lockless recv_message.
Proof. cbn. auto. Qed.
Lemma ll_pwrap {A} z (p : prog A) : lockless p -> lockless (pwrap z p).
Proof. intros H. apply ll_bindr; [exact H|]. intro; exact I. Qed.
Lemma ll_tx_end p t sel : lockless p -> lockless (tx_end p t sel).
Proof.
  intros H c. destruct (tx_closed c t); [exact I|]. destruct (sel (c_proto c)) as [m nat].
  apply ll_bind; [apply ll_send|intros _]. apply ll_bind; [destruct nat; [exact I|apply ll_send]|intros _].
  apply ll_bind; [exact H|intro a]. apply ll_bind; [destruct nat; [exact I|exact H]|intro b].
  destruct (negb (is_success a)); [exact I|]. destruct (negb nat && _); exact I.
Qed.
Lemma ll_close_with rb : (forall t, lockless (rb t)) -> lockless (close_with rb).
Proof.
  intros H c. destruct (c_closed c); [exact I|].
  apply ll_bind; [destruct (c_transaction c); [apply H|exact I]|intros _].
  apply ll_bind; [destruct (get_close_message _); [apply ll_send|exact I]|intros _]. intros [e|]; exact I.
Qed.
Lemma ll_core n : lockless (consume n) /\ lockless (reset n) /\ lockless (reset_loop n) /\ lockless (close n) /\ forall t, lockless (rollback n t).
Proof.
  induction n as [|n (I1 & I2 & I3 & I4 & I5)]; [repeat split; intros; exact I|]. repeat split.
  - cbn [consume]. apply ll_bind; [apply ll_recv|]. intros m. destruct m; try exact I. apply ll_bindr; [exact I2|]. intros []; exact I.
  - cbn [reset]. apply ll_bind; [apply ll_pwrap, ll_send|]. intros _. exact I3.
  - cbn [reset_loop]. apply ll_bind; [apply ll_pwrap, ll_recv|]. intros m.
    destruct m; auto; try exact I; apply ll_bindr; auto; intros []; exact I.
  - cbn [close]. now apply ll_close_with.
  - intros t. cbn [rollback]. now apply ll_tx_end.
Qed.
Lemma ll_call n o : statement_of o = None -> lockless (do_call n o).
Proof.
  assert (M : forall A B (f : A -> B) p, lockless p -> lockless (pmap f p)).
  { intros A B f p H. apply ll_bind; [exact H|intro; exact I]. }
  destruct (ll_core n) as (C & _ & _ & K & R).
  destruct o; cbn [statement_of do_call]; intros E; try discriminate E; try apply M; auto.
  - intros c. destruct (c_transaction c); [exact I|]. destruct (c_closed c); [exact I|].
    destruct (get_begin_message _ _ _) as [m nat].
    apply ll_bind; [apply ll_send|intros _]. apply ll_bind; [destruct nat; [exact I|apply ll_send]|intros _].
    apply ll_bind; [exact C|intro a]. apply ll_bind; [destruct nat; [exact I|exact C]|intro b].
    destruct (negb (is_success a)); [exact I|]. destruct (negb nat && _); exact I || (cbn; auto).
  - apply ll_tx_end, C.
  - intros c. destruct (c_transaction c); [apply R|exact I].
  - intros c. destruct (c_closed c); cbn; auto.
  - exact I.
Qed.

(** Such a program, alone moving, ends as if the connection were its own. *)
Lemma lockless_runs {St A} (N : net St) (p : prog A) : lockless p -> forall (x : sys St A) i, nth_error (sy_threads x) i = Some p ->
  exists k, let '(c, s, r) := exec N p (sy_conn x) (sy_net x) in
  schedule N (repeat i k) x = Some (mkSys c s (sy_locked x) (put_nth i (Ret r) (sy_threads x))).
Proof.
  assert (PP : forall l (i : nat) (a b : prog A), put_nth i b (put_nth i a l) = put_nth i b l).
  { induction l as [|y l IH]; intros [|i] a b; cbn; auto. now rewrite IH. }
  assert (PS : forall l (i : nat) (a : prog A), nth_error l i = Some a -> put_nth i a l = l).
  { induction l as [|y l IH]; intros [|i] a H; cbn in *; try discriminate H; [now injection H as ->|now rewrite IH]. }
  assert (Step : forall (p q : prog A) c s c1 s1 (x : sys St A) i, sy_conn x = c -> sy_net x = s -> nth_error (sy_threads x) i = Some p ->
    tstep N p c s (sy_locked x) = Some (c1, s1, sy_locked x, q) ->
    (forall y : sys St A, nth_error (sy_threads y) i = Some q -> exists k, let '(c, s, r) := exec N q (sy_conn y) (sy_net y) in
       schedule N (repeat i k) y = Some (mkSys c s (sy_locked y) (put_nth i (Ret r) (sy_threads y)))) ->
    exists k, let '(c, s, r) := exec N q c1 s1 in schedule N (repeat i k) x = Some (mkSys c s (sy_locked x) (put_nth i (Ret r) (sy_threads x)))).
  { intros p0 q c s c1 s1 x i <- <- Ht Hs IH.
    destruct (IH (mkSys c1 s1 (sy_locked x) (put_nth i q (sy_threads x)))) as (k & Hk); [cbn; now apply (nth_put_same i q p0)|].
    exists (S k). cbn [sy_conn sy_net sy_locked sy_threads] in Hk. destruct (exec N q c1 s1) as [[c2 s2] r]. cbn [repeat schedule].
    unfold sys_step. rewrite Ht, Hs. rewrite Hk, PP. reflexivity. }
  induction p; cbn [lockless]; intros L x i Hi; try contradiction; cbn [exec].
  - exists 0%nat. cbn. rewrite (PS _ _ _ Hi). now destruct x.
  - eapply Step; eauto; reflexivity.
  - eapply Step; eauto; reflexivity.
  - destruct (n_send N _ _ _ _) as [s1 r1] eqn:E. eapply Step; eauto. cbn. now rewrite E.
  - destruct (n_recv N _ _) as [s1 r1] eqn:E. eapply Step; eauto. cbn. now rewrite E.
  - destruct (n_hang N _) as [s1 r1] eqn:E. eapply Step; eauto. cbn. now rewrite E.
  - destruct (n_dial N _) as [s1 r1] eqn:E. eapply Step; eauto. cbn. now rewrite E.
  - destruct (n_write N _ _) as [s1 r1] eqn:E. eapply Step; eauto. cbn. now rewrite E.
  - destruct (n_read N _ _) as [s1 r1] eqn:E. eapply Step; eauto. cbn. now rewrite E.
  - destruct (n_probe N _) as [s1 r1] eqn:E. eapply Step; eauto. cbn. now rewrite E.
Qed.

(** Every call but the statements runs to its end while the mutex is held. *)
Theorem unguarded {St} (N : net St) n o (x : sys St (list (call * res answer))) i : statement_of o = None ->
  nth_error (sy_threads x) i = Some (serial n [o] []) -> sy_locked x = true ->
  exists k c s r, exec N (do_call n o) (sy_conn x) (sy_net x) = (c, s, r)
  /\ schedule N (repeat i k) x = Some (mkSys c s true (put_nth i (Ret (Ok [(o, r)])) (sy_threads x))).
Proof.
  intros Ho Hi HL. cbn [serial] in Hi.
  assert (L : lockless (serial n [o] [])) by (apply ll_bindr; [now apply ll_call|intro; exact I]).
  destruct (lockless_runs N (serial n [o] []) L x i Hi) as (k & Hk).
  cbn [serial] in Hk. rewrite ExecFacts.exec_bindr in Hk.
  destruct (exec N (do_call n o) (sy_conn x) (sy_net x)) as [[c s] r]. cbn [exec serial app] in Hk. rewrite HL in Hk. exists k, c, s, r. now split.
Qed.
