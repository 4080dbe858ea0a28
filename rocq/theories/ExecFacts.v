(** Generic facts about running programs: sequencing and independence of fuel. *)
From Coq Require Import String ZArith List Bool Lia.
From Verif Require Import Bytes GoVal GoErr Messages Connection.
Import ListNotations.
Open Scope Z_scope.

Lemma exec_bindr {St A B} (N : net St) (p : prog A) (f : res A -> prog B) : forall c s,
  exec N (bindr p f) c s = let '(c', s', r) := exec N p c s in exec N (f r) c' s'.
Proof.
  induction p; intros c0 s0; cbn [bindr exec]; auto.
  - destruct (n_send N v cs m s0) as [s' r]. auto.
  - destruct (n_recv N v s0) as [s' r]. auto.
  - destruct (n_hang N s0) as [s' r]. auto.
  - destruct (n_dial N s0) as [s' r]. auto.
  - destruct (n_write N b s0) as [s' r]. auto.
  - destruct (n_read N n s0) as [s' r]. auto.
  - destruct (n_probe N s0) as [s' r]. auto.
Qed.

Lemma exec_bind {St A B} (N : net St) (p : prog A) (f : A -> prog B) c s :
  exec N (bind p f) c s = match exec N p c s with
                          | (c', s', Ok a) => exec N (f a) c' s'
                          | (c', s', Err e) => (c', s', Err e)
                          | (c', s', Panic) => (c', s', Panic)
                          | (c', s', NoFuel) => (c', s', NoFuel)
                          end.
Proof.
  unfold bind. rewrite exec_bindr. destruct (exec N p c s) as [[c' s'] []]; reflexivity.
Qed.

Lemma exec_get {St A} (N : net St) (k : conn -> prog A) c s : exec N (Get k) c s = exec N (k c) c s.
Proof. reflexivity. Qed.

(** [less p p']: whenever p does not run out of fuel, p' does the same. *)
Definition less {A} (p p' : prog A) : Prop :=
  forall St (N : net St) c s, snd (exec N p c s) <> NoFuel -> exec N p' c s = exec N p c s.
Definition starved {A} (p : prog A) : Prop := forall St (N : net St) c s, snd (exec N p c s) = NoFuel.

Lemma less_refl {A} (p : prog A) : less p p. Proof. intros St N c s _. reflexivity. Qed.
Lemma less_trans {A} (p q r : prog A) : less p q -> less q r -> less p r.
Proof. intros H1 H2 St N c s H. rewrite H2; rewrite H1; auto. Qed.
Lemma less_nofuel {A} (p : prog A) : less (Ret NoFuel) p.
Proof. intros St N c s H. now elim H. Qed.
Lemma starved_ret {A} : starved (Ret (A := A) NoFuel). Proof. intros St N c s. reflexivity. Qed.
Lemma starved_unlock {A} (p : prog A) : starved p -> starved (Unlock p).
Proof. intros H St N c s. apply H. Qed.

Lemma less_bindr {A B} (p p' : prog A) (f f' : res A -> prog B) :
  less p p' -> (forall r, less (f r) (f' r)) -> starved (f NoFuel) -> less (bindr p f) (bindr p' f').
Proof.
  intros Hp Hf Hs St N c s. rewrite !exec_bindr. specialize (Hp St N c s).
  destruct (exec N p c s) as [[c1 s1] r] eqn:E. intro H.
  rewrite Hp; [apply Hf, H|]. cbn. intro Er. subst r. now rewrite Hs in H.
Qed.
Lemma less_bind {A B} (p p' : prog A) (f f' : A -> prog B) :
  less p p' -> (forall a, less (f a) (f' a)) -> less (bind p f) (bind p' f').
Proof.
  intros Hp Hf. unfold bind. apply less_bindr; [exact Hp| |apply starved_ret].
  intros []; auto using less_refl.
Qed.
Lemma less_get {A} (f f' : conn -> prog A) : (forall c, less (f c) (f' c)) -> less (Get f) (Get f').
Proof. intros H St N c s. cbn [exec]. apply H. Qed.
Lemma less_lock {A} (p p' : prog A) : less p p' -> less (Lock p) (Lock p').
Proof. intros H St N c s. cbn [exec]. apply H. Qed.

Lemma less_tx_end p p' t sel : less p p' -> less (tx_end p t sel) (tx_end p' t sel).
Proof.
  intro H. unfold tx_end. apply less_get. intro c. destruct (tx_closed c t); [apply less_refl|].
  destruct (sel (c_proto c)) as [m []]; repeat first [apply less_refl | exact H | apply less_bind; [|intro]].
Qed.
Lemma less_close_with r r' : (forall t, less (r t) (r' t)) -> less (close_with r) (close_with r').
Proof.
  intro H. unfold close_with. apply less_get. intro c. destruct (c_closed c); [apply less_refl|].
  apply less_bind; [|intro; apply less_refl]. destruct (c_transaction c); [apply H|apply less_refl].
Qed.

Lemma less_step : forall n,
  less (consume n) (consume (S n)) /\ less (reset n) (reset (S n)) /\ less (reset_loop n) (reset_loop (S n))
  /\ less (close n) (close (S n)) /\ (forall t, less (rollback n t) (rollback (S n) t)).
Proof.
  induction n as [|n (IHc & IHr & IHl & IHcl & IHrb)].
  { repeat split; intros; apply less_nofuel. }
  assert (H5 : forall t, less (rollback (S n) t) (rollback (S (S n)) t)).
  { intro t. cbn [rollback]. apply less_tx_end, IHc. }
  assert (H4 : less (close (S n)) (close (S (S n)))).
  { cbn [close]. apply less_close_with, IHrb. }
  assert (H3 : less (reset_loop (S n)) (reset_loop (S (S n)))).
  { cbn [reset_loop]. apply less_bind; [apply less_refl|]. intro m.
    destruct m; try apply less_refl; try exact IHl;
      apply less_bindr; try exact IHcl; try apply starved_ret; intros []; apply less_refl. }
  assert (H2 : less (reset (S n)) (reset (S (S n)))).
  { cbn [reset]. apply less_bind; [apply less_refl|]. intro; exact IHl. }
  assert (H1 : less (consume (S n)) (consume (S (S n)))).
  { cbn [consume]. apply less_bind; [apply less_refl|]. intro m. destruct m; try apply less_refl.
    apply less_bindr; [exact IHr| |apply starved_ret]. intros []; apply less_refl. }
  auto.
Qed.

Lemma less_fetch n k acc : less (fetch n k acc) (fetch (S n) (S k) acc).
Proof.
  revert acc. induction k as [|k IH]; intro acc; [apply less_nofuel|].
  cbn [fetch]. apply less_bind; [apply less_step|]. intro m. destruct m; try apply less_refl. apply IH.
Qed.

Lemma less_run_query n q ps db tx : less (run_query n q ps db tx) (run_query (S n) q ps db tx).
Proof.
  unfold run_query. apply less_lock, less_bindr; [|intro; apply less_refl|apply starved_unlock, starved_ret].
  apply less_get. intro c. destruct (c_closed c); [apply less_refl|].
  apply less_bind; [apply less_refl|]. intros _. apply less_bind; [apply less_refl|]. intros _.
  apply less_bind; [apply less_step|]. intro m. destruct (is_success m); [apply less_fetch|apply less_refl].
Qed.
Lemma less_query_db n q ps db tx : less (query_db n q ps db tx) (query_db (S n) q ps db tx).
Proof.
  unfold query_db. apply less_get. intro c. destruct (negb _ && _); [apply less_refl|apply less_run_query].
Qed.
Lemma less_exec_db n q ps db tx : less (exec_db n q ps db tx) (exec_db (S n) q ps db tx).
Proof. apply less_bind; [apply less_query_db|intro; apply less_refl]. Qed.
Lemma less_begin_db n db : less (begin_db n db) (begin_db (S n) db).
Proof.
  unfold begin_db. apply less_get. intro c. destruct (c_transaction c); [apply less_refl|].
  destruct (c_closed c); [apply less_refl|]. destruct (get_begin_message (c_proto c) db (c_mode c)) as [m []];
    repeat first [apply less_refl | apply less_step | apply less_bind; [|intro]].
Qed.

Lemma less_do_call_step n o : less (do_call n o) (do_call (S n) o).
Proof.
  destruct o; cbn [do_call]; unfold pmap; try apply less_refl; apply less_bind; try (intro; apply less_refl).
  - apply less_query_db.
  - apply less_exec_db.
  - apply less_begin_db.
  - apply less_query_db.
  - apply less_exec_db.
  - apply less_exec_db.
  - apply less_tx_end, less_step.
  - apply less_step.
  - apply less_step.
  - unfold make_idle. apply less_get. intro c. destruct (c_transaction c); [apply less_step|apply less_refl].
Qed.

Lemma less_do_call n m o : (n <= m)%nat -> less (do_call n o) (do_call m o).
Proof.
  induction 1; [apply less_refl|]. eapply less_trans; [eassumption|apply less_do_call_step].
Qed.

Lemma less_create_step n : less (create_bolt_conn n) (create_bolt_conn (S n)).
Proof.
  unfold create_bolt_conn, initialize. intros St N c s. cbn [exec].
  destruct (n_dial N s) as [s' [e|]]; [reflexivity|].
  match goal with |- snd (exec N (bindr _ ?f) _ _) <> _ -> exec N (bindr _ ?g) _ _ = _ =>
    revert c s'; change (forall c s, snd (exec N (bindr handshake f) c s) <> NoFuel -> exec N (bindr handshake g) c s = exec N (bindr handshake f) c s) end.
  intros c1 s1. apply less_bindr; [apply less_refl| |apply starved_ret].
  intros [vb| | |]; try apply less_refl.
  destruct (get_protocol (Some vb)) as [[[p|] z] [e|]]; try apply less_refl.
  all: intros St' N' c' s2; cbn [exec]; revert s2; generalize (set_proto p c'); intros c2 s2;
    refine (less_bind _ _ _ _ (less_refl _) _ St' N' c2 s2); intros _;
    apply less_bind; [apply less_step|]; intro m; destruct m; try apply less_refl; apply less_step.
Qed.
Lemma less_create n m : (n <= m)%nat -> less (create_bolt_conn n) (create_bolt_conn m).
Proof.
  induction 1; [apply less_refl|]. eapply less_trans; [eassumption|apply less_create_step].
Qed.
