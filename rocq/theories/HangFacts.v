(** The life of a connection's socket: C131. *)
From Coq Require Import String ZArith List Bool Lia.
From Verif Require Import Bytes GoVal GoErr Encoder Decoder SpecPack SpecValues SpecCodec SpecServer
  Messages Connection Link ExecFacts Wire SpecSession SpecShare SpecDialect SpecSocket AnyNetFacts.
Import ListNotations.
Open Scope Z_scope.

Lemma traffic_nil : traffic [].
Proof. intros v []. Qed.
Lemma traffic_app a b : traffic a -> traffic b -> traffic (a ++ b).
Proof. intros A B v H. apply in_app_or in H as [H|H]; auto. Qed.
Lemma traffic_one v : dials v = false -> hangs_up v = false -> traffic [v].
Proof. intros A B w [<-|[]]. auto. Qed.

(** What a program that begins on an open connection has done to the socket. *)
Definition spent (c' : conn) (ev : list event) : Prop :=
  c_closed c' = false /\ traffic ev
  \/ c_closed c' = true /\ c_transaction c' = None /\ exists use e, ev = use ++ [VHang e] /\ traffic use.
Definition ends {A} (Q : conn -> A -> Prop) (p : prog A) : Prop :=
  forall St (N : net St) c s tr c' s' tr' r, c_closed c = false -> exec (watched N) p c (s, tr) = (c', (s', tr'), r) ->
  exists ev, tr' = tr ++ ev /\ spent c' ev /\ (forall a, r = Ok a -> Q c' a).
(** A result is returned only if the connection is still open. *)
Definition tidy {A} (p : prog A) : Prop := ends (fun c' _ => c_closed c' = false) p.
(** Anything may be returned. *)
Definition loose {A} (p : prog A) : Prop := ends (fun _ _ => True) p.

Lemma ends_weak {A} (Q Q' : conn -> A -> Prop) p : (forall c a, Q c a -> Q' c a) -> ends Q p -> ends Q' p.
Proof.
  intros H P St N c s tr c' s' tr' r Hc E. destruct (P _ _ _ _ _ _ _ _ _ Hc E) as (ev & -> & S1 & R).
  exists ev. eauto.
Qed.
Lemma tidy_loose {A} (p : prog A) : tidy p -> loose p.
Proof. apply ends_weak. auto. Qed.
Lemma tidy_ret {A} (r : res A) : tidy (Ret r).
Proof.
  intros St N c s tr c' s' tr' r' Hc E. cbn in E. injection E as <- <- <- <-. exists []. rewrite app_nil_r.
  split; [reflexivity|]. split; [left; auto using traffic_nil|auto].
Qed.
Lemma ends_bind {A B} (Q : conn -> B -> Prop) (p : prog A) (f : A -> prog B) : tidy p -> (forall a, ends Q (f a)) -> ends Q (bind p f).
Proof.
  intros Hp Hf St N c s tr c' s' tr' r Hc E. rewrite exec_bind in E.
  destruct (exec (watched N) p c (s, tr)) as [[c1 [s1 tr1]] r1] eqn:E1.
  destruct (Hp _ _ _ _ _ _ _ _ _ Hc E1) as (ev & -> & S1 & R1).
  destruct r1 as [a| | |]; try (injection E as <- <- <- <-; exists ev; split; [reflexivity|split; [exact S1|discriminate]]).
  specialize (R1 a eq_refl). destruct (Hf a _ _ _ _ _ _ _ _ _ R1 E) as (ev2 & -> & S2 & R2).
  exists (ev ++ ev2). rewrite app_assoc. split; [reflexivity|]. split; [|exact R2].
  destruct S1 as [[_ T1]|[C _]]; [|congruence].
  destruct S2 as [[C2 T2]|(C2 & X & use & e & -> & T2)].
  - left. auto using traffic_app.
  - right. split; [exact C2|]. split; [exact X|]. exists (ev ++ use), e. rewrite app_assoc. auto using traffic_app.
Qed.
(** Afterwards nothing happens, and no result is returned. *)
Lemma tidy_after {A B} (p : prog A) (f : res A -> prog B) : loose p ->
  (forall r, exists x, f r = Ret x /\ forall b, x <> Ok b) -> tidy (bindr p f).
Proof.
  intros Hp Hf St N c s tr c' s' tr' r Hc E. rewrite exec_bindr in E.
  destruct (exec (watched N) p c (s, tr)) as [[c1 [s1 tr1]] r1] eqn:E1.
  destruct (Hp _ _ _ _ _ _ _ _ _ Hc E1) as (ev & -> & S1 & _).
  destruct (Hf r1) as (x & Ef & Hx). rewrite Ef in E. cbn in E. injection E as <- <- <- <-.
  exists ev. split; [reflexivity|]. split; [exact S1|]. intros b X. now elim (Hx b).
Qed.
Lemma ends_get {A} (Q : conn -> A -> Prop) k : (forall c, c_closed c = false -> forall St (N : net St) s tr c' s' tr' r,
    exec (watched N) (k c) c (s, tr) = (c', (s', tr'), r) ->
    exists ev, tr' = tr ++ ev /\ spent c' ev /\ (forall a, r = Ok a -> Q c' a)) -> ends Q (Get k).
Proof. intros H St N c s tr c' s' tr' r Hc E. cbn [exec] in E. eapply H; eassumption. Qed.
Lemma ends_get' {A} (Q : conn -> A -> Prop) k : (forall c, ends Q (k c)) -> ends Q (Get k).
Proof. intro H. apply ends_get. intros c Hc St N s tr c' s' tr' r E. eapply H; eassumption. Qed.
Lemma ends_recv {A} (Q : conn -> A -> Prop) v k : (forall r, ends Q (k r)) -> ends Q (Recv v k).
Proof.
  intros H St N c s tr c' s' tr' r Hc E. cbn [exec watched n_recv fst snd] in E.
  destruct (n_recv N v s) as [s1 x]. destruct (H x _ _ _ _ _ _ _ _ _ Hc E) as (ev & -> & S1 & R).
  exists (VRecv x :: ev). rewrite <- app_assoc. split; [reflexivity|]. split; [|exact R].
  assert (T : traffic [VRecv x]) by now apply traffic_one.
  destruct S1 as [[C1 T1]|(C1 & X & use & e & -> & T1)].
  - left. split; [exact C1|]. apply (traffic_app [_]); auto.
  - right. split; [exact C1|]. split; [exact X|]. exists (VRecv x :: use), e. split; [reflexivity|]. apply (traffic_app [_]); auto.
Qed.
Lemma ends_send {A} (Q : conn -> A -> Prop) v cs m k : (forall r, ends Q (k r)) -> ends Q (Send v cs m k).
Proof.
  intros H St N c s tr c' s' tr' r Hc E. cbn [exec watched n_send fst snd] in E.
  destruct (n_send N v cs m s) as [s1 x]. destruct (H x _ _ _ _ _ _ _ _ _ Hc E) as (ev & -> & S1 & R).
  exists (VSend m x :: ev). rewrite <- app_assoc. split; [reflexivity|]. split; [|exact R].
  assert (T : traffic [VSend m x]) by now apply traffic_one.
  destruct S1 as [[C1 T1]|(C1 & X & use & e & -> & T1)].
  - left. split; [exact C1|]. apply (traffic_app [_]); auto.
  - right. split; [exact C1|]. split; [exact X|]. exists (VSend m x :: use), e. split; [reflexivity|]. apply (traffic_app [_]); auto.
Qed.
Lemma ends_probe {A} (Q : conn -> A -> Prop) k : (forall r, ends Q (k r)) -> ends Q (Probe k).
Proof.
  intros H St N c s tr c' s' tr' r Hc E. cbn [exec watched n_probe fst snd] in E.
  destruct (n_probe N s) as [s1 x]. destruct (H x _ _ _ _ _ _ _ _ _ Hc E) as (ev & -> & S1 & R).
  exists (VProbe x :: ev). rewrite <- app_assoc. split; [reflexivity|]. split; [|exact R].
  assert (T : traffic [VProbe x]) by now apply traffic_one.
  destruct S1 as [[C1 T1]|(C1 & X & use & e & -> & T1)].
  - left. split; [exact C1|]. apply (traffic_app [_]); auto.
  - right. split; [exact C1|]. split; [exact X|]. exists (VProbe x :: use), e. split; [reflexivity|]. apply (traffic_app [_]); auto.
Qed.
Lemma tidy_send_message m : tidy (send_message m).
Proof. apply ends_get'. intro c. apply ends_send. intros []; apply tidy_ret. Qed.
Lemma tidy_recv_message : tidy recv_message.
Proof. apply ends_get'. intro c. apply ends_recv. intro. apply tidy_ret. Qed.
Lemma tidy_pwrap {A} m (p : prog A) : tidy p -> tidy (pwrap m p).
Proof.
  intros H St N c s tr c' s' tr' r Hc E. unfold pwrap in E. rewrite exec_bindr in E.
  destruct (exec (watched N) p c (s, tr)) as [[c1 [s1 tr1]] r1] eqn:E1.
  destruct (H _ _ _ _ _ _ _ _ _ Hc E1) as (ev & -> & S1 & R1). cbn in E. injection E as <- <- <- <-.
  exists ev. split; [reflexivity|]. split; [exact S1|]. intros a X. destruct r1; try discriminate. now apply (R1 a0).
Qed.
Lemma tidy_upd {A} f (r : res A) : (forall c, c_closed (f c) = c_closed c) -> tidy (Upd f (Ret r)).
Proof.
  intros Hf St N c s tr c' s' tr' r' Hc E. cbn in E. injection E as <- <- <- <-. exists []. rewrite app_nil_r.
  assert (c_closed (f c) = false) by (rewrite Hf; exact Hc).
  split; [reflexivity|]. split; [left; auto using traffic_nil|auto].
Qed.

(** The end of a transaction leaves none open, and the connection as it was. *)
Lemma ends_tx_end cons t sel : tidy cons ->
  ends (fun c' _ => c_closed c' = false /\ c_transaction c' = None) (tx_end cons t sel).
Proof.
  intro H. apply ends_get'. intro c. destruct (tx_closed c t).
  { intros St N c0 s tr c' s' tr' r Hc E. destruct (tidy_ret (Err (ENew (TMsg 1))) St N c0 s tr c' s' tr' r Hc E) as (ev & -> & X & R).
    exists ev. split; [reflexivity|]. split; [exact X|]. cbn in E. injection E as _ _ _ <-. discriminate. }
  destruct (sel (c_proto c)) as [m nat].
  assert (F : forall e : gerr, ends (fun c' (_ : unit) => c_closed c' = false /\ c_transaction c' = None) (fail e)).
  { intros e St N c0 s tr c' s' tr' r Hc E. destruct (tidy_ret (Err e) St N c0 s tr c' s' tr' r Hc E) as (ev & -> & X & R).
    exists ev. split; [reflexivity|]. split; [exact X|]. cbn in E. injection E as _ _ _ <-. discriminate. }
  apply ends_bind; [apply tidy_send_message|intros _].
  apply ends_bind; [destruct nat; [apply tidy_ret|apply tidy_send_message]|intros _].
  apply ends_bind; [exact H|intro a]. apply ends_bind; [destruct nat; [apply tidy_ret|exact H]|intro b].
  destruct (negb (is_success a)); [apply F|]. destruct (negb nat && _); [apply F|].
  intros St N c0 s tr c' s' tr' r Hc E. cbn in E. injection E as <- <- <- <-. exists []. rewrite app_nil_r.
  split; [reflexivity|]. split; [left; auto using traffic_nil|]. intros _ _. split; [exact Hc|reflexivity].
Qed.
Lemma tidy_tx_end cons t sel : tidy cons -> tidy (tx_end cons t sel).
Proof. intro H. eapply ends_weak; [|apply ends_tx_end, H]. cbn. tauto. Qed.

Lemma loose_close_with rb : (forall t, ends (fun c' _ => c_closed c' = false /\ c_transaction c' = None) (rb t)) -> loose (close_with rb).
Proof.
  intro H. apply ends_get. intros c Hc St N s tr c' s' tr' r E. rewrite Hc in E.
  rewrite exec_bind in E.
  assert (P : ends (fun c' (_ : unit) => c_closed c' = false /\ c_transaction c' = None)
                (match c_transaction c with Some t => rb t | None => ok_unit end) \/ c_transaction c = None).
  { destruct (c_transaction c) as [t|]; [left; apply H|right; reflexivity]. }
  assert (Q : exists c1 s1 ev1 r1,
    exec (watched N) (match c_transaction c with Some t => rb t | None => ok_unit end) c (s, tr) = (c1, (s1, tr ++ ev1), r1)
    /\ spent c1 ev1 /\ (forall a, r1 = Ok a -> c_closed c1 = false /\ c_transaction c1 = None)).
  { destruct P as [P|P].
    - destruct (exec (watched N) _ c (s, tr)) as [[c1 [s1 tr1]] r1] eqn:E1 in |- *.
      destruct (P _ _ _ _ _ _ _ _ _ Hc E1) as (ev & -> & S1 & R1). exists c1, s1, ev, r1. auto.
    - rewrite P. exists c, s, [], (Ok tt). rewrite app_nil_r. split; [reflexivity|]. split; [left; auto using traffic_nil|auto]. }
  clear P. destruct Q as (c1 & s1 & ev1 & r1 & E1 & S1 & R1). rewrite E1 in E.
  destruct r1 as [a| | |]; try (injection E as <- <- <- <-; exists ev1; auto).
  destruct (R1 a eq_refl) as [C1 X1]. clear R1 E1.
  destruct S1 as [[_ T1]|[C _]]; [|congruence].
  assert (K : forall s tr c' s' tr' r,
     exec (watched N) (Hang (fun e => Upd set_closed (match e with Some e => fail e | None => ok_unit end))) c1 (s, tr) = (c', (s', tr'), r) ->
     exists e, tr' = tr ++ [VHang e] /\ c_closed c' = true /\ c_transaction c' = None).
  { intros s2 tr2 c2 s3 tr3 r3 E3. cbn [exec watched n_hang fst snd] in E3. destruct (n_hang N s2) as [s4 e].
    exists e. destruct e; cbn in E3; injection E3 as <- <- <- <-; auto. }
  rewrite exec_bind in E. destruct (get_close_message (c_proto c)) as [m|].
  - unfold send_message in E. cbn [exec watched n_send fst snd] in E.
    destruct (n_send N _ _ m s1) as [s2 x]. destruct x as [e|].
    + cbn in E. injection E as <- <- <- <-. exists (ev1 ++ [VSend m (Some e)]). rewrite app_assoc. split; [reflexivity|].
      split; [left; split; [exact C1|apply traffic_app; [exact T1|now apply traffic_one]]|auto].
    + change (exec (watched N) ok_unit c1 ?x) with (c1, x, @Ok unit tt) in E. cbv iota beta in E.
      destruct (K _ _ _ _ _ _ E) as (e & -> & C2 & X2).
      exists (ev1 ++ [VSend m None; VHang e]). rewrite <- !app_assoc. split; [reflexivity|]. split; [|auto].
      right. split; [exact C2|]. split; [exact X2|]. exists (ev1 ++ [VSend m None]), e. rewrite <- app_assoc.
      split; [reflexivity|]. apply traffic_app; [exact T1|now apply traffic_one].
  - change (exec (watched N) ok_unit c1 ?x) with (c1, x, @Ok unit tt) in E. cbv iota beta in E.
    destruct (K _ _ _ _ _ _ E) as (e & -> & C2 & X2).
    exists (ev1 ++ [VHang e]). rewrite <- !app_assoc. split; [reflexivity|]. split; [|auto].
    right. split; [exact C2|]. split; [exact X2|]. exists ev1, e. auto.
Qed.

Lemma tidy_core n : tidy (consume n) /\ tidy (reset n) /\ tidy (reset_loop n) /\ loose (close n)
  /\ (forall t, ends (fun c' _ => c_closed c' = false /\ c_transaction c' = None) (rollback n t)).
Proof.
  induction n as [|n (IHc & IHr & IHl & IHcl & IHrb)].
  { refine (conj _ (conj _ (conj _ (conj _ _)))); try apply tidy_ret; [apply tidy_loose, tidy_ret|].
    intros t St N c0 s tr c' s' tr' r Hc E. destruct (tidy_ret (A := unit) NoFuel St N c0 s tr c' s' tr' r Hc E) as (ev & -> & X & R).
    exists ev. split; [reflexivity|]. split; [exact X|]. cbn in E. injection E as _ _ _ <-. discriminate. }
  refine (conj _ (conj _ (conj _ (conj _ _)))).
  - cbn [consume]. apply ends_bind; [apply tidy_recv_message|]. intro m. destruct m; try apply tidy_ret.
    apply tidy_after; [apply tidy_loose, IHr|]. intros []; eexists; (split; [reflexivity|discriminate]).
  - cbn [reset]. apply ends_bind; [apply tidy_pwrap, tidy_send_message|intros _; exact IHl].
  - cbn [reset_loop]. apply ends_bind; [apply tidy_pwrap, tidy_recv_message|]. intro m.
    destruct m; try apply tidy_ret; try exact IHl;
      (apply tidy_after; [exact IHcl|intros []; eexists; (split; [reflexivity|discriminate])]).
  - cbn [close]. apply loose_close_with, IHrb.
  - intro t. cbn [rollback]. apply ends_tx_end, IHc.
Qed.
Lemma tidy_rollback n t : tidy (rollback n t).
Proof. eapply ends_weak; [|apply tidy_core]. cbn. tauto. Qed.
Lemma tidy_fetch n k : forall acc, tidy (fetch n k acc).
Proof.
  induction k as [|k IH]; intro acc; [apply tidy_ret|]. cbn [fetch]. apply ends_bind; [apply tidy_core|]. intro m.
  destruct m; try apply tidy_ret. apply IH.
Qed.
Lemma tidy_run_query n q ps db t : tidy (run_query n q ps db t).
Proof.
  intros St N c s tr c' s' tr' r Hc E. unfold run_query in E.
  change (exec ?M (Lock ?p) c ?x) with (exec M p c x) in E. rewrite exec_bindr in E.
  destruct (exec (watched N) (Get _) c (s, tr)) as [[c1 [s1 tr1]] r1] eqn:E1.
  cbn in E. injection E as <- <- <- <-. revert E1. revert Hc. revert c s tr c1 s1 tr1 r1. refine (_ St N). clear.
  change (tidy (Get (fun c => if c_closed c then fail (ENew (TMsg 5))
    else
      _ <~ send_message (get_run_message (c_proto c) q ps db (c_mode c) (negb t)) ;;
      _ <~ send_message (get_pull_all_message (c_proto c)) ;;
      resp <~ consume n ;;
      if is_success resp then fetch n n [] else fail (EFmt None (TMsg 6))))).
  apply ends_get'. intro c. destruct (c_closed c); [apply tidy_ret|].
  apply ends_bind; [apply tidy_send_message|intros _]. apply ends_bind; [apply tidy_send_message|intros _].
  apply ends_bind; [apply tidy_core|]. intro m. destruct (is_success m); [apply tidy_fetch|apply tidy_ret].
Qed.
Lemma tidy_query_db n q ps db t : tidy (query_db n q ps db t).
Proof. apply ends_get'. intro c. destruct (negb _ && _); [apply tidy_ret|apply tidy_run_query]. Qed.
Lemma tidy_pmap {A B} (f : A -> B) p : tidy p -> tidy (pmap f p).
Proof. intro H. apply ends_bind; [exact H|]. intro. apply tidy_ret. Qed.
Lemma tidy_begin n db : tidy (begin_db n db).
Proof.
  apply ends_get'. intro c. destruct (c_transaction c); [apply tidy_ret|]. destruct (c_closed c); [apply tidy_ret|].
  destruct (get_begin_message (c_proto c) db (c_mode c)) as [m nat].
  apply ends_bind; [apply tidy_send_message|intros _].
  apply ends_bind; [destruct nat; [apply tidy_ret|apply tidy_send_message]|intros _].
  apply ends_bind; [apply tidy_core|intro a]. apply ends_bind; [destruct nat; [apply tidy_ret|apply tidy_core]|intro b].
  destruct (negb (is_success a)); [apply tidy_ret|]. destruct (negb nat && _); [apply tidy_ret|].
  apply ends_get'. intro c1. now apply tidy_upd.
Qed.

Lemma loose_call n o : loose (do_call n o).
Proof.
  destruct o; cbn [do_call];
    lazymatch goal with |- loose (pmap _ (close _)) => idtac | _ => try (apply tidy_loose, tidy_pmap) end.
  - apply tidy_query_db.
  - apply ends_bind; [apply tidy_query_db|intro; apply tidy_ret].
  - apply tidy_begin.
  - apply tidy_query_db.
  - apply ends_bind; [apply tidy_query_db|intro; apply tidy_ret].
  - apply ends_bind; [apply tidy_query_db|intro; apply tidy_ret].
  - apply tidy_tx_end, tidy_core.
  - apply tidy_rollback.
  - intros St N c s tr c' s' tr' r Hc E. unfold pmap in E. rewrite exec_bind in E.
    destruct (exec (watched N) (close n) c (s, tr)) as [[c1 [s1 tr1]] r1] eqn:E1.
    destruct (proj1 (proj2 (proj2 (proj2 (tidy_core n)))) _ _ _ _ _ _ _ _ _ Hc E1) as (ev & -> & S1 & _).
    destruct r1; cbn in E; injection E as <- <- <- <-; exists ev; auto.
  - apply ends_get'. intro c. destruct (c_transaction c); [apply tidy_rollback|apply tidy_ret].
  - apply ends_get'. intro c. destruct (c_closed c); [apply tidy_ret|]. apply ends_probe. intro. apply tidy_ret.
  - now apply tidy_loose, tidy_upd.
Qed.

(** ** On a closed connection without a transaction nothing happens *)

Definition buried (c : conn) : Prop := c_closed c = true /\ c_transaction c = None.
Lemma buried_call {St} (N : net St) n o c s c' s' r : decent c -> buried c -> exec N (do_call n o) c s = (c', s', r) ->
  s' = s /\ buried c'.
Proof.
  intros [T _] [C X] E.
  assert (Hq : forall q ps db t, fst (exec N (query_db n q ps db t) c s) = (c, s)).
  { intros. unfold query_db. rewrite exec_get. destruct (negb _ && _); [reflexivity|]. unfold run_query. cbn [exec bindr]. now rewrite C. }
  assert (Ht : forall cons t sel, fst (exec N (tx_end cons t sel) c s) = (c, s)).
  { intros. unfold tx_end. rewrite exec_get. destruct (tx_closed c t) eqn:Et; [reflexivity|]. apply T in Et. congruence. }
  assert (Hp : forall A B (f : A -> B) p, fst (exec N p c s) = (c, s) -> fst (exec N (pmap f p) c s) = (c, s)).
  { intros A B f p H. unfold pmap. rewrite exec_bind. destruct (exec N p c s) as [[c1 s1] r1]. cbn in H. injection H as -> ->. now destruct r1. }
  assert (G : fst (exec N (do_call n o) c s) = (c, s) -> s' = s /\ buried c').
  { intro H. rewrite E in H. cbn in H. injection H as -> ->. split; [reflexivity|now split]. }
  destruct o; cbn [do_call] in *; try (apply G, Hp).
  - apply Hq.
  - change (fst (exec N (pmap snd (query_db n q params db false)) c s) = (c, s)). apply Hp, Hq.
  - unfold begin_db. rewrite exec_get, X, C. reflexivity.
  - apply Hq.
  - change (fst (exec N (pmap snd (query_db n q params db true)) c s) = (c, s)). apply Hp, Hq.
  - change (fst (exec N (pmap snd (query_db n q params [] false)) c s) = (c, s)). apply Hp, Hq.
  - apply Ht.
  - destruct n as [|n]; [reflexivity|]. apply Ht.
  - destruct n as [|n]; [reflexivity|]. cbn [close]. unfold close_with. rewrite exec_get, C. reflexivity.
  - unfold make_idle. rewrite exec_get, X. reflexivity.
  - unfold validate_open. rewrite exec_get, C. reflexivity.
  - cbn in E. injection E as <- <- _. split; [reflexivity|now split].
Qed.

Lemma buried_history {St} (N : net St) P w l w' : history N P w l w' -> decent (fst w) -> buried (fst w) ->
  snd w' = snd w /\ buried (fst w').
Proof.
  induction 1 as [w|w l w1 o r w2 H IH Hc (n & E & _)]; intros D B; [auto|].
  destruct (IH D B) as [E1 B1]. destruct (history_decent _ _ _ _ _ H D) as [D1 _].
  destruct (buried_call N n o _ _ _ _ _ D1 B1 E) as [E2 B2]. split; [congruence|exact B2].
Qed.

(** ** From the beginning *)

Definition alive (e : option gerr) (c : conn) (tr : list event) : Prop := life e (c_closed c) tr /\ (c_closed c = true -> c_transaction c = None).

Lemma life_more e tr c' ev : life e false tr -> spent c' ev -> alive e c' (tr ++ ev).
Proof.
  intros (use & T & ->) [[C T2]|(C & X & use2 & e2 & -> & T2)]; split; rewrite ?C; try discriminate; auto.
  - exists (use ++ ev). split; [now apply traffic_app|reflexivity].
  - exists (use ++ use2). split; [now apply traffic_app|]. exists e2. cbn. now rewrite !app_assoc.
Qed.

Lemma opens_alive {St} (N : net St) user password s c s' tr r :
  opens (watched N) user password (s, []) (c, (s', tr)) r -> alive (snd (n_dial N s)) c tr.
Proof.
  intros (n & E & _). unfold create_bolt_conn, initialize in E. cbn [exec watched n_dial fst snd app] in E.
  set (c0 := fresh_conn user password) in *.
  assert (C0 : c_closed c0 = false) by reflexivity.
  destruct (n_dial N s) as [s1 e]. cbn [snd] in *.
  assert (L0 : forall e, life e false [VDial e]) by (intro; exists []; split; [apply traffic_nil|reflexivity]).
  assert (A0 : forall e tr, life e false tr -> alive e c0 tr) by (intros e0 tr0 H; split; [exact H|discriminate]).
  destruct e as [e|]; [cbn in E; injection E as <- <- <- <-; apply A0, L0|].
  rewrite exec_bindr in E.
  assert (Hh : exists s2 ev r2, exec (watched N) handshake c0 (s1, [VDial None]) = (c0, (s2, [VDial None] ++ ev), r2) /\ traffic ev).
  { unfold handshake. cbn [exec watched n_write fst snd app]. destruct (n_write N handshake_bytes s1) as [s3 [k [e|]]].
    { exists s3, [VWrite handshake_bytes (k, Some e)], (Err e). split; [reflexivity|now apply traffic_one]. }
    destruct (negb (k =? 20)).
    { do 3 eexists. split; [reflexivity|now apply traffic_one]. }
    cbn [exec watched n_read fst snd app]. destruct (n_read N 4 s3) as [s4 [b [e|]]].
    { do 3 eexists. split; [reflexivity|]. apply (traffic_app [_] [_]); now apply traffic_one. }
    destruct (negb (zlen b =? 4)).
    { do 3 eexists. split; [reflexivity|]. apply (traffic_app [_] [_]); now apply traffic_one. }
    destruct (bytes_eqb b no_version_supported);
      (do 3 eexists; split; [reflexivity|]; apply (traffic_app [_] [_]); now apply traffic_one). }
  destruct Hh as (s2 & ev & r2 & Eh & T). rewrite Eh in E.
  assert (L1 : life None false ([VDial None] ++ ev)) by (exists ev; split; [exact T|reflexivity]).
  destruct r2 as [vb| | |]; try (cbn in E; injection E as <- <- <- <-; apply A0, L1).
  destruct (get_protocol (Some vb)) as [[[p|] z] oe].
  - cbn [exec] in E. set (c1 := set_proto p c0) in *.
    assert (F : loose (send_init n (get_init_message p client_id (auth_basic (c_user c1) (c_password c1))))).
    { unfold send_init. apply ends_bind; [apply tidy_send_message|intros _]. apply ends_bind; [apply tidy_core|].
      intro m. destruct m; try (apply tidy_core); apply tidy_loose, tidy_ret. }
    destruct (F St N c1 s2 _ _ _ _ _ eq_refl E) as (ev2 & -> & S2 & _). now apply life_more.
  - destruct oe; cbn in E; injection E as <- <- <- <-; apply A0, L1.
Qed.

Lemma history_alive {St} (N : net St) e P w l w' : history (watched N) P w l w' -> decent (fst w) -> alive e (fst w) (snd (snd w)) ->
  alive e (fst w') (snd (snd w')).
Proof.
  induction 1 as [w|w l w1 o r w2 H IH Hc (n & E & _)]; intros D A; [auto|].
  specialize (IH D A). destruct (history_decent _ _ _ _ _ H D) as [D1 _].
  destruct w1 as [c1 [s1 tr1]], w2 as [c2 [s2 tr2]]. cbn [fst snd] in *.
  destruct (c_closed c1) eqn:C1.
  - destruct (buried_call (watched N) n o _ _ _ _ _ D1 (conj C1 (proj2 IH C1)) E) as [E2 [B1 B2]].
    injection E2 as -> ->. split; [|auto]. destruct IH as [IH _]. rewrite C1 in IH. now rewrite B1.
  - destruct (loose_call n o St N c1 s1 tr1 c2 s2 tr2 r C1 E) as (ev & -> & S1 & _). destruct IH as [IH _]. rewrite C1 in IH.
    now apply life_more.
Qed.

Lemma socket_life {St} (N : net St) user password s c s1 tr1 r P l c' s' tr' :
  opens (watched N) user password (s, []) (c, (s1, tr1)) r ->
  history (watched N) P (c, (s1, tr1)) l (c', (s', tr')) -> life (snd (n_dial N s)) (c_closed c') tr'.
Proof.
  intros O H. refine (proj1 (history_alive N _ P _ _ _ H _ _)).
  - exact (opens_decent _ _ _ _ _ _ O).
  - exact (opens_alive _ _ _ _ _ _ _ _ O).
Qed.
Lemma socket_buried {St} (N : net St) user password s c s1 tr1 r P l c' s' tr' P2 l2 c2 s2 tr2 :
  opens (watched N) user password (s, []) (c, (s1, tr1)) r ->
  history (watched N) P (c, (s1, tr1)) l (c', (s', tr')) -> c_closed c' = true ->
  history (watched N) P2 (c', (s', tr')) l2 (c2, (s2, tr2)) -> s2 = s' /\ tr2 = tr'.
Proof.
  intros O H C H2.
  assert (D := opens_decent _ _ _ _ _ _ O). destruct (history_decent _ _ _ _ _ H D) as [D1 _].
  assert (A := history_alive N _ P _ _ _ H D (opens_alive _ _ _ _ _ _ _ _ O)).
  destruct (buried_history _ _ _ _ _ H2 D1 (conj C (proj2 A C))) as [E _]. cbn in E. now injection E.
Qed.

Lemma traffic_keeps use : traffic use -> forall b, fold_left socket_after use b = b.
Proof.
  induction use as [|v use IH]; intros T b; [reflexivity|]. cbn [fold_left].
  rewrite IH by (intros w H; apply T; now right). destruct (T v (or_introl eq_refl)) as [D H]. now destruct v.
Qed.
Lemma life_socket over tr : life None over tr -> socket_open tr = negb over.
Proof.
  intros (use & T & H). unfold socket_open. destruct over; [destruct H as (e & ->)|subst tr]; cbn [fold_left socket_after].
  - rewrite fold_left_app, (traffic_keeps use T). reflexivity.
  - now rewrite traffic_keeps.
Qed.
Lemma open_dialled {St} (N : net St) user password s c x a :
  opens (watched N) user password (s, []) (c, x) (Ok a) -> snd (n_dial N s) = None.
Proof.
  intros (n & E & _). unfold create_bolt_conn, initialize in E. cbn [exec watched n_dial fst snd] in E.
  destruct (n_dial N s) as [s1 [e|]]; [discriminate|reflexivity].
Qed.
Lemma flag_tells {St} (N : net St) user password s c s1 tr1 a P l c' s' tr' :
  opens (watched N) user password (s, []) (c, (s1, tr1)) (Ok a) ->
  history (watched N) P (c, (s1, tr1)) l (c', (s', tr')) -> c_closed c' = negb (socket_open tr').
Proof.
  intros O H. assert (L := socket_life N _ _ _ _ _ _ _ _ _ _ _ _ O H).
  rewrite (open_dialled _ _ _ _ _ _ _ O) in L. apply life_socket in L. rewrite L. now rewrite negb_involutive.
Qed.

(** ** C39 on any network *)

Lemma close_alone {St} (N : net St) c s tr c' s' tr' r : c_closed c = false -> c_transaction c = None ->
  does (watched N) CClose (c, (s, tr)) (c', (s', tr')) r ->
  (exists m e, get_close_message (c_proto c) = Some m /\ tr' = tr ++ [VSend m (Some e)] /\ r = Err e /\ c' = c)
  \/ exists e, tr' = tr ++ match get_close_message (c_proto c) with Some m => [VSend m None; VHang e] | None => [VHang e] end
     /\ c_closed c' = true /\ r = match e with None => Ok ADone | Some e => Err e end.
Proof.
  intros C X (n & E & Hr). cbn [fst snd do_call] in E. unfold pmap in E. rewrite exec_bind in E.
  destruct n as [|n]; [cbn in E; injection E as _ _ _ <-; now elim Hr|].
  cbn [close] in E. unfold close_with in E. rewrite exec_get, C, X in E.
  change (bind ok_unit ?f) with (f tt) in E. cbv beta in E. destruct (get_close_message (c_proto c)) as [m|].
  - rewrite exec_bind in E. unfold send_message in E. cbn [exec watched n_send fst snd] in E.
    destruct (n_send N _ _ m s) as [s1 [e|]].
    + cbn in E. injection E as <- <- <- <-. left. exists m, e. auto.
    + cbn [exec ok_unit watched n_hang fst snd] in E. destruct (n_hang N s1) as [s2 e]. right. exists e. rewrite <- app_assoc in E.
      destruct e; cbn in E; injection E as <- <- <- <-; auto.
  - change (bind ok_unit ?f) with (f tt) in E. cbv beta in E. cbn [exec ok_unit watched n_hang fst snd] in E.
    destruct (n_hang N s) as [s2 e]. right. exists e.
    destruct e; cbn in E; injection E as <- <- <- <-; auto.
Qed.

Lemma proto_stays {St} (N : net St) n t c s c1 s1 r : txs_ok c -> exec N (rollback n t) c s = (c1, s1, r) -> c_proto c1 = c_proto c.
Proof.
  intros T E. assert (F := proj2 (proj2 (proj2 (proj2 (fine_core n)))) t St N c s T). rewrite E in F. apply F.
Qed.
Lemma close_in_tx {St} (N : net St) c x t c' x' r : decent c -> c_closed c = false -> c_transaction c = Some t ->
  does (watched N) CClose (c, x) (c', x') r ->
  exists c1 x1 r1, does (watched N) (CRollback t) (c, x) (c1, x1) r1
  /\ match r1 with
     | Ok _ => c_closed c1 = false /\ (forall u, tx_closed c1 u = true) /\ does (watched N) CClose (c1, x1) (c', x') r
     | _ => c' = c1 /\ x' = x1 /\ r = r1
     end.
Proof.
  intros D C X (n & E & Hr). cbn [fst snd do_call] in E. unfold pmap in E. rewrite exec_bind in E.
  destruct n as [|n]; [cbn in E; injection E as _ _ <-; now elim Hr|].
  cbn [close] in E. unfold close_with in E. rewrite exec_get, C, X in E. rewrite exec_bind in E.
  destruct x as [s tr]. destruct (exec (watched N) (rollback n t) c (s, tr)) as [[c1 [s1 tr1]] r1] eqn:E1.
  destruct (proj2 (proj2 (proj2 (proj2 (tidy_core n)))) t _ _ _ _ _ _ _ _ _ C E1) as (ev & Et & _ & R1).
  assert (E2 : exec (watched N) (do_call n (CRollback t)) c (s, tr) = (c1, (s1, tr1), match r1 with Ok _ => Ok ADone | Err e => Err e | Panic => Panic | NoFuel => NoFuel end)).
  { cbn [do_call]. unfold pmap. rewrite exec_bind, E1. now destruct r1. }
  exists c1, (s1, tr1). destruct r1 as [a|e| |].
  - destruct (R1 a eq_refl) as [C1 X1]. assert (P := proto_stays _ _ _ _ _ _ _ _ (d_txs _ D) E1).
    destruct (call_decent _ _ _ _ _ _ _ _ D E2) as [D1 _].
    exists (Ok ADone). split; [exists n; split; [exact E2|discriminate]|]. split; [exact C1|]. split.
    { intro u. destruct (tx_closed c1 u) eqn:Eu; [reflexivity|]. apply (d_txs _ D1) in Eu. congruence. }
    exists (S n). split; [|exact Hr]. cbn [fst snd do_call]. unfold pmap. rewrite exec_bind. cbn [close]. unfold close_with.
    rewrite exec_get, C1, X1, P. change (bind ok_unit ?f) with (f tt). cbv beta. exact E.
  - injection E as <- <- <-. exists (Err e). split; [exists n; split; [exact E2|discriminate]|auto].
  - injection E as <- <- <-. exists Panic. split; [exists n; split; [exact E2|discriminate]|auto].
  - injection E as _ _ <-. now elim Hr.
Qed.
Lemma close_in_tx_used {St} (N : net St) l c x t c' x' r : used (watched N) l (c, x) -> c_closed c = false -> tx_closed c t = false ->
  does (watched N) CClose (c, x) (c', x') r ->
  exists c1 x1 r1, does (watched N) (CRollback t) (c, x) (c1, x1) r1
  /\ match r1 with
     | Ok _ => c_closed c1 = false /\ (forall u, tx_closed c1 u = true) /\ does (watched N) CClose (c1, x1) (c', x') r
     | _ => c' = c1 /\ x' = x1 /\ r = r1
     end.
Proof.
  intros U C X. assert (D := used_decent _ _ _ U). cbn in D. apply (d_txs _ D) in X. now apply close_in_tx.
Qed.
Lemma close_alone_used {St} (N : net St) l c s tr c' s' tr' r : used (watched N) l (c, (s, tr)) -> c_closed c = false ->
  (forall t, tx_closed c t = true) -> does (watched N) CClose (c, (s, tr)) (c', (s', tr')) r ->
  has_transactions (proto_number (c_proto c)) = true
  /\ (exists e, tr' = tr ++ [VSend (GStructure 2 []) (Some e)] /\ r = Err e /\ c' = c)
  \/ exists e, tr' = tr ++ (if has_transactions (proto_number (c_proto c)) then [VSend (GStructure 2 []) None] else []) ++ [VHang e]
     /\ c_closed c' = true /\ r = match e with None => Ok ADone | Some e => Err e end.
Proof.
  intros U C X E. assert (D := used_decent _ _ _ U). cbn in D.
  assert (X' : c_transaction c = None).
  { destruct (c_transaction c) as [t|] eqn:Et; [|reflexivity]. apply (d_txs _ D) in Et. rewrite X in Et. discriminate. }
  destruct (close_alone _ _ _ _ _ _ _ _ C X' E) as [(m & e & G & H)|(e & -> & H)].
  - left. destruct (c_proto c); try discriminate; injection G as <-; split; [reflexivity|eauto|reflexivity|eauto].
  - right. exists e. split; [|exact H]. now destruct (c_proto c).
Qed.

(** ** C75: when a failed open closes its socket after all *)

Lemma close_leaves {St} (N : net St) n c s tr c' s' tr' r : c_closed c = false -> c_transaction c = None ->
  exec (watched N) (close n) c (s, tr) = (c', (s', tr'), r) -> c_closed c' = true -> exists e, tr' = tr ++ leave (c_proto c) e.
Proof.
  intros C X E C'. assert (R : r <> NoFuel).
  { intros ->. destruct n as [|n]; [cbn in E; injection E as <- _ _; congruence|].
    cbn [close] in E. unfold close_with in E. rewrite exec_get, C, X in E. change (bind ok_unit ?f) with (f tt) in E. cbv beta in E.
    destruct (get_close_message (c_proto c)) as [m|].
    - rewrite exec_bind in E. unfold send_message in E. cbn [exec watched n_send fst snd] in E.
      destruct (n_send N _ _ m s) as [s1 [e|]]; [discriminate|].
      cbn [exec ok_unit watched n_hang fst snd] in E. destruct (n_hang N s1) as [s2 [e|]]; discriminate.
    - change (bind ok_unit ?f) with (f tt) in E. cbv beta in E. cbn [exec ok_unit watched n_hang fst snd] in E.
      destruct (n_hang N s) as [s2 [e|]]; discriminate. }
  assert (D : does (watched N) CClose (c, (s, tr)) (c', (s', tr')) (match r with Ok _ => Ok ADone | Err e => Err e | Panic => Panic | NoFuel => NoFuel end)).
  { exists n. split; [|destruct r; congruence]. cbn [fst snd do_call]. unfold pmap. rewrite exec_bind, E. now destruct r. }
  destruct (close_alone _ _ _ _ _ _ _ _ C X D) as [(m & e & _ & _ & _ & ->)|(e & -> & _)]; [congruence|].
  exists e. unfold leave. now destruct (c_proto c).
Qed.
Lemma recv_step {St} (N : net St) c s tr : exists s' x, exec (watched N) recv_message c (s, tr) = (c, (s', tr ++ [VRecv x]), x).
Proof.
  unfold recv_message. cbn [exec watched n_recv fst snd]. destruct (n_recv N _ s) as [s' x]. cbn. eauto.
Qed.
Lemma send_step {St} (N : net St) m c s tr : exists s' x, exec (watched N) (send_message m) c (s, tr)
  = (c, (s', tr ++ [VSend m x]), match x with None => Ok tt | Some e => Err e end).
Proof.
  unfold send_message. cbn [exec watched n_send fst snd]. destruct (n_send N _ _ m s) as [s' x]. exists s', x. now destruct x.
Qed.
Lemma loop_leaves {St} (N : net St) n : forall c s tr c' s' tr' r, c_closed c = false -> c_transaction c = None ->
  exec (watched N) (reset_loop n) c (s, tr) = (c', (s', tr'), r) -> c_closed c' = true ->
  exists k m e, tr' = tr ++ repeat (VRecv (Ok GIgnored)) k ++ VRecv (Ok m) :: leave (c_proto c) e /\ (forall md, m <> GSuccess md) /\ m <> GIgnored.
Proof.
  induction n as [|n IH]; intros c s tr c' s' tr' r C X E C'; [cbn in E; injection E as <- _ _ _; congruence|].
  cbn [reset_loop] in E. rewrite exec_bind in E. unfold pwrap in E. rewrite exec_bindr in E.
  destruct (recv_step N c s tr) as (s1 & x & E1). rewrite E1 in E. cbn [exec] in E.
  destruct x as [m| | |]; try (cbn in E; injection E as <- _ _ _; congruence). cbn [rwrap] in E.
  assert (K : forall f : res unit -> prog unit, (forall x, exists y, f x = Ret y) ->
    exec (watched N) (bindr (close n) f) c (s1, tr ++ [VRecv (Ok m)]) = (c', (s', tr'), r) ->
    exists e, tr' = tr ++ VRecv (Ok m) :: leave (c_proto c) e).
  { intros f Hf E2. rewrite exec_bindr in E2. destruct (exec (watched N) (close n) c _) as [[c2 [s2 tr2]] r2] eqn:E3.
    destruct (Hf r2) as [y Ey]. rewrite Ey in E2. cbn in E2. injection E2 as <- <- <- <-.
    destruct (close_leaves _ _ _ _ _ _ _ _ _ C X E3 C') as [e ->]. exists e. now rewrite <- app_assoc. }
  destruct m;
    try (assert (J := fun H => K _ H E); destruct J as [e ->]; [intros []; eexists; reflexivity|]; exists O; do 2 eexists; split; [reflexivity|split; discriminate]).
  - cbn in E. injection E as <- _ _ _. congruence.
  - destruct (IH _ _ _ _ _ _ _ C X E C') as (k & m & e & -> & H). exists (S k), m, e. split; [|exact H]. cbn. now rewrite <- app_assoc.
Qed.
Lemma consume_leaves {St} (N : net St) n c s tr c' s' tr' r : c_closed c = false -> c_transaction c = None ->
  exec (watched N) (consume n) c (s, tr) = (c', (s', tr'), r) -> c_closed c' = true ->
  exists md k m e, tr' = tr ++ VRecv (Ok (GFailure md)) :: VSend GReset None :: repeat (VRecv (Ok GIgnored)) k ++ VRecv (Ok m) :: leave (c_proto c) e
    /\ (forall md, m <> GSuccess md) /\ m <> GIgnored.
Proof.
  intros C X E C'. destruct n as [|n]; [cbn in E; injection E as <- _ _ _; congruence|].
  cbn [consume] in E. rewrite exec_bind in E.
  destruct (recv_step N c s tr) as (s1 & x & E1). rewrite E1 in E.
  destruct x as [m| | |]; try (cbn in E; injection E as <- _ _ _; congruence).
  destruct m; try (cbn in E; injection E as <- _ _ _; congruence).
  rewrite exec_bindr in E. destruct (exec (watched N) (reset n) c _) as [[c2 [s2 tr2]] r2] eqn:E2.
  assert (Y : c2 = c' /\ s2 = s' /\ tr2 = tr') by (destruct r2; cbn in E; injection E as <- <- <- <-; auto).
  destruct Y as (-> & -> & ->). clear E. destruct n as [|n]; [cbn in E2; injection E2 as <- _ _ _; congruence|].
  cbn [reset] in E2. rewrite exec_bind in E2. unfold pwrap in E2. rewrite exec_bindr in E2.
  destruct (send_step N reset_message c s1 (tr ++ [VRecv (Ok (GFailure md))])) as (s3 & x & E3). rewrite E3 in E2.
  destruct x as [e|]; cbn [exec rwrap] in E2; [injection E2 as <- _ _ _; congruence|].
  destruct (loop_leaves _ _ _ _ _ _ _ _ _ C X E2 C') as (k & m & e & -> & H).
  exists md, k, m, e. split; [|exact H]. rewrite <- !app_assoc. reflexivity.
Qed.

Lemma last_hang tr e : socket_open (tr ++ [VHang e]) = false.
Proof. unfold socket_open. rewrite fold_left_app. reflexivity. Qed.
Lemma leave_ends p e a : exists b, a ++ leave p e = b ++ [VHang e].
Proof. unfold leave. destruct (has_transactions _); [|exists a; reflexivity]. exists (a ++ [VSend (GStructure 2 []) None]). now rewrite <- app_assoc. Qed.
Lemma retreat_closed p ev tr : retreat p ev -> socket_open (tr ++ ev) = false.
Proof.
  intros [m e _ _|md k m e _ _].
  - change (VRecv (Ok m) :: leave p e) with ([VRecv (Ok m)] ++ leave p e). rewrite app_assoc.
    destruct (leave_ends p e (tr ++ [VRecv (Ok m)])) as [b ->]. apply last_hang.
  - replace (tr ++ _) with ((tr ++ VRecv (Ok (GFailure md)) :: VSend GReset None :: repeat (VRecv (Ok GIgnored)) k ++ [VRecv (Ok m)]) ++ leave p e).
    + destruct (leave_ends p e (tr ++ VRecv (Ok (GFailure md)) :: VSend GReset None :: repeat (VRecv (Ok GIgnored)) k ++ [VRecv (Ok m)])) as [b ->]. apply last_hang.
    + rewrite <- app_assoc. cbn. now rewrite <- app_assoc.
Qed.

Lemma retreats {St} (N : net St) user password s c s' tr r : opens (watched N) user password (s, []) (c, (s', tr)) r ->
  c_closed c = true ->
  exists vb p ev, get_protocol (Some vb) = (Some p, proto_number p, None)
  /\ tr = [VDial None; VWrite handshake_bytes (20, None); VRead (vb, None);
           VSend (get_init_message p client_id (auth_basic user password)) None] ++ ev /\ retreat p ev.
Proof.
  intros (n & E & _) C. unfold create_bolt_conn, initialize in E. cbn [exec watched n_dial fst snd app] in E.
  set (c0 := fresh_conn user password) in *. assert (C0 : c_closed c0 = false) by reflexivity.
  destruct (n_dial N s) as [s1 [e|]]; [cbn in E; injection E as <- _ _ _; discriminate|].
  rewrite exec_bindr in E. unfold handshake in E. cbn [exec watched n_write fst snd app] in E.
  destruct (n_write N handshake_bytes s1) as [s3 [k [e|]]]; [cbn in E; injection E as <- _ _ _; discriminate|].
  destruct (negb (k =? 20)) eqn:Ek; [cbn in E; injection E as <- _ _ _; discriminate|].
  cbn [exec watched n_read fst snd app] in E. destruct (n_read N 4 s3) as [s4 [b [e|]]]; [cbn in E; injection E as <- _ _ _; discriminate|].
  destruct (negb (zlen b =? 4)); [cbn in E; injection E as <- _ _ _; discriminate|].
  destruct (bytes_eqb b no_version_supported); [cbn in E; injection E as <- _ _ _; discriminate|].
  cbn [exec] in E. destruct (get_protocol (Some b)) as [[[p|] z] oe] eqn:Eb; [|destruct oe; cbn in E; injection E as <- _ _ _; discriminate].
  apply negb_false_iff, Z.eqb_eq in Ek. subst k.
  exists b, p. 
  assert (Ep : z = proto_number p /\ oe = None).
  { revert Eb. unfold get_protocol. repeat match goal with |- context[if ?x then _ else _] => destruct x end; intro Y; inversion Y; auto. }
  destruct Ep as [-> ->]. cbn [exec] in E. set (c1 := set_proto p c0) in *.
  unfold send_init in E. rewrite exec_bind in E.
  change (c_user c1) with user in E. change (c_password c1) with password in E.
  set (init := get_init_message p client_id (auth_basic user password)) in *.
  destruct (send_step N init c1 s4 [VDial None; VWrite handshake_bytes (20, None); VRead (b, None)]) as (s5 & x & E5). rewrite E5 in E.
  destruct x as [e|]; [cbn in E; injection E as <- _ _ _; discriminate|].
  rewrite exec_bind in E. destruct (exec (watched N) (consume n) c1 _) as [[c2 [s2 tr2]] r2] eqn:E2.
  destruct (c_closed c2) eqn:C2.
  - destruct (consume_leaves _ _ _ _ _ _ _ _ _ (eq_refl : c_closed c1 = false) (eq_refl : c_transaction c1 = None) E2 C2) as (md & k & m & e & -> & H1 & H2).
    assert (T := proj1 (tidy_core n) _ _ _ _ _ _ _ _ _ (eq_refl : c_closed c1 = false) E2). destruct T as (_ & _ & _ & R).
    destruct r2 as [a| | |]; [specialize (R a eq_refl); congruence|..];
      (injection E as <- <- <- <-; eexists; split; [exact Eb|]; split; [reflexivity|now constructor]).
  - destruct r2 as [m| | |]; try (injection E as <- _ _ _; congruence).
    destruct n as [|n]; [cbn in E2; discriminate|]. cbn [consume] in E2. rewrite exec_bind in E2.
    match type of E2 with context[exec (watched N) recv_message c1 (?a, ?b)] => destruct (recv_step N c1 a b) as (s6 & x & E6) end.
    rewrite E6 in E2.
    destruct x as [m'| | |]; try discriminate.
    assert (Y : m' = m /\ c2 = c1 /\ (forall md, m <> GFailure md) /\ tr2 = [VDial None; VWrite handshake_bytes (20, None); VRead (b, None); VSend init None; VRecv (Ok m)]).
    { destruct m'; try (cbn in E2; injection E2 as <- <- <- <-; split; [reflexivity|split; [reflexivity|split; [discriminate|reflexivity]]]).
      rewrite exec_bindr in E2. destruct (exec (watched N) (reset n) c1 _) as [[c3 x3] r3]. destruct r3; discriminate. }
    destruct Y as (-> & -> & Hf & ->). clear E2 E6.
    assert (K : exec (watched N) (close (S n)) c1 (s2, [VDial None; VWrite handshake_bytes (20, None); VRead (b, None); VSend init None; VRecv (Ok m)]) = (c, (s', tr), r) ->
       (forall md, m <> GSuccess md) -> exists ev, get_protocol (Some b) = (Some p, proto_number p, None)
       /\ tr = [VDial None; VWrite handshake_bytes (20, None); VRead (b, None); VSend init None] ++ ev /\ retreat p ev).
    { intros E7 Hs. destruct (close_leaves _ _ _ _ _ _ _ _ _ (eq_refl : c_closed c1 = false) (eq_refl : c_transaction c1 = None) E7 C) as [e ->].
      exists (VRecv (Ok m) :: leave p e). split; [exact Eb|]. split; [reflexivity|now constructor]. }
    destruct m; try (apply K; [exact E|discriminate]).
    cbn in E. injection E as <- _ _ _. discriminate.
Qed.

Lemma failed_open_exactly {St} (N : net St) user password s c s' tr e : opens (watched N) user password (s, []) (c, (s', tr)) (Err e) ->
  snd (n_dial N s) = None ->
  (socket_open tr = false <-> exists vb p ev, get_protocol (Some vb) = (Some p, proto_number p, None)
     /\ tr = [VDial None; VWrite handshake_bytes (20, None); VRead (vb, None);
              VSend (get_init_message p client_id (auth_basic user password)) None] ++ ev /\ retreat p ev).
Proof.
  intros O D. split.
  - intro H. assert (A := proj1 (opens_alive _ _ _ _ _ _ _ _ O)). rewrite D in A. apply life_socket in A.
    rewrite A in H. apply negb_false_iff in H. exact (retreats _ _ _ _ _ _ _ _ O H).
  - intros (vb & p & ev & _ & -> & R). now apply (retreat_closed p).
Qed.
