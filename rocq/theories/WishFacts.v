(** Every call asks for what it is to ask for, once and in order (proofs): C88. *)
From Coq Require Import String ZArith List Bool Lia.
From Verif Require Import Bytes GoVal GoErr Decoder Messages Connection ExecFacts Link SpecSession SpecServer Wire SessionFacts WatchFacts SpecTalk.
Import ListNotations.
Open Scope Z_scope.

Lemma wishes_app a b : wishes (a ++ b) = wishes a ++ wishes b.
Proof. apply flat_map_app. Qed.
Lemma no_blame_app a b : no_blame (a ++ b) -> no_blame a /\ no_blame b.
Proof. intros H. split; intros md Hi; apply (H md), in_or_app; auto. Qed.

Ltac nothing_more := split; [reflexivity|]; split; [now exists []|]; split; [constructor|]; split; [auto|]; intros; auto.

Section Version.
Context (p0 : proto).
Local Notation n0 := (proto_number p0).

(** Only amends. *)
Definition mends {A} (p : prog A) : Prop :=
  forall St (N : net St) c s c' s' tr r, c_proto c = p0 -> exec (watched N) p c (s, []) = (c', (s', tr), r) ->
    c_proto c' = p0 /\ Forall (amends n0) (wishes tr).
(** [plan] or, in case of trouble, a part of it and amends. *)
Definition seeks {A} (p : prog A) (plan : list wish) : Prop :=
  forall St (N : net St) c s c' s' tr r, c_proto c = p0 -> exec (watched N) p c (s, []) = (c', (s', tr), r) ->
    c_proto c' = p0 /\ exists a b, wishes tr = a ++ b /\ (exists rest, plan = a ++ rest) /\ Forall (amends n0) b
      /\ (no_blame tr -> b = []) /\ (forall x, r = Ok x -> a = plan /\ b = []).

Lemma as_ret {A} (r : res A) plan : (forall x, r = Ok x -> plan = []) -> seeks (Ret r) plan.
Proof.
  intros H St N c s c' s' tr r' Hc E. injection E as <- _ <- <-. split; [exact Hc|]. exists [], [].
  split; [reflexivity|]. split; [now exists plan|]. split; [constructor|]. split; [auto|]. intros x Hx. split; [symmetry; eauto|reflexivity].
Qed.
Lemma as_upd {A} f (k : prog A) plan : (forall c, c_proto (f c) = c_proto c) -> seeks k plan -> seeks (Upd f k) plan.
Proof. intros Hf H St N c s c' s' tr r Hc E. refine (H St N (f c) s c' s' tr r _ E). now rewrite Hf. Qed.
Lemma as_get {A} (k : conn -> prog A) plan : (forall c, c_proto c = p0 -> seeks (k c) plan) -> seeks (Get k) plan.
Proof. intros H St N c s c' s' tr r Hc E. exact (H c Hc St N c s c' s' tr r Hc E). Qed.
Lemma as_bind {A B} (p : prog A) (f : A -> prog B) pl1 pl2 : seeks p pl1 -> (forall a, seeks (f a) pl2) -> seeks (bind p f) (pl1 ++ pl2).
Proof.
  intros Hp Hf St N c s c' s' tr r Hc E. rewrite exec_bind in E.
  destruct (exec (watched N) p c (s, [])) as [[c1 [s1 tr1]] r1] eqn:E1.
  destruct (Hp _ _ _ _ _ _ _ _ Hc E1) as (Hc1 & a & b & W & [rest Hr] & Hb & Hq & Hok).
  destruct r1 as [x|e| |].
  { destruct (Hok x eq_refl) as [-> ->]. rewrite app_nil_r in W.
    rewrite watched_prefix in E. destruct (exec (watched N) (f x) c1 (s1, [])) as [[c2 [s2 tr2]] r2] eqn:E2. cbn [fst snd] in E.
    injection E as <- <- <- <-. destruct (Hf x _ _ _ _ _ _ _ _ Hc1 E2) as (Hc2 & a2 & b2 & W2 & [rest2 Hr2] & Hb2 & Hq2 & Hok2).
    split; [exact Hc2|]. exists (pl1 ++ a2), b2. rewrite wishes_app, W, W2, app_assoc. split; [reflexivity|].
    split; [exists rest2; rewrite Hr2, app_assoc; reflexivity|]. split; [exact Hb2|].
    split; [intro Hn; apply Hq2, (proj2 (no_blame_app _ _ Hn))|]. intros y Hy. destruct (Hok2 y Hy) as [-> ->]. auto. }
  all: injection E as <- <- <- <-; split; [exact Hc1|]; exists a, b; split; [exact W|]; split; [exists (rest ++ pl2); now rewrite Hr, <- app_assoc|];
    split; [exact Hb|]; split; [exact Hq|]; discriminate.
Qed.
Lemma as_bind_nil {A B} (p : prog A) (f : A -> prog B) pl : seeks p [] -> (forall a, seeks (f a) pl) -> seeks (bind p f) pl.
Proof. exact (as_bind p f [] pl). Qed.
Lemma as_send m : seeks (send_message m) [wish_of m].
Proof.
  intros St N c s c' s' tr r Hc E. unfold send_message in E. cbn [exec watched n_send fst snd] in E.
  destruct (n_send N _ _ m s) as [s1 [e|]]; cbn in E; injection E as <- _ <- <-; split; auto; exists [wish_of m], []; nothing_more.
Qed.
Lemma as_recv : seeks recv_message [].
Proof.
  intros St N c s c' s' tr r Hc E. unfold recv_message in E. cbn [exec watched n_recv fst snd] in E.
  destruct (n_recv N _ s) as [s1 [m|e| |]]; cbn in E; injection E as <- _ <- <-; split; auto; exists [], []; nothing_more.
Qed.
Lemma as_hang : seeks (Hang (fun e => Upd set_closed (match e with Some e => fail e | None => ok_unit end))) [].
Proof.
  intros St N c s c' s' tr r Hc E. cbn [exec watched n_hang fst snd] in E.
  destruct (n_hang N s) as [s1 [e|]]; cbn in E; injection E as <- _ <- <-; split; auto; exists [], []; nothing_more.
Qed.
Lemma as_mends {A} (p : prog A) plan : seeks p plan -> Forall (amends n0) plan -> mends p.
Proof.
  intros H Hp St N c s c' s' tr r Hc E. destruct (H _ _ _ _ _ _ _ _ Hc E) as (Hc' & a & b & W & [rest ->] & Hb & _). split; [exact Hc'|].
  rewrite W. apply Forall_app in Hp as [Ha _]. apply Forall_app. auto.
Qed.
Lemma m_bindr {A B} (p : prog A) (f : res A -> prog B) : mends p -> (forall r, mends (f r)) -> mends (bindr p f).
Proof.
  intros Hp Hf St N c s c' s' tr r Hc E. rewrite exec_bindr in E.
  destruct (exec (watched N) p c (s, [])) as [[c1 [s1 tr1]] r1] eqn:E1. destruct (Hp _ _ _ _ _ _ _ _ Hc E1) as (Hc1 & H1).
  rewrite watched_prefix in E. destruct (exec (watched N) (f r1) c1 (s1, [])) as [[c2 [s2 tr2]] r2] eqn:E2. cbn [fst snd] in E. injection E as <- <- <- <-.
  destruct (Hf r1 _ _ _ _ _ _ _ _ Hc1 E2) as (Hc2 & H2). split; [exact Hc2|]. rewrite wishes_app. apply Forall_app. auto.
Qed.
Lemma m_ret {A} (r : res A) : mends (Ret r).
Proof. intros St N c s c' s' tr r' Hc E. injection E as <- _ <- _. split; [exact Hc|constructor]. Qed.
Lemma m_bind {A B} (p : prog A) (f : A -> prog B) : mends p -> (forall a, mends (f a)) -> mends (bind p f).
Proof. intros Hp Hf. apply m_bindr; [exact Hp|]. intros [a|e| |]; [apply Hf|apply m_ret..]. Qed.
Lemma m_pwrap {A} m (p : prog A) : mends p -> mends (pwrap m p).
Proof. intros H. apply m_bindr; [exact H|]. intros [a|e| |]; apply m_ret. Qed.

(** consume asks for nothing; after a failure it makes amends *)
Lemma as_consume_step n : mends (reset n) -> seeks (consume (S n)) [].
Proof.
  intros Hr St N c s c' s' tr r Hc E. cbn [consume] in E. rewrite exec_bind in E. unfold recv_message in E. cbn [exec watched n_recv fst snd] in E.
  destruct (n_recv N _ s) as [s1 [m|e| |]] eqn:Er; cbn [exec] in E.
  2-4: injection E as <- _ <- <-; split; auto; exists [], []; nothing_more.
  assert (Q : forall r0 : res gval, (c, (s1, [] ++ [VRecv (Ok m)]), r0) = (c', (s', tr), r) ->
    c_proto c' = p0 /\ exists a b, wishes tr = a ++ b /\ (exists rest, [] = a ++ rest) /\ Forall (amends n0) b
      /\ (no_blame tr -> b = []) /\ (forall x, r = Ok x -> a = [] /\ b = [])).
  { intros r0 [= <- _ <- <-]. split; auto. exists [], []; nothing_more. }
  destruct m; try (exact (Q _ E)). clear Q.
  rewrite exec_bindr, watched_prefix in E. destruct (exec (watched N) (reset n) c (s1, [])) as [[c2 [s2 tr2]] r2] eqn:E2.
  destruct (Hr _ _ _ _ _ _ _ _ Hc E2) as (Hc2 & H2). cbn [fst snd] in E.
  assert (Hres : (c2, (s2, ([] ++ [VRecv (Ok (GFailure md))]) ++ tr2)) = (c', (s', tr)) /\ forall x, r <> Ok x).
  { destruct r2; cbn in E; injection E as <- <- <- <-; split; auto; discriminate. }
  destruct Hres as [[= <- <- <-] Hn]. split; [exact Hc2|]. exists [], (wishes tr2). cbn.
  split; [reflexivity|]. split; [now exists []|]. split; [exact H2|]. split; [intros Hb; elim (Hb md); now left|]. intros x Hx. now elim (Hn x).
Qed.
Lemma as_two cons m native pull {A} (last : prog A) e2 e3 : seeks cons [] -> seeks last [] ->
  seeks (_ <~ send_message m ;; _ <~ (if native : bool then ok_unit else send_message pull) ;;
         runSucc <~ cons ;; pullSucc <~ (if native then Ret (Ok GNil) else cons) ;;
         if negb (is_success runSucc) then fail e2 else if negb native && negb (is_success pullSucc) then fail e3 else last)
    (wish_of m :: (if native then [] else [wish_of pull])).
Proof.
  intros Hc Hl. apply (as_bind _ _ [wish_of m]); [apply as_send|]. intros _.
  rewrite <- (app_nil_r (if native then [] else _)). apply as_bind; [destruct native; [now apply as_ret|apply as_send]|]. intros _.
  apply as_bind_nil; [exact Hc|]. intro m1. apply as_bind_nil; [destruct native; [now apply as_ret|exact Hc]|]. intro m2.
  destruct (negb (is_success m1)); [now apply as_ret|]. destruct (negb native && _); [now apply as_ret|exact Hl].
Qed.
Lemma as_tx_end cons t msg : seeks cons [] -> seeks (tx_end cons t msg) (wish_of (fst (msg p0)) :: (if snd (msg p0) then [] else [WPull])).
Proof.
  intros Hc. apply as_get. intros c Hp. destruct (tx_closed c t); [now apply as_ret|]. rewrite Hp. destruct (msg p0) as [m native]. cbn [fst snd].
  assert (Hpull : wish_of (get_pull_all_message p0) = WPull) by now destruct p0. rewrite <- Hpull. apply as_two; [exact Hc|].
  apply as_upd; [reflexivity|]. now apply as_ret.
Qed.
Lemma as_rollback_of n t : seeks (consume n) [] -> seeks (rollback (S n) t) (control_wishes n0 WRollback (str "ROLLBACK")).
Proof. intros H. pose proof (as_tx_end (consume n) t get_rollback_message H) as E. clear -E. now destruct p0. Qed.
Lemma as_core n : seeks (consume n) [] /\ mends (reset n) /\ mends (reset_loop n) /\ mends (close n) /\ (forall t, seeks (rollback n t) (control_wishes n0 WRollback (str "ROLLBACK"))).
Proof.
  assert (Hroll : Forall (amends n0) (control_wishes n0 WRollback (str "ROLLBACK"))).
  { apply Forall_forall. intros w Hw. right. now right. }
  induction n as [|n (IHc & IHr & IHl & IHcl & IHrb)]; [split; [now apply as_ret|]; split; [apply m_ret|]; split; [apply m_ret|]; split; [apply m_ret|]; intro; now apply as_ret|].
  split; [now apply as_consume_step|]. split; [|split; [|split]].
  - cbn [reset]. apply m_bind; [apply m_pwrap, (as_mends _ _ (as_send _)); repeat constructor|]. intros _. exact IHl.
  - cbn [reset_loop]. apply m_bind; [apply m_pwrap, (as_mends _ _ as_recv); constructor|]. intros m.
    assert (Hc : forall e, mends (bindr (close n) (fun r => match r with Panic => Ret Panic | NoFuel => Ret NoFuel | _ => fail (A := unit) e end))).
    { intro e. apply m_bindr; [exact IHcl|]. intros [a|e'| |]; apply m_ret. }
    destruct m; try apply Hc; [apply m_ret|exact IHl].
  - cbn [close]. intros St N c s c' s' tr r Hc E. cbn [exec close_with] in E. revert E. destruct (c_closed c) eqn:Ec.
    { intro E. exact (m_ret _ _ _ _ _ _ _ _ _ Hc E). }
    intro E. match type of E with exec _ ?p c _ = _ => assert (M : mends p); [|exact (M _ _ _ _ _ _ _ _ Hc E)] end.
    apply m_bind; [destruct (c_transaction c); [exact (as_mends _ _ (IHrb _) Hroll)|apply m_ret]|]. intros _.
    apply m_bind; [rewrite Hc; destruct p0; cbn [get_close_message]; try apply m_ret; apply (as_mends _ _ (as_send _)); repeat constructor; right; now left|].
    intros _. apply (as_mends _ _ as_hang). constructor.
  - intro t. now apply as_rollback_of.
Qed.
Lemma as_consume n : seeks (consume n) []. Proof. apply as_core. Qed.
Lemma as_rollback n t : seeks (rollback n t) (control_wishes n0 WRollback (str "ROLLBACK")). Proof. apply as_core. Qed.
Lemma as_unlock {A} (p : prog A) plan : seeks p plan -> seeks (Lock (bindr p (fun r => Unlock (Ret r)))) plan.
Proof.
  intros H St N c s c' s' tr r Hc E. change (exec (watched N) (Lock ?p) c (s, [])) with (exec (watched N) p c (s, [])) in E. rewrite exec_bindr in E.
  destruct (exec (watched N) p c (s, [])) as [[c1 [s1 tr1]] r1] eqn:E1. cbn in E. injection E as <- <- <- <-. exact (H _ _ _ _ _ _ _ _ Hc E1).
Qed.
Lemma as_fetch n k : forall acc, seeks (fetch n k acc) [].
Proof.
  induction k as [|k IH]; intro acc; [now apply as_ret|]. cbn [fetch]. apply as_bind_nil; [apply as_consume|].
  intros []; try (now apply as_ret). apply IH.
Qed.
Lemma as_query n q ps db t : seeks (query_db n q ps db t) [WRun q ps; WPull].
Proof.
  apply as_get. intros c Hc. destruct (negb _ && _); [now apply as_ret|]. unfold run_query. apply as_unlock.
  apply as_get. intros c2 Hc2. destruct (c_closed c2); [now apply as_ret|]. rewrite Hc2.
  assert (wish_of (get_run_message p0 q ps db (c_mode c2) (negb t)) = WRun q ps) as <- by (destruct p0, t; reflexivity).
  apply (as_bind _ _ [_] [_]); [apply as_send|]. intros _.
  assert (wish_of (get_pull_all_message p0) = WPull) as <- by now destruct p0.
  apply (as_bind _ _ [_] []); [apply as_send|]. intros _. apply as_bind_nil; [apply as_consume|]. intro m.
  destruct (is_success m); [apply as_fetch|now apply as_ret].
Qed.
Lemma as_pmap {A B} (f : A -> B) p plan : seeks p plan -> seeks (pmap f p) plan.
Proof. intros H. rewrite <- (app_nil_r plan). apply as_bind; [exact H|]. intro a. now apply as_ret. Qed.
Lemma as_exec n q ps db t : seeks (exec_db n q ps db t) [WRun q ps; WPull].
Proof. rewrite <- (app_nil_r [_; _]). apply as_bind; [apply as_query|]. intro a. now apply as_ret. Qed.
Definition seeks_at {A} (c : conn) (p : prog A) plan : Prop :=
  forall St (N : net St) s c' s' tr r, exec (watched N) p c (s, []) = (c', (s', tr), r) ->
    exists a b, wishes tr = a ++ b /\ (exists rest, plan = a ++ rest) /\ Forall (amends n0) b
      /\ (no_blame tr -> b = []) /\ (forall x, r = Ok x -> a = plan /\ b = []).
Lemma at_get {A} c (k : conn -> prog A) plan : seeks_at c (k c) plan -> seeks_at c (Get k) plan.
Proof. intros H St N s c' s' tr r E. exact (H St N s c' s' tr r E). Qed.
Lemma at_asks {A} c (p : prog A) plan : c_proto c = p0 -> seeks p plan -> seeks_at c p plan.
Proof. intros Hc H St N s c' s' tr r E. apply (H _ _ _ _ _ _ _ _ Hc E). Qed.
Lemma as_close n c : c_proto c = p0 -> seeks_at c (pmap (fun _ => ADone) (close n)) (errands n0 (has_tx c) CClose).
Proof.
  intros Hc. assert (X : seeks_at c (close n) (errands n0 (has_tx c) CClose)).
  { destruct n as [|n]; [apply at_asks; [exact Hc|now apply as_ret]|]. cbn [close]. apply at_get.
    destruct (c_closed c); [apply at_asks; [exact Hc|now apply as_ret]|]. apply at_asks; [exact Hc|]. cbn [errands]. apply as_bind.
    - unfold has_tx. destruct (c_transaction c); [apply as_rollback|now apply as_ret].
    - intros _. rewrite Hc, <- (app_nil_r (if _ <=? _ then _ else _)). apply as_bind; [|intros _; apply as_hang].
      destruct p0; cbn; try (now apply as_ret); apply as_send. }
  intros St N s c' s' tr r E. unfold pmap in E. rewrite exec_bind in E.
  destruct (exec (watched N) (close n) c (s, [])) as [[c1 [s1 tr1]] r1] eqn:E1.
  destruct (X _ _ _ _ _ _ _ E1) as (a & b & H1 & H2 & H3 & H4 & H5).
  destruct r1; cbn in E; injection E as <- <- <- <-; exists a, b; repeat (split; [assumption|]); try discriminate. intros; eauto.
Qed.
Lemma as_call n o c : c_proto c = p0 -> seeks_at c (do_call n o) (errands n0 (has_tx c) o).
Proof.
  intros Hc. assert (Ho : o = CMakeIdle \/ o <> CMakeIdle) by (destruct o; try (now left); right; discriminate).
  destruct Ho as [-> | Ho].
  { cbn [do_call errands]. unfold has_tx, make_idle. apply at_get. destruct (c_transaction c); apply at_asks; try exact Hc; [apply as_pmap, as_rollback|now apply as_ret]. }
  destruct o; cbn [do_call]; try (now elim Ho); try (now apply as_close); try (apply at_asks; [exact Hc|]); cbn [errands]; try apply as_pmap; try apply as_query; try apply as_exec; try apply as_rollback.
  - assert (control_wishes n0 WBegin (str "BEGIN") = wish_of (fst (get_begin_message p0 db 0)) :: (if snd (get_begin_message p0 db 0) then [] else [wish_of (get_pull_all_message p0)])) as -> by now destruct p0.
    apply as_get. intros c1 Hc1. destruct (c_transaction c1); [now apply as_ret|]. destruct (c_closed c1); [now apply as_ret|]. rewrite Hc1.
    assert (wish_of (fst (get_begin_message p0 db 0)) = wish_of (fst (get_begin_message p0 db (c_mode c1)))
      /\ snd (get_begin_message p0 db 0) = snd (get_begin_message p0 db (c_mode c1))) as [-> ->] by now destruct p0.
    destruct (get_begin_message p0 db (c_mode c1)) as [m native]. apply as_two; [apply as_consume|]. apply as_get. intros c2 _. apply as_upd; [reflexivity|]. now apply as_ret.
  - assert (control_wishes n0 WCommit (str "COMMIT") = wish_of (fst (get_commit_message p0)) :: (if snd (get_commit_message p0) then [] else [WPull])) as -> by now destruct p0.
    apply as_tx_end, as_consume.
  - apply as_get. intros c1 _. destruct (c_closed c1); [now apply as_ret|].
    intros St N c2 s c' s' tr r Hc2 E. cbn [exec watched n_probe fst snd] in E. destruct (n_probe N s) as [s1 e]. injection E as <- _ <- <-.
    split; [exact Hc2|]. exists [], []. nothing_more.
  - apply as_upd; [reflexivity|]. now apply as_ret.
Qed.
End Version.

Theorem call_wishes {St} (N : net St) o c s c' s' tr r : does (watched N) o (c, (s, [])) (c', (s', tr)) r ->
  exists a b, wishes tr = a ++ b /\ (exists rest, errands (proto_number (c_proto c)) (has_tx c) o = a ++ rest)
    /\ Forall (amends (proto_number (c_proto c))) b /\ (no_blame tr -> b = [])
    /\ (forall x, r = Ok x -> a = errands (proto_number (c_proto c)) (has_tx c) o /\ b = []).
Proof. intros (n & E & _). exact (as_call (c_proto c) n o c eq_refl _ _ _ _ _ _ _ E). Qed.

Lemma amends_uncounted n b : Forall (amends n) b -> filter counted b = [].
Proof.
  induction 1 as [|w b H Hb IH]; [reflexivity|]. cbn [filter]. rewrite IH. replace (counted w) with false; [reflexivity|].
  destruct H as [-> | [-> | H]]; try reflexivity. unfold control_wishes in H. destruct (3 <=? n); cbn in H; destruct H as [<-|H]; try reflexivity; try (now destruct H).
  destruct H as [<-|[]]; reflexivity.
Qed.
Lemma errands_counted n tx o : (length (filter counted (errands n tx o)) <= 1)%nat.
Proof.
  destruct o; cbn [errands]; unfold control_wishes; try (destruct tx); try (destruct (3 <=? n)); cbn [filter counted app];
    repeat match goal with |- context [if ?b then _ else _] => destruct b end; cbn; lia.
Qed.
Theorem once {St} (N : net St) o c s c' s' tr r : does (watched N) o (c, (s, [])) (c', (s', tr)) r -> (length (filter counted (wishes tr)) <= 1)%nat.
Proof.
  intros H. destruct (call_wishes N o c s c' s' tr r H) as (a & b & -> & [rest Hr] & Hb & _).
  rewrite filter_app, (amends_uncounted _ _ Hb), app_nil_r. pose proof (errands_counted (proto_number (c_proto c)) (has_tx c) o) as L.
  rewrite Hr, filter_app, app_length in L. lia.
Qed.

(** ** What a query returns is what it received (C44) *)
Definition received_row (row : list gval) : event := VRecv (Ok (GRecord row)).
Lemma consume_took {St} (N : net St) n c s tr0 c' s' tr m : exec (watched N) (consume n) c (s, tr0) = (c', (s', tr), Ok m) -> tr = tr0 ++ [VRecv (Ok m)] /\ c' = c.
Proof.
  intros E. destruct n as [|n]; [discriminate|]. cbn [consume] in E. rewrite exec_bind in E. unfold recv_message in E. cbn [exec watched n_recv fst snd] in E.
  destruct (n_recv N _ s) as [s1 [x|e| |]]; cbn [exec] in E; try discriminate.
  destruct x; try (injection E as <- _ <- <-; auto). rewrite exec_bindr in E.
  destruct (exec (watched N) (reset n) c _) as [[c2 s2] [a|e| |]]; discriminate.
Qed.
Lemma fetch_took {St} (N : net St) n k : forall acc c s tr0 c' s' tr rows md, exec (watched N) (fetch n k acc) c (s, tr0) = (c', (s', tr), Ok (rows, md)) ->
  exists got, rows = acc ++ got /\ tr = tr0 ++ map received_row got ++ [VRecv (Ok (GSuccess md))].
Proof.
  induction k as [|k IH]; intros acc c s tr0 c' s' tr rows md E; [discriminate|]. cbn [fetch] in E. rewrite exec_bind in E.
  destruct (exec (watched N) (consume n) c (s, tr0)) as [[c1 [s1 tr1]] [m|e| |]] eqn:E1; try discriminate.
  destruct (consume_took _ _ _ _ _ _ _ _ _ E1) as [-> ->]. destruct m; try discriminate.
  - cbn in E. injection E as _ _ <- <- <-. exists []. rewrite app_nil_r. auto.
  - destruct (IH _ _ _ _ _ _ _ _ _ E) as (got & -> & ->). eexists (_ :: got). cbn [map]. rewrite <- !app_assoc. split; reflexivity.
Qed.
Lemma send_sent {St} (N : net St) m c s tr0 c' s' tr u : exec (watched N) (send_message m) c (s, tr0) = (c', (s', tr), Ok u) -> tr = tr0 ++ [VSend m None] /\ c' = c.
Proof.
  unfold send_message. cbn [exec watched n_send fst snd]. destruct (n_send N _ _ m s) as [s1 [e|]]; cbn; [discriminate|]. intros [= <- _ <- _]. auto.
Qed.
Lemma query_took {St} (N : net St) n q ps db t c s c' s' tr rows md : exec (watched N) (query_db n q ps db t) c (s, []) = (c', (s', tr), Ok (rows, md)) ->
  exists m0 m1 md0, tr = [VSend m0 None; VSend m1 None; VRecv (Ok (GSuccess md0))] ++ map received_row rows ++ [VRecv (Ok (GSuccess md))]
    /\ wish_of m0 = WRun q ps /\ wish_of m1 = WPull.
Proof.
  unfold query_db. cbn [exec]. destruct (negb _ && _); [discriminate|]. unfold run_query.
  change (exec (watched N) (Lock ?p) c (s, [])) with (exec (watched N) p c (s, [])). rewrite exec_bindr.
  destruct (exec (watched N) (Get _) c (s, [])) as [[c1 [s1 tr1]] r1] eqn:E. cbn. intros [= <- <- <- ->].
  cbn [exec] in E. destruct (c_closed c); [discriminate|].
  rewrite exec_bind in E. destruct (exec (watched N) (send_message _) c (s, [])) as [[c2 [s2 tr2]] [u|e| |]] eqn:E2; try discriminate.
  destruct (send_sent _ _ _ _ _ _ _ _ _ E2) as [-> ->].
  rewrite exec_bind in E. destruct (exec (watched N) (send_message (get_pull_all_message _)) c _) as [[c3 [s3 tr3]] [u3|e| |]] eqn:E3; try discriminate.
  destruct (send_sent _ _ _ _ _ _ _ _ _ E3) as [-> ->].
  rewrite exec_bind in E. destruct (exec (watched N) (consume n) c _) as [[c4 [s4 tr4]] [m|e| |]] eqn:E4; try discriminate.
  destruct (consume_took _ _ _ _ _ _ _ _ _ E4) as [-> ->]. destruct m; try discriminate. cbn [is_success] in E.
  destruct (fetch_took _ _ _ _ _ _ _ _ _ _ _ _ E) as (got & -> & ->). cbn [app].
  eexists _, _, _. split; [reflexivity|]. split; [destruct (c_proto c), t; reflexivity|now destruct (c_proto c)].
Qed.
Theorem received_rows {St} (N : net St) o q ps c s c' s' tr rows md : statement_of o = Some (q, ps) ->
  does (watched N) o (c, (s, [])) (c', (s', tr)) (Ok (ARows rows md)) ->
  exists m0 m1 md0, tr = [VSend m0 None; VSend m1 None; VRecv (Ok (GSuccess md0))] ++ map received_row rows ++ [VRecv (Ok (GSuccess md))]
    /\ wish_of m0 = WRun q ps /\ wish_of m1 = WPull.
Proof.
  intros Ho (n & E & _). cbn [fst snd] in E.
  assert (X : forall t db, exec (watched N) (pmap (fun r => ARows (fst r) (snd r)) (query_db n q ps db t)) c (s, []) = (c', (s', tr), Ok (ARows rows md)) ->
    exec (watched N) (query_db n q ps db t) c (s, []) = (c', (s', tr), Ok (rows, md))).
  { intros t db. unfold pmap. rewrite exec_bind. destruct (exec (watched N) (query_db n q ps db t) c (s, [])) as [[c1 s1] [[a b]|e| |]]; cbn; congruence. }
  assert (Y : forall (p : prog gomap), exec (watched N) (pmap AMeta p) c (s, []) <> (c', (s', tr), Ok (ARows rows md))).
  { intros p. unfold pmap. rewrite exec_bind. destruct (exec (watched N) p c (s, [])) as [[c1 s1] [a|e| |]]; cbn; congruence. }
  destruct o; cbn in Ho; try discriminate; injection Ho as -> ->; cbn [do_call] in E; try (now elim (Y _ E)); exact (query_took _ _ _ _ _ _ _ _ _ _ _ _ _ (X _ _ E)).
Qed.
(** The transaction a query method is called on does not matter (C37). *)
Theorem any_transaction {St} (N : net St) t1 t2 q ps db w w' r : does N (CTxQuery t1 q ps db) w w' r -> does N (CTxQuery t2 q ps db) w w' r.
Proof. exact (fun H => H). Qed.
Theorem any_transaction_exec {St} (N : net St) t1 t2 q ps db w w' r :
  (does N (CTxExecDb t1 q ps db) w w' r -> does N (CTxExecDb t2 q ps db) w w' r) /\ (does N (CTxExec t1 q ps) w w' r -> does N (CExec q ps []) w w' r).
Proof. exact (conj (fun H => H) (fun H => H)). Qed.
Theorem own_rows_only p P user password l c w o q ps c' w' rows md :
  session clean_call p P user password l (c, w) -> statement_of o = Some (q, ps) -> clean_call c o -> ordinary p q = true ->
  does (wired P) o (c, w) (c', w') (Ok (ARows rows md)) ->
  exists st rm, s_done (w_srv w') = s_done (w_srv w) ++ [(st, Produced rm rows md)] /\ is_stmt (codec p) q ps st.
Proof.
  intros H1 H2 H3 H4 H5. pose proof (query_own_rows p P user password l c w o q ps c' w' _ H1 H2 H3 H5) as H. rewrite H4 in H.
  destruct H as (st & rm & rows' & md' & Hd & Hi & Ha). exists st, rm. split; [|exact Hi]. destruct o; try discriminate; injection Ha as -> ->; exact Hd.
Qed.
