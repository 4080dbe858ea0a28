(** How many refreshers a routing pool has and what they do. *)
From Coq Require Import String ZArith List Bool Lia ZifyBool.
From Verif Require Import Bytes GoVal GoErr Decoder Messages GoStr Routing Pool SpecPool Refresher SpecLife BytesFacts RoutingFacts PoolFacts LendFacts SteadyFacts WatchPoolFacts RouteFacts SizeFacts LifeFacts DemoPool DemoPoolFacts PoolCases.
Import ListNotations.
Open Scope Z_scope.

Section Facts.
Context {W : Type}.
Variable K : cluster W.

(** ** The pool within a life has a history *)
Lemma runs_snoc (s : life W) l s1 e s2 : lruns K s l s1 -> lstep K s1 e s2 -> lruns K s (l ++ [e]) s2.
Proof. intros H. revert s2. induction H as [s|s e0 s1 l s2 H1 H2 IH]; intros s3 H; cbn; [econstructor; [exact H|constructor]|]. econstructor; [exact H1|now apply IH]. Qed.
Definition as_pops (l : list levent) : list (pop * presult) :=
  flat_map (fun e => match e with LDo o r => [(o, r)] | LTest => [] | LWake r => [(ORefresh, r)] end) l.
Lemma runs_pool (s : life W) l s' : lruns K s l s' -> run_pool K (map fst (as_pops l)) (l_pool s) (l_world s) = (l_pool s', l_world s', as_pops l).
Proof.
  induction 1 as [s|s e s1 l s2 H1 H2 IH]; [reflexivity|].
  inversion H1; subst; clear H1; unfold as_pops in *; cbn [flat_map app map fst run_pool l_pool l_world] in *.
  - rewrite H0. now rewrite IH.
  - exact IH.
  - rewrite H0. now rewrite IH.
Qed.
Lemma life_history n auth tls w0 l s : life_of K n auth tls w0 l s -> pool_history K n auth tls w0 (as_pops l) (l_pool s) (l_world s).
Proof. intros (leader & p0 & E & H). exists leader, p0. split; [exact E|]. apply (runs_pool _ _ _ H). Qed.

(** ** Whether the pool is running *)
Lemma running_step o p w p' w' r : p_lookup p = [] -> p_marked p = [] -> do_pop K o p w = (p', w', r) ->
  p_running p' = match o with OStart => true | OStop => false | _ => p_running p end.
Proof.
  intros Hl Hm. destruct o as [| |m|id h|]; cbn [do_pop].
  - destruct (start_pool K p w) as [[p1 w1] r1] eqn:E. intros [= <- _ _]. exact (start_running K _ _ _ _ _ Hl E).
  - intros E. now destruct (stop_stops K p w p' w' r E).
  - destruct (borrow K _ p w) as [[p1 w1] r1] eqn:E. intros [= <- _ _]. unfold borrow, get in E.
    eapply (borrow_eff K anyw) in E; try (intros; exact I); [|lia].
    destruct E as (_ & sk & rest & x & _ & [(c & r' & _ & _ & _ & ->)|(_ & ->)]); cbn; unfold set_queue; destruct (_ =? WriteMode); reflexivity.
  - destruct (reclaim K id h p w) as [[p1 w1] r1] eqn:E. intros [= <- _ _].
    eapply (reclaim_eff K anyw) in E; try (intros; exact I).
    destruct E as [(_ & -> & _)|(R & c & x & _ & D)]; [reflexivity|].
    destruct D as [(_ & _ & ->)|(w1' & e & w0' & _ & _ & _ & A)]; [unfold back; cbn; unfold set_queue; destruct (_ =? WriteMode); reflexivity|].
    apply steady_add in A. destruct A as (_ & A & _). rewrite A. reflexivity.
  - destruct (refresh_round K p w) as [[p1 w1] r1] eqn:E. intros [= <- _ _]. unfold refresh_round, bind, mbind in E.
    destruct (refresh_connections K p w) as [[p2 w2] r2] eqn:E2. apply steady_refresh in E2; [|exact Hl]. destruct E2 as (S2 & R2 & _).
    destruct r2 as [[]|e| |]; try (injection E as <- _ _; exact R2).
    rewrite prune_nothing in E by (unfold steady in S2; congruence). rewrite balance_nothing in E by lia. injection E as <- _ _. exact R2.
Qed.

(** ** Counting *)
Lemma count_step (s : life W) e s' : lstep K s e s' -> (refreshers s' <= started [e] + refreshers s)%nat.
Proof.
  destruct 1 as [s o p' w' r No E|s n H|s n p' w' H E]; unfold refreshers, started; cbn.
  - destruct o, r; cbn; lia.
  - destruct (p_running _); lia.
  - lia.
Qed.
Lemma started_app a b : started (a ++ b) = (started a + started b)%nat.
Proof. unfold started. now rewrite filter_app, app_length. Qed.
Lemma rounds_app a b : rounds (a ++ b) = (rounds a + rounds b)%nat.
Proof. unfold rounds. now rewrite filter_app, app_length. Qed.
Theorem count_runs (s : life W) l s' : lruns K s l s' -> (refreshers s' <= started l + refreshers s)%nat.
Proof.
  induction 1 as [s|s e s1 l s2 H1 H2 IH]; [cbn; lia|]. apply count_step in H1. change (e :: l) with ([e] ++ l). rewrite started_app. lia.
Qed.

(** The invariant facts along a life. *)
Lemma calm_step (s : life W) e s' : lstep K s e s' -> p_lookup (l_pool s) = [] -> p_marked (l_pool s) = [] ->
  p_lookup (l_pool s') = [] /\ p_marked (l_pool s') = [] /\
  p_running (l_pool s') = match e with LDo OStart _ => true | LDo OStop _ => false | _ => p_running (l_pool s) end.
Proof.
  destruct 1 as [s o p' w' r No E|s n H|s n p' w' H E]; intros Hl Hm; cbn [l_pool] in *; auto.
  - pose proof (steady_step K _ _ _ _ _ _ E Hl Hm) as S1. rewrite (running_step _ _ _ _ _ _ Hl Hm E). unfold steady in S1.
    split; [congruence|]. split; [congruence|]. destruct o; congruence.
  - pose proof (steady_step K _ _ _ _ _ _ E Hl Hm) as S1. rewrite (running_step _ _ _ _ _ _ Hl Hm E). unfold steady in S1.
    split; [congruence|]. split; [congruence|]. reflexivity.
Qed.

(** A start that succeeds found the pool stopped. *)
Lemma start_done p w p' w' : do_pop K OStart p w = (p', w', RDone) -> p_running p = false.
Proof.
  cbn [do_pop]. unfold start_pool, get. destruct (p_running p); [|reflexivity]. now intros [=].
Qed.
(** The pool, once stopped, is not started again: at most one refresher. *)
Lemma one_start (s : life W) l s' : lruns K s l s' -> p_lookup (l_pool s) = [] -> p_marked (l_pool s) = [] ->
  forall b, no_restart b (calls l) -> (started l + (if b || p_running (l_pool s) then 1 else 0) <= 1)%nat.
Proof.
  induction 1 as [s|s e s1 l s2 H1 H2 IH]; intros Hl Hm b Hn; [cbn; destruct (_ || _); lia|].
  pose proof (calm_step _ _ _ H1 Hl Hm) as (Hl1 & Hm1 & R1). specialize (IH Hl1 Hm1).
  change (e :: l) with ([e] ++ l). rewrite started_app. destruct e as [o r| |r].
  - cbn [calls flat_map app no_restart] in Hn. destruct Hn as [Hs Hn]. specialize (IH _ Hn).
    destruct o; cbn [after] in *; try (rewrite R1 in IH; unfold started at 1; cbn; exact IH).
    + rewrite R1, orb_true_r in IH. rewrite (Hs eq_refl) in *. cbn [orb].
      assert (started l = 0%nat) as -> by lia.
      assert (X : r = RDone -> p_running (l_pool s) = false) by (intros ->; inversion H1; subst; eapply start_done; eassumption).
      unfold started. destruct r; cbn -[p_running]; try (destruct (p_running (l_pool s)); lia).
    + rewrite R1 in IH. cbn [orb] in IH. unfold started at 1. cbn. destruct (_ || _); lia.
  - cbn [calls flat_map app] in Hn. specialize (IH _ Hn). rewrite R1 in IH. unfold started at 1. cbn. exact IH.
  - cbn [calls flat_map app] in Hn. specialize (IH _ Hn). rewrite R1 in IH. unfold started at 1. cbn. exact IH.
Qed.
Theorem one_refresher n auth tls w0 l s : life_of K n auth tls w0 l s -> no_restart false (calls l) -> (refreshers s <= 1)%nat.
Proof.
  intros (leader & p0 & E & H) Hn. pose proof (new_fields _ _ _ _ _ E) as (Hl & Hm & F).
  pose proof (one_start _ _ _ H Hl Hm _ Hn) as O. pose proof (count_runs _ _ _ H) as C. unfold refreshers in C at 2. cbn in C. lia.
Qed.

(** ** There is one while the pool runs, if starting went well *)
Lemma lives_runs (s : life W) l s' : lruns K s l s' -> p_lookup (l_pool s) = [] -> p_marked (l_pool s) = [] ->
  starts_well (p_running (l_pool s)) l -> (p_running (l_pool s) = true -> (1 <= refreshers s)%nat) ->
  p_running (l_pool s') = true -> (1 <= refreshers s')%nat.
Proof.
  induction 1 as [s|s e s1 l s2 H1 H2 IH]; intros Hl Hm Hw I0; [exact I0|].
  pose proof (calm_step _ _ _ H1 Hl Hm) as (Hl1 & Hm1 & R1). apply IH; auto; rewrite R1.
  - destruct e as [[]| |]; cbn [starts_well] in Hw; try exact Hw. apply Hw.
  - inversion H1; subst; unfold refreshers in *; cbn [l_test l_wait l_pool] in *; clear IH H2.
    + destruct o; try congruence; intros Rs; try (specialize (I0 Rs); cbn; lia).
      cbn [starts_well] in Hw. destruct Hw as [[->|On] _]; [cbn; lia|]. specialize (I0 On). lia.
    + intros Rs. rewrite Rs. specialize (I0 Rs). lia.
    + lia.
Qed.
Lemma new_stopped leader n auth tls p : new_routing_pool leader n auth tls = Ok p -> p_running p = false.
Proof. unfold new_routing_pool. destruct (bytes_eqb leader []); [discriminate|]. destruct (_ || _); [discriminate|]. now intros [= <-]. Qed.
Theorem refresher_lives n auth tls w0 l s : life_of K n auth tls w0 l s -> starts_well false l -> p_running (l_pool s) = true -> (1 <= refreshers s)%nat.
Proof.
  intros (leader & p0 & E & H) Hw. pose proof (new_fields _ _ _ _ _ E) as (Hl & Hm & F). pose proof (new_stopped _ _ _ _ _ E) as R0.
  apply (lives_runs _ _ _ H Hl Hm); cbn; congruence.
Qed.
(** After a start that failed there is none, until the pool is stopped and started again. *)
Lemma none_runs (s : life W) l s' : lruns K s l s' -> p_lookup (l_pool s) = [] -> p_marked (l_pool s) = [] ->
  ~ In OStop (calls l) -> p_running (l_pool s) = true -> refreshers s = 0%nat -> p_running (l_pool s') = true /\ refreshers s' = 0%nat /\ rounds l = 0%nat.
Proof.
  induction 1 as [s|s e s1 l s2 H1 H2 IH]; intros Hl Hm Hn R Z0; [auto|].
  pose proof (calm_step _ _ _ H1 Hl Hm) as (Hl1 & Hm1 & R1).
  assert (Nl : ~ In OStop (calls l)) by (intros X; apply Hn; unfold calls; cbn [flat_map]; apply in_or_app; now right).
  assert (Re : p_running (l_pool s1) = true) by (rewrite R1; destruct e as [[]| |]; auto; exfalso; apply Hn; now left).
  change (e :: l) with ([e] ++ l). rewrite rounds_app. unfold refreshers in *.
  enough (l_test s1 + l_wait s1 = 0 /\ rounds [e] = 0)%nat as [Z1 ->] by now apply IH.
  inversion H1; subst; cbn [l_test l_wait] in *; try lia. split; [|reflexivity].
  destruct o, r; cbn; try lia. apply start_done in H0. congruence.
Qed.
Theorem none_after_failure n auth tls w0 r s1 l s : life_of K n auth tls w0 [LDo OStart r] s1 -> r <> RDone -> lruns K s1 l s -> ~ In OStop (calls l) ->
  p_running (l_pool s) = true /\ refreshers s = 0%nat /\ rounds l = 0%nat.
Proof.
  intros (leader & p0 & E & H) Hr H2 Hn. pose proof (new_fields _ _ _ _ _ E) as (Hl & Hm & F).
  inversion H; subst; clear H. inversion H6; subst; clear H6. pose proof (calm_step _ _ _ H4 Hl Hm) as (Hl1 & Hm1 & R1).
  apply (none_runs _ _ _ H2); auto. inversion H4; subst. unfold refreshers. cbn. destruct r; [reflexivity|congruence|reflexivity..].
Qed.
End Facts.

(** ** What happens after Stop *)
Section Stopped.
Context {W : Type}.
Variable K : cluster W.

Definition undialled (a b : W * list kevent) : Prop := exists new, snd b = new ++ snd a /\ dialled new = [].
Lemma undialled_refl a : undialled a a. Proof. now exists []. Qed.
Lemma undialled_trans a b c : undialled a b -> undialled b c -> undialled a c.
Proof. intros (x & E1 & D1) (y & E2 & D2). exists (y ++ x). rewrite E2, E1, app_assoc. split; [reflexivity|]. now rewrite dialled_app, D1, D2. Qed.
Definition deaf : cluster (W * list kevent) :=
  mkCluster (fun _ w => (w, Panic)) (k_valid (watch K)) (k_close (watch K)) (k_query (watch K)) (fun w => (w, [])).
Lemma undialled_valid h w : undialled w (fst (k_valid deaf h w)).
Proof. cbn. destruct (k_valid K h (fst w)) as [w' b]. exists [KValid h b]. auto. Qed.
Lemma undialled_close h w : undialled w (fst (k_close deaf h w)).
Proof. cbn. destruct (k_close K h (fst w)) as [w' b]. exists [KClose h b]. auto. Qed.
Lemma borrow_deaf fuel m p w : internal_borrow (watch K) fuel m p w = internal_borrow deaf fuel m p w.
Proof. reflexivity. Qed.
Lemma drain_deaf fuel m p w : drain (watch K) fuel m p w = drain deaf fuel m p w.
Proof. reflexivity. Qed.
Lemma quiet_step o p w tr p' w' tr' r : o <> ORefresh -> o <> OStart -> p_running p = false \/ o = OStop \/ (exists m, o = OBorrow m) ->
  do_pop (watch K) o p (w, tr) = (p', (w', tr'), r) -> exists new, tr' = new ++ tr /\ dialled new = [].
Proof.
  intros N1 N2 Hr E. change (undialled (w, tr) (w', tr')). destruct o as [| |m|id h|]; try congruence; cbn [do_pop] in E.
  - destruct (stop_pool (watch K) p (w, tr)) as [[p1 w1] r1] eqn:Es. injection E as _ -> _.
    unfold stop_pool, get in Es. destruct (p_running p); cbn [negb] in Es; [|injection Es as _ <- <- _; apply undialled_refl]. unfold bind, mbind, upd in Es.
    rewrite drain_deaf in Es. destruct (drain deaf _ ReadMode _ (w, tr)) as [[p2 w2] r2] eqn:Er.
    apply (drain_eff deaf undialled undialled_refl undialled_trans (fun _ w => undialled_refl w) undialled_valid undialled_close undialled_refl) in Er; [|cbn; lia].
    destruct Er as (U & g & rest & x & _ & Ep & _).
    destruct r2; try (injection Es as _ <- _; exact U).
    rewrite drain_deaf in Es.
    apply (drain_eff deaf undialled undialled_refl undialled_trans (fun _ w => undialled_refl w) undialled_valid undialled_close undialled_refl) in Es; [|rewrite Ep; cbn; lia].
    eapply undialled_trans; [exact U|apply Es].
  - destruct (borrow (watch K) _ p (w, tr)) as [[p1 w1] r1] eqn:Es. injection E as _ -> _. unfold borrow, get in Es. rewrite borrow_deaf in Es.
    apply (borrow_eff deaf undialled undialled_refl undialled_trans (fun _ w => undialled_refl w) undialled_valid undialled_close undialled_refl) in Es; [apply Es|lia].
  - destruct Hr as [Hr|[Hr|[m Hr]]]; try congruence. unfold reclaim, get in E. rewrite Hr in E. cbn in E. injection E as _ <- <- _. apply undialled_refl.
Qed.
Lemma round_dials p w tr p' w' tr' r : p_lookup p = [] -> p_marked p = [] -> do_pop (watch K) ORefresh p (w, tr) = (p', (w', tr'), r) ->
  exists new, tr' = new ++ tr /\ dialled new = [p_leader p] /\ p_leader p' = p_leader p.
Proof.
  intros Hl Hm E. assert (L : p_leader p' = p_leader p) by (apply steady_step in E; auto; unfold steady in E; congruence).
  cbn [do_pop] in E. unfold refresh_round, bind, mbind in E.
  destruct (refresh_connections (watch K) p (w, tr)) as [[p1 [w1 tr1]] r1] eqn:E1.
  assert (M1 : p_marked p1 = []) by (apply (steady_refresh (watch K)) in E1; [|exact Hl]; destruct E1 as (S1 & _); unfold steady in S1; congruence).
  assert (D : exists new, tr1 = new ++ tr /\ dialled new = [p_leader p]).
  { clear E. unfold refresh_connections, mbind, get, dial in E1. cbn [watch k_dial fst snd] in E1.
    destruct (k_dial K (p_leader p) w) as [w2 [h|e| |]].
    2-4: injection E1 as _ _ <- _; eexists [_]; split; reflexivity.
    cbn [watch k_query fst snd] in E1. destruct (k_query K h w2) as [w3 [v rows]].
    assert (C : forall q r0, (let '(w4, e) := k_close (watch K) h (w3, KQuery h v rows :: KDial (p_leader p) (Ok h) :: tr) in (q, w4, r0)) = (p1, (w1, tr1), r1) ->
      exists new, tr1 = new ++ tr /\ dialled new = [p_leader p]).
    { intros q r0. cbn. destruct (k_close K h w3) as [w4 e]. intros [= _ _ <- _]. eexists [_; _; _]. split; reflexivity. }
    unfold close_conn in E1. destruct rows as [rows|e| |].
    - destruct (refresh_cluster_info _ v (Ok rows)) as [hd y]. cbn in E1. destruct (k_close K h w3) as [w4 e]. injection E1 as _ _ <- _. eexists [_; _; _]. split; reflexivity.
    - destruct (refresh_cluster_info _ v (Err e)) as [hd y]. cbn in E1. destruct (k_close K h w3) as [w4 e']. injection E1 as _ _ <- _. eexists [_; _; _]. split; reflexivity.
    - cbn in E1. destruct (k_close K h w3) as [w4 e]. injection E1 as _ _ <- _. eexists [_; _; _]. split; reflexivity.
    - cbn in E1. destruct (k_close K h w3) as [w4 e]. injection E1 as _ _ <- _. eexists [_; _; _]. split; reflexivity. }
  destruct r1 as [[]|e| |].
  2-4: cbn in E; injection E as _ _ <- _; destruct D as (n & -> & D); eauto.
  rewrite prune_nothing in E by exact M1. rewrite balance_nothing in E by lia. injection E as _ _ <- _. destruct D as (n & -> & D); eauto.
Qed.
Lemma stopped_runs (s : life (W * list kevent)) l s' : lruns (watch K) s l s' -> p_lookup (l_pool s) = [] -> p_marked (l_pool s) = [] ->
  p_running (l_pool s) = false -> unstarted l ->
  (rounds l + l_wait s' = l_wait s)%nat /\ exists new, snd (l_world s') = new ++ snd (l_world s) /\ dialled new = repeat (p_leader (l_pool s)) (rounds l).
Proof.
  induction 1 as [s|s e s1 l s2 H1 H2 IH]; intros Hl Hm R Hn; [split; [reflexivity|]; exists []; auto|].
  pose proof (calm_step (watch K) _ _ _ H1 Hl Hm) as (Hl1 & Hm1 & R1).
  assert (R2 : p_running (l_pool s1) = false) by (rewrite R1; destruct e as [[]| |]; auto; exfalso; eapply Hn; now left).
  destruct (IH Hl1 Hm1 R2) as (C & new & T & D); [intros r X; eapply Hn; right; exact X|].
  change (e :: l) with ([e] ++ l). rewrite rounds_app.
  inversion H1; subst; cbn [l_pool l_world l_wait] in *.
  - destruct (l_world s) as [w tr]. destruct w' as [w1 tr1]. cbn [snd] in *.
    assert (No : o <> OStart) by (intros ->; eapply Hn; now left).
    pose proof (steady_step (watch K) _ _ _ _ _ _ H0 Hl Hm) as S1.
    destruct (quiet_step _ _ _ _ _ _ _ _ H No (or_introl R) H0) as (n1 & -> & D1).
    split; [exact C|]. exists (new ++ n1). rewrite T, app_assoc. split; [reflexivity|]. rewrite dialled_app, D1, D. cbn. unfold steady in S1. congruence.
  - rewrite R in C. split; [exact C|]. exists new. auto.
  - destruct (l_world s) as [w tr]. destruct w' as [w1 tr1]. cbn [snd] in *.
    destruct (round_dials _ _ _ _ _ _ _ Hl Hm H0) as (n1 & -> & D1 & L).
    split; [cbn; lia|]. exists (new ++ n1). rewrite T, app_assoc. split; [reflexivity|]. rewrite dialled_app, D1, D, L. reflexivity.
Qed.
Theorem after_stop n auth tls w0 l0 s l s' : life_of (watch K) n auth tls (w0, []) l0 s -> p_running (l_pool s) = false -> lruns (watch K) s l s' -> unstarted l ->
  (rounds l <= l_wait s)%nat /\ exists new, snd (l_world s') = new ++ snd (l_world s) /\ dialled new = repeat (p_leader (l_pool s)) (rounds l).
Proof.
  intros H R H2 Hn. pose proof (never_marked _ _ _ _ _ _ _ _ (life_history _ _ _ _ _ _ _ H)) as [Hm Hl].
  destruct (stopped_runs _ _ _ H2 Hl Hm R Hn) as (C & X). split; [lia|exact X].
Qed.
End Stopped.
