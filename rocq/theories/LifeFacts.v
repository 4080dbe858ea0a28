(** Starting, stopping and refreshing a routing pool when things go wrong. *)
From Coq Require Import String ZArith List Bool Lia ZifyBool.
From Verif Require Import Bytes GoVal GoErr Decoder Messages GoStr Routing Pool SpecPool Refresher SpecLife BytesFacts RoutingFacts PoolFacts LendFacts SteadyFacts WatchPoolFacts EraseFacts RouteFacts SizeFacts DemoPool DemoPoolFacts PoolCases.
Import ListNotations.
Open Scope Z_scope.

Section Life.
Context {W : Type}.
Variable K : cluster W.

(** ** Starting again *)
Lemma start_running p w p' w' r : p_lookup p = [] -> start_pool K p w = (p', w', r) -> p_running p' = true.
Proof.
  intros Hl. unfold start_pool, get. destruct (p_running p) eqn:R; [now intros [= <- _ _]|]. unfold bind, mbind, upd.
  destruct (refresh_connections K _ w) as [[p2 w2] r2] eqn:Er. apply steady_refresh in Er; [|exact Hl]. destruct Er as (_ & R2 & _). cbn in R2.
  destruct r2; try (intros [= <- _ _]; exact R2).
  destruct (times _ (add_conn K WriteMode) p2 w2) as [[p3 w3] r3] eqn:Et. apply steady_times in Et. destruct Et as (_ & R3 & _).
  destruct r3; try (intros [= <- _ _]; congruence). intros Es. apply steady_times in Es. destruct Es as (_ & R4 & _). congruence.
Qed.
Theorem stays_running n auth tls w0 l p w p1 w1 r : pool_history K n auth tls w0 l p w -> do_pop K OStart p w = (p1, w1, r) ->
  p_running p1 = true /\ forall w2, do_pop K OStart p1 w2 = (p1, w2, RFail (ENew (TMsg 224))).
Proof.
  intros H E. destruct (never_marked _ _ _ _ _ _ _ _ H) as [_ Hl]. cbn [do_pop] in E.
  destruct (start_pool K p w) as [[p2 w2] r2] eqn:Es. injection E as <- _ _. pose proof (start_running _ _ _ _ _ Hl Es) as R.
  split; [exact R|]. intros w3. cbn [do_pop]. unfold start_pool, get. now rewrite R.
Qed.
(** A pool that is not running starts if its positions are within the new lists of addresses. *)
Lemma room_within auth tls members news kept i : room auth tls members i -> news = map n_bolt members -> decorated auth tls news kept <> [] /\ 0 <= i < zlen (decorated auth tls news kept).
Proof.
  intros (ds & N & H & Hi) ->. assert (L : (length ds <= length (decorated auth tls (map n_bolt members) kept))%nat).
  { apply NoDup_incl_length; [exact N|]. intros d Hd. destruct (H d Hd) as (m & Hm & D). apply dressed_iff in D. subst d.
    apply decorated_in. right. exists (n_bolt m). split; [now apply in_map|reflexivity]. }
  assert (0 <= i < zlen (decorated auth tls (map n_bolt members) kept)) as B by (unfold zlen in *; lia). split; [|exact B].
  intros E. rewrite E in B. unfold zlen in B. cbn in B. lia.
Qed.
Theorem start_again p w : p_running p = false ->
  (forall s w, exists w' h, k_dial K s w = (w', Ok h)) ->
  (forall h w, exists w' v rows t, k_query K h w = (w', (v, Ok rows)) /\ table_of (contains (str "bolt")) v rows t
     /\ room (p_auth p) (p_tls p) (h_leaders t) (p_rw_index p) /\ room (p_auth p) (p_tls p) (h_followers t ++ h_replicas t) (p_rs_index p)) ->
  exists p' w', do_pop K OStart p w = (p', w', RDone).
Proof.
  intros Hr Hd Hq. enough (exists p' w', start_pool K p w = (p', w', Ok tt)) as (p' & w' & E) by (exists p', w'; cbn [do_pop]; now rewrite E).
  unfold start_pool, get. rewrite Hr. unfold bind, mbind, upd. set (p0 := set_max _ _ _).
  assert (exists p1 w1, refresh_connections K p0 w = (p1, w1, Ok tt) /\ p_rw p1 <> [] /\ p_rs p1 <> [] /\ 0 <= p_rw_index p1 < zlen (p_rw p1) /\ 0 <= p_rs_index p1 < zlen (p_rs p1)) as (p1 & w1 & E1 & N1 & N2 & I1 & I2).
  { unfold refresh_connections, mbind, get, dial. destruct (Hd (p_leader p0) w) as (wa & h & ->). destruct (Hq h wa) as (wb & v & rows & t & -> & T & Tl & Tr).
    apply (refresh_table (p_handler p0)) in T. rewrite T. unfold close_conn. destruct (k_close K h wb) as [wc e].
    eexists _, _. split; [reflexivity|]. rewrite merge_rw, merge_rs. cbn [p_handler set_handler p_auth p_tls].
    eapply room_within in Tl; [|reflexivity]. eapply room_within in Tr; [|reflexivity]. rewrite map_app in Tr.
    destruct Tl as [X1 X2], Tr as [X3 X4]. split; [exact X1|]. split; [exact X3|]. split; assumption. }
  rewrite E1.
  destruct (times_ok K WriteMode (Z.to_nat (p_max_w p1)) p1 w1) as (p2 & w2 & E2 & S2 & I3); [exact N1|exact I1|exact Hd|].
  rewrite E2. change (strings_for (other WriteMode) ?x) with (p_rs x) in S2. change (index_for (other WriteMode) ?x) with (p_rs_index x) in I3.
  destruct (times_ok K ReadMode (Z.to_nat (p_max_r p2)) p2 w2) as (p3 & w3 & E3 & _);
    [change (p_rs p2 <> []); congruence|change (0 <= p_rs_index p2 < zlen (p_rs p2)); rewrite I3, S2; exact I2|exact Hd|].
  eauto.
Qed.
Lemma stop_stops p w p' w' r : do_pop K OStop p w = (p', w', r) -> p_running p' = false /\ p_rw_index p' = p_rw_index p /\ p_rs_index p' = p_rs_index p
  /\ p_auth p' = p_auth p /\ p_tls p' = p_tls p.
Proof.
  cbn [do_pop]. destruct (stop_pool K p w) as [[p1 w1] r1] eqn:Es. intros [= <- _ _]. unfold stop_pool, get in Es.
  destruct (p_running p) eqn:R; cbn [negb] in Es; [|injection Es as <- _ _; auto]. unfold bind, mbind, upd in Es.
  destruct (drain K _ ReadMode _ w) as [[p2 w2] r2] eqn:Er.
  assert (X2 : p_running p2 = false /\ p_rw_index p2 = p_rw_index p /\ p_rs_index p2 = p_rs_index p /\ p_wq p2 = p_wq p /\ p_auth p2 = p_auth p /\ p_tls p2 = p_tls p).
  { eapply (drain_eff K anyw) in Er; try (intros; exact I); [|cbn; lia].
    destruct Er as (_ & g & rest & x & _ & -> & _). repeat split. }
  destruct X2 as (R2 & A2 & B2 & Q2 & C2 & D2). destruct r2; try (injection Es as <- _ _; auto).
  eapply (drain_eff K anyw) in Es; try (intros; exact I); [|cbn; rewrite Q2; lia].
  destruct Es as (_ & g & rest & x & _ & -> & _). cbn. auto.
Qed.
Theorem stop_start p w p1 w1 r w2 : do_pop K OStop p w = (p1, w1, r) ->
  (forall s w, exists w' h, k_dial K s w = (w', Ok h)) ->
  (forall h w, exists w' v rows t, k_query K h w = (w', (v, Ok rows)) /\ table_of (contains (str "bolt")) v rows t
     /\ room (p_auth p) (p_tls p) (h_leaders t) (p_rw_index p) /\ room (p_auth p) (p_tls p) (h_followers t ++ h_replicas t) (p_rs_index p)) ->
  exists p' w', do_pop K OStart p1 w2 = (p', w', RDone).
Proof. intros E Hd Hq. destruct (stop_stops p w p1 w1 r E) as (R & I1 & I2 & A1 & A2). apply (start_again p1 w2 R Hd). rewrite I1, I2, A1, A2. exact Hq. Qed.

(** ** Returning to a stopped pool *)
Theorem returned_late id h p w : p_running p = false -> do_pop K (OReclaim id h) p w = (p, w, RFail (ENew (TMsg 227))).
Proof. intros H. cbn [do_pop]. unfold reclaim, get. rewrite H. reflexivity. Qed.
End Life.

(** ** Refreshing asks one server only *)
Section Seed.
Context {W : Type}.
Variable K : cluster W.

Lemma refresh_seed p w tr p' w' tr' r : refresh_connections (watch K) p (w, tr) = (p', (w', tr'), r) ->
  exists new, tr' = new ++ tr /\ (forall s x, In (KDial s x) new -> s = p_leader p) /\
    (forall h v rows, In (KQuery h v rows) new -> In (KDial (p_leader p) (Ok h)) new) /\
    (forall h e, In (KClose h e) new -> In (KDial (p_leader p) (Ok h)) new) /\
    ((forall h, ~ In (KDial (p_leader p) (Ok h)) new) -> p' = p).
Proof.
  unfold refresh_connections, mbind, get, dial. cbn [watch k_dial k_query fst snd].
  destruct (k_dial K (p_leader p) w) as [w1 rd]. destruct rd as [h|e| |].
  2-4: unfold ret, crash; intros [= <- _ <- _]; eexists [_]; (split; [reflexivity|]); cbn; split; [intros s x [[= <- _]|[]]; reflexivity|]; split; [intros ? ? ? [[=]|[]]|]; split; [intros ? ? [[=]|[]]|auto].
  cbn [fst snd]. destruct (k_query K h w1) as [w2 [v rows]]. unfold close_conn. cbn [watch k_close fst snd]. destruct (k_close K h w2) as [w3 ec] eqn:Ec.
  assert (G : forall q r0 p2 tr2, (q, (w3, KClose h ec :: KQuery h v rows :: KDial (p_leader p) (Ok h) :: tr), r0) = (p2, (w', tr2), r) -> p2 = p' -> tr2 = tr' ->
    exists new, tr' = new ++ tr /\ (forall s x, In (KDial s x) new -> s = p_leader p) /\
    (forall h v rows, In (KQuery h v rows) new -> In (KDial (p_leader p) (Ok h)) new) /\
    (forall h e, In (KClose h e) new -> In (KDial (p_leader p) (Ok h)) new) /\
    ((forall h, ~ In (KDial (p_leader p) (Ok h)) new) -> p' = p)).
  { intros q r0 p2 tr2 [= <- _ <- _] _ <-. exists [KClose h ec; KQuery h v rows; KDial (p_leader p) (Ok h)]. split; [reflexivity|]. cbn.
    split; [intros s x [[=]|[[=]|[[= <- _]|[]]]]; reflexivity|]. split; [intros h0 v0 rows0 [[=]|[[= <- _ _]|[[=]|[]]]]; auto|].
    split; [intros h0 e [[= <- _]|[[=]|[[=]|[]]]]; auto|]. intros X. exfalso. apply (X h). auto. }
  destruct rows as [rows|e| |].
  - destruct (refresh_cluster_info (p_handler p) v (Ok rows)) as [hd x]. cbn [fst snd]. rewrite Ec. intros E. eapply G; [exact E|reflexivity..].
  - destruct (refresh_cluster_info (p_handler p) v (Err e)) as [hd x]. cbn [fst snd]. rewrite Ec. intros E. eapply G; [exact E|reflexivity..].
  - cbn [fst snd]. rewrite Ec. intros E. eapply G; [exact E|reflexivity..].
  - cbn [fst snd]. rewrite Ec. intros E. eapply G; [exact E|reflexivity..].
Qed.
(** The address of the first server never changes. *)
Theorem seed_stays leader n auth tls p0 os w0 p w l : new_routing_pool leader n auth tls = Ok p0 -> run_pool K os p0 w0 = (p, w, l) ->
  erased (str "+routing") leader (p_leader p).
Proof.
  intros En Er. pose proof (new_fields _ _ _ _ _ En) as (Hl & Hm & _).
  apply steady_run in Er; [|exact Hl|exact Hm]. assert (L : p_leader p = p_leader p0) by (unfold steady in Er; congruence). rewrite L.
  now apply seed_new in En.
Qed.
Theorem one_server_asked n auth tls w0 l p w tr p' w' new r : pool_history (watch K) n auth tls (w0, []) l p (w, tr) ->
  do_pop (watch K) ORefresh p (w, tr) = (p', (w', new ++ tr), r) ->
  (forall s x, In (KDial s x) new -> s = p_leader p) /\ p_leader p' = p_leader p /\
  ((forall h, ~ In (KDial (p_leader p) (Ok h)) new) -> p' = p).
Proof.
  intros H E. destruct (never_marked _ _ _ _ _ _ _ _ H) as [Hm Hl].
  assert (L : p_leader p' = p_leader p) by (apply steady_step in E; auto; unfold steady in E; congruence).
  cbn [do_pop] in E. unfold refresh_round, bind, mbind in E.
  destruct (refresh_connections (watch K) p (w, tr)) as [[p1 [w1 tr1]] r1] eqn:E1.
  assert (M1 : p_marked p1 = []) by (apply (steady_refresh (watch K)) in E1; [|exact Hl]; destruct E1 as (S & _); unfold steady in S; congruence).
  apply refresh_seed in E1. destruct E1 as (new1 & -> & A & _ & _ & B).
  destruct r1 as [[]|e| |].
  2-4: cbn in E; injection E as <- _ X _; apply app_inv_tail in X; subst; auto.
  rewrite prune_nothing in E by exact M1. rewrite balance_nothing in E by lia.
  injection E as <- _ X _. apply app_inv_tail in X. subst. auto.
Qed.

(** ** A failed start leaves its connections open *)
Lemma add_closes m p w tr p' w' tr' r : add_conn (watch K) m p (w, tr) = (p', (w', tr'), r) ->
  exists new, tr' = new ++ tr /\ forall h e, ~ In (KClose h e) new.
Proof.
  unfold add_conn, get. destruct (strings_for m p) as [|s0 strs]; [intros [= _ _ <- _]; exists []; split; [reflexivity|intros h e []]|].
  cbv zeta. set (i := if _ =? _ then 0 else _). unfold bind at 1, mbind at 1, upd at 1.
  destruct (_ && _); [|intros [= _ _ <- _]; exists []; split; [reflexivity|intros h e []]].
  destruct (nth_error _ _) as [s|]; [|intros [= _ _ <- _]; exists []; split; [reflexivity|intros h e []]].
  unfold new_connection, bind, mbind, dial. cbn [watch k_dial k_name fst snd]. destruct (k_dial K s w) as [w1 rd].
  destruct rd as [h|e| |]; cbn [fst snd];
    [destruct (k_name K w1) as [w2 nm]|..]; intros [= _ _ <- _]; eexists [_]; (split; [reflexivity|]); intros h0 e0 [[=]|[]].
Qed.
Lemma times_closes m k : forall p w tr p' w' tr' r, times k (add_conn (watch K) m) p (w, tr) = (p', (w', tr'), r) ->
  exists new, tr' = new ++ tr /\ forall h e, ~ In (KClose h e) new.
Proof.
  induction k as [|k IH]; intros p w tr p' w' tr' r; cbn [times]; [intros [= _ _ <- _]; exists []; split; [reflexivity|intros h e []]|].
  unfold bind, mbind. destruct (add_conn (watch K) m p (w, tr)) as [[p1 [w1 tr1]] r1] eqn:E. apply add_closes in E. destruct E as (n1 & -> & A).
  destruct r1 as [[]|e| |]; try (intros [= _ _ <- _]; exists n1; now split).
  intros E. apply IH in E. destruct E as (n2 & -> & B). exists (n2 ++ n1). split; [now rewrite app_assoc|].
  intros h e H. apply in_app_or in H. destruct H; [now apply (B h e)|now apply (A h e)].
Qed.
Theorem start_closes_seed_only p w tr p' w' new r : do_pop (watch K) OStart p (w, tr) = (p', (w', new ++ tr), r) ->
  forall h e, In (KClose h e) new -> In (KDial (p_leader p) (Ok h)) new.
Proof.
  cbn [do_pop]. destruct (start_pool (watch K) p (w, tr)) as [[p1 w1] r1] eqn:Es. intros [= _ -> _] h e.
  unfold start_pool, get in Es. destruct (p_running p).
  { injection Es as _ _ X _. apply (app_inv_tail tr []) in X. subst. intros []. }
  unfold bind, mbind, upd in Es. set (p0 := set_max _ _ _) in Es.
  destruct (refresh_connections (watch K) p0 (w, tr)) as [[p2 [w2 tr2]] r2] eqn:Er. apply refresh_seed in Er. destruct Er as (n1 & -> & _ & _ & C & _).
  change (p_leader p0) with (p_leader p) in C.
  destruct r2 as [[]|e0| |]; try (injection Es as _ _ X _; apply app_inv_tail in X; subst; apply C).
  destruct (times _ (add_conn (watch K) WriteMode) p2 (w2, n1 ++ tr)) as [[p3 [w3 tr3]] r3] eqn:Et. apply times_closes in Et. destruct Et as (n2 & -> & N2).
  destruct r3 as [[]|e0| |].
  2-4: injection Es as _ _ X _; rewrite app_assoc in X; apply app_inv_tail in X; subst; intros H; apply in_app_or in H; destruct H as [H|H]; [now destruct (N2 h e)|]; apply in_or_app; right; now apply (C h e).
  apply times_closes in Es. destruct Es as (n3 & X & N3). rewrite !app_assoc in X. apply app_inv_tail in X. subst.
  intros H. rewrite !in_app_iff in *. destruct H as [[H|H]|H]; [now destruct (N3 h e)|now destruct (N2 h e)|]. right. now apply (C h e).
Qed.
End Seed.
