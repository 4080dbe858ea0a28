(** Where the connections of a routing pool go. *)
From Coq Require Import String ZArith List Bool Lia ZifyBool Permutation.
From Verif Require Import Bytes GoVal GoErr Decoder Messages GoStr Routing Pool SpecPool BytesFacts RoutingFacts PoolFacts LendFacts SteadyFacts WatchPoolFacts EraseFacts.
Import ListNotations.
Open Scope Z_scope.

Lemma slice_contains_in s l : slice_contains l s = true <-> In s l.
Proof.
  unfold slice_contains. rewrite existsb_exists. split.
  - intros (x & H & E). apply bytes_eqb_eq in E. now subst.
  - intros H. exists s. split; [exact H|apply bytes_eqb_refl].
Qed.
(** The lists after a merge. *)
Definition decorated (auth tls : bytes) (news kept : list bytes) : list bytes :=
  fold_left (fun acc s => let s' := add_auth_info auth tls s in if slice_contains acc s' then acc else acc ++ [s']) news kept.
Lemma decorated_in auth tls news : forall kept s, In s (decorated auth tls news kept) <-> In s kept \/ exists a, In a news /\ s = add_auth_info auth tls a.
Proof.
  unfold decorated. induction news as [|a news IH]; intros kept s; cbn [fold_left]; [split; [now left|intros [H|(a & [] & _)]; exact H]|].
  rewrite IH. destruct (slice_contains kept (add_auth_info auth tls a)) eqn:E.
  - apply slice_contains_in in E. split.
    + intros [H|(b & H & ->)]; [now left|right; exists b; split; [now right|reflexivity]].
    + intros [H|(b & [<-|H] & ->)]; [now left|now left|right; eauto].
  - rewrite in_app_iff. cbn. split.
    + intros [[H|[<-|[]]]|(b & H & ->)]; [now left|right; exists a; auto|right; exists b; auto].
    + intros [H|(b & [<-|H] & ->)]; [auto|auto|right; eauto].
Qed.
Lemma merge_rw p : p_rw (merge_strings p) = decorated (p_auth p) (p_tls p) (get_write_connection_strings (p_handler p))
  (filter (slice_contains (get_write_connection_strings (p_handler p))) (p_rw p)).
Proof. reflexivity. Qed.
Lemma merge_rs p : p_rs (merge_strings p) = decorated (p_auth p) (p_tls p) (get_read_only_connection_strings (p_handler p))
  (filter (slice_contains (get_read_only_connection_strings (p_handler p))) (p_rs p)).
Proof. reflexivity. Qed.
Definition drawn (auth tls : bytes) (news l : list bytes) : Prop := forall s, In s l -> exists a, In a news /\ (s = a \/ dressed auth tls a s).
Lemma drawn_merged auth tls news l : drawn auth tls news (decorated auth tls news (filter (slice_contains news) l)).
Proof.
  intros s H. apply decorated_in in H. destruct H as [H|(a & H & ->)]; [|eauto using dressed_added].
  apply filter_In in H. destruct H as [_ H]. apply slice_contains_in in H. eauto.
Qed.

Section Routes.
Context {W : Type}.
Variable K : cluster W.
Notation WT := (W * list kevent)%type.

(** Nothing is asked. *)
Definition quiet (a b : WT) : Prop := exists new, snd b = new ++ snd a /\ forall h v r, ~ In (KQuery h v r) new.
Lemma quiet_refl a : quiet a a.
Proof. exists []. split; [reflexivity|]. intros ? ? ? []. Qed.
Lemma quiet_trans a b c : quiet a b -> quiet b c -> quiet a c.
Proof.
  intros (x & Hx & Nx) (y & Hy & Ny). exists (y ++ x). split; [now rewrite Hy, Hx, app_assoc|].
  intros h v r H. apply in_app_or in H. destruct H; [eapply Ny|eapply Nx]; eauto.
Qed.
Ltac one := eexists [_]; split; [reflexivity|]; intros ? ? ? [H|[]]; discriminate.
Lemma quiet_dial s w : quiet w (fst (k_dial (watch K) s w)).
Proof. cbn. destruct (k_dial K s (fst w)) as [w' r]. one. Qed.
Lemma quiet_valid h w : quiet w (fst (k_valid (watch K) h w)).
Proof. cbn. destruct (k_valid K h (fst w)) as [w' r]. one. Qed.
Lemma quiet_close h w : quiet w (fst (k_close (watch K) h w)).
Proof. cbn. destruct (k_close K h (fst w)) as [w' r]. one. Qed.
Lemma quiet_name w : quiet w (fst (k_name (watch K) w)).
Proof. cbn. destruct (k_name K (fst w)) as [w' r]. exists []. split; [reflexivity|]. intros ? ? ? []. Qed.
Lemma quiet_longer a b : quiet a b -> longer a b.
Proof. intros (n & H & _). now exists n. Qed.
Hint Resolve quiet_refl quiet_trans quiet_dial quiet_valid quiet_close quiet_name : core.

Lemma overview_kept tr new v rows : latest_overview tr v rows -> (forall h v' rows', In (KQuery h v' (Ok rows')) new -> ~ readable v' rows') ->
  latest_overview (new ++ tr) v rows.
Proof.
  intros (tr1 & h & tr0 & -> & Hr & Hn) N. exists (new ++ tr1), h, tr0. split; [now rewrite app_assoc|]. split; [exact Hr|].
  intros h' v' rows' H. apply in_app_or in H. destruct H as [H|H]; [eapply N|eapply Hn]; eauto.
Qed.
Lemma goes_kept auth tls ks tr new h : goes_to auth tls ks tr h -> goes_to auth tls ks (new ++ tr) h.
Proof. intros (tr1 & s & tr0 & v & rows & a & -> & H). exists (new ++ tr1), s, tr0, v, rows, a. split; [now rewrite app_assoc|exact H]. Qed.

Variables auth tls : bytes.
Definition kinds_for (mode : Z) : list Z := if mode =? WriteMode then [Leader] else [Follower; ReadReplica].
Definition strings_of_mode (mode : Z) (h : handler) : list bytes :=
  if mode =? WriteMode then get_write_connection_strings h else get_read_only_connection_strings h.
Record routed (p : pool) (w : WT) : Prop := mkRouted {
  r_auth : p_auth p = auth;
  r_tls : p_tls p = tls;
  r_table : (exists v rows, latest_overview (snd w) v rows /\ table_of (contains (str "bolt")) v rows (p_handler p)) \/ p_handler p = no_handler;
  r_rw : drawn auth tls (get_write_connection_strings (p_handler p)) (p_rw p);
  r_rs : drawn auth tls (get_read_only_connection_strings (p_handler p)) (p_rs p);
  r_write : forall c, In c (p_wq p) -> pw_mode c = WriteMode;
  r_read : forall c, In c (p_rq p) -> pw_mode c = ReadMode;
  r_modes : forall c, In c (all_conns p) -> pw_mode c = WriteMode \/ pw_mode c = ReadMode;
  r_conns : forall c, In c (all_conns p) -> goes_to auth tls (kinds_for (pw_mode c)) (snd w) (pw_conn c)
}.
(** What the invariant reads of the pool. *)
Definition gear (p : pool) := (p_auth p, p_tls p, p_handler p, p_rw p, p_rs p).
Lemma routed_quiet p w w' : routed p w -> quiet w w' -> routed p w'.
Proof.
  intros [] (new & E & N). constructor; auto.
  - destruct r_table0 as [(v & rows & L & T)|E0]; [left|now right]. exists v, rows. split; [|exact T]. rewrite E. apply overview_kept; [exact L|].
    intros h v' rows' H. now apply N in H.
  - intros c H. rewrite E. apply goes_kept. auto.
Qed.
Lemma routed_gear p p' w : gear p' = gear p -> incl (p_wq p') (p_wq p) -> incl (p_rq p') (p_rq p) -> incl (all_conns p') (all_conns p) -> routed p w -> routed p' w.
Proof.
  intros E Hw Hr H []. unfold gear in E. injection E as E1 E2 E3 E4 E5. constructor; rewrite ?E1, ?E2, ?E3, ?E4, ?E5; auto.
Qed.
Lemma strings_listed mode p w s : routed p w -> In s (strings_for mode p) ->
  exists v rows a, latest_overview (snd w) v rows /\ lists v rows (kinds_for mode) a /\ (s = a \/ dressed auth tls a s).
Proof.
  intros [] H.
  assert (D : drawn auth tls (strings_of_mode mode (p_handler p)) (strings_for mode p)) by (unfold strings_for, strings_of_mode; destruct (mode =? WriteMode); auto).
  destruct (D s H) as (a & Ha & Hs). destruct r_table0 as [(v & rows & L & T)|E0].
  - exists v, rows, a. split; [exact L|]. split; [|exact Hs]. unfold strings_of_mode, kinds_for in *. destruct (mode =? WriteMode); eauto using write_lists, read_lists.
  - rewrite E0 in Ha. unfold strings_of_mode in Ha. destruct (mode =? WriteMode); destruct Ha.
Qed.
Lemma gear_held x p : gear (set_held x p) = gear p. Proof. reflexivity. Qed.
Lemma gear_queue m q p : gear (set_queue m q p) = gear p. Proof. unfold set_queue. destruct (m =? WriteMode); reflexivity. Qed.
Lemma gear_index m q p : gear (set_index m q p) = gear p. Proof. unfold set_index. destruct (m =? WriteMode); reflexivity. Qed.
Lemma conns_core p p' : core p' = core p -> all_conns p' = all_conns p /\ p_wq p' = p_wq p /\ p_rq p' = p_rq p.
Proof. unfold core, all_conns. intros [= -> -> -> _ _]. auto. Qed.
Lemma routed_same p p' w : gear p' = gear p -> core p' = core p -> routed p w -> routed p' w.
Proof.
  intros G C. destruct (conns_core _ _ C) as (E & E1 & E2). apply routed_gear; [exact G|..]; rewrite ?E, ?E1, ?E2; apply incl_refl.
Qed.

Lemma routed_made p w m s c w' : m = WriteMode \/ m = ReadMode -> In s (strings_for m p) -> made (watch K) m s w c w' -> routed p w ->
  routed (set_queue m (queue_of m p ++ [c]) p) w'.
Proof.
  intros Hm Hs M Rt. assert (Q : quiet w w') by (eapply made_R; eauto).
  pose proof (strings_listed m p w s Rt Hs) as (v & rows & a & L & Li & Ha).
  assert (G : goes_to auth tls (kinds_for m) (snd w') (pw_conn c)).
  { destruct M as (w1 & name & Ed & En & _). destruct w as [w tr], w1 as [w1 tr1], w' as [w' tr'].
    cbn in Ed, En. destruct (k_dial K s w) as [wa ra]. injection Ed as -> <- ->. destruct (k_name K w1) as [wb nb]. injection En as -> <- ->.
    exists [], s, tr, v, rows, a. auto. }
  assert (Ec : pw_mode c = m) by (destruct M as (w1 & name & _ & _ & ->); reflexivity).
  apply (routed_quiet _ _ _ Rt) in Q. destruct Q.
  assert (Pb : Permutation (all_conns (set_queue m (queue_of m p ++ [c]) p)) (c :: all_conns p)).
  { rewrite (all_perm m), queue_set, queue_set_other, borrowed_set, <- app_assoc. cbn [app].
    rewrite <- Permutation_middle. constructor. symmetry. apply all_perm. }
  pose proof (gear_queue m (queue_of m p ++ [c]) p) as Gq. unfold gear in Gq. injection Gq as E1 E2 E3 E4 E5.
  constructor; rewrite ?E1, ?E2, ?E3, ?E4, ?E5; auto.
  - intros d. unfold set_queue, queue_of. destruct Hm as [-> | ->]; cbn; [|auto]. intros H. apply in_app_or in H. destruct H as [H|[<-|[]]]; auto.
  - intros d. unfold set_queue, queue_of. destruct Hm as [-> | ->]; cbn; [auto|]. intros H. apply in_app_or in H. destruct H as [H|[<-|[]]]; auto.
  - intros d H. apply (Permutation_in _ Pb) in H. destruct H as [<-|H]; [now rewrite Ec|auto].
  - intros d H. apply (Permutation_in _ Pb) in H. destruct H as [<-|H]; [now rewrite Ec|auto].
Qed.
Lemma routed_add p w m p' w' r : m = WriteMode \/ m = ReadMode -> add_conn (watch K) m p w = (p', w', r) -> routed p w -> routed p' w'.
Proof.
  intros Hm E Rt. eapply (add_eff (watch K) quiet) in E; eauto.
  destruct E as [(s & c & i & x & Hs & M & _ & ->)|(G & _ & [->|[i ->]])].
  - apply nth_error_In in Hs. eapply routed_same; [| |eapply routed_made; eauto].
    + rewrite gear_held, !gear_queue, gear_index. reflexivity.
    + rewrite core_held. unfold core, set_queue, set_index, queue_of. destruct (m =? WriteMode); reflexivity.
  - eapply routed_quiet; eauto.
  - eapply routed_same; [apply gear_index|apply core_index|]. eapply routed_quiet; eauto.
Qed.
Lemma routed_times n m : m = WriteMode \/ m = ReadMode -> forall p w p' w' r, times n (add_conn (watch K) m) p w = (p', w', r) -> routed p w -> routed p' w'.
Proof.
  intros Hm. induction n as [|n IH]; intros p w p' w' r; cbn [times]; [now intros [= <- <- _]|].
  unfold bind, mbind. destruct (add_conn (watch K) m p w) as [[p1 w1] r1] eqn:E. intros E2 Rt. apply routed_add in E; [|assumption..].
  destruct r1; try (now injection E2 as <- <- _). eauto.
Qed.
Lemma core_handler hd p : core (set_handler hd p) = core p. Proof. reflexivity. Qed.
Lemma queues_merge p : p_wq (merge_strings p) = p_wq p /\ p_rq (merge_strings p) = p_rq p /\ p_borrowed (merge_strings p) = p_borrowed p
  /\ p_handler (merge_strings p) = p_handler p /\ p_auth (merge_strings p) = p_auth p /\ p_tls (merge_strings p) = p_tls p.
Proof. repeat split. Qed.
Lemma routed_merge p hd w w' : routed p w -> longer w w' ->
  ((exists v rows, latest_overview (snd w') v rows /\ table_of (contains (str "bolt")) v rows hd) \/ hd = no_handler) ->
  routed (merge_strings (set_handler hd p)) w'.
Proof.
  intros [] [new E] T. destruct (queues_merge (set_handler hd p)) as (E1 & E2 & E3 & E4 & E5 & E6).
  constructor; rewrite ?merge_rw, ?merge_rs, ?E1, ?E2, ?E4, ?E5, ?E6; cbn [p_auth p_tls p_handler set_handler p_wq p_rq p_rw p_rs]; auto.
  - rewrite r_auth0, r_tls0. apply drawn_merged.
  - rewrite r_auth0, r_tls0. apply drawn_merged.
  - intros c H. rewrite E. apply goes_kept. apply r_conns0. exact H.
Qed.
Lemma routed_refresh p w p' w' r : refresh_connections (watch K) p w = (p', w', r) -> routed p w -> routed p' w'.
Proof.
  unfold refresh_connections, mbind, get, dial. destruct w as [w tr]. cbn [watch k_dial k_query fst snd].
  destruct (k_dial K (p_leader p) w) as [w1 rd]. destruct rd as [h|e| |].
  2,3,4: intros [= <- <- _] Rt; eapply routed_quiet; [exact Rt|]; eexists [_]; (split; [reflexivity|]); intros ? ? ? [H|[]]; discriminate.
  cbn [fst snd]. destruct (k_query K h w1) as [w2 [v rows]]. intros E Rt.
  assert (Old : forall new, (forall h' v' rows', In (KQuery h' v' (Ok rows')) new -> ~ readable v' rows') ->
    (exists v rows, latest_overview (new ++ tr) v rows /\ table_of (contains (str "bolt")) v rows (p_handler p)) \/ p_handler p = no_handler).
  { intros new N. destruct (r_table _ _ Rt) as [(v' & rows' & L & T)|E0]; [left|now right]. exists v', rows'. split; [|exact T]. now apply overview_kept. }
  assert (Asis : forall new, (forall h' v' rows', ~ In (KQuery h' v' (Ok rows')) new) -> routed p (w2, new ++ tr)).
  { intros new N. destruct Rt. constructor; auto.
    - apply Old. intros h' v' rows' H. now apply N in H.
    - intros c H. apply goes_kept. now apply r_conns0. }
  destruct rows as [rows|e| |].
  - pose proof (refresh_cases (p_handler p) v rows) as RC.
    destruct (refresh_cluster_info (p_handler p) v (Ok rows)) as [hd x]. unfold close_conn in E. cbn [watch k_close fst snd] in E.
    destruct (k_close K h w2) as [w3 ec]. injection E as <- <- _.
    eapply (routed_merge p hd (w, tr)); [exact Rt|now exists [KClose h ec; KQuery h v (Ok rows); KDial (p_leader p) (Ok h)]|]. cbn [snd].
    destruct RC as [(h' & [= -> ->] & T)|[[e' [= -> ->]] N]].
    + left. exists v, rows. split; [|exact T]. exists [KClose h ec], h, (KDial (p_leader p) (Ok h) :: tr). split; [reflexivity|].
      split; [now exists h'|]. intros ? ? ? [H|[]]. discriminate.
    + apply (Old [KClose h ec; KQuery h v (Ok rows); KDial (p_leader p) (Ok h)]). intros ? ? ? [H|[H|[H|[]]]]; try discriminate. injection H as <- <- <-. exact N.
  - unfold close_conn in E. cbn [watch k_close fst snd refresh_cluster_info] in E. destruct (k_close K h w2) as [w3 ec]. injection E as <- <- _.
    eapply (routed_merge p (p_handler p) (w, tr)); [exact Rt|now exists [KClose h ec; KQuery h v (Err e); KDial (p_leader p) (Ok h)]|]. cbn [snd].
    apply (Old [KClose h ec; KQuery h v (Err e); KDial (p_leader p) (Ok h)]). intros ? ? ? [H|[H|[H|[]]]]; discriminate.
  - unfold close_conn in E. cbn [watch k_close fst snd] in E. destruct (k_close K h w2) as [w3 ec]. injection E as <- <- _.
    specialize (Asis [KClose h ec; KQuery h v Panic; KDial (p_leader p) (Ok h)]). cbn in Asis.
    assert (Rt' : routed p (w2, KClose h ec :: KQuery h v Panic :: KDial (p_leader p) (Ok h) :: tr)) by (apply Asis; intros ? ? ? [H|[H|[H|[]]]]; discriminate).
    destruct Rt'. constructor; auto.
  - unfold close_conn in E. cbn [watch k_close fst snd] in E. destruct (k_close K h w2) as [w3 ec]. injection E as <- <- _.
    specialize (Asis [KClose h ec; KQuery h v NoFuel; KDial (p_leader p) (Ok h)]). cbn in Asis.
    assert (Rt' : routed p (w2, KClose h ec :: KQuery h v NoFuel :: KDial (p_leader p) (Ok h) :: tr)) by (apply Asis; intros ? ? ? [H|[H|[H|[]]]]; discriminate).
    destruct Rt'. constructor; auto.
Qed.
Lemma routed_drop m p w gone rest : queue_of m p = gone ++ rest -> routed p w -> routed (set_queue m rest p) w.
Proof.
  intros Eq. apply routed_gear; [apply gear_queue|..].
  - unfold set_queue, queue_of in *. destruct (m =? WriteMode); cbn; [|apply incl_refl]. rewrite Eq. apply incl_appr, incl_refl.
  - unfold set_queue, queue_of in *. destruct (m =? WriteMode); cbn; [apply incl_refl|]. rewrite Eq. apply incl_appr, incl_refl.
  - intros c H. apply (Permutation_in _ (all_perm m _)) in H. rewrite queue_set, queue_set_other, borrowed_set in H.
    apply (Permutation_in _ (Permutation_sym (all_perm m p))). rewrite Eq, <- app_assoc. apply in_or_app. now right.
Qed.
Lemma routed_drain m fuel p w p' w' r : drain (watch K) fuel m p w = (p', w', r) -> (length (queue_of m p) < fuel)%nat -> routed p w -> routed p' w'.
Proof.
  intros E Hl Rt. eapply (drain_eff (watch K) quiet) in E; eauto.
  destruct E as (G & gone & rest & x & Eq & -> & _). eapply routed_same; [apply gear_held|apply core_held|].
  eapply routed_drop; [exact Eq|]. eapply routed_quiet; eauto.
Qed.

(** Lending keeps the invariant, and what is lent for [mode] has that mode. *)
Lemma routed_borrow m p w p' w' r : m = WriteMode \/ m = ReadMode -> borrow (watch K) m p w = (p', w', r) -> routed p w ->
  routed p' w' /\ forall c, r = Ok c -> pw_mode c = m /\ goes_to auth tls (kinds_for m) (snd w') (pw_conn c).
Proof.
  intros Hm E Rt. unfold borrow, get in E. eapply (borrow_eff (watch K) quiet) in E; eauto.
  destruct E as (G & sk & rest & x & Eq & [(c & rest' & -> & -> & _ & ->)|[[e ->] ->]]).
  - apply (routed_quiet _ _ _ Rt) in G.
    assert (Hc : In c (queue_of m p)) by (rewrite Eq; apply in_or_app; right; now left).
    assert (Hc' : In c (all_conns p)) by (apply (Permutation_in _ (Permutation_sym (all_perm m p))), in_or_app; now left).
    assert (Em : pw_mode c = m) by (destruct G; destruct Hm as [-> | ->]; auto).
    split.
    + eapply routed_gear; [| | | |exact G].
      * change (gear (set_queue m rest' p) = gear p). apply gear_queue.
      * change (incl (p_wq (set_queue m rest' p)) (p_wq p)). unfold set_queue, queue_of in *. destruct (m =? WriteMode); cbn; [|apply incl_refl].
        rewrite Eq. intros d H. apply in_or_app. right. now right.
      * change (incl (p_rq (set_queue m rest' p)) (p_rq p)). unfold set_queue, queue_of in *. destruct (m =? WriteMode); cbn; [apply incl_refl|].
        rewrite Eq. intros d H. apply in_or_app. right. now right.
      * intros d H. unfold all_conns in H. apply in_app_or in H.
        assert (Sub : forall d, In d (p_wq (set_queue m rest' p)) \/ In d (p_rq (set_queue m rest' p)) -> In d (all_conns p)).
        { intros d'. unfold set_queue, queue_of in *. destruct (m =? WriteMode); cbn; unfold all_conns; rewrite ?Eq, !in_app_iff; cbn; tauto. }
        destruct H as [H|H]; [apply Sub; now left|]. apply in_app_or in H. destruct H as [H|H]; [apply Sub; now right|].
        cbn in H. destruct H as [<-|H]; [exact Hc'|]. apply in_map_iff in H. destruct H as ([k d'] & Hd & H). cbn in Hd. subst d'.
        apply map_del_in in H. unfold all_conns. rewrite !in_app_iff. right. right. change d with (snd (k, d)). now apply in_map.
    + intros c' [= <-]. split; [exact Em|]. rewrite <- Em. now apply (r_conns _ _ G).
  - split; [|discriminate]. eapply routed_same; [apply gear_held|apply core_held|]. eapply routed_drop; [exact Eq|]. eapply routed_quiet; eauto.
Qed.

Definition lent_well (x : pop * presult) (tr : list kevent) : Prop :=
  match x with
  | (OBorrow m, RLent _ h) => goes_to auth tls (if m =? ReadMode then [Follower; ReadReplica] else [Leader]) tr h
  | _ => True
  end.
Lemma routed_step o p w p' w' r : do_pop (watch K) o p w = (p', w', r) -> p_lookup p = [] -> p_marked p = [] -> routed p w ->
  routed p' w' /\ lent_well (o, r) (snd w').
Proof.
  intros E Hlk Hmk Rt. destruct o as [| |m|id h|]; cbn [do_pop] in E.
  - destruct (start_pool (watch K) p w) as [[p1 w1] r1] eqn:Es. injection E as <- <- <-. split; [|exact Logic.I].
    unfold start_pool, get in Es. destruct (p_running p); [now injection Es as <- <- _|].
    unfold bind, mbind, upd in Es. set (p0 := set_max _ _ _) in Es.
    assert (I0 : routed p0 w) by (eapply routed_same; [| |exact Rt]; reflexivity).
    destruct (refresh_connections (watch K) p0 w) as [[p2 w2] r2] eqn:Er. apply routed_refresh in Er; [|exact I0].
    destruct r2; try (now injection Es as <- <- _).
    destruct (times (Z.to_nat (p_max_w p2)) (add_conn (watch K) WriteMode) p2 w2) as [[p3 w3] r3] eqn:Et.
    apply routed_times in Et; [|now left|exact Er]. destruct r3; try (now injection Es as <- <- _).
    eapply routed_times; [|exact Es|exact Et]. now right.
  - destruct (stop_pool (watch K) p w) as [[p1 w1] r1] eqn:Es. injection E as <- <- <-. split; [|exact Logic.I].
    unfold stop_pool, get in Es. destruct (p_running p); [|now injection Es as <- <- _]. cbn [negb] in Es.
    unfold bind, mbind, upd in Es. set (p0 := set_running false p) in Es.
    assert (I0 : routed p0 w) by (eapply routed_same; [| |exact Rt]; reflexivity).
    destruct (drain (watch K) (S (length (p_rq p))) ReadMode p0 w) as [[p2 w2] r2] eqn:Er.
    assert (I2 : routed p2 w2) by (eapply routed_drain; [exact Er| |exact I0]; cbn; lia).
    assert (Q : p_wq p2 = p_wq p).
    { eapply (drain_eff (watch K) quiet) in Er; eauto. destruct Er as (_ & ? & ? & ? & _ & -> & _). reflexivity. }
    destruct r2; try (now injection Es as <- <- _).
    eapply routed_drain; [exact Es| |exact I2]. change (queue_of WriteMode p2) with (p_wq p2). rewrite Q. lia.
  - destruct (borrow (watch K) _ p w) as [[p1 w1] r1] eqn:Eb. injection E as <- <- <-.
    apply routed_borrow in Eb; [|destruct (m =? ReadMode); auto|exact Rt]. destruct Eb as [R1 R2]. split; [exact R1|].
    destruct r1 as [c|e| |]; cbn; auto. destruct (R2 c eq_refl) as [_ G]. destruct (m =? ReadMode); exact G.
  - destruct (reclaim (watch K) id h p w) as [[p1 w1] r1] eqn:Er. injection E as <- <- <-. split; [|exact Logic.I].
    eapply (reclaim_eff (watch K) quiet) in Er; eauto.
    destruct Er as [(G & -> & _)|(_ & c & x & Eg & D)]; [eapply routed_quiet; eauto|].
    assert (Hin := map_get_in _ _ _ Eg).
    assert (Hc : In c (all_conns p)) by (unfold all_conns; rewrite !in_app_iff; right; right; change c with (snd (id, c)); now apply in_map).
    assert (R1 : routed (set_held x (set_borrowed (map_del id (p_borrowed p)) p)) w).
    { apply (routed_gear p); [reflexivity|apply incl_refl|apply incl_refl| |exact Rt]. intros d H. unfold all_conns in *. rewrite !in_app_iff in *.
      cbn in H. destruct H as [H|[H|H]]; auto. right. right. apply in_map_iff in H. destruct H as ([k d'] & Hd & H). cbn in Hd. subst d'.
      apply map_del_in in H. change d with (snd (k, d)). now apply in_map. }
    cbv zeta in D. destruct D as [(G & -> & ->)|(w2 & e & w0 & _ & _ & G & Ea)].
    + assert (G0 : goes_to auth tls (kinds_for (pw_mode c)) (snd w1) (pw_conn c)).
      { destruct G as (new & -> & _). apply goes_kept. now apply (r_conns _ _ Rt). }
      pose proof (r_modes _ _ Rt c Hc) as Hm. set (p1 := set_held x _) in *. apply (routed_quiet _ _ _ R1) in G.
      unfold back. set (m := if pw_mode c =? WriteMode then WriteMode else ReadMode).
      assert (Em : pw_mode c = m) by (unfold m; destruct Hm as [-> | ->]; reflexivity).
      assert (Pb : Permutation (all_conns (set_queue m (queue_of m p1 ++ [c]) p1)) (c :: all_conns p1)).
      { rewrite (all_perm m), queue_set, queue_set_other, borrowed_set, <- app_assoc. cbn [app].
        rewrite <- Permutation_middle. constructor. symmetry. apply all_perm. }
      pose proof (gear_queue m (queue_of m p1 ++ [c]) p1) as Gq. unfold gear in Gq. injection Gq as E1 E2 E3 E4 E5.
      destruct G. constructor; rewrite ?E1, ?E2, ?E3, ?E4, ?E5; auto.
      * intros d. unfold set_queue, queue_of. destruct (Z.eqb_spec m WriteMode) as [Hw|Hw]; [|auto]. intros H. apply in_app_or in H. destruct H as [H|[<-|[]]]; [auto|congruence].
      * intros d. unfold set_queue, queue_of. destruct (Z.eqb_spec m WriteMode) as [Hw|Hw]; [auto|]. intros H. apply in_app_or in H. destruct H as [H|[<-|[]]]; [auto|].
        destruct Hm as [Hm|Hm]; [congruence|exact Hm].
      * intros d H. apply (Permutation_in _ Pb) in H. destruct H as [<-|H]; auto.
      * intros d H. apply (Permutation_in _ Pb) in H. destruct H as [<-|H]; auto.
    + eapply routed_add; [|exact Ea|]; [destruct (pw_mode c =? WriteMode); auto|]. eapply routed_quiet; eauto.
  - destruct (refresh_round (watch K) p w) as [[p1 w1] r1] eqn:Er. injection E as <- <- <-. split; [|exact Logic.I].
    unfold refresh_round, bind, mbind in Er. destruct (refresh_connections (watch K) p w) as [[p2 w2] r2] eqn:E2.
    assert (Mk : p_marked p2 = []).
    { eapply (refresh_eff (watch K) longer) in E2; eauto using longer_refl, longer_trans, longer_dial, longer_valid, longer_close, longer_query, longer_name.
      destruct E2 as (_ & [->|(hd & -> & _)]); [exact Hmk|]. rewrite <- Hmk. exact (f_equal (fun x => snd (fst x)) (core_merge hd p Hlk)). }
    apply routed_refresh in E2; [|exact Rt]. destruct r2; try (now injection Er as <- <- _).
    rewrite (prune_nothing _ p2 w2 Mk) in Er. rewrite balance_nothing in Er by lia. now injection Er as <- <- _.
Qed.

(** Over a whole history: every lending so far went right, at the time. *)
Lemma routed_run os : forall p w p' w' l, run_pool (watch K) os p w = (p', w', l) -> p_lookup p = [] -> p_marked p = [] -> routed p w ->
  routed p' w' /\ forall x, In x l -> lent_well x (snd w').
Proof.
  induction os as [|o os IH]; intros p w p' w' l; cbn [run_pool]; [intros [= <- <- <-] _ _ Rt; split; [exact Rt|easy]|].
  destruct (do_pop (watch K) o p w) as [[p1 w1] r] eqn:E1. destruct (run_pool (watch K) os p1 w1) as [[p2 w2] l'] eqn:E2. intros [= <- <- <-] Hlk Hmk Rt.
  assert (C : p_lookup p1 = [] /\ p_marked p1 = []) by (apply steady_step in E1; auto; unfold steady in E1; split; congruence).
  destruct (routed_step _ _ _ _ _ _ E1 Hlk Hmk Rt) as [R1 L1]. destruct (IH _ _ _ _ _ E2 (proj1 C) (proj2 C) R1) as [R2 L2].
  split; [exact R2|]. intros x [<-|H]; [|auto]. destruct (run_longer _ _ _ _ _ _ _ E2) as [new Hn]. rewrite Hn.
  unfold lent_well in *. destruct o, r; auto. now apply goes_kept.
Qed.
Lemma routed_new leader n p w : new_routing_pool leader n auth tls = Ok p -> routed p (w, []).
Proof.
  unfold new_routing_pool. destruct (bytes_eqb leader []); [discriminate|]. destruct (_ || _); [discriminate|]. intros [= <-].
  constructor; cbn; auto; try easy; intros s [].
Qed.
End Routes.

(** C47 *)
Theorem routes {W} (K : cluster W) n auth tls w0 l p w tr : pool_history (watch K) n auth tls (w0, []) l p (w, tr) ->
  forall m id h, In (OBorrow m, RLent id h) l -> goes_to auth tls (if m =? ReadMode then [Follower; ReadReplica] else [Leader]) tr h.
Proof.
  intros (leader & p0 & En & Er) m id h H. destruct (routed_run K auth tls _ _ _ _ _ _ Er) as [_ L].
  - unfold new_routing_pool in En. destruct (bytes_eqb leader []); [discriminate|]. destruct (_ || _); [discriminate|]. now injection En as <-.
  - unfold new_routing_pool in En. destruct (bytes_eqb leader []); [discriminate|]. destruct (_ || _); [discriminate|]. now injection En as <-.
  - eapply routed_new; eauto.
  - exact (L _ H).
Qed.

(** C52: what is opened after the latest overview goes to a server it lists. *)
Theorem new_go_to_listed {W} (K : cluster W) n auth tls w0 l p w tr : pool_history (watch K) n auth tls (w0, []) l p (w, tr) ->
  forall m id h, In (OBorrow m, RLent id h) l -> exists tr1 s tr0, tr = tr1 ++ KDial s (Ok h) :: tr0
    /\ ((forall h' v' rows', In (KQuery h' v' (Ok rows')) tr1 -> ~ readable v' rows') ->
        exists v rows a, latest_overview tr v rows /\ lists v rows (if m =? ReadMode then [Follower; ReadReplica] else [Leader]) a
          /\ (s = a \/ dressed auth tls a s)).
Proof.
  intros H m id h Hi. destruct (routes K n auth tls w0 l p w tr H m id h Hi) as (tr1 & s & tr0 & v & rows & a & -> & L & Hl & Hs).
  exists tr1, s, tr0. split; [reflexivity|]. intros Hn. exists v, rows, a. split; [|auto].
  replace (tr1 ++ KDial s (Ok h) :: tr0) with ((tr1 ++ [KDial s (Ok h)]) ++ tr0) by now rewrite <- app_assoc.
  apply overview_kept; [exact L|]. intros h' v' rows' Hq. apply in_app_or in Hq. destruct Hq as [Hq|[Hq|[]]]; [eauto|discriminate].
Qed.
