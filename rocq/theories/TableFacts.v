(** The addresses of a routing pool while its refresher works and others use it (C123). *)
From Coq Require Import String ZArith List Bool Lia ZifyBool.
From Verif Require Import Bytes GoVal GoErr Decoder Messages GoStr Routing Pool SpecPool BytesFacts RoutingFacts PoolFacts LendFacts SteadyFacts WatchPoolFacts EraseFacts RouteFacts
  Concurrency ConcurFacts PoolRace RaceFacts.
Import ListNotations.
Open Scope Z_scope.

(** What a refresh reads and replaces, and the latest usable overview. *)
Record sight := mkSight { s_table : handler; s_rw : list bytes; s_rs : list bytes; s_last : option (Z * list (list gval)) }.
Definition s_strings (mode : Z) (x : sight) : list bytes := if mode =? WriteMode then s_rw x else s_rs x.
(** The latest usable overview after one more answer. *)
Definition heard (v : Z) (r : res (list (list gval))) (x : sight) : sight :=
  match r with
  | Ok rows => match read_rows (v =? 4) rows no_handler with Ok _ => mkSight (s_table x) (s_rw x) (s_rs x) (Some (v, rows)) | _ => x end
  | _ => x
  end.
Definition with_part (m : part) (l : list node) (x : sight) : sight := mkSight (set_part m l (s_table x)) (s_rw x) (s_rs x) (s_last x).
Definition with_strings (mode : Z) (l : list bytes) (x : sight) : sight :=
  if mode =? WriteMode then mkSight (s_table x) l (s_rs x) (s_last x) else mkSight (s_table x) (s_rw x) l (s_last x).

Section Tables.
Variables auth tls : bytes.

(** Every address has its connection string. *)
Definition covered (news l : list bytes) : Prop := forall a, In a news -> exists s, In s l /\ dressed auth tls a s.
Lemma covered_merged news l : covered news (decorated auth tls news l).
Proof. intros a H. exists (add_auth_info auth tls a). split; [|apply dressed_added]. apply decorated_in. right. eauto. Qed.
(** The table is that of the latest usable overview, and the addresses are those of the table. *)
Record fair (x : sight) : Prop := mkFair {
  f_table : match s_last x with Some (v, rows) => table_of (contains (str "bolt")) v rows (s_table x) | None => s_table x = no_handler end;
  f_rw : drawn auth tls (get_write_connection_strings (s_table x)) (s_rw x);
  f_rs : drawn auth tls (get_read_only_connection_strings (s_table x)) (s_rs x);
  f_all_rw : covered (get_write_connection_strings (s_table x)) (s_rw x);
  f_all_rs : covered (get_read_only_connection_strings (s_table x)) (s_rs x)
}.
(** A goroutine that opens connections only while the addresses are those of the latest overview, and releases the mutex only then. *)
Fixpoint follows (t : gprog) (x : sight) : Prop :=
  match t with
  | GDone _ | GEnd => True
  | GRLock k | GRUnlock k => follows k x
  | GLock k => forall y, fair y -> follows k y
  | GUnlock k => fair x /\ forall y, follows k y
  | GSetRunning _ k | GEnqueue _ _ k | GWrite _ _ k | GUse _ k | GReplace _ _ k | GSetIndex _ _ k | GShare k | GQuit _ k | GMark _ k => follows k x
  | GRunning k | GMarked _ k | GValid _ k => forall b, follows (k b) x
  | GSize _ k => forall n, follows (k n) x
  | GDequeue _ k | GRead _ _ k => forall o, follows (k o) x
  | GClose _ k => forall e, follows (k e) x
  | GMake mode s k => fair x /\ In s (s_strings mode x) /\ forall r, follows (k r) x
  | GSeed k => forall r, follows (k r) x
  | GOverview _ k => forall v r, follows (k (v, r)) (heard v r x)
  | GPart m k => follows (k (part_of m (s_table x))) x
  | GSetPart m l k => follows k (with_part m l x)
  | GAuth k => follows (k (auth, tls)) x
  | GSetStrings mode l k => follows k (with_strings mode l x)
  | GItems _ k => forall q, follows (k q) x
  | GLimits k => forall l, follows (k l) x
  | GStrings mode k => follows (k (s_strings mode x)) x
  | GIndex _ k => forall i, follows (k i) x
  end.
Lemma follows_remove c k x : (forall e, follows (k e) x) -> follows (g_remove c k) x.
Proof. intros H. cbn. intros [|]; cbn; auto. intros [e|]; cbn; auto. Qed.
Lemma follows_new mode k x : fair x -> (forall r, follows (k r) x) -> follows (g_new mode k) x.
Proof.
  intros G H. unfold g_new. cbn [follows]. intros i. destruct (_ && _); [|apply H]. destruct (nth_error _ _) as [s|] eqn:E; [|apply H]. cbn [follows].
  split; [exact G|]. split; [eapply nth_error_In; exact E|]. intros [c|e| |]; cbn [follows]; apply H.
Qed.
Lemma follows_add mode k x : fair x -> (forall r, follows (k r) x) -> follows (g_add mode k) x.
Proof.
  intros G H. unfold g_add. cbn [follows]. destruct (s_strings mode x) as [|s l]; [apply H|]. cbn [follows]. intros i j.
  destruct (_ =? _); cbn [follows]; now apply follows_new.
Qed.
Lemma follows_internal fuel mode k x : (forall r, follows (k r) x) -> follows (g_internal_borrow fuel mode k) x.
Proof.
  intros Hk. induction fuel as [|fuel IH]; [apply Hk|]. cbn [g_internal_borrow follows]. intros [c|]; [|apply Hk].
  assert (A : follows (g_remove c (fun e => match e with Some e => k (Err e) | None => g_internal_borrow fuel mode k end)) x).
  { apply follows_remove. intros [e|]; [apply Hk|exact IH]. }
  cbn [follows]. intros [|]; [exact A|]. cbn [follows]. intros [|]; [|exact A]. cbn. apply Hk.
Qed.
Lemma follows_lend fuel mode k x : (forall r, follows (k r) x) -> follows (g_lend fuel mode k) x.
Proof. intros H. unfold g_lend. cbn [follows]. apply follows_internal. intros r. cbn. auto. Qed.
Lemma follows_return id h k x : (forall r y, follows (k r) y) -> follows (g_return id h k) x.
Proof.
  intros H. unfold g_return. cbn [follows]. intros y G. intros [|]; cbn [negb follows]; [|split; [exact G|apply H]].
  intros [c|]; cbn [follows].
  - intros [|]; cbn [follows]; [split; [exact G|apply H]|].
    apply follows_remove. intros [e|]; [|cbn [follows]; split; [exact G|apply H]].
    apply follows_add; [exact G|]. intros r. cbn [follows]. split; [exact G|]. apply H.
  - intros e. split; [exact G|apply H].
Qed.
Lemma follows_client fuel modes : forall x, follows (g_client fuel modes) x.
Proof.
  induction modes as [|m modes IH]; intros x; [exact I|]. cbn [g_client]. apply follows_lend. intros [c|e| |]; try apply IH; try exact I.
  cbn [follows]. apply follows_return. intros [u|e| |] y; try exact I; apply IH.
Qed.
Lemma follows_drain fuel mode k x : (forall r, follows (k r) x) -> follows (g_drain fuel mode k) x.
Proof.
  intros Hk. induction fuel as [|fuel IH]; [apply Hk|]. cbn [g_drain follows]. intros n. destruct (n =? 0); [apply Hk|]. cbn [follows].
  intros [c|]; [|apply Hk]. apply follows_remove. intros [e|]; [apply Hk|exact IH].
Qed.
Lemma follows_result r x : follows (g_result r) x.
Proof. destruct r; exact I. Qed.
Lemma follows_stop n m x : follows (g_stop n m) x.
Proof.
  unfold g_stop. cbn [follows]. intros [|]; cbn [negb follows]; [|exact I]. apply follows_drain. intros [u|e| |]; try exact I. apply follows_drain. intros r. apply follows_result.
Qed.
Lemma follows_sift drop x : (forall c k, follows k x -> follows (drop c k) x) -> forall q k, (forall r, follows (k r) x) -> follows (g_sift drop q k) x.
Proof. intros Hd. induction q as [|c q IH]; intros k Hk; [apply Hk|]. cbn [g_sift follows]. intros [|]; [apply Hd|]; apply IH; auto. Qed.
Lemma follows_prune k x : follows k x -> follows (g_prune k) x.
Proof.
  intros H. unfold g_prune. cbn [follows]. intros rs. apply follows_sift; [cbn; auto|]. intros reads. cbn [follows]. intros ws.
  apply follows_sift; [intros; apply follows_remove; auto|]. intros writes. exact H.
Qed.
Lemma follows_while fuel mode bound body k x : (forall k, follows k x -> follows (body k) x) -> (forall r, follows (k r) x) -> follows (g_while fuel mode bound body k) x.
Proof. intros Hb Hk. induction fuel as [|fuel IH]; [apply Hk|]. cbn [g_while follows]. intros n. destruct (n =? bound); [now apply Hb|apply Hk]. Qed.
Lemma follows_more mode k x : fair x -> follows k x -> follows (g_more mode k) x.
Proof. intros G H. apply follows_add; auto. Qed.
Lemma follows_less mode k x : follows k x -> follows (g_less mode k) x.
Proof. intros H. cbn [g_less follows]. intros [c|]; [apply follows_remove; auto|exact H]. Qed.
Lemma follows_bounds fuel mode low high k x : fair x -> (forall r, follows (k r) x) -> follows (g_bounds fuel mode low high k) x.
Proof.
  intros G Hk. unfold g_bounds. cbn [follows]. intros n. destruct (n <? low); [apply follows_while; auto using follows_more|].
  cbn [follows]. intros m. destruct (high <? m); [apply follows_while; auto using follows_less|apply Hk].
Qed.
Lemma follows_balance fuel k x : fair x -> (forall r, follows (k r) x) -> follows (g_balance fuel k) x.
Proof.
  intros G Hk. unfold g_balance. cbn [follows]. intros l. cbv zeta. cbn [follows]. intros n.
  assert (R : follows (g_bounds fuel WriteMode (lim_min_w l) (lim_max_w l) (fun r => match r with Ok _ => g_bounds fuel ReadMode (lim_min_r l) (lim_max_r l) k | _ => k r end)) x).
  { apply follows_bounds; [exact G|]. intros [u|e| |]; try apply Hk. now apply follows_bounds. }
  destruct (n <? lim_min_r l); [|exact R]. apply follows_while; [intros; now apply follows_more|]. intros [u|e| |]; auto.
Qed.
(** After the lists have been replaced, the addresses are those of the table. *)
Lemma follows_merge k x : match s_last x with Some (v, rows) => table_of (contains (str "bolt")) v rows (s_table x) | None => s_table x = no_handler end ->
  (forall y, fair y -> follows k y) -> follows (g_merge k) x.
Proof.
  intros T H. cbn. apply H. destruct x as [[ls fs rs] rw rd o]. cbn in *. constructor; cbn.
  - exact T.
  - apply drawn_merged.
  - apply drawn_merged.
  - apply covered_merged.
  - apply covered_merged.
Qed.
Lemma follows_refresh k x : fair x -> (forall r y, fair y -> follows (k r) y) -> follows (g_refresh k) x.
Proof.
  intros G H. unfold g_refresh. cbn [follows]. intros [h|e| |]; try now apply H. cbn [follows]. intros v r. cbn [fst snd].
  assert (M : forall y, match s_last y with Some (v, rows) => table_of (contains (str "bolt")) v rows (s_table y) | None => s_table y = no_handler end ->
    follows (g_merge (GQuit h (k (Ok tt)))) y).
  { intros y T. apply follows_merge; [exact T|]. intros z Gz. cbn [follows]. now apply H. }
  destruct r as [rows|e| |]; cbn [heard].
  - destruct (read_rows (v =? 4) rows no_handler) as [t|e| |] eqn:E.
    + cbn [follows]. apply M. cbn. destruct t as [ls fs rs]. cbn. now apply read_rows_table.
    + apply M, G.
    + apply M, G.
    + apply M, G.
  - apply M, G.
  - cbn [follows]. now apply H.
  - cbn [follows]. now apply H.
Qed.
Lemma follows_round fuel x : follows (g_round fuel) x.
Proof.
  assert (U : forall r y, fair y -> follows (GUnlock (g_result r)) y) by (intros r y G; cbn [follows]; split; [exact G|intros; apply follows_result]).
  unfold g_round. cbn [follows]. intros y G. apply follows_refresh; [exact G|]. intros [u|e| |] z Gz; try (now apply U).
  apply follows_prune. apply follows_balance; [exact Gz|]. intros r. now apply U.
Qed.
Lemma follows_work t x : t <> TStart -> follows (work t) x.
Proof.
  intros N. destruct t as [fuel mode|id h|n m|fuel modes|fuel|]; cbn [work].
  - apply follows_lend. intros r. exact I.
  - apply follows_return. intros r y. exact I.
  - apply follows_stop.
  - apply follows_client.
  - apply follows_round.
  - congruence.
Qed.

Context {W : Type}.
Variable K : cluster W.
Notation WT := (W * list kevent)%type.
Definition last_is (tr : list kevent) (o : option (Z * list (list gval))) : Prop :=
  match o with
  | Some (v, rows) => latest_overview tr v rows
  | None => forall h v rows, In (KQuery h v (Ok rows)) tr -> ~ readable v rows
  end.
Definition sight_of (p : pool) (o : option (Z * list (list gval))) : sight := mkSight (p_handler p) (p_rw p) (p_rs p) o.
Lemma last_quiet a b o : quiet (W := W) a b -> last_is (snd a) o -> last_is (snd b) o.
Proof.
  intros (new & -> & N) H. destruct o as [[v rows]|]; cbn in *.
  - apply overview_kept; [exact H|]. intros h v' rows' Hi. now apply N in Hi.
  - intros h v rows Hi. apply in_app_or in Hi. destruct Hi as [Hi|Hi]; [now apply N in Hi|eauto].
Qed.
Lemma last_heard h v r x tr : last_is tr (s_last x) -> last_is (KQuery h v r :: tr) (s_last (heard v r x)).
Proof.
  intros H.
  assert (Old : (forall rows, r = Ok rows -> ~ readable v rows) -> last_is (KQuery h v r :: tr) (s_last x)).
  { intros N. destruct (s_last x) as [[v' rows']|]; cbn in *.
    - change (KQuery h v r :: tr) with ([KQuery h v r] ++ tr). apply overview_kept; [exact H|]. intros h1 v1 rows1 [[= -> -> ->]|[]]. now apply N.
    - intros h1 v1 rows1 [[= -> -> ->]|Hi]; [now apply N|eauto]. }
  destruct r as [rows|e| |]; try (apply Old; discriminate). cbn [heard].
  destruct (read_rows_fails v rows no_handler) as [[t E]|[e E]]; rewrite E.
  - cbn. exists [], h, tr. split; [reflexivity|]. split; [|intros ? ? ? []]. exists t. now apply read_rows_table.
  - apply Old. intros rows' [= <-] [t T]. apply read_rows_table in T. congruence.
Qed.

Definition owns (tp : task * phase) : Prop := snd tp = PWrite.
Record tabled (tps : list (task * phase)) (o : option (Z * list (list gval))) (x : gsys (W := WT)) : Prop := mkTabled {
  t_phased : phased tps x;
  t_start : ~ In TStart (map fst tps);
  t_inside : forall i tp t, nth_error tps i = Some tp -> nth_error (g_threads x) i = Some t -> snd tp = PWrite -> follows t (sight_of (g_pool x) o);
  t_outside : forall i tp t, nth_error tps i = Some tp -> nth_error (g_threads x) i = Some t -> snd tp <> PWrite -> forall y, follows t y;
  t_fair : rw_writer (g_lock x) = false -> fair (sight_of (g_pool x) o);
  t_last : last_is (snd (g_world x)) o;
  t_auth : p_auth (g_pool x) = auth;
  t_tls : p_tls (g_pool x) = tls
}.
Lemma writer_alone l k i j : sound l k -> nth_error l i = Some PWrite -> nth_error l j = Some PWrite -> i = j.
Proof.
  intros (_ & H & _) Hi Hj. unfold writers in H. revert i j Hi Hj. set (f := fun ph => match ph with PWrite => true | _ => false end) in *.
  assert (L : (length (filter f l) <= 1)%nat) by (destruct (rw_writer k); lia). clear H. revert L.
  assert (Z0 : forall l, length (filter f l) = 0%nat -> forall i, nth_error l i <> Some PWrite).
  { clear. induction l as [|a l IH]; intros H [|i]; cbn in *; try discriminate.
    - intros [= ->]. discriminate H.
    - apply IH. destruct (f a); [discriminate|exact H]. }
  induction l as [|a l IH]; intros L [|i] [|j] Hi Hj; cbn in *; try discriminate; [reflexivity|..].
  - injection Hi as ->. cbn in L. exfalso. eapply Z0; [|exact Hj]. lia.
  - injection Hj as ->. cbn in L. exfalso. eapply Z0; [|exact Hi]. lia.
  - f_equal. apply IH; auto. destruct (f a); cbn in L; lia.
Qed.
Lemma writer_held l k i : sound l k -> nth_error l i = Some PWrite -> rw_writer k = true.
Proof.
  intros (_ & H & _) Hi. pose proof (count_at (fun ph => match ph with PWrite => true | _ => false end) l i PWrite Hi eq_refl). unfold writers in H.
  destruct (rw_writer k); [reflexivity|lia].
Qed.
(** Only who holds the mutex for writing uses the addresses. *)
Lemma uses_owned t0 ph t : fits (t0, ph) t -> t0 <> TStart ->
  match t with
  | GMake _ _ _ | GSeed _ | GOverview _ _ | GQuit _ _ | GPart _ _ | GSetPart _ _ _ | GAuth _ | GMark _ _ | GSetStrings _ _ _ | GStrings _ _ => ph = PWrite
  | GShare _ => False
  | _ => True
  end.
Proof.
  unfold fits. cbn [fst snd]. intros H N. destruct t0; [| | | | |congruence]; destruct t; cbn in H; try exact I; try tauto.
Qed.
Lemma sight_queue m q p o : sight_of (set_queue m q p) o = sight_of p o.
Proof. unfold set_queue, sight_of. destruct (m =? WriteMode); reflexivity. Qed.
Lemma auth_queue m q p : p_auth (set_queue m q p) = p_auth p /\ p_tls (set_queue m q p) = p_tls p.
Proof. unfold set_queue. destruct (m =? WriteMode); auto. Qed.
Lemma make_quiet mode s w : quiet (W := W) w (fst (make (watch K) mode s w)).
Proof.
  unfold make. pose proof (quiet_dial K s w) as Q. destruct (k_dial (watch K) s w) as [w1 [h|e| |]]; try exact Q. cbn [fst] in Q.
  pose proof (quiet_name K w1) as Q2. destruct (k_name (watch K) w1) as [w2 nm]. cbn [fst] in *. eapply quiet_trans; eauto.
Qed.
Lemma tabled_step tps o i x x' : gsys_step (watch K) i x = Some x' -> tabled tps o x ->
  exists tps' o', map fst tps' = map fst tps /\ tabled tps' o' x'.
Proof.
  intros E Tb. destruct Tb as [Ph St In_ Out Fr La Au Tl].
  destruct (phased_step (watch K) tps i x x' E Ph) as (t & t0 & ph & ph' & Et & Ep & Ph' & Sh).
  unfold gsys_step in E. rewrite Et in E. set (P := g_pool x) in *.
  assert (N0 : t0 <> TStart). { intros ->. apply St. apply nth_error_In in Ep. change TStart with (fst (TStart, ph)). now apply in_map. }
  assert (Ft : fits (t0, ph) t). { destruct Ph as [F _]. destruct (Forall2_at _ _ _ _ _ F Et) as (tp & Ep' & Ft). congruence. }
  pose proof (uses_owned _ _ _ Ft N0) as Ow.
  assert (Fi : ph = PWrite -> follows t (sight_of P o)) by (intros Hp; eapply In_; [exact Ep|exact Et|exact Hp]).
  assert (Fo : ph <> PWrite -> forall y, follows t y) by (intros Hp; eapply Out; [exact Ep|exact Et|exact Hp]).
  clear Ft. assert (Sd : sound (map snd tps) (g_lock x)) by apply Ph.
  assert (Step : forall p w l t' o', x' = mkG p w l (put_nth i t' (g_threads x)) -> last_is (snd w) o' -> p_auth p = p_auth P -> p_tls p = p_tls P ->
    (sight_of p o' = sight_of P o \/ ph = PWrite) -> (ph' = PWrite -> follows t' (sight_of p o')) -> (ph' <> PWrite -> forall y, follows t' y) ->
    (rw_writer l = false -> fair (sight_of p o')) -> exists tps' o', map fst tps' = map fst tps /\ tabled tps' o' x').
  { intros p w l t' o' -> Hl Ha Ht Hv Fi' Fo' Hf. exists (put_nth i (t0, ph') tps), o'.
    assert (Em : map fst (put_nth i (t0, ph') tps) = map fst tps) by (rewrite map_put; apply put_same; now rewrite nth_error_map, Ep).
    split; [exact Em|]. constructor; cbn [g_pool g_world g_lock g_threads]; [exact Ph'|rewrite Em; exact St| | |exact Hf|exact Hl|congruence|congruence].
    - intros j tp u Hj Hu Hp. destruct (Nat.eq_dec i j) as [<-|N].
      + rewrite (nth_put_same i _ _ _ Ep) in Hj. rewrite (nth_put_same i _ _ _ Et) in Hu. injection Hj as <-. injection Hu as <-. now apply Fi'.
      + rewrite nth_put_other in Hj by exact N. rewrite nth_put_other in Hu by exact N. destruct Hv as [->|Hv]; [eapply In_; eauto|].
        exfalso. apply N. eapply writer_alone; [exact Sd| |]; rewrite nth_error_map; [rewrite Ep|rewrite Hj]; cbn; congruence.
    - intros j tp u Hj Hu Hp. destruct (Nat.eq_dec i j) as [<-|N].
      + rewrite (nth_put_same i _ _ _ Ep) in Hj. rewrite (nth_put_same i _ _ _ Et) in Hu. injection Hj as <-. injection Hu as <-. now apply Fo'.
      + rewrite nth_put_other in Hj by exact N. rewrite nth_put_other in Hu by exact N. eapply Out; eauto. }
  (* a step that leaves the addresses, the mutex and the latest overview *)
  assert (Same : forall p w t', x' = mkG p w (g_lock x) (put_nth i t' (g_threads x)) -> quiet (g_world x) w -> p_auth p = p_auth P -> p_tls p = p_tls P ->
    sight_of p o = sight_of P o -> ph' = ph -> (forall y, follows t y -> follows t' y) -> exists tps' o', map fst tps' = map fst tps /\ tabled tps' o' x').
  { intros p w t' E' Q Ha Ht Hv -> Hf. eapply (Step p w _ t' o E'); [|exact Ha|exact Ht|now left|..].
    - eapply last_quiet; [exact Q|exact La].
    - intros Hp. rewrite Hv. apply Hf, Fi, Hp.
    - intros Hp y. apply Hf. now apply Fo.
    - rewrite Hv. exact Fr. }
  (* a step of the one who holds the mutex for writing *)
  assert (Inside : forall p w t' o', x' = mkG p w (g_lock x) (put_nth i t' (g_threads x)) -> last_is (snd w) o' -> p_auth p = p_auth P -> p_tls p = p_tls P ->
    ph = PWrite -> ph' = ph -> follows t' (sight_of p o') -> exists tps' o', map fst tps' = map fst tps /\ tabled tps' o' x').
  { intros p w t' o' E' Hl Ha Ht Hp -> Hf. eapply (Step p w _ t' o' E'); [exact Hl|exact Ha|exact Ht|now right|auto|congruence|]. intros Hw. exfalso.
    rewrite (writer_held (map snd tps) (g_lock x) i) in Hw; [discriminate|exact Sd|]. rewrite nth_error_map, Ep. cbn. congruence. }
  assert (Q0 : quiet (g_world x) (g_world x)) by apply quiet_refl.
  destruct t; cbn [gstep] in E; cbn [shifts] in Sh.
  - discriminate.
  - discriminate.
  - destruct (rw_writer (g_lock x)) eqn:Ew; [discriminate|]. injection E as <-. destruct Sh as [-> ->].
    eapply (Step _ _ _ _ o); [reflexivity|exact La|reflexivity|reflexivity|now left|discriminate|intros _; apply Fo; discriminate|intros _; now apply Fr].
  - injection E as <-. destruct Sh as [-> ->].
    eapply (Step _ _ _ _ o); [reflexivity|exact La|reflexivity|reflexivity|now left|discriminate|intros _; apply Fo; discriminate|exact Fr].
  - destruct (rw_writer (g_lock x)) eqn:Ew; [discriminate|]. destruct (rw_readers (g_lock x)) eqn:Er; [|discriminate]. injection E as <-. destruct Sh as [-> ->].
    eapply (Step _ _ _ _ o); [reflexivity|exact La|reflexivity|reflexivity|now left| |congruence|discriminate].
    intros _. assert (Fo1 : follows (GLock t) (sight_of P o)) by (apply Fo; discriminate). cbn [follows] in Fo1. apply Fo1. now apply Fr.
  - injection E as <-. destruct Sh as [-> ->]. specialize (Fi eq_refl). cbn [follows] in Fi. destruct Fi as [Fi1 Fi2].
    eapply (Step _ _ _ _ o); [reflexivity|exact La|reflexivity|reflexivity|now left|discriminate|intros _; exact Fi2|intros _; exact Fi1].
  - injection E as <-. eapply Same; eauto; intros y; cbn [follows]; auto.
  - injection E as <-. eapply Same; eauto.
  - injection E as <-. eapply Same; eauto; intros y; cbn [follows]; auto.
  - destruct (dequeue (queue_of mode P)) as [c q]. injection E as <-. eapply Same; [reflexivity|exact Q0|apply auth_queue|apply auth_queue|apply sight_queue|exact Sh|]. intros y. cbn [follows]. auto.
  - injection E as <-. eapply Same; [reflexivity|exact Q0|apply auth_queue|apply auth_queue|apply sight_queue|exact Sh|]. auto.
  - injection E as <-. eapply Same; eauto; intros y; cbn [follows]; auto.
  - pose proof (quiet_valid K h (g_world x)) as Q. destruct (k_valid (watch K) h (g_world x)) as [w1 b]. injection E as <-. eapply Same; eauto; intros y; cbn [follows]; auto.
  - pose proof (quiet_close K h (g_world x)) as Q. destruct (k_close (watch K) h (g_world x)) as [w1 b]. injection E as <-. eapply Same; eauto; intros y; cbn [follows]; auto.
  - injection E as <-. eapply Same; eauto; intros y; cbn [follows]; auto.
  - injection E as <-. eapply Same; [reflexivity|exact Q0|destruct f; reflexivity|destruct f; reflexivity|destruct f; reflexivity|exact Sh|auto].
  - pose proof (make_quiet mode s (g_world x)) as Q. destruct (make (watch K) mode s (g_world x)) as [w1 r]. injection E as <-. eapply Same; eauto; intros y; cbn [follows]; intros (_ & _ & H); auto.
  - injection E as <-. eapply Same; eauto.
  - pose proof (quiet_dial K (p_leader P) (g_world x)) as Q. destruct (k_dial (watch K) (p_leader P) (g_world x)) as [w1 r]. injection E as <-. eapply Same; eauto; intros y; cbn [follows]; auto.
  - specialize (Fi Ow). cbn [follows] in Fi. cbn [watch k_query] in E. destruct (k_query K h (fst (g_world x))) as [w1 [v r]]. injection E as <-.
    assert (Es : sight_of P (s_last (heard v r (sight_of P o))) = heard v r (sight_of P o)).
    { unfold heard. destruct r as [rows|e| |]; try reflexivity. destruct (read_rows _ _ _); reflexivity. }
    eapply (Inside _ _ _ (s_last (heard v r (sight_of P o)))); [reflexivity| |reflexivity|reflexivity|exact Ow|exact Sh|].
    + cbn [snd]. apply (last_heard h v r (sight_of P o)). exact La.
    + fold P. rewrite Es. apply Fi.
  - pose proof (quiet_close K h (g_world x)) as Q. destruct (k_close (watch K) h (g_world x)) as [w1 r]. injection E as <-. eapply Same; eauto.
  - specialize (Fi Ow). cbn [follows] in Fi. injection E as <-. eapply Inside; eauto.
  - specialize (Fi Ow). cbn [follows] in Fi. injection E as <-. eapply Inside; eauto.
  - specialize (Fi Ow). cbn [follows] in Fi. injection E as <-. eapply (Inside _ _ _ o); eauto. fold P. rewrite Au, Tl. exact Fi.
  - injection E as <-. eapply Same; eauto.
  - specialize (Fi Ow). cbn [follows] in Fi. injection E as <-. fold P. eapply (Inside _ _ _ o); [reflexivity|exact La| | |exact Ow|exact Sh|].
    + unfold set_strings_for. destruct (mode =? WriteMode); reflexivity.
    + unfold set_strings_for. destruct (mode =? WriteMode); reflexivity.
    + replace (sight_of (set_strings_for mode l P) o) with (with_strings mode l (sight_of P o)); [exact Fi|]. unfold with_strings, set_strings_for. destruct (mode =? WriteMode); reflexivity.
  - injection E as <-. eapply Same; eauto; intros y; cbn [follows]; auto.
  - injection E as <-. eapply Same; [reflexivity|exact Q0|apply auth_queue|apply auth_queue|apply sight_queue|exact Sh|]. auto.
  - injection E as <-. eapply Same; eauto; intros y; cbn [follows]; auto.
  - specialize (Fi Ow). cbn [follows] in Fi. injection E as <-. eapply (Inside _ _ _ o); eauto.
  - injection E as <-. eapply Same; eauto; intros y; cbn [follows]; auto.
  - injection E as <-. fold P. eapply Same; [reflexivity|exact Q0|unfold set_index; destruct (mode =? WriteMode); reflexivity..|exact Sh|auto].
  - destruct Ow.
Qed.
Lemma tabled_run is : forall tps o x x', gschedule (watch K) is x = Some x' -> tabled tps o x -> exists tps' o', map fst tps' = map fst tps /\ tabled tps' o' x'.
Proof.
  induction is as [|i is IH]; intros tps o x x' E Tb; cbn in E; [injection E as <-; eauto|].
  destruct (gsys_step (watch K) i x) as [x1|] eqn:E1; [|discriminate]. destruct (tabled_step _ _ _ _ _ E1 Tb) as (tps1 & o1 & H1 & Tb1).
  destruct (IH _ _ _ _ E Tb1) as (tps2 & o2 & H2 & Tb2). exists tps2, o2. split; [congruence|exact Tb2].
Qed.

(** ** One operation at a time *)

Definition in_order (p : pool) (w : WT) : Prop := exists o, fair (sight_of p o) /\ last_is (snd w) o /\ p_auth p = auth /\ p_tls p = tls.
Definition aside (p : pool) (w : WT) (p' : pool) (w' : WT) : Prop := gear p' = gear p /\ quiet w w'.
Lemma aside_trans p w p1 w1 p2 w2 : aside p w p1 w1 -> aside p1 w1 p2 w2 -> aside p w p2 w2.
Proof. intros [G Q] [G1 Q1]. split; [congruence|eapply quiet_trans; eauto]. Qed.
Lemma in_order_aside p w p' w' : aside p w p' w' -> in_order p w -> in_order p' w'.
Proof.
  intros [G Q] (o & F & L & A & T). unfold gear in G. injection G as E1 E2 E3 E4 E5. exists o. unfold sight_of in *. rewrite E3, E4, E5. split; [exact F|].
  split; [eapply last_quiet; eauto|]. split; congruence.
Qed.
Hint Resolve quiet_refl quiet_trans quiet_dial quiet_valid quiet_close quiet_name : core.
Lemma aside_add p w m p' w' r : m = WriteMode \/ m = ReadMode -> add_conn (watch K) m p w = (p', w', r) -> aside p w p' w'.
Proof.
  intros Hm E. eapply (add_eff (watch K) (quiet (W := W))) in E; eauto.
  destruct E as [(s & c & i & x & Hs & M & _ & ->)|(G & _ & [->|[i ->]])].
  - split; [|eapply made_R; eauto]. rewrite gear_held, !gear_queue, gear_index. reflexivity.
  - split; [reflexivity|exact G].
  - split; [apply gear_index|exact G].
Qed.
Lemma aside_times n m : m = WriteMode \/ m = ReadMode -> forall p w p' w' r, times n (add_conn (watch K) m) p w = (p', w', r) -> aside p w p' w'.
Proof.
  intros Hm. induction n as [|n IH]; intros p w p' w' r; cbn [times]; [intros [= <- <- _]; split; auto|].
  unfold bind, mbind. destruct (add_conn (watch K) m p w) as [[p1 w1] r1] eqn:E. intros E2. apply aside_add in E; [|assumption].
  destruct r1; try (now injection E2 as <- <- _). eapply aside_trans; eauto.
Qed.
Lemma aside_drain m fuel p w p' w' r : drain (watch K) fuel m p w = (p', w', r) -> (length (queue_of m p) < fuel)%nat -> aside p w p' w' /\ p_wq p' = (if m =? WriteMode then p_wq p' else p_wq p).
Proof.
  intros E Hl. eapply (drain_eff (watch K) (quiet (W := W))) in E; eauto.
  destruct E as (G & gone & rest & x & Eq & -> & _). split; [split; [|exact G]; rewrite gear_held; apply gear_queue|].
  unfold set_queue. destruct (m =? WriteMode); reflexivity.
Qed.
Lemma in_order_refresh p w p' w' r : refresh_connections (watch K) p w = (p', w', r) -> in_order p w -> in_order p' w'.
Proof.
  unfold refresh_connections, mbind, get, dial. intros E H. pose proof (quiet_dial K (p_leader p) w) as Q.
  destruct (k_dial (watch K) (p_leader p) w) as [w1 [h|e| |]]; cbn [fst] in Q.
  2,3,4: injection E as <- <- _; eapply in_order_aside; [split; [reflexivity|exact Q]|exact H].
  assert (H1 : in_order p w1) by (eapply in_order_aside; [split; [reflexivity|exact Q]|exact H]). clear H Q.
  destruct H1 as (o & F & L & A & T). destruct w1 as [w1 tr]. cbn [watch k_query fst snd] in E. destruct (k_query K h w1) as [w2 [v rows]]. cbn [snd] in L.
  pose proof (last_heard h v rows (sight_of p o) tr L) as L'.
  assert (Rest : forall p2 o2, fair (sight_of p2 o2) -> last_is (KQuery h v rows :: tr) o2 -> p_auth p2 = auth -> p_tls p2 = tls -> forall r2,
    (let '(p0, w0, _) := close_conn (watch K) h p2 (w2, KQuery h v rows :: tr) in (p0, w0, r2)) = (p', w', r) -> in_order p' w').
  { intros p2 o2 F2 L2 A2 T2 r2 E2. unfold close_conn in E2. pose proof (quiet_close K h (w2, KQuery h v rows :: tr)) as Q.
    destruct (k_close (watch K) h (w2, KQuery h v rows :: tr)) as [w3 ec]. injection E2 as <- <- _. eapply in_order_aside; [split; [reflexivity|exact Q]|]. exists o2. auto. }
  assert (Merged : forall hd o2, match o2 with Some (v, rows) => table_of (contains (str "bolt")) v rows hd | None => hd = no_handler end -> fair (sight_of (merge_strings (set_handler hd p)) o2)).
  { intros hd o2 Hh. constructor; cbn [s_table s_rw s_rs s_last sight_of].
    - exact Hh.
    - rewrite merge_rw. cbn [p_auth p_tls p_handler set_handler p_rw merge_strings set_strings set_marked]. rewrite A, T. apply drawn_merged.
    - rewrite merge_rs. cbn [p_auth p_tls p_handler set_handler p_rs merge_strings set_strings set_marked]. rewrite A, T. apply drawn_merged.
    - rewrite merge_rw. cbn [p_auth p_tls p_handler set_handler p_rw merge_strings set_strings set_marked]. rewrite A, T. apply covered_merged.
    - rewrite merge_rs. cbn [p_auth p_tls p_handler set_handler p_rs merge_strings set_strings set_marked]. rewrite A, T. apply covered_merged. }
  pose proof (f_table _ F) as Ft. cbn [sight_of s_last s_table] in Ft.
  destruct rows as [rows|e| |].
  - unfold refresh_cluster_info in E. cbn [heard] in L'. destruct (read_rows (v =? 4) rows no_handler) as [t|e| |] eqn:Er; cbn [s_last sight_of] in L'.
    + eapply (Rest _ (Some (v, rows))); [apply (Merged t); now apply read_rows_table|exact L'|exact A|exact T|exact E].
    + eapply (Rest _ o); [apply (Merged (p_handler p)); exact Ft|exact L'|exact A|exact T|exact E].
    + eapply (Rest _ o); [apply (Merged (p_handler p)); exact Ft|exact L'|exact A|exact T|exact E].
    + eapply (Rest _ o); [apply (Merged (p_handler p)); exact Ft|exact L'|exact A|exact T|exact E].
  - eapply (Rest _ o); [apply (Merged (p_handler p)); exact Ft|exact L'|exact A|exact T|exact E].
  - eapply (Rest p o); [exact F|exact L'|exact A|exact T|exact E].
  - eapply (Rest p o); [exact F|exact L'|exact A|exact T|exact E].
Qed.
Lemma in_order_step o p w p' w' r : do_pop (watch K) o p w = (p', w', r) -> p_lookup p = [] -> p_marked p = [] -> in_order p w -> in_order p' w'.
Proof.
  intros E Hlk Hmk H. destruct o as [| |m|id h|]; cbn [do_pop] in E.
  - destruct (start_pool (watch K) p w) as [[p1 w1] r1] eqn:Es. injection E as <- <- <-.
    unfold start_pool, get in Es. destruct (p_running p); [now injection Es as <- <- _|].
    unfold bind, mbind, upd in Es. set (p0 := set_max _ _ _) in Es.
    assert (I0 : in_order p0 w) by (eapply in_order_aside; [split; [|apply quiet_refl]|exact H]; reflexivity).
    destruct (refresh_connections (watch K) p0 w) as [[p2 w2] r2] eqn:Er. apply in_order_refresh in Er; [|exact I0].
    destruct r2; try (now injection Es as <- <- _).
    destruct (times (Z.to_nat (p_max_w p2)) (add_conn (watch K) WriteMode) p2 w2) as [[p3 w3] r3] eqn:Et.
    apply aside_times in Et; [|now left]. apply (in_order_aside _ _ _ _ Et) in Er. destruct r3; try (now injection Es as <- <- _).
    eapply in_order_aside; [|exact Er]. eapply aside_times; [|exact Es]. now right.
  - destruct (stop_pool (watch K) p w) as [[p1 w1] r1] eqn:Es. injection E as <- <- <-. eapply in_order_aside; [|exact H].
    unfold stop_pool, get in Es. destruct (p_running p); [|injection Es as <- <- _; split; auto]. cbn [negb] in Es.
    unfold bind, mbind, upd in Es. set (p0 := set_running false p) in Es.
    destruct (drain (watch K) (S (length (p_rq p))) ReadMode p0 w) as [[p2 w2] r2] eqn:Er.
    apply aside_drain in Er; [|cbn; lia]. destruct Er as [A2 Q]. change (p_wq p2 = p_wq p) in Q.
    assert (A1 : aside p w p2 w2) by exact A2.
    destruct r2; try (now injection Es as <- <- _).
    eapply aside_trans; [exact A1|]. eapply aside_drain; [exact Es|]. change (queue_of WriteMode p2) with (p_wq p2). rewrite Q. lia.
  - destruct (borrow (watch K) _ p w) as [[p1 w1] r1] eqn:Eb. injection E as <- <- <-. eapply in_order_aside; [|exact H].
    unfold borrow, get in Eb. eapply (borrow_eff (watch K) (quiet (W := W))) in Eb; eauto.
    destruct Eb as (G & sk & rest & x & Eq & [(c & rest' & -> & -> & _ & ->)|[[e ->] ->]]); (split; [|exact G]).
    + change (gear (set_queue (if m =? ReadMode then ReadMode else WriteMode) rest' p) = gear p). apply gear_queue.
    + rewrite gear_held. apply gear_queue.
  - destruct (reclaim (watch K) id h p w) as [[p1 w1] r1] eqn:Er. injection E as <- <- <-. eapply in_order_aside; [|exact H].
    eapply (reclaim_eff (watch K) (quiet (W := W))) in Er; eauto.
    destruct Er as [(G & -> & _)|(_ & c & x & Eg & D)]; [split; auto|].
    cbv zeta in D. destruct D as [(G & -> & ->)|(w2 & e & w3 & _ & _ & G & Ea)].
    + split; [|exact G]. unfold back. rewrite gear_queue. reflexivity.
    + apply aside_add in Ea; [|destruct (pw_mode c =? WriteMode); auto]. eapply aside_trans; [|exact Ea]. split; [reflexivity|exact G].
  - destruct (refresh_round (watch K) p w) as [[p1 w1] r1] eqn:Er. injection E as <- <- <-.
    unfold refresh_round, bind, mbind in Er. destruct (refresh_connections (watch K) p w) as [[p2 w2] r2] eqn:E2.
    assert (Mk : p_marked p2 = []).
    { eapply (refresh_eff (watch K) longer) in E2; eauto using longer_refl, longer_trans, longer_dial, longer_valid, longer_close, longer_query, longer_name.
      destruct E2 as (_ & [->|(hd & -> & _)]); [exact Hmk|]. rewrite <- Hmk. exact (f_equal (fun x => snd (fst x)) (core_merge hd p Hlk)). }
    apply in_order_refresh in E2; [|exact H]. destruct r2; try (now injection Er as <- <- _).
    rewrite (prune_nothing _ p2 w2 Mk) in Er. rewrite balance_nothing in Er by lia. now injection Er as <- <- _.
Qed.
Lemma in_order_run os : forall p w p' w' l, run_pool (watch K) os p w = (p', w', l) -> p_lookup p = [] -> p_marked p = [] -> in_order p w -> in_order p' w'.
Proof.
  induction os as [|o os IH]; intros p w p' w' l; cbn [run_pool]; [intros [= <- <- <-]; auto|].
  destruct (do_pop (watch K) o p w) as [[p1 w1] r] eqn:E1. destruct (run_pool (watch K) os p1 w1) as [[p2 w2] l'] eqn:E2. intros [= <- <- <-] Hlk Hmk Rt.
  assert (C : p_lookup p1 = [] /\ p_marked p1 = []) by (apply steady_step in E1; auto; unfold steady in E1; split; congruence).
  eapply IH; [exact E2|apply C|apply C|]. eapply in_order_step; eauto.
Qed.
Lemma in_order_history n w0 l p w : pool_history (watch K) n auth tls (w0, []) l p w -> in_order p w.
Proof.
  intros (leader & p0 & En & Er). eapply in_order_run; [exact Er|..];
    unfold new_routing_pool in En; (destruct (bytes_eqb leader []); [discriminate|]); (destruct (_ || _); [discriminate|]); injection En as <-; try reflexivity.
  exists None. split; [|split; [intros h v rows []|auto]]. constructor; cbn; auto; intros s [].
Qed.
Lemma history_tabled n w0 l p w ts : pool_history (watch K) n auth tls (w0, []) l p w -> ~ In TStart ts ->
  exists tps o, map fst tps = ts /\ tabled tps o (mkG p w (mkRW false 0) (map work ts)).
Proof.
  intros H Ns. destruct (in_order_history _ _ _ _ _ H) as (o & F & L & A & T). exists (map (fun t => (t, PFree)) ts), o.
  assert (Em : map fst (map (fun t => (t, PFree)) ts) = ts) by (rewrite map_map; apply map_id). split; [exact Em|].
  assert (At : forall i tp, nth_error (map (fun t => (t, PFree)) ts) i = Some tp -> snd tp = PFree).
  { intros i tp Hi. rewrite nth_error_map in Hi. destruct (nth_error ts i); [|discriminate]. now injection Hi as <-. }
  constructor; cbn [g_pool g_world g_lock g_threads]; auto.
  - split; cbn [g_threads g_lock].
    + clear. induction ts as [|t ts IH]; cbn; constructor; auto. apply fits_work.
    + unfold sound, readers, writers. rewrite map_map. cbn. assert (Z0 : forall f, f PFree = false -> filter f (map (fun _ : task => PFree) ts) = []).
      { intros f Hf. clear -Hf. induction ts as [|t ts IH]; cbn; [reflexivity|]. now rewrite Hf. }
      rewrite !Z0 by reflexivity. auto.
  - now rewrite Em.
  - intros i tp t Hi _ Hp. apply At in Hi. congruence.
  - intros i tp t Hi Ht _ y. rewrite nth_error_map in Hi, Ht. destruct (nth_error ts i) as [a|] eqn:Ea; [|discriminate]. injection Ht as <-. apply follows_work.
    intros ->. apply nth_error_In in Ea. now apply Ns.
Qed.

(** C123 *)
Theorem opens_listed n w0 l p w ts is x i t mode s : pool_history (watch K) n auth tls (w0, []) l p w -> ~ In TStart ts ->
  gschedule (watch K) is (mkG p w (mkRW false 0) (map work ts)) = Some x -> nth_error (g_threads x) i = Some t -> about_to_open t = Some (mode, s) ->
  exists v rows a, latest_overview (snd (g_world x)) v rows /\ lists v rows (if mode =? WriteMode then [Leader] else [Follower; ReadReplica]) a /\ (s = a \/ dressed auth tls a s).
Proof.
  intros H Ns E Hi Ho. destruct (history_tabled _ _ _ _ _ _ H Ns) as (tps & o & Em & Tb). destruct (tabled_run _ _ _ _ _ E Tb) as (tps' & o' & Em' & Tb'). clear Tb.
  destruct t; try discriminate Ho. injection Ho as -> ->. destruct Tb' as [Ph St In_ Out Fr La Au Tl]. destruct Ph as [F Sd].
  destruct (Forall2_at _ _ _ _ _ F Hi) as ([t0 ph] & Ep & Ft).
  assert (N0 : t0 <> TStart). { intros ->. apply St. apply nth_error_In in Ep. change TStart with (fst (TStart, ph)). now apply in_map. }
  pose proof (uses_owned _ _ _ Ft N0) as Ow. cbn in Ow. pose proof (In_ _ _ _ Ep Hi Ow) as Fi. cbn [follows] in Fi. destruct Fi as (Fa & Hs & _).
  assert (D : exists a, In a (if mode =? WriteMode then get_write_connection_strings (p_handler (g_pool x)) else get_read_only_connection_strings (p_handler (g_pool x))) /\ (s = a \/ dressed auth tls a s)).
  { unfold s_strings in Hs. destruct (mode =? WriteMode); [exact (f_rw _ Fa s Hs)|exact (f_rs _ Fa s Hs)]. }
  destruct D as (a & Ha & Hd). pose proof (f_table _ Fa) as T. cbn in T. destruct o' as [[v rows]|].
  - exists v, rows, a. split; [exact La|]. split; [|exact Hd]. destruct (mode =? WriteMode); [eapply write_lists|eapply read_lists]; eauto.
  - rewrite T in Ha. destruct (mode =? WriteMode); destruct Ha.
Qed.
Theorem rest_listed n w0 l p w ts is x : pool_history (watch K) n auth tls (w0, []) l p w -> ~ In TStart ts ->
  gschedule (watch K) is (mkG p w (mkRW false 0) (map work ts)) = Some x -> rw_writer (g_lock x) = false ->
  (exists v rows table, latest_overview (snd (g_world x)) v rows /\ table_of (contains (str "bolt")) v rows table
    /\ (forall m, In m (h_leaders table) -> exists s, In s (p_rw (g_pool x)) /\ dressed auth tls (n_bolt m) s)
    /\ (forall s, In s (p_rw (g_pool x)) -> exists m, In m (h_leaders table) /\ (s = n_bolt m \/ dressed auth tls (n_bolt m) s))
    /\ (forall m, In m (h_followers table ++ h_replicas table) -> exists s, In s (p_rs (g_pool x)) /\ dressed auth tls (n_bolt m) s)
    /\ (forall s, In s (p_rs (g_pool x)) -> exists m, In m (h_followers table ++ h_replicas table) /\ (s = n_bolt m \/ dressed auth tls (n_bolt m) s)))
  \/ ((forall h v rows, In (KQuery h v (Ok rows)) (snd (g_world x)) -> ~ readable v rows) /\ p_rw (g_pool x) = [] /\ p_rs (g_pool x) = []).
Proof.
  intros H Ns E Hw. destruct (history_tabled _ _ _ _ _ _ H Ns) as (tps & o & Em & Tb). destruct (tabled_run _ _ _ _ _ E Tb) as (tps' & o' & Em' & Tb'). clear Tb.
  pose proof (t_fair _ _ _ Tb' Hw) as [T Rw Rs Aw As]. pose proof (t_last _ _ _ Tb') as La. cbn [sight_of s_table s_rw s_rs s_last] in *.
  destruct o' as [[v rows]|].
  - left. exists v, rows, (p_handler (g_pool x)). split; [exact La|]. split; [exact T|]. unfold get_read_only_connection_strings in *. rewrite <- map_app in Rs, As. split; [|split; [|split]].
    + intros m Hm. apply Aw. now apply in_map.
    + intros s Hs. destruct (Rw s Hs) as (a & Ha & Hd). apply in_map_iff in Ha. destruct Ha as (m & <- & Hm). eauto.
    + intros m Hm. apply As. now apply in_map.
    + intros s Hs. destruct (Rs s Hs) as (a & Ha & Hd). apply in_map_iff in Ha. destruct Ha as (m & <- & Hm). eauto.
  - right. split; [exact La|]. rewrite T in Rw, Rs. split.
    + destruct (p_rw (g_pool x)) as [|s ?]; [reflexivity|]. destruct (Rw s (or_introl eq_refl)) as (a & [] & _).
    + destruct (p_rs (g_pool x)) as [|s ?]; [reflexivity|]. destruct (Rs s (or_introl eq_refl)) as (a & [] & _).
Qed.
End Tables.
