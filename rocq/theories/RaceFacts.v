(** Facts about goroutines that share a routing pool (C58). *)
From Coq Require Import String ZArith List Bool Lia ZifyBool Permutation.
From Verif Require Import Bytes GoVal GoErr Decoder Messages GoStr Routing Pool SpecPool BytesFacts RoutingFacts PoolFacts LendFacts Concurrency ConcurFacts PoolRace.
Import ListNotations.
Open Scope Z_scope.

Section Race.
Context {W : Type}.
Variable K : cluster W.

(** ** A goroutine alone does what Pool.v says *)

Lemma solo_remove c k p w l : solo K (g_remove c k) p w l =
  let '(p', w', r) := remove_conn K (Some c) p w in solo K (k (match r with Err e => Some e | _ => None end)) p' w' l.
Proof.
  unfold g_remove, remove_conn, bind, mbind, valid. cbn [solo]. destruct (k_valid K (pw_conn c) w) as [w1 [|]]; [reflexivity|].
  unfold close_conn. cbn [solo]. destruct (k_close K (pw_conn c) w1) as [w2 [e|]]; reflexivity.
Qed.
Lemma remove_result c p w p' w' r : remove_conn K (Some c) p w = (p', w', r) -> r = Ok tt \/ exists e, r = Err e.
Proof. intros E. apply (remove_eff K (fun _ _ => True)) in E; auto. apply E. Qed.
Lemma set_held_twice a p : set_borrowed a (set_held (p_held p) p) = set_borrowed a p.
Proof. reflexivity. Qed.
Lemma solo_internal fuel mode k : forall p w l, solo K (g_internal_borrow fuel mode k) p w l =
  let '(p', w', r) := internal_borrow K fuel mode p w in solo K (k r) p' w' l.
Proof.
  induction fuel as [|fuel IH]; intros p w l; [reflexivity|]. cbn [g_internal_borrow internal_borrow solo]. unfold get.
  destruct (dequeue (queue_of mode p)) as [[c|] q] eqn:Eq; [|reflexivity].
  unfold bind at 1, mbind at 1, upd at 1. cbn [solo]. rewrite marked_set.
  assert (Again : forall w0, solo K (g_remove c (fun e => match e with Some e => k (Err e) | None => g_internal_borrow fuel mode k end)) (set_queue mode q p) w0 l =
    (let '(p', w', r) := bind (remove_conn K (Some c)) (fun _ => internal_borrow K fuel mode) (set_queue mode q p) w0 in solo K (k r) p' w' l)).
  { intros w0. rewrite solo_remove. unfold bind, mbind. destruct (remove_conn K (Some c) (set_queue mode q p) w0) as [[p1 w1] r] eqn:Er.
    destruct (remove_result _ _ _ _ _ _ Er) as [->|[e ->]]; [apply IH|reflexivity]. }
  destruct (listed (pw_conn c) (p_marked p)); [apply Again|].
  unfold bind at 1, mbind at 1, valid. cbn [solo]. destruct (k_valid K (pw_conn c) w) as [w1 [|]]; cbn [negb]; [|apply Again].
  unfold bind, mbind, upd, ret. cbn [solo set_field field_of]. reflexivity.
Qed.
Theorem solo_borrow fuel mode p w n : solo K (g_borrow fuel mode) p w (mkRW false n) =
  let '(p', w', r) := internal_borrow K fuel mode p w in Some (p', w', mkRW false n, GDone r).
Proof.
  unfold g_borrow, g_lend. cbn [solo rw_writer rw_readers]. rewrite solo_internal. destruct (internal_borrow K fuel mode p w) as [[p' w'] r]. reflexivity.
Qed.
Lemma index_set mode i p : index_for mode (set_index mode i p) = i.
Proof. unfold index_for, set_index. destruct (mode =? WriteMode); reflexivity. Qed.
Lemma strings_index mode i p : strings_for mode (set_index mode i p) = strings_for mode p.
Proof. unfold strings_for, set_index. destruct (mode =? WriteMode); reflexivity. Qed.
Lemma set_index_twice mode i j p : set_index mode j (set_index mode i p) = set_index mode j p.
Proof. unfold set_index. destruct (mode =? WriteMode); reflexivity. Qed.
Lemma solo_new mode k p w l i : solo K (g_new mode k) (set_index mode i p) w l =
  let '(p', w', r) := (if (0 <=? i) && (i <? zlen (strings_for mode p)) then
          match nth_error (strings_for mode p) (Z.to_nat i) with
          | None => crash
          | Some s => bind (new_connection K mode s) (fun c => upd (fun p => set_queue mode (enqueue c (queue_of mode p)) p))
          end
        else crash) (set_index mode i p) w in solo K (k r) p' w' l.
Proof.
  unfold g_new. cbn [solo]. rewrite index_set, strings_index. destruct (_ && _); [|reflexivity].
  destruct (nth_error _ _) as [s|]; [|reflexivity]. cbn [solo]. unfold make, new_connection, bind, mbind, dial.
  destruct (k_dial K s w) as [w1 [h|e| |]]; try reflexivity. destruct (k_name K w1) as [w2 name]. reflexivity.
Qed.
Lemma solo_add mode k p w l : solo K (g_add mode k) p w l = let '(p', w', r) := add_conn K mode p w in solo K (k r) p' w' l.
Proof.
  unfold g_add, add_conn, get. cbn [solo]. destruct (strings_for mode p) as [|s0 strs] eqn:Es; [reflexivity|].
  cbn [solo]. rewrite index_set, strings_index, Es. unfold bind at 1, mbind at 1, upd at 1.
  destruct (index_for mode p + 1 =? zlen (s0 :: strs)).
  - cbn [solo]. rewrite set_index_twice, solo_new, Es. reflexivity.
  - rewrite solo_new, Es. reflexivity.
Qed.
Lemma solo_times n mode k : forall p w l, solo K (g_times n mode k) p w l = let '(p', w', r) := times n (add_conn K mode) p w in solo K (k r) p' w' l.
Proof.
  induction n as [|n IH]; intros p w l; [reflexivity|]. cbn [g_times times]. rewrite solo_add. unfold bind, mbind.
  destruct (add_conn K mode p w) as [[p1 w1] [u|e| |]]; try reflexivity. apply IH.
Qed.
Lemma solo_merge k p w l : solo K (g_merge k) p w l = solo K k (merge_strings p) w l.
Proof. destruct p as [? ? ? ? ? ? ? ? ? [ls fs rs] ? ? ? ? ? ? ? ? ? ?]. reflexivity. Qed.
Lemma solo_refresh k p w l : solo K (g_refresh k) p w l = let '(p', w', r) := refresh_connections K p w in solo K (k r) p' w' l.
Proof.
  unfold g_refresh, refresh_connections, mbind, get, dial. cbn [solo]. destruct (k_dial K (p_leader p) w) as [w1 [h|e| |]]; try reflexivity.
  cbn [solo]. destruct (k_query K h w1) as [w2 [v rows]]. cbn [fst snd]. unfold close_conn, refresh_cluster_info.
  destruct rows as [rows|e| |]; cbv beta iota zeta.
  - destruct (read_rows (v =? 4) rows no_handler) as [[ls fs rs]|e| |]; cbn [solo h_leaders h_followers h_replicas]; rewrite solo_merge; cbn [solo].
    all: destruct p as [? ? ? ? ? ? ? ? ? [? ? ?] ? ? ? ? ? ? ? ? ? ?]; destruct (k_close K h w2); reflexivity.
  - rewrite solo_merge. cbn [solo]. destruct p. cbn. destruct (k_close K h w2); reflexivity.
  - cbn [solo]. now destruct (k_close K h w2).
  - cbn [solo]. now destruct (k_close K h w2).
Qed.
Theorem solo_start p w l : solo K g_start p w l = let '(p', w', r) := start_pool K p w in Some (p', w', l, g_result r).
Proof.
  unfold g_start, start_pool, get. cbn [solo]. destruct (p_running p); [reflexivity|]. cbn [solo]. rewrite solo_refresh. unfold bind, mbind, upd.
  change (p_total (set_running true p)) with (p_total p). destruct (refresh_connections K _ w) as [[p1 w1] [u|e| |]]; try reflexivity. cbn [solo lim_max_w].
  rewrite solo_times. destruct (times _ _ p1 w1) as [[p2 w2] [u2|e| |]]; try reflexivity. cbn [solo lim_max_r].
  rewrite solo_times. destruct (times _ _ p2 w2) as [[p3 w3] [u3|e| |]]; reflexivity.
Qed.
Theorem solo_reclaim id h p w : exists c, solo K (g_reclaim id h) p w (mkRW false 0) =
  let '(p', w', r) := reclaim K id h p w in Some (p', w', mkRW false 0, GDone (match r with Ok _ => Ok c | Err e => Err e | Panic => Panic | NoFuel => NoFuel end)).
Proof.
  unfold g_reclaim, g_return, reclaim, get. cbn [solo rw_writer rw_readers].
  destruct (p_running p); cbn [negb solo]; [|exists (mkWrap 0 [] [] 0); reflexivity].
  change (field_of FBorrowed p) with (p_borrowed p). destruct (map_get (p_borrowed p) id) as [c|].
  - exists c. cbn [solo]. unfold bind at 1, mbind at 1, upd at 1. unfold bind, mbind, valid.
    change (set_field FHeld _ _) with (set_held (map_set id c (p_held p)) (set_borrowed (map_del id (p_borrowed p)) p)).
    set (p1 := set_held _ _). destruct (k_valid K (pw_conn c) w) as [w1 [|]]; [reflexivity|]. rewrite solo_remove.
    destruct (remove_conn K (Some c) p1 w1) as [[p2 w2] r] eqn:Er.
    destruct (remove_result _ _ _ _ _ _ Er) as [->|[e ->]]; [reflexivity|].
    cbn [solo]. destruct (pw_mode c =? WriteMode); rewrite solo_add.
    + destruct (add_conn K WriteMode p2 w2) as [[p3 w3] r3]. destruct r3; reflexivity.
    + destruct (add_conn K ReadMode p2 w2) as [[p3 w3] r3]. destruct r3; reflexivity.
  - exists (mkWrap 0 [] [] 0). cbn [solo]. unfold mbind, close_conn. destruct (k_close K h w) as [w1 [e|]]; reflexivity.
Qed.

Lemma solo_drain fuel mode k : forall p w l, solo K (g_drain fuel mode k) p w l =
  let '(p', w', r) := drain K fuel mode p w in solo K (k r) p' w' l.
Proof.
  induction fuel as [|fuel IH]; intros p w l; [reflexivity|]. cbn [g_drain drain solo]. unfold get.
  destruct (size (queue_of mode p) =? 0); [reflexivity|]. cbn [solo]. unfold bind at 1, mbind at 1, take_out, get.
  destruct (dequeue (queue_of mode p)) as [[c|] q] eqn:Eq; [|reflexivity].
  unfold bind, mbind, upd at 1. rewrite solo_remove. destruct (remove_conn K (Some c) (set_queue mode q p) w) as [[p1 w1] r] eqn:Er.
  destruct (remove_result _ _ _ _ _ _ Er) as [->|[e ->]]; [apply IH|reflexivity].
Qed.
Theorem solo_stop p w l : solo K (g_stop (S (length (p_rq p))) (S (length (p_wq p)))) p w l =
  let '(p', w', r) := stop_pool K p w in Some (p', w', l, g_result r).
Proof.
  unfold g_stop, stop_pool, get. cbn [solo]. destruct (p_running p); [|reflexivity]. cbn [negb solo].
  unfold bind, mbind, upd. rewrite solo_drain.
  destruct (drain K (S (length (p_rq p))) ReadMode (set_running false p) w) as [[p1 w1] [u|e| |]]; try reflexivity.
  rewrite solo_drain. destruct (drain K (S (length (p_wq p))) WriteMode p1 w1) as [[p2 w2] [u'|e| |]]; reflexivity.
Qed.

Lemma solo_sift drop remove q : (forall c k p w l, solo K (drop c k) p w l = let '(p', w', _) := remove c p w in solo K k p' w' l) ->
  forall k p w l, solo K (g_sift drop q k) p w l = let '(p', w', r) := prune_queue remove q p w in match r with Ok q' => solo K (k q') p' w' l | _ => None end.
Proof.
  intros Hd. induction q as [|c q IH]; intros k p w l; [reflexivity|]. cbn [g_sift prune_queue solo]. unfold get.
  destruct (listed (pw_conn c) (p_marked p)).
  - rewrite Hd. unfold mbind. destruct (remove c p w) as [[p1 w1] r]. apply IH.
  - rewrite IH. unfold bind, mbind. destruct (prune_queue remove q p w) as [[p1 w1] [q'|e| |]]; reflexivity.
Qed.
Lemma prune_queue_ok remove q : forall p w, exists p' w' q', prune_queue (W := W) remove q p w = (p', w', Ok q').
Proof.
  induction q as [|c q IH]; intros p w; [eexists _, _, _; reflexivity|]. cbn [prune_queue]. unfold get. destruct (listed (pw_conn c) (p_marked p)).
  - unfold mbind. destruct (remove c p w) as [[p1 w1] r]. apply IH.
  - unfold bind, mbind. destruct (IH p w) as (p1 & w1 & q1 & ->). eexists _, _, _; reflexivity.
Qed.
Lemma solo_prune k p w l : solo K (g_prune k) p w l = let '(p', w', _) := prune K p w in solo K k p' w' l.
Proof.
  unfold g_prune, prune, bind, mbind, get. cbn [solo]. change (queue_of ReadMode p) with (p_rq p).
  rewrite (solo_sift _ (fun c => close_conn K (pw_conn c))).
  2:{ intros c k' p0 w0 l0. cbn [solo]. unfold close_conn. destruct (k_close K (pw_conn c) w0) as [w1 [e|]]; reflexivity. }
  destruct (prune_queue_ok (fun c => close_conn K (pw_conn c)) (p_rq p) p w) as (p1 & w1 & q1 & ->).
  cbn [solo]. change (queue_of WriteMode p1) with (p_wq p1). rewrite (solo_sift _ (fun c => remove_conn K (Some c))).
  2:{ intros c k' p0 w0 l0. rewrite solo_remove. now destruct (remove_conn K (Some c) p0 w0) as [[p2 w2] r]. }
  destruct (prune_queue_ok (fun c => remove_conn K (Some c)) (p_wq p1) p1 w1) as (p2 & w2 & q2 & ->). reflexivity.
Qed.
Lemma solo_while fuel mode bound body m k : (forall k p w l, solo K (body k) p w l = let '(p', w', _) := m p w in solo K k p' w' l) ->
  forall p w l, solo K (g_while fuel mode bound body k) p w l = let '(p', w', r) := while_size fuel mode bound m p w in solo K (k r) p' w' l.
Proof.
  intros Hb. induction fuel as [|fuel IH]; intros p w l; [reflexivity|]. cbn [g_while while_size solo]. unfold get.
  destruct (size (queue_of mode p) =? bound); [|reflexivity]. rewrite Hb. unfold mbind. destruct (m p w) as [[p1 w1] r]. apply IH.
Qed.
Lemma solo_more mode k p w l : solo K (g_more mode k) p w l = let '(p', w', _) := add_conn K mode p w in solo K k p' w' l.
Proof. unfold g_more. apply solo_add. Qed.
Lemma solo_less mode k p w l : solo K (g_less mode k) p w l = let '(p', w', _) := take_out K mode p w in solo K k p' w' l.
Proof.
  cbn [g_less solo]. unfold take_out, get, bind, mbind, upd. destruct (dequeue (queue_of mode p)) as [[c|] q]; [|reflexivity].
  rewrite solo_remove. now destruct (remove_conn K (Some c) (set_queue mode q p) w) as [[p1 w1] r].
Qed.
Lemma solo_bounds fuel mode low high k p w l : solo K (g_bounds fuel mode low high k) p w l =
  let '(p', w', r) := (if size (queue_of mode p) <? low then while_size fuel mode low (add_conn K mode)
                       else if high <? size (queue_of mode p) then while_size fuel mode high (take_out K mode) else ret tt) p w in solo K (k r) p' w' l.
Proof.
  unfold g_bounds. cbn [solo]. destruct (size (queue_of mode p) <? low); [apply solo_while; intros; apply solo_more|]. cbn [solo].
  destruct (high <? size (queue_of mode p)); [apply solo_while; intros; apply solo_less|reflexivity].
Qed.
Lemma solo_bounds_alone fuel mode low high k p w l : (0 < fuel)%nat -> solo K (g_bounds fuel mode low high k) p w l = solo K (k (Ok tt)) p w l.
Proof.
  intros Hf. rewrite solo_bounds. destruct (Z.ltb_spec (size (queue_of mode p)) low).
  - rewrite while_size_idle; [reflexivity|exact Hf|lia].
  - destruct (Z.ltb_spec high (size (queue_of mode p))); [|reflexivity]. rewrite while_size_idle; [reflexivity|exact Hf|lia].
Qed.
Lemma solo_balance fuel k p w l : (0 < fuel)%nat -> solo K (g_balance fuel k) p w l = let '(p', w', r) := balance K fuel p w in solo K (k r) p' w' l.
Proof.
  intros Hf. rewrite balance_nothing by exact Hf. unfold g_balance. cbn [solo]. cbv zeta. cbn [solo lim_min_w lim_max_w lim_min_r lim_max_r].
  destruct (Z.ltb_spec (size (queue_of ReadMode p)) (p_min_r p)).
  - rewrite (solo_while _ _ _ _ (add_conn K ReadMode)) by (intros; apply solo_more). rewrite while_size_idle; [|exact Hf|lia].
    now rewrite !solo_bounds_alone.
  - now rewrite !solo_bounds_alone.
Qed.
Theorem solo_round p w : solo K (g_round 1) p w (mkRW false 0) = let '(p', w', r) := refresh_round K p w in Some (p', w', mkRW false 0, g_result r).
Proof.
  unfold g_round, refresh_round, bind at 1, mbind at 1. cbn [solo rw_writer rw_readers]. rewrite solo_refresh.
  assert (U : forall r p w, solo K (GUnlock (g_result r)) p w (mkRW true 0) = Some (p, w, mkRW false 0, g_result r)) by (intros [u|e| |] ? ?; reflexivity).
  destruct (refresh_connections K p w) as [[p1 w1] [u|e| |]]; try apply U. rewrite solo_prune. unfold bind, mbind.
  assert (P : exists p' w', prune K p1 w1 = (p', w', Ok tt)).
  { unfold prune, bind, mbind, get. destruct (prune_queue_ok (fun c => close_conn K (pw_conn c)) (p_rq p1) p1 w1) as (p2 & w2 & q2 & ->).
    destruct (prune_queue_ok (fun c => remove_conn K (Some c)) (p_wq p2) p2 w2) as (p3 & w3 & q3 & ->). unfold upd. eauto. }
  destruct P as (p2 & w2 & ->). rewrite solo_balance by auto. destruct (balance K 1 p2 w2) as [[p3 w3] r]. apply U.
Qed.

(** ** Locking *)

Inductive phase := PFree | PRead | PWrite.
Fixpoint ok (ph : phase) (t : gprog) : Prop :=
  match t with
  | GDone _ | GEnd => ph = PFree
  | GRLock k => ph = PFree /\ ok PRead k
  | GRUnlock k => ph = PRead /\ ok PFree k
  | GLock k => ph = PFree /\ ok PWrite k
  | GUnlock k => ph = PWrite /\ ok PFree k
  | GRunning k => ph <> PFree /\ forall b, ok ph (k b)
  | GSetRunning _ k => ph <> PFree /\ ok ph k
  | GSize _ k => ph <> PFree /\ forall n, ok ph (k n)
  | GDequeue _ k => ph <> PFree /\ forall o, ok ph (k o)
  | GEnqueue _ _ k => ph <> PFree /\ ok ph k
  | GMarked _ k => ph <> PFree /\ forall b, ok ph (k b)
  | GValid _ k => ph <> PFree /\ forall b, ok ph (k b)
  | GClose _ k => ph <> PFree /\ forall e, ok ph (k e)
  | GRead _ _ k => ph <> PFree /\ forall o, ok ph (k o)
  | GWrite _ _ k => ph <> PFree /\ ok ph k
  | GMake _ _ k => ph = PWrite /\ forall r, ok ph (k r)
  | GUse _ k => ok ph k
  | GSeed k => ph = PWrite /\ forall r, ok ph (k r)
  | GOverview _ k => ph = PWrite /\ forall r, ok ph (k r)
  | GPart _ k => ph = PWrite /\ forall l, ok ph (k l)
  | GAuth k => ph = PWrite /\ forall a, ok ph (k a)
  | GQuit _ k | GSetPart _ _ k | GMark _ k | GSetStrings _ _ k => ph = PWrite /\ ok ph k
  | GItems _ k => ph = PWrite /\ forall q, ok ph (k q)
  | GReplace _ _ k => ph = PWrite /\ ok ph k
  | GLimits k => ph = PWrite /\ forall l, ok ph (k l)
  | GStrings _ k => ph = PWrite /\ forall l, ok ph (k l)
  | GIndex _ k => ph = PWrite /\ forall i, ok ph (k i)
  | GSetIndex _ _ k => ph = PWrite /\ ok ph k
  | GShare _ => False
  end.
Lemma ok_remove ph c k : ph <> PFree -> (forall e, ok ph (k e)) -> ok ph (g_remove c k).
Proof. intros H Hk. cbn. split; [exact H|]. intros [|]; cbn; auto. split; [exact H|]. intros [e|]; cbn; auto. Qed.
Lemma ok_new mode k : (forall r, ok PWrite (k r)) -> ok PWrite (g_new mode k).
Proof.
  intros H. unfold g_new. cbn [ok]. split; [reflexivity|]. intros l. split; [reflexivity|]. intros i. destruct (_ && _); [|apply H].
  destruct (nth_error _ _); [|apply H]. cbn [ok]. split; [reflexivity|]. intros [c|e| |]; try apply H. cbn [ok]. split; [discriminate|]. split; [discriminate|apply H].
Qed.
Lemma ok_add mode k : (forall r, ok PWrite (k r)) -> ok PWrite (g_add mode k).
Proof.
  intros H. unfold g_add. cbn [ok]. split; [reflexivity|]. intros [|s l]; [apply H|]. cbn [ok]. split; [reflexivity|]. intros i. split; [reflexivity|].
  split; [reflexivity|]. intros j. split; [reflexivity|]. intros l'. destruct (_ =? _); cbn [ok]; auto using ok_new.
Qed.
Lemma ok_internal fuel mode k : (forall r, ok PRead (k r)) -> ok PRead (g_internal_borrow fuel mode k).
Proof.
  intros Hk. induction fuel as [|fuel IH]; [apply Hk|]. cbn [g_internal_borrow ok]. split; [discriminate|]. intros [c|]; [|apply Hk].
  assert (A : ok PRead (g_remove c (fun e => match e with Some e => k (Err e) | None => g_internal_borrow fuel mode k end))).
  { apply ok_remove; [discriminate|]. intros [e|]; [apply Hk|exact IH]. }
  cbn [ok]. split; [discriminate|]. intros [|]; [exact A|]. cbn [ok]. split; [discriminate|]. intros [|]; [|exact A]. cbn. auto using (Hk (Ok c)).
  split; [discriminate|]. split; [discriminate|]. apply Hk.
Qed.
Lemma ok_lend fuel mode k : (forall r, ok PFree (k r)) -> ok PFree (g_lend fuel mode k).
Proof. intros H. unfold g_lend. cbn [ok]. split; [reflexivity|]. apply ok_internal. intros r. cbn. auto. Qed.
Lemma ok_return id h k : (forall r, ok PFree (k r)) -> ok PFree (g_return id h k).
Proof.
  intros H. unfold g_return. cbn [ok]. split; [reflexivity|]. split; [discriminate|]. intros [|]; cbn [negb ok]; [|auto].
  split; [discriminate|]. intros [c|]; cbn [ok].
  - split; [discriminate|]. split; [discriminate|]. split; [discriminate|]. intros [|]; cbn [ok].
    + split; [discriminate|]. auto.
    + apply ok_remove; [discriminate|]. intros [e|]; cbn [ok]; [apply ok_add; intros r; cbn; auto|]. split; [discriminate|]. auto.
  - split; [discriminate|]. auto.
Qed.
Lemma ok_client fuel modes : ok PFree (g_client fuel modes).
Proof.
  induction modes as [|m modes IH]; [reflexivity|]. cbn [g_client]. apply ok_lend. intros [c|e| |]; try exact IH; try reflexivity.
  cbn [ok]. apply ok_return. intros [? | ? | |]; try exact IH; reflexivity.
Qed.
Lemma ok_sift drop q : (forall c k, ok PWrite k -> ok PWrite (drop c k)) -> forall k, (forall r, ok PWrite (k r)) -> ok PWrite (g_sift drop q k).
Proof.
  intros Hd. induction q as [|c q IH]; intros k Hk; [apply Hk|]. cbn [g_sift ok]. split; [discriminate|]. intros [|]; [apply Hd|]; apply IH; auto.
Qed.
Lemma ok_prune k : ok PWrite k -> ok PWrite (g_prune k).
Proof.
  intros Hk. unfold g_prune. cbn [ok]. split; [reflexivity|]. intros rs. apply ok_sift; [intros c k' H; cbn; split; [discriminate|auto]|].
  intros reads. cbn [ok]. split; [reflexivity|]. intros ws. apply ok_sift; [intros c k' H; apply ok_remove; [discriminate|auto]|].
  intros writes. cbn. auto.
Qed.
Lemma ok_while fuel mode bound body k : (forall k, ok PWrite k -> ok PWrite (body k)) -> (forall r, ok PWrite (k r)) -> ok PWrite (g_while fuel mode bound body k).
Proof.
  intros Hb Hk. induction fuel as [|fuel IH]; [apply Hk|]. cbn [g_while ok]. split; [discriminate|]. intros n. destruct (n =? bound); [now apply Hb|apply Hk].
Qed.
Lemma ok_more mode k : ok PWrite k -> ok PWrite (g_more mode k).
Proof. intros H. apply ok_add. auto. Qed.
Lemma ok_less mode k : ok PWrite k -> ok PWrite (g_less mode k).
Proof. intros H. cbn [g_less ok]. split; [discriminate|]. intros [c|]; [apply ok_remove; [discriminate|auto]|exact H]. Qed.
Lemma ok_bounds fuel mode low high k : (forall r, ok PWrite (k r)) -> ok PWrite (g_bounds fuel mode low high k).
Proof.
  intros Hk. unfold g_bounds. cbn [ok]. split; [discriminate|]. intros n. destruct (n <? low); [apply ok_while; auto using ok_more|].
  cbn [ok]. split; [discriminate|]. intros m. destruct (high <? m); [apply ok_while; auto using ok_less|apply Hk].
Qed.
Lemma ok_balance fuel k : (forall r, ok PWrite (k r)) -> ok PWrite (g_balance fuel k).
Proof.
  intros Hk. unfold g_balance. cbn [ok]. split; [reflexivity|]. intros l. cbn [ok]. split; [discriminate|]. intros n.
  assert (R : ok PWrite (g_bounds fuel WriteMode (lim_min_w l) (lim_max_w l) (fun r => match r with Ok _ => g_bounds fuel ReadMode (lim_min_r l) (lim_max_r l) k | _ => k r end))).
  { apply ok_bounds. intros [u|e| |]; try apply Hk. now apply ok_bounds. }
  destruct (n <? lim_min_r l); [|exact R]. apply ok_while; [intros; now apply ok_more|]. intros [u|e| |]; auto.
Qed.
Lemma ok_merge k : ok PWrite k -> ok PWrite (g_merge k).
Proof. intros H. cbn. auto 20. Qed.
Lemma ok_refresh k : (forall r, ok PWrite (k r)) -> ok PWrite (g_refresh k).
Proof.
  intros H. unfold g_refresh. cbn [ok]. split; [reflexivity|]. intros [h|e| |]; try apply H. cbn [ok]. split; [reflexivity|].
  assert (M : ok PWrite (g_merge (GQuit h (k (Ok tt))))) by (apply ok_merge; cbn; auto).
  intros [v [rows|e| |]]; cbn [fst snd]; [|exact M|cbn; auto..]. destruct (read_rows _ _ _) as [t|e| |]; [cbn [ok]; auto|exact M..].
Qed.
Lemma ok_round fuel : ok PFree (g_round fuel).
Proof.
  assert (U : forall r, ok PWrite (GUnlock (g_result r))) by (intros [u|e| |]; cbn; auto).
  unfold g_round. cbn [ok]. split; [reflexivity|]. apply ok_refresh. intros [u|e| |]; try (cbn; auto; fail). apply ok_prune. now apply ok_balance.
Qed.
Lemma ok_work t : match t with TStop _ _ | TStart => False | _ => True end -> ok PFree (work t).
Proof.
  intros Hs. destruct t as [fuel mode|id h|n m|fuel modes|fuel|]; cbn [work]; [| |destruct Hs| | |destruct Hs].
  - apply ok_lend. reflexivity.
  - apply ok_return. reflexivity.
  - apply ok_client.
  - apply ok_round.
Qed.

(** Goroutines that take the mutex for writing only. *)
Fixpoint writes_only (t : gprog) : Prop :=
  match t with
  | GDone _ | GEnd => True
  | GRLock _ | GRUnlock _ => False
  | GLock k | GUnlock k | GSetRunning _ k | GEnqueue _ _ k | GUse _ k | GReplace _ _ k => writes_only k
  | GSize _ k => forall n, writes_only (k n)
  | GDequeue _ k => forall o, writes_only (k o)
  | GRunning k | GMarked _ k | GValid _ k => forall b, writes_only (k b)
  | GClose _ k => forall e, writes_only (k e)
  | GRead _ _ k => forall o, writes_only (k o)
  | GWrite _ _ k => writes_only k
  | GMake _ _ k => forall r, writes_only (k r)
  | GSeed k => forall r, writes_only (k r)
  | GOverview _ k => forall r, writes_only (k r)
  | GPart _ k => forall l, writes_only (k l)
  | GAuth k => forall a, writes_only (k a)
  | GQuit _ k | GSetPart _ _ k | GMark _ k | GSetStrings _ _ k => writes_only k
  | GItems _ k => forall q, writes_only (k q)
  | GLimits k => forall l, writes_only (k l)
  | GStrings _ k => forall l, writes_only (k l)
  | GIndex _ k => forall i, writes_only (k i)
  | GSetIndex _ _ k | GShare k => writes_only k
  end.
Lemma writes_remove c k : (forall e, writes_only (k e)) -> writes_only (g_remove c k).
Proof. intros H. cbn. intros [|]; cbn; auto. intros [e|]; cbn; auto. Qed.
Lemma writes_new mode k : (forall r, writes_only (k r)) -> writes_only (g_new mode k).
Proof.
  intros H. unfold g_new. cbn [writes_only]. intros l i. destruct (_ && _); [|apply H]. destruct (nth_error _ _); [|apply H]. cbn [writes_only].
  intros [c|e| |]; apply H.
Qed.
Lemma writes_add mode k : (forall r, writes_only (k r)) -> writes_only (g_add mode k).
Proof.
  intros H. unfold g_add. cbn [writes_only]. intros [|s l]; [apply H|]. cbn [writes_only]. intros i j l'. destruct (_ =? _); cbn [writes_only]; auto using writes_new.
Qed.
Lemma writes_reclaim id h : writes_only (g_reclaim id h).
Proof.
  cbn. intros [|]; cbn [negb writes_only]; [|auto]. intros [c|]; cbn [writes_only]; [|auto]. intros [|]; cbn [writes_only]; [auto|].
  apply writes_remove. intros [e|]; [apply writes_add|]; cbn; auto.
Qed.
Lemma writes_sift drop q : (forall c k, writes_only k -> writes_only (drop c k)) -> forall k, (forall r, writes_only (k r)) -> writes_only (g_sift drop q k).
Proof. intros Hd. induction q as [|c q IH]; intros k Hk; [apply Hk|]. cbn [g_sift writes_only]. intros [|]; [apply Hd|]; apply IH; auto. Qed.
Lemma writes_while fuel mode bound body k : (forall k, writes_only k -> writes_only (body k)) -> (forall r, writes_only (k r)) -> writes_only (g_while fuel mode bound body k).
Proof. intros Hb Hk. induction fuel as [|fuel IH]; [apply Hk|]. cbn [g_while writes_only]. intros n. destruct (n =? bound); [now apply Hb|apply Hk]. Qed.
Lemma writes_bounds fuel mode low high k : (forall r, writes_only (k r)) -> writes_only (g_bounds fuel mode low high k).
Proof.
  intros Hk. unfold g_bounds. cbn [writes_only]. intros n. destruct (n <? low); [apply writes_while; [intros k' H'; apply writes_add; auto|exact Hk]|].
  cbn [writes_only]. intros m. destruct (high <? m); [apply writes_while; [|exact Hk]|apply Hk].
  intros k' H [c|]; [apply writes_remove; auto|exact H].
Qed.
Lemma writes_merge k : writes_only k -> writes_only (g_merge k).
Proof. intros H. cbn. auto. Qed.
Lemma writes_refresh k : (forall r, writes_only (k r)) -> writes_only (g_refresh k).
Proof.
  intros H. unfold g_refresh. cbn [writes_only]. intros [h|e| |]; try apply H. cbn [writes_only].
  assert (M : writes_only (g_merge (GQuit h (k (Ok tt))))) by (apply writes_merge; apply H).
  intros [v [rows|e| |]]; cbn [fst snd]; [|exact M|apply H..]. destruct (read_rows _ _ _) as [t|e| |]; exact M.
Qed.
Lemma writes_round fuel : writes_only (g_round fuel).
Proof.
  assert (U : forall r, writes_only (GUnlock (g_result r))) by (intros [u|e| |]; cbn; auto).
  unfold g_round. cbn [writes_only]. apply writes_refresh. intros [u|e| |]; try (cbn; auto; fail).
  unfold g_prune. cbn [writes_only]. intros rs. apply writes_sift; [cbn; auto|]. intros reads. cbn [writes_only]. intros ws.
  apply writes_sift; [intros; apply writes_remove; auto|]. intros writes. cbn [writes_only].
  unfold g_balance. cbn [writes_only]. intros l. set (k := fun r => GUnlock (g_result r)).
  assert (R : writes_only (g_bounds fuel WriteMode (lim_min_w l) (lim_max_w l) (fun r => match r with Ok _ => g_bounds fuel ReadMode (lim_min_r l) (lim_max_r l) k | _ => k r end))).
  { apply writes_bounds. intros [v|e| |]; try apply U. now apply writes_bounds. }
  cbv zeta. cbn [writes_only]. intros n. destruct (n <? lim_min_r l); [|exact R]. apply writes_while; [intros k' H'; apply writes_add; auto|]. intros [v|e| |]; auto; apply U.
Qed.
(** Goroutines that do not use the mutex, and make no connection. *)
Fixpoint lockless (t : gprog) : Prop :=
  match t with
  | GDone _ | GEnd => True
  | GRLock _ | GRUnlock _ | GLock _ | GUnlock _ | GItems _ _ | GReplace _ _ _ | GLimits _ => False
  | GMake _ _ _ | GStrings _ _ | GIndex _ _ | GSetIndex _ _ _ | GShare _ => False
  | GSeed _ | GOverview _ _ | GQuit _ _ | GPart _ _ | GSetPart _ _ _ | GAuth _ | GMark _ _ | GSetStrings _ _ _ => False
  | GSetRunning _ k | GEnqueue _ _ k | GWrite _ _ k | GUse _ k => lockless k
  | GRunning k | GMarked _ k | GValid _ k => forall b, lockless (k b)
  | GSize _ k => forall n, lockless (k n)
  | GClose _ k => forall e, lockless (k e)
  | GRead _ _ k | GDequeue _ k => forall o, lockless (k o)
  end.
Lemma lockless_remove c k : (forall e, lockless (k e)) -> lockless (g_remove c k).
Proof. intros H. cbn. intros [|]; cbn; auto. intros [e|]; cbn; auto. Qed.
Lemma lockless_drain fuel mode k : (forall r, lockless (k r)) -> lockless (g_drain fuel mode k).
Proof.
  intros Hk. induction fuel as [|fuel IH]; [apply Hk|]. cbn [g_drain lockless]. intros n. destruct (n =? 0); [apply Hk|]. cbn [lockless].
  intros [c|]; [|apply Hk]. apply lockless_remove. intros [e|]; [apply Hk|exact IH].
Qed.
Lemma lockless_stop n m : lockless (g_stop n m).
Proof.
  assert (R : forall r, lockless (g_result r)) by (intros [| | |]; exact I).
  unfold g_stop. cbn [lockless]. intros [|]; cbn [negb lockless]; [|exact I]. apply lockless_drain. intros [u|e| |]; try apply R. now apply lockless_drain.
Qed.
(** Goroutines that do not use the mutex, and take nothing from the queues. *)
Fixpoint launches (t : gprog) : Prop :=
  match t with
  | GDone _ | GEnd => True
  | GSetRunning _ k | GEnqueue _ _ k | GSetIndex _ _ k | GShare k => launches k
  | GRunning k => forall b, launches (k b)
  | GWrite f _ k => f = FHeld /\ launches k
  | GMake _ _ k => forall r, launches (k r)
  | GSeed k => forall r, launches (k r)
  | GOverview _ k => forall r, launches (k r)
  | GPart _ k => forall l, launches (k l)
  | GAuth k => forall a, launches (k a)
  | GQuit _ k | GSetPart _ _ k | GMark _ k | GSetStrings _ _ k => launches k
  | GLimits k => forall l, launches (k l)
  | GStrings _ k => forall l, launches (k l)
  | GIndex _ k => forall i, launches (k i)
  | _ => False
  end.
Lemma launches_new mode k : (forall r, launches (k r)) -> launches (g_new mode k).
Proof.
  intros H. unfold g_new. cbn [launches]. intros l i. destruct (_ && _); [|apply H]. destruct (nth_error _ _); [|apply H]. cbn [launches].
  intros [c|e| |]; [cbn [launches]; auto|apply H..].
Qed.
Lemma launches_add mode k : (forall r, launches (k r)) -> launches (g_add mode k).
Proof.
  intros H. unfold g_add. cbn [launches]. intros [|s l]; [apply H|]. cbn [launches]. intros i j l'. destruct (_ =? _); cbn [launches]; auto using launches_new.
Qed.
Lemma launches_times n mode k : (forall r, launches (k r)) -> launches (g_times n mode k).
Proof. intros H. induction n as [|n IH]; [apply H|]. cbn [g_times]. apply launches_add. intros [u|e| |]; auto. Qed.
Lemma launches_merge k : launches k -> launches (g_merge k).
Proof. intros H. cbn. auto. Qed.
Lemma launches_refresh k : (forall r, launches (k r)) -> launches (g_refresh k).
Proof.
  intros H. unfold g_refresh. cbn [launches]. intros [h|e| |]; try apply H. cbn [launches].
  assert (M : launches (g_merge (GQuit h (k (Ok tt))))) by (apply launches_merge; apply H).
  intros [v [rows|e| |]]; cbn [fst snd]; [|exact M|apply H..]. destruct (read_rows _ _ _) as [t|e| |]; exact M.
Qed.
Lemma launches_start : launches g_start.
Proof.
  assert (R : forall r, launches (g_result r)) by (intros [| | |]; exact I).
  unfold g_start. cbn [launches]. intros [|]; [exact I|]. cbn [launches]. apply launches_refresh. intros [u|e| |]; try exact I. cbn [launches]. intros l. apply launches_times.
  intros [v|e| |]; try exact I. cbn [launches]. intros l'. apply launches_times. exact R.
Qed.
(** The phase of a goroutine, by its work: those that return connections and the refresher never are among the readers. *)
Definition fits (tp : task * phase) (t : gprog) : Prop :=
  match fst tp with
  | TReclaim _ _ | TRound _ => ok (snd tp) t /\ writes_only t /\ snd tp <> PRead
  | TBorrow _ _ | TClient _ _ => ok (snd tp) t
  | TStop _ _ => lockless t /\ snd tp = PFree
  | TStart => launches t /\ snd tp = PFree
  end.
Lemma fits_work t : fits (t, PFree) (work t).
Proof.
  destruct t; unfold fits; cbn [fst snd].
  - now apply ok_work.
  - split; [now apply ok_work|]. split; [apply writes_reclaim|discriminate].
  - split; [apply lockless_stop|reflexivity].
  - now apply ok_work.
  - split; [now apply ok_work|]. split; [apply writes_round|discriminate].
  - split; [apply launches_start|reflexivity].
Qed.

Definition readers (l : list phase) : nat := length (filter (fun ph => match ph with PRead => true | _ => false end) l).
Definition writers (l : list phase) : nat := length (filter (fun ph => match ph with PWrite => true | _ => false end) l).
Definition sound (l : list phase) (k : rwlock) : Prop :=
  readers l = rw_readers k /\ writers l = (if rw_writer k then 1 else 0)%nat /\ (rw_writer k = true -> rw_readers k = 0%nat).
Lemma count_put (f : phase -> bool) (l : list phase) : forall i a b, nth_error l i = Some a ->
  (length (filter f (put_nth i b l)) + (if f a then 1 else 0) = length (filter f l) + (if f b then 1 else 0))%nat.
Proof.
  induction l as [|x l IH]; intros [|i] a b; cbn; try discriminate.
  - intros [= ->]. destruct (f a), (f b); cbn; lia.
  - intros H. specialize (IH _ _ b H). destruct (f x); cbn; lia.
Qed.
Lemma Forall2_put {A B} (R : A -> B -> Prop) l1 : forall l2 i a b, Forall2 R l1 l2 -> R a b -> Forall2 R (put_nth i a l1) (put_nth i b l2).
Proof.
  induction l1 as [|x l1 IH]; intros l2 i a b F H; inversion F; subst; destruct i; cbn; constructor; auto.
Qed.
Lemma Forall2_at {A B} (R : A -> B -> Prop) l1 : forall l2 i b, Forall2 R l1 l2 -> nth_error l2 i = Some b -> exists a, nth_error l1 i = Some a /\ R a b.
Proof.
  induction l1 as [|x l1 IH]; intros l2 i b F H; inversion F; subst; [destruct i; discriminate|]. destruct i; cbn in *; [injection H as <-; eauto|eauto].
Qed.
Lemma count_at (f : phase -> bool) l i a : nth_error l i = Some a -> f a = true -> (1 <= length (filter f l))%nat.
Proof.
  intros H Hf. assert (Hin : In a (filter f l)) by (apply filter_In; split; [eapply nth_error_In; eauto|exact Hf]).
  destruct (filter f l); [destruct Hin|cbn; lia].
Qed.
Lemma count_two (f : phase -> bool) l : forall i j a b, i <> j -> nth_error l i = Some a -> nth_error l j = Some b -> f a = true -> f b = true -> (2 <= length (filter f l))%nat.
Proof.
  induction l as [|x l IH]; intros i j a b N Hi Hj Ha Hb; [destruct i; discriminate|]. destruct i, j; cbn in Hi, Hj; try lia.
  - injection Hi as ->. cbn. rewrite Ha. cbn. pose proof (count_at f l j b Hj Hb). lia.
  - injection Hj as ->. cbn. rewrite Hb. cbn. pose proof (count_at f l i a Hi Ha). lia.
  - assert (H : (2 <= length (filter f l))%nat) by (eapply (IH i j); eauto). cbn. destruct (f x); cbn; lia.
Qed.

Lemma map_put {A B} (f : A -> B) l : forall i a, map f (put_nth i a l) = put_nth i (f a) (map f l).
Proof. induction l as [|x l IH]; intros [|i] a; cbn; [reflexivity..|now rewrite IH]. Qed.
Lemma put_same {A} (l : list A) : forall i a, nth_error l i = Some a -> put_nth i a l = l.
Proof. induction l as [|x l IH]; intros [|i] a; cbn; try discriminate; [now intros [= ->]|]. intros H. now rewrite IH. Qed.
Definition phased (tps : list (task * phase)) (x : gsys (W := W)) : Prop := Forall2 fits tps (g_threads x) /\ sound (map snd tps) (g_lock x).
Definition locked_well (ts : list task) (x : gsys (W := W)) : Prop :=
  exists tps, map fst tps = ts /\ Forall2 fits tps (g_threads x) /\ sound (map snd tps) (g_lock x).
(** How a step changes the phase. *)
Definition shifts (t : gprog) (ph ph' : phase) : Prop :=
  match t with
  | GRLock _ => ph = PFree /\ ph' = PRead | GRUnlock _ => ph = PRead /\ ph' = PFree
  | GLock _ => ph = PFree /\ ph' = PWrite | GUnlock _ => ph = PWrite /\ ph' = PFree
  | _ => ph' = ph
  end.
Lemma phased_step tps i x x' : gsys_step K i x = Some x' -> phased tps x ->
  exists t t0 ph ph', nth_error (g_threads x) i = Some t /\ nth_error tps i = Some (t0, ph) /\ phased (put_nth i (t0, ph') tps) x' /\ shifts t ph ph'.
Proof.
  intros E (F & S1 & S2 & S3). unfold gsys_step in E. destruct (nth_error (g_threads x) i) as [t|] eqn:Et; [|discriminate].
  destruct (Forall2_at _ _ _ _ _ F Et) as ([t0 ph] & Ep & Ht).
  assert (Eph : nth_error (map snd tps) i = Some ph) by now rewrite nth_error_map, Ep.
  assert (Move : forall p w l t' ph', x' = mkG p w l (put_nth i t' (g_threads x)) -> fits (t0, ph') t' -> sound (put_nth i ph' (map snd tps)) l -> shifts t ph ph' ->
    exists t1 t2 ph1 ph2, Some t = Some t1 /\ nth_error tps i = Some (t2, ph1) /\ phased (put_nth i (t2, ph2) tps) x' /\ shifts t1 ph1 ph2).
  { intros p w l t' ph' -> H H' Hs. exists t, t0, ph, ph'. split; [reflexivity|]. split; [exact Ep|]. split; [|exact Hs]. unfold phased. rewrite map_put. cbn [fst snd g_threads g_lock].
    split; [now apply Forall2_put|exact H']. }
  assert (Same : forall p w t', x' = mkG p w (g_lock x) (put_nth i t' (g_threads x)) -> fits (t0, ph) t' -> shifts t ph ph ->
    exists t1 t2 ph1 ph2, Some t = Some t1 /\ nth_error tps i = Some (t2, ph1) /\ phased (put_nth i (t2, ph2) tps) x' /\ shifts t1 ph1 ph2).
  { intros p w t' E' H Hs. eapply Move; [exact E'|exact H| |exact Hs]. rewrite put_same by exact Eph. split; [exact S1|]. split; [exact S2|exact S3]. }
  assert (CR := fun b => count_put (fun ph => match ph with PRead => true | _ => false end) (map snd tps) i ph b Eph).
  assert (CW := fun b => count_put (fun ph => match ph with PWrite => true | _ => false end) (map snd tps) i ph b Eph).
  unfold readers in S1. unfold writers in S2.
  assert (Lk : match t with GRLock _ => ph = PFree | GRUnlock _ => ph = PRead | GLock _ => ph = PFree | GUnlock _ => ph = PWrite | _ => True end
    /\ forall ph' t', match t with
         | GDone _ | GEnd => False
         | GRLock k => t' = k /\ ph' = PRead | GRUnlock k => t' = k /\ ph' = PFree
         | GLock k => t' = k /\ ph' = PWrite | GUnlock k => t' = k /\ ph' = PFree
         | GSetRunning _ k | GEnqueue _ _ k | GWrite _ _ k | GUse _ k | GReplace _ _ k | GSetIndex _ _ k | GShare k => t' = k /\ ph' = ph
         | GRunning k | GMarked _ k | GValid _ k => (exists b, t' = k b) /\ ph' = ph
         | GSize _ k => (exists n, t' = k n) /\ ph' = ph
         | GClose _ k => (exists e, t' = k e) /\ ph' = ph
         | GRead _ _ k | GDequeue _ k => (exists o, t' = k o) /\ ph' = ph
         | GMake _ _ k => (exists r, t' = k r) /\ ph' = ph
         | GSeed k => (exists r, t' = k r) /\ ph' = ph
         | GOverview _ k => (exists r, t' = k r) /\ ph' = ph
         | GPart _ k => (exists l, t' = k l) /\ ph' = ph
         | GAuth k => (exists a, t' = k a) /\ ph' = ph
         | GQuit _ k | GSetPart _ _ k | GMark _ k | GSetStrings _ _ k => t' = k /\ ph' = ph
         | GStrings _ k => (exists l, t' = k l) /\ ph' = ph
         | GIndex _ k => (exists i, t' = k i) /\ ph' = ph
         | GItems _ k => (exists q, t' = k q) /\ ph' = ph
         | GLimits k => (exists l, t' = k l) /\ ph' = ph
         end -> fits (t0, ph') t').
  { unfold fits in *. cbn [fst snd] in *. split.
    - destruct t0; [| |destruct Ht as [Ht ->]| | |destruct Ht as [Ht ->]]; destruct t; cbn in Ht; try tauto.
    - intros ph' t' H. destruct t0; [|destruct Ht as (Ht & Hw & Hp)|destruct Ht as [Ht ->]| |destruct Ht as (Ht & Hw & Hp)|destruct Ht as [Ht ->]]; destruct t; cbn in Ht; try (cbn in Hw);
        try contradiction; destruct H as [H ->]; (first [subst t' | destruct H as [b H]; subst t']);
        repeat match goal with H : _ /\ _ |- _ => destruct H end; subst; repeat split; auto; try discriminate. }
  destruct Lk as [Lk Next].
  destruct t; cbn [gstep] in E.
  - discriminate.
  - discriminate.
  - subst ph. destruct (rw_writer (g_lock x)) eqn:Ew; [discriminate|]. injection E as <-. eapply Move; [reflexivity|apply Next; auto| |now split].
    specialize (CR PRead). specialize (CW PRead). cbn in CR, CW. unfold sound, readers, writers. cbn. split; [lia|]. split; [lia|discriminate].
  - subst ph. injection E as <-. eapply Move; [reflexivity|apply Next; auto| |now split].
    pose proof (count_at (fun ph => match ph with PRead => true | _ => false end) (map snd tps) i PRead Eph eq_refl).
    specialize (CR PFree). specialize (CW PFree). cbn in CR, CW. unfold sound, readers, writers. cbn. split; [lia|]. split; [lia|]. intros H'. rewrite S3 by exact H'. reflexivity.
  - subst ph. destruct (rw_writer (g_lock x)) eqn:Ew; [discriminate|]. destruct (rw_readers (g_lock x)) eqn:Er; [|discriminate]. injection E as <-.
    eapply Move; [reflexivity|apply Next; auto| |now split]. specialize (CR PWrite). specialize (CW PWrite). cbn in CR, CW. unfold sound, readers, writers. cbn. split; [lia|]. split; [lia|auto].
  - subst ph. injection E as <-. eapply Move; [reflexivity|apply Next; auto| |now split].
    pose proof (count_at (fun ph => match ph with PWrite => true | _ => false end) (map snd tps) i PWrite Eph eq_refl).
    specialize (CR PFree). specialize (CW PFree). cbn in CR, CW. unfold sound, readers, writers. cbn. destruct (rw_writer (g_lock x)); [|lia]. split; [lia|]. split; [lia|discriminate].
  - injection E as <-. eapply Same; [reflexivity|apply Next; eauto|reflexivity].
  - injection E as <-. eapply Same; [reflexivity|apply Next; eauto|reflexivity].
  - injection E as <-. eapply Same; [reflexivity|apply Next; eauto|reflexivity].
  - destruct (dequeue (queue_of mode (g_pool x))) as [o q]. injection E as <-. eapply Same; [reflexivity|apply Next; eauto|reflexivity].
  - injection E as <-. eapply Same; [reflexivity|apply Next; eauto|reflexivity].
  - injection E as <-. eapply Same; [reflexivity|apply Next; eauto|reflexivity].
  - destruct (k_valid K h (g_world x)) as [w1 b]. injection E as <-. eapply Same; [reflexivity|apply Next; eauto|reflexivity].
  - destruct (k_close K h (g_world x)) as [w1 b]. injection E as <-. eapply Same; [reflexivity|apply Next; eauto|reflexivity].
  - injection E as <-. eapply Same; [reflexivity|apply Next; eauto|reflexivity].
  - injection E as <-. eapply Same; [reflexivity|apply Next; eauto|reflexivity].
  - destruct (make K mode s (g_world x)) as [w1 r]. injection E as <-. eapply Same; [reflexivity|apply Next; eauto|reflexivity].
  - injection E as <-. eapply Same; [reflexivity|apply Next; eauto|reflexivity].
  - destruct (k_dial K (p_leader (g_pool x)) (g_world x)) as [w1 r]. injection E as <-. eapply Same; [reflexivity|apply Next; eauto|reflexivity].
  - destruct (k_query K h (g_world x)) as [w1 r]. injection E as <-. eapply Same; [reflexivity|apply Next; eauto|reflexivity].
  - destruct (k_close K h (g_world x)) as [w1 r]. injection E as <-. eapply Same; [reflexivity|apply Next; eauto|reflexivity].
  - injection E as <-. eapply Same; [reflexivity|apply Next; eauto|reflexivity].
  - injection E as <-. eapply Same; [reflexivity|apply Next; eauto|reflexivity].
  - injection E as <-. eapply Same; [reflexivity|apply Next; eauto|reflexivity].
  - injection E as <-. eapply Same; [reflexivity|apply Next; eauto|reflexivity].
  - injection E as <-. eapply Same; [reflexivity|apply Next; eauto|reflexivity].
  - injection E as <-. eapply Same; [reflexivity|apply Next; eauto|reflexivity].
  - injection E as <-. eapply Same; [reflexivity|apply Next; eauto|reflexivity].
  - injection E as <-. eapply Same; [reflexivity|apply Next; eauto|reflexivity].
  - injection E as <-. eapply Same; [reflexivity|apply Next; eauto|reflexivity].
  - injection E as <-. eapply Same; [reflexivity|apply Next; eauto|reflexivity].
  - injection E as <-. eapply Same; [reflexivity|apply Next; eauto|reflexivity].
  - injection E as <-. eapply Same; [reflexivity|apply Next; eauto|reflexivity].
Qed.
Lemma locked_step ts i x x' : gsys_step K i x = Some x' -> locked_well ts x -> locked_well ts x'.
Proof.
  intros E (tps & <- & F & S). destruct (phased_step tps i x x' E (conj F S)) as (t & t0 & ph & ph' & _ & Ep & (F' & S') & _).
  exists (put_nth i (t0, ph') tps). split; [|now split]. rewrite map_put. apply put_same. now rewrite nth_error_map, Ep.
Qed.
Lemma locked_run ts is : forall x x', gschedule K is x = Some x' -> locked_well ts x -> locked_well ts x'.
Proof.
  induction is as [|i is IH]; intros x x'; cbn [gschedule]; [now intros [= <-]|].
  destruct (gsys_step K i x) as [x1|] eqn:E; [|discriminate]. intros E' L. eapply IH; [exact E'|]. eapply locked_step; eauto.
Qed.
Lemma locked_start p w ts : locked_well ts (mkG p w (mkRW false 0) (map work ts)).
Proof.
  exists (map (fun t => (t, PFree)) ts). cbn [g_threads g_lock]. rewrite !map_map. cbn [fst snd]. split; [apply map_id|]. split.
  - induction ts; cbn; constructor; auto using fits_work.
  - unfold sound, readers, writers. cbn. induction ts as [|t ts IH]; cbn; [auto|exact IH].
Qed.

(** Only goroutines that borrow, and hold the mutex together, or start or stop the pool get in each other's way. *)
Theorem only_borrowers p w ts is x i j : gschedule K is (mkG p w (mkRW false 0) (map work ts)) = Some x -> clash (g_threads x) i j ->
  (rw_writer (g_lock x) = false /\ (2 <= rw_readers (g_lock x))%nat
   /\ (forall id h, nth_error ts i <> Some (TReclaim id h) /\ nth_error ts j <> Some (TReclaim id h))
   /\ forall n, nth_error ts i <> Some (TRound n) /\ nth_error ts j <> Some (TRound n))
  \/ (exists n m, nth_error ts i = Some (TStop n m) \/ nth_error ts j = Some (TStop n m))
  \/ nth_error ts i = Some TStart \/ nth_error ts j = Some TStart.
Proof.
  intros E. apply (locked_run ts) in E; [|apply locked_start]. destruct E as (tps & <- & F & S1 & S2 & S3).
  intros (N & t & u & f & b1 & b2 & Ht & Hu & Ut & Uu & _).
  destruct (Forall2_at _ _ _ _ _ F Ht) as ([t0 ph] & Et & Ot). destruct (Forall2_at _ _ _ _ _ F Hu) as ([u0 pu] & Eu & Ou).
  rewrite !nth_error_map, Et, Eu. cbn [option_map fst].
  assert (Et' : nth_error (map snd tps) i = Some ph) by now rewrite nth_error_map, Et.
  assert (Eu' : nth_error (map snd tps) j = Some pu) by now rewrite nth_error_map, Eu.
  assert (Cases : forall t0 ph t b, fits (t0, ph) t -> uses t = Some (f, b) -> (exists n m, t0 = TStop n m) \/ t0 = TStart \/ ph = PWrite \/ ph = PRead /\ (forall id h, t0 <> TReclaim id h) /\ forall n, t0 <> TRound n).
  { clear. intros t0 ph t b H U. unfold fits in H. cbn [fst snd] in H.
    assert (A : ok ph t -> ph <> PFree) by (intros Ho; destruct t; try discriminate; cbn in Ho; apply Ho).
    destruct t0; [| |eauto| | |auto].
    - specialize (A H). destruct ph; [congruence|right; right; right; split; [reflexivity|split; discriminate]|auto].
    - destruct H as (H & _ & H'). specialize (A H). destruct ph; [congruence..|auto].
    - specialize (A H). destruct ph; [congruence|right; right; right; split; [reflexivity|split; discriminate]|auto].
    - destruct H as (H & _ & H'). specialize (A H). destruct ph; [congruence..|auto]. }
  destruct (Cases _ _ _ _ Ot Ut) as [(n & m & ->)|[->|A1]]; [right; left; exists n, m; now left|right; right; now left|].
  destruct (Cases _ _ _ _ Ou Uu) as [(n & m & ->)|[->|A2]]; [right; left; exists n, m; now right|right; right; now right|]. left.
  unfold readers in S1. unfold writers in S2.
  assert (Wcase : forall i j a, i <> j -> nth_error (map snd tps) i = Some PWrite -> nth_error (map snd tps) j = Some a -> a <> PFree -> False).
  { intros i' j' a N' H1 H2 H3. pose proof (count_at (fun ph => match ph with PWrite => true | _ => false end) _ _ _ H1 eq_refl) as C1.
    destruct (rw_writer (g_lock x)); [|lia]. rewrite S3 in S1 by reflexivity. destruct a; [congruence| |].
    - pose proof (count_at (fun ph => match ph with PRead => true | _ => false end) _ _ _ H2 eq_refl). lia.
    - pose proof (count_two (fun ph => match ph with PWrite => true | _ => false end) _ _ _ _ _ N' H1 H2 eq_refl eq_refl). lia. }
  assert (P2 : pu <> PFree) by (destruct A2 as [->|[-> _]]; discriminate). assert (P1 : ph <> PFree) by (destruct A1 as [->|[-> _]]; discriminate).
  destruct A1 as [->|[-> A1]]; [destruct (Wcase i j pu N Et' Eu' P2)|]. destruct A2 as [->|[-> A2]]; [destruct (Wcase j i PRead (not_eq_sym N) Eu' Et' P1)|].
  pose proof (count_two (fun ph => match ph with PRead => true | _ => false end) _ _ _ _ _ N Et' Eu' eq_refl eq_refl) as C.
  split; [destruct (rw_writer (g_lock x)); [specialize (S3 eq_refl); lia|reflexivity]|]. split; [lia|].
  split; [intros id h|intros n]; split; intros [= ->]; [now apply (proj1 A1 id h)|now apply (proj1 A2 id h)|now apply (proj2 A1 n)|now apply (proj2 A2 n)].
Qed.

(** ** Distinct connections *)

(** What a goroutine that borrows or stops the pool may return and close: the connection it took from a queue last. *)
Fixpoint fine (o : option wrapper) (t : gprog) : Prop :=
  match t with
  | GDone r => forall c, r = Ok c -> o = Some c
  | GEnd => True
  | GRLock k | GRUnlock k | GLock k | GUnlock k | GWrite _ _ k | GSetRunning _ k | GUse _ k => fine o k
  | GRunning k | GMarked _ k | GValid _ k => forall b, fine o (k b)
  | GSize _ k => forall n, fine o (k n)
  | GDequeue _ k => forall o', fine o' (k o')
  | GEnqueue _ _ _ | GMake _ _ _ | GItems _ _ | GReplace _ _ _ | GLimits _ => False
  | GSeed _ | GOverview _ _ | GQuit _ _ | GPart _ _ | GSetPart _ _ _ | GAuth _ | GMark _ _ | GSetStrings _ _ _ => False
  | GStrings _ _ | GIndex _ _ | GSetIndex _ _ _ | GShare _ => False
  | GClose h k => option_map pw_conn o = Some h /\ forall e, fine None (k e)
  | GRead _ _ k => forall o', fine o (k o')
  end.
Lemma fine_remove c k : (forall e o, fine o (k e)) -> fine (Some c) (g_remove c k).
Proof. intros H. cbn. intros [|]; cbn; auto. split; [reflexivity|]. intros [e|]; cbn; auto. Qed.
Lemma fine_internal fuel mode k : (forall r o, (forall c, r = Ok c -> o = Some c) -> fine o (k r)) -> forall o, fine o (g_internal_borrow fuel mode k).
Proof.
  intros Hk. induction fuel as [|fuel IH]; intros o; [apply Hk; discriminate|]. cbn [g_internal_borrow fine]. intros [c|]; [|apply Hk; discriminate].
  assert (A : fine (Some c) (g_remove c (fun e => match e with Some e => k (Err e) | None => g_internal_borrow fuel mode k end))).
  { apply fine_remove. intros [e|]; [intros; apply Hk; discriminate|apply IH]. }
  cbn [fine]. intros [|]; [exact A|]. cbn [fine]. intros [|]; [|exact A]. cbn. apply Hk. congruence.
Qed.
Lemma fine_borrow fuel mode : fine None (g_borrow fuel mode).
Proof. unfold g_borrow, g_lend. cbn [fine]. apply fine_internal. intros r o H. exact H. Qed.
Lemma fine_drain fuel mode k : (forall r o, fine o (k r)) -> forall o, fine o (g_drain fuel mode k).
Proof.
  intros Hk. induction fuel as [|fuel IH]; intros o; [apply Hk|]. cbn [g_drain fine]. intros n. destruct (n =? 0); [apply Hk|]. cbn [fine].
  intros [c|]; [|apply Hk]. apply fine_remove. intros [e|]; [apply Hk|exact IH].
Qed.
Lemma fine_stop n m : fine None (g_stop n m).
Proof.
  assert (R : forall r o, fine o (g_result r)) by (intros [| | |]; cbn; discriminate || trivial).
  unfold g_stop. cbn [fine]. intros [|]; cbn [negb fine]; [|discriminate]. apply fine_drain. intros [u|e| |] o; try apply R. now apply fine_drain.
Qed.

Definition hands (hs : list (option wrapper)) : list wrapper := flat_map (fun o => match o with Some c => [c] | None => [] end) hs.
Lemma hands_put hs : forall i o o', nth_error hs i = Some o -> Permutation (hands [o'] ++ hands hs) (hands [o] ++ hands (put_nth i o' hs)).
Proof.
  induction hs as [|x hs IH]; intros [|i] o o'; cbn [nth_error]; try discriminate.
  - intros [= ->]. unfold hands. cbn [put_nth flat_map]. rewrite !app_nil_r. apply Permutation_app_swap_app.
  - intros H. specialize (IH _ _ o' H). unfold hands in *. cbn [put_nth flat_map] in *. rewrite !app_nil_r in *.
    etransitivity; [apply Permutation_app_swap_app|]. etransitivity; [|apply Permutation_app_swap_app]. now apply Permutation_app_head.
Qed.
(** The connections that are closed, whatever that means, do not come back. *)
Section Gone.
Variable gone : W -> nat -> Prop.
Hypothesis gone_valid : forall h w h', gone (fst (k_valid K h w)) h' -> gone w h'.
Hypothesis gone_close : forall h w h', gone (fst (k_close K h w)) h' -> gone w h' \/ h' = h.
Definition around (p : pool) (hs : list (option wrapper)) : list nat := map pw_conn (p_wq p ++ p_rq p ++ hands hs).
Definition apart (x : gsys (W := W)) : Prop :=
  exists hs, Forall2 fine hs (g_threads x) /\ NoDup (around (g_pool x) hs) /\ forall h, gone (g_world x) h -> ~ In h (around (g_pool x) hs).
Lemma NoDup_drop {A} (a b : list A) : NoDup (a ++ b) -> NoDup b.
Proof. induction a; [auto|]. intros N. inversion N; auto. Qed.
Lemma apart_step i x x' : gsys_step K i x = Some x' -> apart x -> apart x'.
Proof.
  intros E (hs & F & N & G). unfold gsys_step in E. destruct (nth_error (g_threads x) i) as [t|] eqn:Et; [|discriminate].
  destruct (Forall2_at _ _ _ _ _ F Et) as (o & Eo & Ht).
  assert (Same : forall p w l t', x' = mkG p w l (put_nth i t' (g_threads x)) -> p_wq p = p_wq (g_pool x) -> p_rq p = p_rq (g_pool x) -> (forall h, gone w h -> gone (g_world x) h) -> fine o t' -> apart x').
  { intros p w l t' -> E1 E2 Gw H. exists hs. unfold around in *. cbn [g_pool g_threads g_world]. rewrite E1, E2. split; [|split; [exact N|auto]]. rewrite <- (put_same hs i o Eo). now apply Forall2_put. }
  destruct t; cbn [gstep] in E; cbn [fine] in Ht.
  - discriminate.
  - discriminate.
  - destruct (rw_writer (g_lock x)); [discriminate|]. injection E as <-. eapply Same; [reflexivity..|auto|exact Ht].
  - injection E as <-. eapply Same; [reflexivity..|auto|exact Ht].
  - destruct (rw_writer (g_lock x)); [discriminate|]. destruct (rw_readers (g_lock x)); [|discriminate]. injection E as <-. eapply Same; [reflexivity..|auto|exact Ht].
  - injection E as <-. eapply Same; [reflexivity..|auto|exact Ht].
  - injection E as <-. eapply Same; [reflexivity..|auto|apply Ht].
  - injection E as <-. eapply Same; [reflexivity..|auto|exact Ht].
  - injection E as <-. eapply Same; [reflexivity..|auto|apply Ht].
  - destruct (dequeue (queue_of mode (g_pool x))) as [o' q] eqn:Eq. injection E as <-. exists (put_nth i o' hs). cbn [g_pool g_threads g_world].
    split; [apply Forall2_put; [exact F|apply Ht]|].
    assert (P : Permutation (p_wq (g_pool x) ++ p_rq (g_pool x)) (hands [o'] ++ p_wq (set_queue mode q (g_pool x)) ++ p_rq (set_queue mode q (g_pool x)))).
    { unfold set_queue, queue_of in *. destruct (mode =? WriteMode); cbn [p_wq p_rq set_wq set_rq].
      - destruct (p_wq (g_pool x)); injection Eq as <- <-; reflexivity.
      - destruct (p_rq (g_pool x)); injection Eq as <- <-; [reflexivity|]. cbn. symmetry. apply Permutation_middle. }
    assert (P3 : Permutation (around (g_pool x) hs) (map pw_conn (hands [o]) ++ around (set_queue mode q (g_pool x)) (put_nth i o' hs))).
    { unfold around. rewrite <- map_app. apply Permutation_map. rewrite app_assoc.
      etransitivity; [apply Permutation_app_tail, P|]. rewrite <- !app_assoc. rewrite (app_assoc (p_wq _)), (app_assoc (p_wq _)).
      set (rest := p_wq (set_queue mode q (g_pool x)) ++ p_rq (set_queue mode q (g_pool x))).
      etransitivity; [apply Permutation_app_swap_app|]. etransitivity; [|apply Permutation_app_swap_app]. apply Permutation_app_head. now apply hands_put. }
    split; [apply (Permutation_NoDup P3) in N; now apply NoDup_drop in N|]. intros h Hg Hi. apply (G h Hg). apply (Permutation_in _ (Permutation_sym P3)).
    apply in_or_app. now right.
  - contradiction.
  - injection E as <-. eapply Same; [reflexivity..|auto|apply Ht].
  - destruct (k_valid K h (g_world x)) as [w1 b] eqn:Ev. injection E as <-. eapply Same; [reflexivity..| |apply Ht].
    intros h' H. apply (gone_valid h). now rewrite Ev.
  - destruct Ht as [Ho Ht]. destruct (k_close K h (g_world x)) as [w1 e] eqn:Ev. injection E as <-. destruct o as [c|]; [|discriminate]. injection Ho as <-.
    exists (put_nth i None hs). cbn [g_pool g_threads g_world]. split; [apply Forall2_put; [exact F|apply Ht]|].
    assert (P3 : Permutation (around (g_pool x) hs) (pw_conn c :: around (g_pool x) (put_nth i None hs))).
    { unfold around. rewrite <- map_cons. apply Permutation_map. rewrite !app_assoc. etransitivity; [|symmetry; apply Permutation_middle].
      apply Permutation_app_head. apply (hands_put hs i (Some c) None Eo). }
    apply (Permutation_NoDup P3) in N. inversion N as [|? ? N1 N2]; subst. split; [exact N2|]. intros h Hg Hi.
    destruct (gone_close (pw_conn c) (g_world x) h) as [Hg'| ->]; [now rewrite Ev| |contradiction]. apply (G h Hg'). apply (Permutation_in _ (Permutation_sym P3)). now right.
  - injection E as <-. eapply Same; [reflexivity..|auto|apply Ht].
  - injection E as <-. eapply Same; [reflexivity|destruct f; reflexivity|destruct f; reflexivity|auto|exact Ht].
  - contradiction.
  - injection E as <-. eapply Same; [reflexivity..|auto|exact Ht].
  - contradiction.
  - contradiction.
  - contradiction.
  - contradiction.
  - contradiction.
  - contradiction.
  - contradiction.
  - contradiction.
  - contradiction.
  - contradiction.
  - contradiction.
  - contradiction.
  - contradiction.
  - contradiction.
  - contradiction.
Qed.
Lemma apart_run is : forall x x', gschedule K is x = Some x' -> apart x -> apart x'.
Proof.
  induction is as [|i is IH]; intros x x'; cbn [gschedule]; [now intros [= <-]|].
  destruct (gsys_step K i x) as [x1|] eqn:E; [|discriminate]. intros E' L. eapply IH; [exact E'|]. eapply apart_step; eauto.
Qed.
Lemma hands_in hs i c : nth_error hs i = Some (Some c) -> In c (hands hs).
Proof. intros H. apply in_flat_map. exists (Some c). split; [eapply nth_error_In; eauto|now left]. Qed.
Lemma hands_two hs : forall i j c d, i <> j -> nth_error hs i = Some (Some c) -> nth_error hs j = Some (Some d) -> NoDup (map pw_conn (hands hs)) -> pw_conn c <> pw_conn d.
Proof.
  induction hs as [|x hs IH]; intros i j c d Nij Hi Hj N; [destruct i; discriminate|]. unfold hands in N. cbn [flat_map] in N. fold (hands hs) in N.
  rewrite map_app in N. destruct i, j; cbn in Hi, Hj; try lia.
  - injection Hi as ->. cbn in N. inversion N as [|? ? N1 _]; subst. intros E. apply N1. rewrite E. apply in_map. eapply hands_in; eauto.
  - injection Hj as ->. cbn in N. inversion N as [|? ? N1 _]; subst. intros E. apply N1. rewrite <- E. apply in_map. eapply hands_in; eauto.
  - eapply (IH i j); eauto. now apply NoDup_drop in N.
Qed.
Lemma apart_start p w ts : Forall takes ts -> NoDup (idle p) -> (forall h, gone w h -> ~ In h (idle p)) -> apart (mkG p w (mkRW false 0) (map work ts)).
Proof.
  intros T N G. exists (map (fun _ => None) ts). cbn [g_pool g_threads g_world].
  assert (A : around p (map (fun _ => None) ts) = idle p).
  { unfold around, hands, idle. replace (flat_map _ _) with (@nil wrapper); [now rewrite app_nil_r, map_app|]. clear. induction ts as [|b ts IH]; [reflexivity|exact IH]. }
  rewrite A. split; [|split; [exact N|exact G]]. clear - T. induction T as [|t ts Ht T IH]; cbn [map]; constructor; [|exact IH].
  destruct t; [apply fine_borrow|destruct Ht|apply fine_stop|destruct Ht|destruct Ht|destruct Ht].
Qed.
Theorem apart_borrows p w ts is x i j c d : Forall takes ts -> NoDup (idle p) -> (forall h, gone w h -> ~ In h (idle p)) ->
  gschedule K is (mkG p w (mkRW false 0) (map work ts)) = Some x ->
  nth_error (g_threads x) i = Some (GDone (Ok c)) ->
  ~ In (pw_conn c) (idle (g_pool x)) /\ ~ gone (g_world x) (pw_conn c) /\ (i <> j -> nth_error (g_threads x) j = Some (GDone (Ok d)) -> pw_conn c <> pw_conn d).
Proof.
  intros T N G E Hc. apply apart_run in E; [|now apply apart_start].
  destruct E as (hs & F & N' & G'). destruct (Forall2_at _ _ _ _ _ F Hc) as (o & Eo & Ho). cbn in Ho. specialize (Ho c eq_refl). subst o.
  assert (A : In (pw_conn c) (map pw_conn (hands hs))) by (apply in_map; eapply hands_in; eauto).
  split; [|split].
  - unfold idle. rewrite <- map_app. intros H. unfold around in N'. rewrite app_assoc, map_app in N'.
    apply in_split in H. destruct H as (a & b & H). rewrite H, <- app_assoc in N'. cbn [app] in N'. apply NoDup_remove_2 in N'. apply N'.
    apply in_or_app. right. apply in_or_app. now right.
  - intros H. apply (G' _ H). unfold around. rewrite app_assoc, map_app. apply in_or_app. now right.
  - intros Nij Hd. destruct (Forall2_at _ _ _ _ _ F Hd) as (o & Eo' & Ho). cbn in Ho. specialize (Ho d eq_refl). subst o.
    eapply hands_two; eauto. unfold around in N'. rewrite app_assoc, map_app in N'. now apply NoDup_drop in N'.
Qed.
End Gone.
(** Borrowers that overlap in any way, also with Stop, get different connections, and none that is still idle. *)
Theorem distinct_borrows p w ts is x i j c d : Forall takes ts -> NoDup (idle p) ->
  gschedule K is (mkG p w (mkRW false 0) (map work ts)) = Some x ->
  nth_error (g_threads x) i = Some (GDone (Ok c)) ->
  ~ In (pw_conn c) (idle (g_pool x)) /\ (i <> j -> nth_error (g_threads x) j = Some (GDone (Ok d)) -> pw_conn c <> pw_conn d).
Proof.
  intros T N E Hc. destruct (apart_borrows (fun _ _ => False)) with (p := p) (w := w) (ts := ts) (is := is) (x := x) (i := i) (j := j) (c := c) (d := d); try tauto.
Qed.

(** ** What Stop leaves *)

(** A goroutine that has found the queue of readers ([r]) and that of writers ([w]) empty, and ends well only then. *)
Fixpoint sure (r w : bool) (t : gprog) : Prop :=
  match t with
  | GDone _ => True
  | GEnd => r = true /\ w = true
  | GRLock k | GRUnlock k | GLock k | GUnlock k | GWrite _ _ k | GSetRunning _ k | GUse _ k => sure r w k
  | GRunning k | GMarked _ k | GValid _ k => forall b, sure r w (k b)
  | GSize mode k => forall n, if n =? 0 then (if mode =? WriteMode then sure r true (k n) else sure true w (k n)) else sure r w (k n)
  | GDequeue _ k => forall o, sure r w (k o)
  | GEnqueue _ _ _ | GMake _ _ _ | GItems _ _ | GReplace _ _ _ | GLimits _ => False
  | GSeed _ | GOverview _ _ | GQuit _ _ | GPart _ _ | GSetPart _ _ _ | GAuth _ | GMark _ _ | GSetStrings _ _ _ => False
  | GStrings _ _ | GIndex _ _ | GSetIndex _ _ _ | GShare _ => False
  | GClose _ k => forall e, sure r w (k e)
  | GRead _ _ k => forall o, sure r w (k o)
  end.
Lemma sure_remove r w c k : (forall e, sure r w (k e)) -> sure r w (g_remove c k).
Proof. intros H. cbn. intros [|]; cbn; auto. intros [e|]; cbn; auto. Qed.
Lemma sure_borrow fuel mode : sure false false (g_borrow fuel mode).
Proof.
  unfold g_borrow, g_lend. cbn [sure]. induction fuel as [|fuel IH]; [exact I|]. cbn [g_internal_borrow sure]. intros [c|]; [|exact I].
  assert (A : sure false false (g_remove c (fun e => match e with Some e => GRUnlock (GDone (Err e)) | None => g_internal_borrow fuel mode (fun r => GRUnlock (GDone r)) end))).
  { apply sure_remove. intros [e|]; [exact I|exact IH]. }
  cbn [sure]. intros [|]; [exact A|]. cbn [sure]. intros [|]; [exact I|exact A].
Qed.
Lemma sure_drain r w fuel mode k : (forall r w z, (forall u, z <> Ok u) -> sure r w (k z)) ->
  (if mode =? WriteMode then sure r true (k (Ok tt)) else sure true w (k (Ok tt))) -> sure r w (g_drain fuel mode k).
Proof.
  intros Hk Ho. induction fuel as [|fuel IH]; [apply Hk; discriminate|]. cbn [g_drain sure]. intros n. destruct (n =? 0); [exact Ho|]. cbn [sure].
  intros [c|]; [|apply Hk; discriminate]. apply sure_remove. intros [e|]; [apply Hk; discriminate|exact IH].
Qed.
Lemma sure_stop n m : sure false false (g_stop n m).
Proof.
  assert (R : forall r w z, (forall u, z <> Ok u) -> sure r w (g_result z)) by (intros r w [u| | |] H; cbn; try exact I; now destruct (H u)).
  unfold g_stop. cbn [sure]. intros [|]; cbn [negb sure]; [|exact I]. apply sure_drain; [intros r w [u|e| |] H; [now destruct (H u)|now apply R..]|].
  change (ReadMode =? WriteMode) with false. cbv iota. apply sure_drain; [exact R|]. change (WriteMode =? WriteMode) with true. cbv iota. now split.
Qed.
Definition swept (x : gsys (W := W)) : Prop :=
  Forall (fun t => exists r w, sure r w t /\ (r = true -> p_rq (g_pool x) = []) /\ (w = true -> p_wq (g_pool x) = [])) (g_threads x).
Lemma size_empty q : size q = 0 -> q = [].
Proof. destruct q; [reflexivity|]. unfold size, zlen. cbn [length]. lia. Qed.
Lemma swept_step i x x' : gsys_step K i x = Some x' -> swept x -> swept x'.
Proof.
  unfold swept. intros E F. unfold gsys_step in E. destruct (nth_error (g_threads x) i) as [t|] eqn:Et; [|discriminate].
  pose proof Et as Ht. apply nth_error_In in Ht. rewrite Forall_forall in F. destruct (F t Ht) as (r & w & Hs & Hr & Hw).
  assert (Put : forall p w' l t', x' = mkG p w' l (put_nth i t' (g_threads x)) -> (p_rq (g_pool x) = [] -> p_rq p = []) -> (p_wq (g_pool x) = [] -> p_wq p = []) ->
    (exists r w, sure r w t' /\ (r = true -> p_rq p = []) /\ (w = true -> p_wq p = [])) -> Forall (fun t => exists r w, sure r w t /\ (r = true -> p_rq (g_pool x') = []) /\ (w = true -> p_wq (g_pool x') = [])) (g_threads x')).
  { intros p w' l t' -> Er Ew H. cbn [g_pool g_threads]. rewrite Forall_forall. intros u Hu. apply In_nth_error in Hu. destruct Hu as [j Hj].
    destruct (Nat.eq_dec i j) as [<-|N].
    - rewrite (nth_put_same i t' _ _ Et) in Hj. injection Hj as <-. exact H.
    - rewrite nth_put_other in Hj by exact N. apply nth_error_In in Hj. destruct (F u Hj) as (r' & w0 & ? & ? & ?). exists r', w0. auto. }
  destruct t; cbn [gstep] in E; cbn [sure] in Hs.
  - discriminate.
  - discriminate.
  - destruct (rw_writer (g_lock x)); [discriminate|]. injection E as <-. eapply Put; [reflexivity|auto|auto|]. exists r, w. auto.
  - injection E as <-. eapply Put; [reflexivity|auto|auto|]. exists r, w. auto.
  - destruct (rw_writer (g_lock x)); [discriminate|]. destruct (rw_readers (g_lock x)); [|discriminate]. injection E as <-. eapply Put; [reflexivity|auto|auto|]. exists r, w. auto.
  - injection E as <-. eapply Put; [reflexivity|auto|auto|]. exists r, w. auto.
  - injection E as <-. eapply Put; [reflexivity|auto|auto|]. exists r, w. auto.
  - injection E as <-. eapply Put; [reflexivity|auto|auto|]. exists r, w. auto.
  - injection E as <-. eapply Put; [reflexivity|auto|auto|]. specialize (Hs (size (queue_of mode (g_pool x)))).
    destruct (Z.eqb_spec (size (queue_of mode (g_pool x))) 0) as [Ez|Ez]; [|exists r, w; auto]. apply size_empty in Ez. unfold queue_of in *.
    destruct (mode =? WriteMode); [exists r, true|exists true, w]; auto.
  - destruct (dequeue (queue_of mode (g_pool x))) as [o' q] eqn:Eq. injection E as <-.
    assert (Q : queue_of mode (g_pool x) = [] -> q = []) by (intros E; rewrite E in Eq; now injection Eq as _ <-).
    unfold queue_of in Q. eapply Put; [reflexivity|revert Q; unfold set_queue; destruct (mode =? WriteMode); cbn; auto|revert Q; unfold set_queue; destruct (mode =? WriteMode); cbn; auto|].
    exists r, w. split; [apply Hs|]. revert Q. unfold set_queue. destruct (mode =? WriteMode); cbn; auto.
  - contradiction.
  - injection E as <-. eapply Put; [reflexivity|auto|auto|]. exists r, w. auto.
  - destruct (k_valid K h (g_world x)) as [w1 b] eqn:Ev. injection E as <-. eapply Put; [reflexivity|auto|auto|]. exists r, w. auto.
  - destruct (k_close K h (g_world x)) as [w1 e] eqn:Ev. injection E as <-. eapply Put; [reflexivity|auto|auto|]. exists r, w. auto.
  - injection E as <-. eapply Put; [reflexivity|auto|auto|]. exists r, w. auto.
  - injection E as <-. eapply Put; [reflexivity|destruct f; auto..|]. exists r, w. split; [exact Hs|]. destruct f; auto.
  - contradiction.
  - injection E as <-. eapply Put; [reflexivity|auto|auto|]. exists r, w. auto.
  - contradiction.
  - contradiction.
  - contradiction.
  - contradiction.
  - contradiction.
  - contradiction.
  - contradiction.
  - contradiction.
  - contradiction.
  - contradiction.
  - contradiction.
  - contradiction.
  - contradiction.
  - contradiction.
  - contradiction.
Qed.
Lemma swept_run is : forall x x', gschedule K is x = Some x' -> swept x -> swept x'.
Proof.
  induction is as [|i is IH]; intros x x'; cbn [gschedule]; [now intros [= <-]|].
  destruct (gsys_step K i x) as [x1|] eqn:E; [|discriminate]. intros E' L. eapply IH; [exact E'|]. eapply swept_step; eauto.
Qed.
(** Once a Stop has ended well the pool has no idle connection, whoever borrows or stops meanwhile. *)
Theorem stopped_empty p w l ts is x i : Forall takes ts ->
  gschedule K is (mkG p w l (map work ts)) = Some x -> nth_error (g_threads x) i = Some GEnd -> idle (g_pool x) = [].
Proof.
  intros T E H. apply swept_run in E.
  - unfold swept in E. rewrite Forall_forall in E. destruct (E _ (nth_error_In _ _ H)) as (r & w' & [-> ->] & Hr & Hw). unfold idle. now rewrite Hr, Hw.
  - unfold swept. cbn [g_threads g_pool]. rewrite Forall_map. eapply Forall_impl; [|exact T]. intros t Ht. exists false, false.
    split; [|split; discriminate]. destruct t; [apply sure_borrow|destruct Ht|apply sure_stop|destruct Ht|destruct Ht|destruct Ht].
Qed.
End Race.

(** What is lent while others borrow and stop the pool is not closed by any of them. *)
Theorem lent_untouched {W} (K : cluster W) p w ts is x i c : Forall takes ts -> NoDup (idle p) ->
  gschedule (watch K) is (mkG p (w, []) (mkRW false 0) (map work ts)) = Some x ->
  nth_error (g_threads x) i = Some (GDone (Ok c)) -> forall e, ~ In (KClose (pw_conn c) e) (snd (g_world x)).
Proof.
  intros T N E Hc e He. set (gone := fun (w : W * list kevent) h => exists e, In (KClose h e) (snd w)).
  assert (A : forall h w h', gone (fst (k_valid (watch K) h w)) h' -> gone w h').
  { intros h [w1 tr] h' [e' H]. cbn in H. destruct (k_valid K h w1) as [w2 b]. cbn in H. destruct H as [H|H]; [discriminate|now exists e']. }
  assert (B : forall h w h', gone (fst (k_close (watch K) h w)) h' -> gone w h' \/ h' = h).
  { intros h [w1 tr] h' [e' H]. cbn in H. destruct (k_close K h w1) as [w2 b]. cbn in H. destruct H as [[= -> _]|H]; [now right|left; now exists e']. }
  destruct (apart_borrows (watch K) gone A B p (w, []) ts is x i i c c T N) as (_ & H & _); [intros h [e' []]|exact E|exact Hc|]. apply H. now exists e.
Qed.
