(** How many connections a routing pool opens, keeps and closes, and in which order. *)
From Coq Require Import String ZArith List Bool Lia ZifyBool Permutation.
From Verif Require Import Bytes GoVal GoErr Decoder Messages GoStr Routing Pool SpecPool BytesFacts RoutingFacts PoolFacts LendFacts SteadyFacts WatchPoolFacts RouteFacts.
Import ListNotations.
Open Scope Z_scope.

(** ** C55 *)
Theorem fifo l : forall q os q', run_queue l q = (os, q') -> q ++ puts l = somes os ++ q'.
Proof.
  induction l as [|[c|] l IH]; intros q os q'; cbn [run_queue puts flat_map].
  - intros [= <- <-]. cbn. now rewrite app_nil_r.
  - intros E. apply IH in E. unfold enqueue in E. rewrite <- app_assoc in E. exact E.
  - destruct q as [|x q]; cbn [dequeue].
    + destruct (run_queue l []) as [os1 q1] eqn:E. intros [= <- <-]. apply IH in E. exact E.
    + destruct (run_queue l q) as [os1 q1] eqn:E. intros [= <- <-]. apply IH in E. cbn. f_equal. exact E.
Qed.
Theorem nothing_only_if_empty q o q' : dequeue q = (o, q') -> (o = None <-> q = []).
Proof. destruct q; cbn; intros [= <- _]; easy. Qed.
Theorem looks_at l os q : run_queue l [] = (os, q) -> exists rest, puts l = somes os ++ rest
  /\ size q = zlen rest /\ (is_empty q = true <-> rest = []) /\ front q = match rest with [] => Panic | c :: _ => Ok c end.
Proof.
  intros E. apply fifo in E. exists q. split; [exact E|]. split; [reflexivity|]. split; [|now destruct q].
  unfold is_empty. destruct q as [|c q]; [easy|]. rewrite zlen_cons. pose proof (zlen_nonneg q). split; [lia|discriminate].
Qed.

(** ** Traces of additions *)

Lemma opens_app a b : opens (a ++ b) = opens b ++ opens a.
Proof. unfold opens. now rewrite flat_map_app, rev_app_distr. Qed.
Lemma dialled_app a b : dialled (a ++ b) = dialled b ++ dialled a.
Proof. unfold dialled. now rewrite flat_map_app, rev_app_distr. Qed.

Section Sizes.
Context {W : Type}.
Variable K : cluster W.

Lemma add_trace m p w tr p' w' tr' : add_conn (watch K) m p (w, tr) = (p', (w', tr'), Ok tt) ->
  exists c, tr' = KDial (pw_str c) (Ok (pw_conn c)) :: tr /\ queue_of m p' = queue_of m p ++ [c] /\ queue_of (other m) p' = queue_of (other m) p
  /\ p_borrowed p' = p_borrowed p /\ pw_mode c = m.
Proof.
  intros E. eapply (add_eff (watch K) longer) in E; eauto using longer_refl, longer_trans, longer_dial, longer_valid, longer_close, longer_name.
  destruct E as [(s & c & i & x & _ & (w1 & name & Ed & En & Ec) & _ & ->)|(_ & N & _)]; [|congruence].
  destruct w1 as [w1 tr1]. cbn in Ed, En. destruct (k_dial K s w) as [wa ra]. injection Ed as -> <- ->. destruct (k_name K w1) as [wb nb]. injection En as -> <- ->.
  exists c. split; [rewrite Ec; reflexivity|]. split; [unfold queue_of, set_queue; destruct (m =? WriteMode); reflexivity|].
  split; [unfold queue_of, set_queue, other, set_index; destruct (m =? WriteMode); reflexivity|].
  split; [unfold set_queue, set_index; destruct (m =? WriteMode); reflexivity|]. now rewrite Ec.
Qed.
Lemma times_trace m k : forall p w tr p' w' tr', times k (add_conn (watch K) m) p (w, tr) = (p', (w', tr'), Ok tt) ->
  exists cs new, length cs = k /\ tr' = new ++ tr /\ opens new = map entry cs /\ dialled new = map pw_str cs
  /\ queue_of m p' = queue_of m p ++ cs /\ queue_of (other m) p' = queue_of (other m) p.
Proof.
  induction k as [|k IH]; intros p w tr p' w' tr'; cbn [times].
  - intros [= <- <- <-]. exists [], []. cbn. now rewrite app_nil_r.
  - unfold bind, mbind. destruct (add_conn (watch K) m p (w, tr)) as [[p1 [w1 tr1]] r1] eqn:E. destruct r1 as [[]|e| |]; try discriminate.
    apply add_trace in E. destruct E as (c & -> & E2 & E3 & _). intros E. apply IH in E. destruct E as (cs & new & L & -> & O & D & Q1 & Q2).
    exists (c :: cs), (new ++ [KDial (pw_str c) (Ok (pw_conn c))]). split; [cbn; lia|]. split; [now rewrite <- app_assoc|].
    split; [now rewrite opens_app, O|]. split; [now rewrite dialled_app, D|].
    split; [rewrite Q1, E2, <- app_assoc; reflexivity|congruence].
Qed.
Lemma times_max m k p w p' w' r : times k (add_conn (watch K) m) p w = (p', w', r) -> p_max_r p' = p_max_r p.
Proof. intros E. now apply steady_times in E. Qed.

Lemma write_share_spec n : 2 <= n -> write_share n = (n + 1) / 2.
Proof.
  intros H. unfold write_share. rewrite Z.rem_mod_nonneg, !Z.quot_div_nonneg by lia.
  destruct (Z.eqb_spec (n mod 2) 0); lia.
Qed.
Lemma read_share_spec n : 2 <= n -> read_share n = n / 2.
Proof.
  intros H. unfold read_share. rewrite Z.rem_mod_nonneg, !Z.quot_div_nonneg by lia.
  destruct (Z.eqb_spec (n mod 2) 0); lia.
Qed.

(** A refresh that succeeds leaves one connection opened and closed, and no more. *)
Lemma refresh_trace p w tr p' w' tr' : refresh_connections (watch K) p (w, tr) = (p', (w', tr'), Ok tt) ->
  (p' = p /\ exists e, tr' = KDial (p_leader p) (Err e) :: tr)
  \/ (exists d e v rows hd, tr' = [KClose d e; KQuery d v rows; KDial (p_leader p) (Ok d)] ++ tr
      /\ hd = fst (refresh_cluster_info (p_handler p) v rows) /\ p' = merge_strings (set_handler hd p)).
Proof.
  unfold refresh_connections, mbind, get, dial. cbn [watch k_dial k_query fst snd].
  destruct (k_dial K (p_leader p) w) as [w1 rd]. destruct rd as [h|e| |].
  2: unfold ret; intros E; injection E; intros; subst; left; eauto.
  2,3: discriminate.
  cbn [fst snd]. destruct (k_query K h w1) as [w2 [v rows]].
  destruct rows as [rows|e| |].
  - destruct (refresh_cluster_info (p_handler p) v (Ok rows)) as [hd x] eqn:Eh. unfold close_conn. cbn [watch k_close fst snd]. destruct (k_close K h w2) as [w3 ec].
    intros [= <- _ <-]. right. exists h, ec, v, (Ok rows), hd. rewrite Eh. auto.
  - destruct (refresh_cluster_info (p_handler p) v (Err e)) as [hd x] eqn:Eh. unfold close_conn. cbn [watch k_close fst snd]. destruct (k_close K h w2) as [w3 ec].
    intros [= <- _ <-]. right. exists h, ec, v, (Err e), hd. rewrite Eh. auto.
  - unfold close_conn. cbn [watch k_close fst snd]. destruct (k_close K h w2) as [w3 ec]. discriminate.
  - unfold close_conn. cbn [watch k_close fst snd]. destruct (k_close K h w2) as [w3 ec]. discriminate.
Qed.

Lemma new_fields leader n auth tls p : new_routing_pool leader n auth tls = Ok p ->
  p_lookup p = [] /\ p_marked p = [] /\ p_running p = false /\ p_total p = n /\ p_wq p = [] /\ p_rq p = [] /\ p_borrowed p = [] /\ p_rw p = [] /\ p_rs p = []
  /\ p_rw_index p = 0 /\ p_rs_index p = 0 /\ p_auth p = auth /\ p_tls p = tls /\ p_min_w p = 0 /\ p_min_r p = 0 /\ leader <> [] /\ n <> 0 /\ n <> 1.
Proof.
  unfold new_routing_pool. destruct (bytes_eqb leader []) eqn:E1; [discriminate|]. apply bytes_eqb_neq in E1.
  destruct ((n =? 0) || (n =? 1)) eqn:E2; [discriminate|]. intros [= <-]. cbn. repeat split; auto; lia.
Qed.

(** C48 *)
Theorem start_opens leader n auth tls p w p' w' tr : 2 <= n -> new_routing_pool leader n auth tls = Ok p ->
  start_pool (watch K) p (w, []) = (p', (w', tr), Ok tt) ->
  zlen (p_wq p') = (n + 1) / 2 /\ zlen (p_rq p') = n / 2
  /\ exists d e, In (KClose d e) tr /\ opens tr = (p_leader p, d) :: map entry (p_wq p' ++ p_rq p').
Proof.
  intros Hn En Es. apply new_fields in En. destruct En as (Hl & Hm & Hr & Ht & Hw & Hq & _ & Hrw & _).
  unfold start_pool, get in Es. rewrite Hr in Es. unfold bind, mbind, upd in Es. set (p0 := set_max _ _ _) in Es.
  destruct (refresh_connections (watch K) p0 (w, [])) as [[p1 [w1 tr1]] r1] eqn:Er. destruct r1 as [[]|e| |]; try discriminate.
  pose proof (steady_refresh _ p0 _ _ _ _ Hl Er) as (_ & _ & Mw & Mr & Q1 & Q2 & _).
  destruct (times (Z.to_nat (p_max_w p1)) (add_conn (watch K) WriteMode) p1 (w1, tr1)) as [[p2 [w2 tr2]] r2] eqn:Et. destruct r2 as [[]|e| |]; try discriminate.
  pose proof (times_max _ _ _ _ _ _ _ Et) as Mr2. pose proof (times_trace _ _ _ _ _ _ _ _ Et) as (ws & n2 & L2 & -> & O2 & _ & A2 & B2).
  pose proof (times_trace _ _ _ _ _ _ _ _ Es) as (rs & n3 & L3 & -> & O3 & _ & A3 & B3).
  change (queue_of WriteMode ?x) with (p_wq x) in *. change (queue_of ReadMode ?x) with (p_rq x) in *.
  change (queue_of (other WriteMode) ?x) with (p_rq x) in *. change (queue_of (other ReadMode) ?x) with (p_wq x) in *.
  change (p_wq p0) with (p_wq p) in Q1. change (p_rq p0) with (p_rq p) in Q2.
  rewrite B2, Q2, Hq in A3. rewrite Q1, Hw in A2. cbn [app] in A2, A3. rewrite A2 in B3.
  assert (Ew : p_max_w p1 = (n + 1) / 2) by (rewrite Mw; cbn; rewrite Ht; now apply write_share_spec).
  assert (Ex : p_max_r p2 = n / 2) by (rewrite Mr2, Mr; cbn; rewrite Ht; now apply read_share_spec).
  rewrite B3, A3. split; [unfold zlen; lia|]. split; [unfold zlen; lia|].
  apply refresh_trace in Er. destruct Er as [(-> & e & ->)|(d & e & v & rows & hd & -> & _)].
  - exfalso. destruct (Z.to_nat (p_max_w p0)) as [|k] eqn:Ek; [lia|]. cbn [times] in Et. unfold bind, mbind in Et.
    unfold add_conn at 1, get in Et. change (strings_for WriteMode p0) with (p_rw p) in Et. rewrite Hrw in Et. discriminate.
  - exists d, e. split; [rewrite !in_app_iff; cbn; tauto|]. rewrite !opens_app, O2, O3. cbn. rewrite map_app. reflexivity.
Qed.

(** Start succeeds when servers can be reached and the overview lists a leader and a reader. *)
Lemma add_ok m p w : strings_for m p <> [] -> 0 <= index_for m p < zlen (strings_for m p) -> (forall s w, exists w' h, k_dial K s w = (w', Ok h)) ->
  exists p' w', add_conn K m p w = (p', w', Ok tt) /\ strings_for m p' = strings_for m p /\ 0 <= index_for m p' < zlen (strings_for m p')
  /\ strings_for (other m) p' = strings_for (other m) p /\ index_for (other m) p' = index_for (other m) p.
Proof.
  intros Hs Hi Hd. unfold add_conn, get. destruct (strings_for m p) as [|s0 strs] eqn:Es in *; [congruence|]. set (l := s0 :: strs) in *.
  cbv zeta. set (i := if _ =? _ then 0 else _).
  assert (Hr : 0 <= i < zlen l) by (unfold i; destruct (Z.eqb_spec (index_for m p + 1) (zlen l)); lia).
  unfold bind at 1, mbind at 1, upd at 1. replace ((0 <=? i) && (i <? zlen l)) with true by lia.
  destruct (nth_error l (Z.to_nat i)) as [s|] eqn:En; [|apply nth_error_None in En; unfold zlen in Hr; lia].
  unfold new_connection, bind, mbind, dial. destruct (Hd s w) as (w1 & h & ->). destruct (k_name K w1) as [w2 name].
  eexists _, _. split; [reflexivity|]. unfold set_queue, set_index, strings_for, index_for, other in *. destruct (m =? WriteMode); cbn; rewrite Es; auto.
Qed.
Lemma times_ok m k : forall p w, strings_for m p <> [] -> 0 <= index_for m p < zlen (strings_for m p) -> (forall s w, exists w' h, k_dial K s w = (w', Ok h)) ->
  exists p' w', times k (add_conn K m) p w = (p', w', Ok tt)
  /\ strings_for (other m) p' = strings_for (other m) p /\ index_for (other m) p' = index_for (other m) p.
Proof.
  induction k as [|k IH]; intros p w Hs Hi Hd; cbn [times]; [eexists _, _; split; [reflexivity|auto]|].
  unfold bind, mbind. destruct (add_ok m p w Hs Hi Hd) as (p1 & w1 & -> & E1 & E2 & E3 & E4).
  destruct (IH p1 w1) as (p2 & w2 & -> & E5 & E6); [congruence|congruence|exact Hd|]. eexists _, _. split; [reflexivity|]. split; congruence.
Qed.
Lemma decorated_nonempty auth tls news kept : news <> [] -> decorated auth tls news kept <> [].
Proof.
  destruct news as [|a news]; [congruence|]. intros _ E. assert (H : In (add_auth_info auth tls a) (decorated auth tls (a :: news) kept)).
  { apply decorated_in. right. exists a. split; [now left|reflexivity]. }
  rewrite E in H. destruct H.
Qed.
Theorem start_succeeds leader n auth tls p w : new_routing_pool leader n auth tls = Ok p ->
  (forall s w, exists w' h, k_dial K s w = (w', Ok h)) ->
  (forall h w, exists w' v rows t, k_query K h w = (w', (v, Ok rows)) /\ table_of (contains (str "bolt")) v rows t
     /\ h_leaders t <> [] /\ h_followers t ++ h_replicas t <> []) ->
  exists p' w', start_pool K p w = (p', w', Ok tt).
Proof.
  intros En Hd Hq. apply new_fields in En. destruct En as (Hl & Hm & Hr & Ht & Hw & Hrq & _ & Hrw & Hrs & Hi1 & Hi2 & _).
  unfold start_pool, get. rewrite Hr. unfold bind, mbind, upd. set (p0 := set_max _ _ _).
  assert (exists p1 w1, refresh_connections K p0 w = (p1, w1, Ok tt) /\ p_rw p1 <> [] /\ p_rs p1 <> [] /\ p_rw_index p1 = 0 /\ p_rs_index p1 = 0) as (p1 & w1 & E1 & N1 & N2 & I1 & I2).
  { unfold refresh_connections, mbind, get, dial. destruct (Hd (p_leader p0) w) as (wa & h & ->). destruct (Hq h wa) as (wb & v & rows & t & -> & T & Tl & Tr).
    apply (refresh_table (p_handler p0)) in T. rewrite T. unfold close_conn. destruct (k_close K h wb) as [wc e].
    eexists _, _. split; [reflexivity|]. rewrite merge_rw, merge_rs. cbn [p_handler set_handler].
    split; [apply decorated_nonempty; unfold get_write_connection_strings; destruct (h_leaders t); [congruence|discriminate]|].
    split; [apply decorated_nonempty; unfold get_read_only_connection_strings; rewrite <- map_app; destruct (h_followers t ++ h_replicas t); [congruence|discriminate]|].
    split; [exact Hi1|exact Hi2]. }
  rewrite E1.
  assert (P : forall l : list bytes, l <> [] -> 0 <= 0 < zlen l) by (intros [|x l] H; [congruence|unfold zlen; cbn [length]; lia]).
  destruct (times_ok WriteMode (Z.to_nat (p_max_w p1)) p1 w1) as (p2 & w2 & E2 & S2 & I3);
    [exact N1|change (index_for WriteMode p1) with (p_rw_index p1); rewrite I1; apply P; exact N1|exact Hd|].
  rewrite E2. change (strings_for (other WriteMode) ?x) with (p_rs x) in S2. change (index_for (other WriteMode) ?x) with (p_rs_index x) in I3.
  destruct (times_ok ReadMode (Z.to_nat (p_max_r p2)) p2 w2) as (p3 & w3 & E3 & _);
    [change (p_rs p2 <> []); congruence|change (0 <= p_rs_index p2 < zlen (p_rs p2)); rewrite I3, I2, S2; apply P; exact N2|exact Hd|].
  eauto.
Qed.

(** ** C54 *)
Lemma remove_verdict c p w tr p' w' tr' r : remove_conn (watch K) (Some c) p (w, tr) = (p', (w', tr'), r) ->
  exists new, tr' = new ++ tr /\ (r = Ok tt -> In (KValid (pw_conn c) true) new \/ In (KClose (pw_conn c) None) new)
  /\ (forall h e, In (KClose h e) new -> In (KValid h false) new) /\ forall h b, In (KValid h b) new -> h = pw_conn c.
Proof.
  intros E. apply remove_trace in E. destruct E as (new & -> & D). exists new. split; [reflexivity|].
  destruct D as [[-> [->| ->]]|(e & -> & ->)]; cbn; (split; [intros H; try discriminate; intuition|split]); intros; intuition congruence.
Qed.
Lemma drain_trace m fuel : forall p w tr p' w' tr', drain (watch K) fuel m p (w, tr) = (p', (w', tr'), Ok tt) -> (length (queue_of m p) < fuel)%nat ->
  exists new, tr' = new ++ tr /\ queue_of m p' = []
  /\ (forall c, In c (queue_of m p) -> In (KValid (pw_conn c) true) new \/ In (KClose (pw_conn c) None) new)
  /\ (forall h e, In (KClose h e) new -> In (KValid h false) new).
Proof.
  induction fuel as [|fuel IH]; intros p w tr p' w' tr'; [lia|]. cbn [drain]. unfold get at 1.
  destruct (queue_of m p) as [|c q] eqn:Eq.
  - cbn. intros [= <- _ <-] _. exists []. split; [reflexivity|]. split; [exact Eq|]. split; [intros c []|intros h e []].
  - replace (size (c :: q) =? 0) with false by (unfold size, zlen; cbn [length]; lia).
    intros E Hl. cbn [length] in Hl. unfold take_out, bind, mbind, get in E. rewrite Eq in E. cbn [dequeue] in E. unfold upd in E.
    destruct (remove_conn (watch K) (Some c) (set_queue m q p) (w, tr)) as [[p1 [w1 tr1]] r1] eqn:E1.
    pose proof (remove_eff _ longer longer_trans (longer_valid K) (longer_close K) _ _ _ _ _ _ E1) as ([x Hs] & _ & _).
    apply remove_verdict in E1. destruct E1 as (n1 & -> & V & C & _).
    destruct r1 as [[]|e| |]; try discriminate.
    assert (Q : queue_of m p1 = q) by (subst p1; unfold queue_of, set_queue; destruct (m =? WriteMode); reflexivity).
    apply IH in E; [|rewrite Q; lia]. destruct E as (n2 & -> & Q2 & A & B). rewrite Q in A.
    exists (n2 ++ n1). split; [now rewrite <- app_assoc|]. split; [exact Q2|]. split.
    + intros d [<-|H]; [destruct (V eq_refl)|destruct (A d H)]; rewrite !in_app_iff; auto.
    + intros h e H. apply in_app_or in H. destruct H as [H|H]; [apply B in H|apply C in H]; rewrite in_app_iff; auto.
Qed.
Theorem stop_trace p w tr p' w' tr' : stop_pool (watch K) p (w, tr) = (p', (w', tr'), Ok tt) ->
  exists new, tr' = new ++ tr /\ p_wq p' = [] /\ p_rq p' = []
  /\ (forall h, In h (idle p) -> In (KValid h true) new \/ In (KClose h None) new)
  /\ (forall h e, In (KClose h e) new -> In (KValid h false) new).
Proof.
  unfold stop_pool, get. destruct (p_running p); [|discriminate]. cbn [negb]. unfold bind, mbind, upd.
  destruct (drain (watch K) (S (length (p_rq p))) ReadMode (set_running false p) (w, tr)) as [[p1 [w1 tr1]] r1] eqn:E1.
  destruct r1 as [[]|e| |]; try discriminate. assert (X := E1). apply steady_drain in X; [|cbn; lia]. destruct X as (_ & _ & _ & _ & _ & Q & _).
  change (queue_of (other ReadMode) ?x) with (p_wq x) in Q. cbn in Q.
  apply drain_trace in E1; [|cbn; lia]. destruct E1 as (n1 & -> & R1 & A1 & B1). change (queue_of ReadMode ?x) with (p_rq x) in *. cbn in A1.
  intros E2. assert (X := E2). apply steady_drain in X; [|change (queue_of WriteMode p1) with (p_wq p1); rewrite Q; lia]. destruct X as (_ & _ & _ & _ & _ & Q2 & _).
  change (queue_of (other WriteMode) ?x) with (p_rq x) in Q2.
  apply drain_trace in E2; [|change (queue_of WriteMode p1) with (p_wq p1); rewrite Q; lia]. destruct E2 as (n2 & -> & R2 & A2 & B2).
  change (queue_of WriteMode ?x) with (p_wq x) in *.
  exists (n2 ++ n1). split; [now rewrite app_assoc|]. split; [exact R2|]. split; [congruence|]. split.
  - intros h H. unfold idle in H. apply in_app_or in H. destruct H as [H|H]; apply in_map_iff in H; destruct H as (c & <- & H).
    + rewrite <- Q in H. destruct (A2 c H); rewrite !in_app_iff; auto.
    + destruct (A1 c H); rewrite !in_app_iff; auto.
  - intros h e H. apply in_app_or in H. destruct H as [H|H]; [apply B2 in H|apply B1 in H]; rewrite in_app_iff; auto.
Qed.

End Sizes.
