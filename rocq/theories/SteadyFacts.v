(** What no operation of a routing pool changes. *)
From Coq Require Import String ZArith List Bool Lia ZifyBool Permutation.
From Verif Require Import Bytes GoVal GoErr Decoder Messages GoStr Routing Pool SpecPool BytesFacts RoutingFacts PoolFacts LendFacts.
Import ListNotations.
Open Scope Z_scope.

Section Steady.
Context {W : Type}.
Variable K : cluster W.
Definition anyw (a b : W) : Prop := True.
Lemma anyw_all a b : anyw a b. Proof. exact I. Qed.
Hint Resolve anyw_all : core.

Definition steady (p : pool) := (p_lookup p, p_marked p, p_auth p, p_tls p, p_leader p, p_total p, p_min_w p, p_min_r p).
Lemma steady_queue m q p : steady (set_queue m q p) = steady p.
Proof. unfold set_queue. destruct (m =? WriteMode); reflexivity. Qed.
Lemma steady_index m q p : steady (set_index m q p) = steady p.
Proof. unfold set_index. destruct (m =? WriteMode); reflexivity. Qed.
Lemma steady_merge hd p : p_lookup p = [] -> steady (merge_strings (set_handler hd p)) = steady p.
Proof.
  intros H. assert (E : p_marked (merge_strings (set_handler hd p)) = p_marked p) by exact (f_equal (fun x => snd (fst x)) (core_merge hd p H)).
  unfold steady. rewrite E. reflexivity.
Qed.
Lemma steady_lookup p q : steady q = steady p -> p_lookup p = [] -> p_lookup q = [].
Proof. unfold steady. congruence. Qed.

Lemma steady_add m p w p' w' r : add_conn K m p w = (p', w', r) -> steady p' = steady p /\ p_running p' = p_running p /\ p_max_w p' = p_max_w p /\ p_max_r p' = p_max_r p.
Proof.
  intros E. eapply (add_eff K anyw) in E; auto.
  destruct E as [(s & c & i & x & _ & M & _ & ->)|(G & _ & [->|[i ->]])].
  - unfold set_queue, set_index. destruct (m =? WriteMode); repeat split.
  - repeat split.
  - unfold set_index. destruct (m =? WriteMode); repeat split.
Qed.
Lemma steady_times n m : forall p w p' w' r, times n (add_conn K m) p w = (p', w', r) ->
  steady p' = steady p /\ p_running p' = p_running p /\ p_max_w p' = p_max_w p /\ p_max_r p' = p_max_r p.
Proof.
  induction n as [|n IH]; intros p w p' w' r; cbn [times]; [intros [= <- _ _]; auto|].
  unfold bind, mbind. destruct (add_conn K m p w) as [[p1 w1] r1] eqn:E. apply steady_add in E. destruct E as (E1 & E2 & E3 & E4).
  destruct r1; intros E'; try (injection E' as <- _ _; auto). apply IH in E'. destruct E' as (E5 & E6 & E7 & E8). repeat split; congruence.
Qed.
Lemma steady_refresh p w p' w' r : p_lookup p = [] -> refresh_connections K p w = (p', w', r) ->
  steady p' = steady p /\ p_running p' = p_running p /\ p_max_w p' = p_max_w p /\ p_max_r p' = p_max_r p
  /\ p_wq p' = p_wq p /\ p_rq p' = p_rq p /\ p_borrowed p' = p_borrowed p /\ p_rw_index p' = p_rw_index p /\ p_rs_index p' = p_rs_index p.
Proof.
  intros H E. eapply (refresh_eff K anyw) in E; auto. destruct E as (_ & [->|(hd & -> & _)]); [repeat split|].
  split; [now apply steady_merge|]. repeat split.
Qed.
Lemma steady_drain m fuel p w p' w' r : drain K fuel m p w = (p', w', r) -> (length (queue_of m p) < fuel)%nat ->
  steady p' = steady p /\ p_running p' = p_running p /\ p_max_w p' = p_max_w p /\ p_max_r p' = p_max_r p /\ p_borrowed p' = p_borrowed p
  /\ queue_of (other m) p' = queue_of (other m) p
  /\ exists gone, queue_of m p = gone ++ queue_of m p'.
Proof.
  intros E Hl. eapply (drain_eff K anyw) in E; auto. destruct E as (_ & g & rest & x & Eq & -> & _).
  assert (Q : exists gone, queue_of m p = gone ++ queue_of m (set_held x (set_queue m rest p))).
  { exists g. rewrite Eq. f_equal. unfold queue_of, set_queue. destruct (m =? WriteMode); reflexivity. }
  split; [apply (steady_queue m rest p)|]. repeat (split; [unfold set_queue, queue_of, other; destruct (m =? WriteMode); reflexivity|]). exact Q.
Qed.
Lemma steady_step o p w p' w' r : do_pop K o p w = (p', w', r) -> p_lookup p = [] -> p_marked p = [] -> steady p' = steady p.
Proof.
  intros E Hl Hm. destruct o as [| |m|id h|]; cbn [do_pop] in E.
  - destruct (start_pool K p w) as [[p1 w1] r1] eqn:Es. injection E as <- _ _. unfold start_pool, get in Es.
    destruct (p_running p); [now injection Es as <- _ _|]. unfold bind, mbind, upd in Es.
    destruct (refresh_connections K _ w) as [[p2 w2] r2] eqn:Er. apply steady_refresh in Er; [|exact Hl].
    assert (S2 : steady p2 = steady p) by apply Er.
    destruct r2; try (now injection Es as <- _ _).
    destruct (times _ (add_conn K WriteMode) p2 w2) as [[p3 w3] r3] eqn:Et. apply steady_times in Et. destruct Et as (Et & _).
    destruct r3; try (injection Es as <- _ _; congruence). apply steady_times in Es. destruct Es as (Es & _). congruence.
  - destruct (stop_pool K p w) as [[p1 w1] r1] eqn:Es. injection E as <- _ _. unfold stop_pool, get in Es.
    destruct (p_running p); [|now injection Es as <- _ _]. cbn [negb] in Es. unfold bind, mbind, upd in Es.
    destruct (drain K _ ReadMode _ w) as [[p2 w2] r2] eqn:Er. apply steady_drain in Er; [|cbn; lia].
    assert (S2 : steady p2 = steady p) by apply Er. assert (Q : p_wq p2 = p_wq p) by apply Er.
    destruct r2; try (now injection Es as <- _ _). apply steady_drain in Es; [|cbn; rewrite Q; lia]. destruct Es as (Es & _). congruence.
  - destruct (borrow K _ p w) as [[p1 w1] r1] eqn:Es. injection E as <- _ _. unfold borrow, get in Es.
    eapply (borrow_eff K anyw) in Es; auto.
    destruct Es as (_ & sk & rest & x & Eq & [(c & rest' & _ & _ & _ & ->)|[_ ->]]).
    + exact (steady_queue _ _ p).
    + exact (steady_queue _ _ p).
  - destruct (reclaim K id h p w) as [[p1 w1] r1] eqn:Es. injection E as <- _ _. eapply (reclaim_eff K anyw) in Es; auto.
    destruct Es as [(_ & -> & _)|(_ & c & x & _ & [(_ & _ & ->)|(w2 & e & w0 & _ & _ & _ & Ea)])]; [reflexivity|exact (steady_queue _ _ _)|].
    apply steady_add in Ea. now destruct Ea as (-> & _).
  - destruct (refresh_round K p w) as [[p1 w1] r1] eqn:Es. injection E as <- _ _. unfold refresh_round, bind, mbind in Es.
    destruct (refresh_connections K p w) as [[p2 w2] r2] eqn:Er. apply steady_refresh in Er; [|exact Hl]. destruct Er as (Er & _).
    assert (M2 : p_marked p2 = []) by (unfold steady in Er; congruence).
    destruct r2; try (now injection Es as <- _ _).
    rewrite (prune_nothing _ p2 w2 M2) in Es. rewrite balance_nothing in Es by lia. now injection Es as <- _ _.
Qed.
Lemma steady_run os : forall p w p' w' l, run_pool K os p w = (p', w', l) -> p_lookup p = [] -> p_marked p = [] -> steady p' = steady p.
Proof.
  induction os as [|o os IH]; intros p w p' w' l; cbn [run_pool]; [now intros [= <- _ _]|].
  destruct (do_pop K o p w) as [[p1 w1] r] eqn:E1. destruct (run_pool K os p1 w1) as [[p2 w2] l'] eqn:E2. intros [= <- _ _] Hl Hm.
  apply steady_step in E1; auto. rewrite (IH _ _ _ _ _ E2); [exact E1|unfold steady in E1; congruence..].
Qed.
Theorem never_marked n auth tls w0 l p w : pool_history K n auth tls w0 l p w -> p_marked p = [] /\ p_lookup p = [].
Proof.
  intros (leader & p0 & En & Er). apply steady_run in Er.
  - unfold new_routing_pool in En. destruct (bytes_eqb leader []); [discriminate|]. destruct (_ || _); [discriminate|]. injection En as <-.
    unfold steady in Er. cbn in Er. split; congruence.
  - unfold new_routing_pool in En. destruct (bytes_eqb leader []); [discriminate|]. destruct (_ || _); [discriminate|]. now injection En as <-.
  - unfold new_routing_pool in En. destruct (bytes_eqb leader []); [discriminate|]. destruct (_ || _); [discriminate|]. now injection En as <-.
Qed.
End Steady.
