(** The number of idle and lent connections stays within the limits (C53). *)
From Coq Require Import String ZArith List Bool Lia ZifyBool Permutation.
From Verif Require Import Bytes GoVal GoErr Decoder Messages GoStr Routing Pool SpecPool BytesFacts RoutingFacts PoolFacts LendFacts SteadyFacts WatchPoolFacts RouteFacts SizeFacts.
Import ListNotations.
Open Scope Z_scope.

Definition of_mode (m : Z) (l : list (bytes * wrapper)) : list (bytes * wrapper) := filter (fun x => pw_mode (snd x) =? m) l.
Lemma of_mode_cons m k c l : of_mode m ((k, c) :: l) = if pw_mode c =? m then (k, c) :: of_mode m l else of_mode m l.
Proof. reflexivity. Qed.
Lemma of_mode_del m id l : zlen (of_mode m (map_del id l)) <= zlen (of_mode m l).
Proof.
  induction l as [|[k c] l IH]; cbn [map_del]; [cbn; lia|]. rewrite of_mode_cons. destruct (bytes_eqb id k).
  - destruct (pw_mode c =? m); unfold zlen in *; cbn [length]; lia.
  - rewrite of_mode_cons. destruct (pw_mode c =? m); unfold zlen in *; cbn [length]; lia.
Qed.
Lemma of_mode_del_one m id l c : map_get l id = Some c -> pw_mode c = m -> zlen (of_mode m (map_del id l)) < zlen (of_mode m l).
Proof.
  induction l as [|[k d] l IH]; cbn [map_del map_get]; [discriminate|]. rewrite of_mode_cons. destruct (bytes_eqb id k).
  - intros [= ->] ->. rewrite Z.eqb_refl. pose proof (of_mode_del m id l). unfold zlen in *. cbn [length]. lia.
  - intros H1 H2. specialize (IH H1 H2). rewrite of_mode_cons. destruct (pw_mode d =? m); unfold zlen in *; cbn [length]; lia.
Qed.
Lemma zlen_app {A} (a b : list A) : zlen (a ++ b) = zlen a + zlen b.
Proof. unfold zlen. rewrite app_length. lia. Qed.

Definition load (m : Z) (p : pool) : Z := zlen (queue_of m p) + zlen (of_mode m (p_borrowed p)).
Definition limit (m : Z) (p : pool) : Z := if m =? WriteMode then p_max_w p else p_max_r p.
Definition moded (m : Z) (p : pool) : Prop := Forall (fun c => pw_mode c = m) (queue_of m p).
Definition is_mode (m : Z) : Prop := m = WriteMode \/ m = ReadMode.
Record limited (stopped : bool) (p : pool) : Prop := mkLimited {
  l_look : p_lookup p = [];
  l_mark : p_marked p = [];
  l_new : stopped = false -> p_running p = false -> all_conns p = [];
  l_load m : is_mode m -> load m p <= limit m p;
  l_mode m : is_mode m -> moded m p;
  l_lent : Forall (fun x => is_mode (pw_mode (snd x))) (p_borrowed p);
  l_total : 2 <= p_total p
}.
(** What [limited] looks at. *)
Definition gauge (p : pool) := (p_lookup p, p_marked p, p_running p, p_wq p, p_rq p, p_borrowed p, p_max_w p, p_max_r p, p_total p).
Lemma gauge_limited b p p' : gauge p' = gauge p -> limited b p -> limited b p'.
Proof.
  unfold gauge. intros E []. injection E as E1 E2 E3 E4 E5 E6 E7 E8 E9.
  assert (Q : forall m, queue_of m p' = queue_of m p) by (intros m; unfold queue_of; now rewrite E4, E5).
  constructor.
  - congruence.
  - congruence.
  - unfold all_conns in *. rewrite E3, E4, E5, E6. exact l_new0.
  - intros m Hm. unfold load, limit. rewrite Q, E6, E7, E8. exact (l_load0 m Hm).
  - intros m Hm. unfold moded. rewrite Q. exact (l_mode0 m Hm).
  - now rewrite E6.
  - now rewrite E9.
Qed.

Section Limits.
Context {W : Type}.
Variable K : cluster W.

(** Adding at most [k] connections. *)
Definition grown (m : Z) (k : Z) (p p' : pool) : Prop :=
  exists cs, queue_of m p' = queue_of m p ++ cs /\ zlen cs <= k /\ Forall (fun c => pw_mode c = m) cs
  /\ queue_of (other m) p' = queue_of (other m) p /\ p_borrowed p' = p_borrowed p
  /\ p_max_w p' = p_max_w p /\ p_max_r p' = p_max_r p /\ steady p' = steady p /\ p_running p' = p_running p.
Lemma grown_0 m p : grown m 0 p p.
Proof. exists []. rewrite app_nil_r. repeat split; cbn; auto; lia. Qed.
Lemma add_grown m p w p' w' r : add_conn K m p w = (p', w', r) -> grown m 1 p p'.
Proof.
  intros E. pose proof (steady_add _ _ _ _ _ _ _ E) as (S1 & S2 & S3 & S4). eapply (add_eff K anyw) in E; auto using anyw_all.

  destruct E as [(s & c & i & x & _ & (w1 & name & _ & _ & Ec) & _ & Ep)|(_ & _ & [Ep|[i Ep]])].
  - exists [c]. split; [rewrite Ep; unfold queue_of, set_queue; destruct (m =? WriteMode); reflexivity|]. split; [cbn; lia|].
    split; [constructor; [now rewrite Ec|constructor]|].
    split; [rewrite Ep; unfold queue_of, set_queue, other, set_index; destruct (m =? WriteMode); reflexivity|].
    split; [rewrite Ep; unfold set_queue, set_index; destruct (m =? WriteMode); reflexivity|]. auto.
  - rewrite Ep. exists []. rewrite app_nil_r. repeat split; cbn; auto; lia.
  - exists []. rewrite app_nil_r. split; [rewrite Ep; unfold queue_of, set_index; destruct (m =? WriteMode); reflexivity|]. split; [cbn; lia|].
    split; [constructor|]. split; [rewrite Ep; unfold queue_of, other, set_index; destruct (m =? WriteMode); reflexivity|].
    split; [rewrite Ep; unfold set_index; destruct (m =? WriteMode); reflexivity|]. auto.
Qed.
Lemma grown_trans m a b p q s : grown m a p q -> grown m b q s -> grown m (a + b) p s.
Proof.
  intros (c1 & A1 & A2 & A3 & A4 & A5 & A6 & A7 & A8 & A9) (c2 & B1 & B2 & B3 & B4 & B5 & B6 & B7 & B8 & B9).
  exists (c1 ++ c2). split; [rewrite B1, A1, app_assoc; reflexivity|]. split; [rewrite zlen_app; lia|]. split; [now apply Forall_app|].
  repeat split; congruence.
Qed.
Lemma grown_more m a b p q : grown m a p q -> a <= b -> grown m b p q.
Proof. intros (c & A1 & A2 & A3) H. exists c. split; [exact A1|]. split; [lia|exact A3]. Qed.
Lemma times_grown m k : forall p w p' w' r, times k (add_conn K m) p w = (p', w', r) -> grown m (Z.of_nat k) p p'.
Proof.
  induction k as [|k IH]; intros p w p' w' r; cbn [times].
  - intros [= <- _ _]. apply grown_0.
  - unfold bind, mbind. destruct (add_conn K m p w) as [[p1 w1] r1] eqn:E. apply add_grown in E.
    destruct r1; intros E'; try (injection E' as <- _ _; apply (grown_more _ _ _ _ _ E); lia).
    apply IH in E'. apply (grown_more m (1 + Z.of_nat k)); [|lia]. eapply grown_trans; eauto.
Qed.

Lemma other_mode m : is_mode m -> is_mode (other m).
Proof. intros [->| ->]; [now right|now left]. Qed.
Lemma other_other m m' : is_mode m -> is_mode m' -> m' = m \/ m' = other m.
Proof. intros [->| ->] [->| ->]; auto. Qed.
(** Growth within the limit keeps the invariant. *)
Lemma limited_grown b m k p p' : is_mode m -> grown m k p p' -> load m p + k <= limit m p -> (b = false -> p_running p = true) -> limited b p -> limited b p'.
Proof.
  intros Hm (cs & A1 & A2 & A3 & A4 & A5 & A6 & A7 & A8 & A9) Hk Hb []. unfold steady in A8. injection A8 as S1 S2 _ _ _ S3 _ _.
  assert (Lm : forall m, limit m p' = limit m p) by (intros x; unfold limit; now rewrite A6, A7).
  constructor.
  - congruence.
  - congruence.
  - intros E. rewrite A9, (Hb E). discriminate.
  - intros m' Hm'. rewrite Lm. unfold load in *. rewrite A5. destruct (other_other m m' Hm Hm') as [->| ->].
    + rewrite A1, zlen_app. lia.
    + rewrite A4. exact (l_load0 _ Hm').
  - intros m' Hm'. unfold moded. destruct (other_other m m' Hm Hm') as [->| ->].
    + rewrite A1. apply Forall_app. split; [exact (l_mode0 _ Hm')|exact A3].
    + rewrite A4. exact (l_mode0 _ Hm').
  - now rewrite A5.
  - congruence.
Qed.
(** Connections leave a queue. *)
Lemma limited_drop b b' m p gone rest : is_mode m -> queue_of m p = gone ++ rest -> (b = true -> b' = true) -> limited b p -> limited b' (set_queue m rest p).
Proof.
  intros Hm Eq Hb [].
  assert (Bq : p_borrowed (set_queue m rest p) = p_borrowed p) by apply borrowed_set.
  assert (Lm : forall x, limit x (set_queue m rest p) = limit x p) by (intros x; unfold limit, set_queue; destruct (m =? WriteMode); reflexivity).
  assert (Sq := steady_queue m rest p). unfold steady in Sq. injection Sq as S1 S2 _ _ _ S3 _ _.
  constructor.
  - congruence.
  - congruence.
  - intros E1 E2. assert (b = false) by (destruct b; [rewrite Hb in E1; congruence|reflexivity]). subst b.
    assert (E3 : p_running p = false) by (rewrite <- E2; unfold set_queue; destruct (m =? WriteMode); reflexivity).
    pose proof (l_new0 eq_refl E3) as N. pose proof (all_perm m p) as P. rewrite N, Eq in P. apply Permutation_nil in P.
    apply app_eq_nil in P. destruct P as [P1 P2]. apply app_eq_nil in P1. destruct P1 as [_ ->].
    pose proof (all_perm m (set_queue m [] p)) as P. rewrite queue_set, queue_set_other, Bq in P. cbn [app] in P. rewrite P2 in P.
    apply Permutation_sym, Permutation_nil in P. exact P.
  - intros x Hx. rewrite Lm. unfold load in *. rewrite Bq. destruct (other_other m x Hm Hx) as [->| ->].
    + rewrite queue_set. specialize (l_load0 m Hx). rewrite Eq, zlen_app in l_load0. pose proof (zlen_nonneg gone). lia.
    + rewrite queue_set_other. exact (l_load0 _ Hx).
  - intros x Hx. unfold moded in *. destruct (other_other m x Hm Hx) as [->| ->].
    + rewrite queue_set. specialize (l_mode0 m Hx). rewrite Eq in l_mode0. apply Forall_app in l_mode0. apply l_mode0.
    + rewrite queue_set_other. exact (l_mode0 _ Hx).
  - now rewrite Bq.
  - congruence.
Qed.

Lemma limited_step b o p w p' w' r : do_pop K o p w = (p', w', r) -> (o = OStart -> b = false) -> limited b p -> limited (after b o) p'.
Proof.
  intros E Ho L. pose proof L as L0. destruct L0. destruct o as [| |m|id h|]; cbn [do_pop] in E; cbn [after].
  - specialize (Ho eq_refl). subst b. destruct (start_pool K p w) as [[p1 w1] r1] eqn:Es. injection E as <- _ _. unfold start_pool, get in Es.
    destruct (p_running p) eqn:Er; [now injection Es as <- _ _|]. unfold bind, mbind, upd in Es.
    specialize (l_new0 eq_refl eq_refl). unfold all_conns in l_new0. apply app_eq_nil in l_new0. destruct l_new0 as [N1 N]. apply app_eq_nil in N. destruct N as [N2 N3].
    assert (N4 : p_borrowed p = []) by (destruct (p_borrowed p); [reflexivity|discriminate]).
    set (p0 := set_max _ _ _) in Es.
    assert (L0 : limited false p0).
    { constructor; try assumption; try (cbn; discriminate).
      - intros x Hx. unfold load. destruct Hx as [->| ->]; cbn; rewrite ?N1, ?N2, N4; cbn.
        + rewrite write_share_spec by exact l_total0. apply Z.div_pos; lia.
        + rewrite read_share_spec by exact l_total0. apply Z.div_pos; lia. }
    destruct (refresh_connections K p0 w) as [[p2 w2] r2] eqn:Er2.
    pose proof (steady_refresh _ p0 _ _ _ _ l_look0 Er2) as (S1 & S2 & S3 & S4 & S5 & S6 & S7 & _).
    assert (L2 : limited false p2).
    { apply (gauge_limited _ p0); [|exact L0]. unfold steady in S1. unfold gauge. injection S1 as H1 H2 _ _ _ H3 _ _. repeat apply f_equal2; assumption. }
    destruct r2 as [[]|e| |]; try (injection Es as <- _ _; exact L2).
    assert (Z0 : forall x, is_mode x -> load x p2 = 0).
    { intros x Hx. unfold load. rewrite S7. destruct Hx as [->| ->]; cbn; rewrite ?S5, ?S6; cbn; rewrite ?N1, ?N2, N4; reflexivity. }
    assert (Pos : forall x, is_mode x -> 0 <= limit x p2) by (intros x Hx; rewrite <- (Z0 x Hx); now apply L2).
    destruct (times (Z.to_nat (p_max_w p2)) (add_conn K WriteMode) p2 w2) as [[p3 w3] r3] eqn:Et. pose proof (times_grown _ _ _ _ _ _ _ Et) as G.
    assert (L3 : limited false p3).
    { eapply limited_grown; [now left|exact G| | |exact L2].
      - rewrite Z0 by now left. pose proof (Pos WriteMode (or_introl eq_refl)) as P. cbn in P |- *. lia.
      - intros _. rewrite S2. reflexivity. }
    destruct G as (cs & _ & _ & _ & G4 & G5 & _ & G7 & _ & G9).
    destruct r3 as [[]|e| |]; try (injection Es as <- _ _; exact L3).
    apply times_grown in Es. eapply limited_grown; [now right|exact Es| | |exact L3].
    + assert (Z3 : load ReadMode p3 = 0).
      { rewrite <- (Z0 ReadMode (or_intror eq_refl)). unfold load. rewrite G5. change (queue_of ReadMode p3) with (queue_of (other WriteMode) p3). now rewrite G4. }
      rewrite Z3. pose proof (Pos ReadMode (or_intror eq_refl)) as P. cbn in P |- *. lia.
    + intros _. rewrite G9, S2. reflexivity.
  - destruct (stop_pool K p w) as [[p1 w1] r1] eqn:Es. injection E as <- _ _. unfold stop_pool, get in Es.
    assert (Lt : limited true p) by (constructor; auto; discriminate).
    destruct (p_running p) eqn:Ern; [|now injection Es as <- _ _]. cbn [negb] in Es. unfold bind, mbind, upd in Es.
    assert (Lr : limited true (set_running false p)) by (constructor; auto; discriminate).
    destruct (drain K _ ReadMode _ w) as [[p2 w2] r2] eqn:Er.
    pose proof Er as Er'. eapply (drain_eff K anyw) in Er; auto using anyw_all.
    destruct Er as (_ & g & rest & x & Eq & Ep & _).
    assert (L2 : limited true p2).
    { rewrite Ep. apply (gauge_limited _ (set_queue ReadMode rest (set_running false p))); [reflexivity|].
      eapply limited_drop; [now right|exact Eq|auto|exact Lr]. }
    destruct r2 as [[]|e| |]; try (now injection Es as <- _ _).
    eapply (drain_eff K anyw) in Es; auto using anyw_all.
    2: { rewrite Ep. cbn. lia. }
    destruct Es as (_ & g2 & rest2 & x2 & Eq2 & -> & _).
    apply (gauge_limited _ (set_queue WriteMode rest2 p2)); [reflexivity|]. eapply limited_drop; [now left|exact Eq2|auto|exact L2].
  - destruct (borrow K _ p w) as [[p1 w1] r1] eqn:Es. injection E as <- _ _. unfold borrow, get in Es.
    set (mm := if m =? ReadMode then ReadMode else WriteMode) in Es. assert (Hm : is_mode mm) by (unfold mm; destruct (m =? ReadMode); [now right|now left]).
    eapply (borrow_eff K anyw) in Es; auto using anyw_all.
    destruct Es as (_ & sk & rest & x & Eq & [(c & rest' & -> & _ & _ & ->)|[_ ->]]).
    + pose proof (l_mode0 mm Hm) as Md. unfold moded in Md. rewrite Eq in Md. apply Forall_app in Md. destruct Md as [_ Md]. pose proof (Forall_inv Md) as Mc. cbv beta in Mc.
      assert (Eq' : queue_of mm p = (sk ++ [c]) ++ rest') by (rewrite <- app_assoc; exact Eq).
      pose proof (limited_drop b b mm p (sk ++ [c]) rest' Hm Eq' (fun e => e) L) as D.
      set (p1 := set_queue mm rest' p) in *. pose proof D as D0. destruct D0.
      assert (Bq : p_borrowed p1 = p_borrowed p) by apply borrowed_set.
      constructor; auto.
      * intros Hb Hr. exfalso. assert (Hr' : p_running p = false) by (rewrite <- Hr; unfold p1, set_queue; destruct (mm =? WriteMode); reflexivity).
        specialize (l_new0 Hb Hr'). pose proof (all_perm mm p) as P. rewrite l_new0, Eq in P. apply Permutation_nil in P. destruct sk; discriminate.
      * intros y Hy. unfold load, limit in *. change (queue_of y (set_borrowed ?a (set_held ?b ?q))) with (queue_of y q).
        change (p_borrowed (set_borrowed ?a (set_held ?b ?q))) with a. cbn [p_max_w p_max_r set_borrowed set_held].
        unfold map_set. rewrite of_mode_cons. pose proof (of_mode_del y (pw_id c) (p_borrowed p)) as Dl.
        destruct (Z.eqb_spec (pw_mode c) y) as [Ey|Ny].
        -- rewrite Mc in Ey. subst y. specialize (l_load0 mm Hy). rewrite Eq', zlen_app, zlen_app in l_load0. unfold p1. rewrite queue_set.
           replace (p_max_w (set_queue mm rest' p)) with (p_max_w p) by (unfold set_queue; destruct (mm =? WriteMode); reflexivity).
           replace (p_max_r (set_queue mm rest' p)) with (p_max_r p) by (unfold set_queue; destruct (mm =? WriteMode); reflexivity).
           pose proof (zlen_nonneg sk). unfold zlen in *. cbn [length] in *. lia.
        -- specialize (l_load1 y Hy). rewrite Bq in l_load1. unfold zlen in *. cbn [length] in *. lia.
      * cbn [p_borrowed set_borrowed set_held]. unfold map_set. constructor; [cbn; now rewrite Mc|].
        apply Forall_forall. intros z Hz. apply map_del_in in Hz. rewrite Forall_forall in l_lent0. now apply l_lent0.
    + apply (gauge_limited _ (set_queue mm rest p)); [reflexivity|]. eapply limited_drop; [exact Hm|exact Eq|exact (fun e => e)|exact L].
  - destruct (reclaim K id h p w) as [[p1 w1] r1] eqn:Es. injection E as <- _ _. eapply (reclaim_eff K anyw) in Es; auto using anyw_all.
    destruct Es as [(_ & -> & _)|(Hr & c & x & Hc & D)]; [exact L|]. cbv zeta in D.
    set (p1' := set_held x (set_borrowed (map_del id (p_borrowed p)) p)) in D.
    assert (Hcm : is_mode (pw_mode c)).
    { clear - Hc l_lent0. induction (p_borrowed p) as [|[k d] l IH]; cbn in Hc; [discriminate|]. inversion l_lent0; subst.
      destruct (bytes_eqb id k); [injection Hc as ->; assumption|auto]. }
    assert (L1 : limited b p1').
    { constructor; auto.
      - intros Hb Hr'. cbn in Hr'. congruence.
      - intros y Hy. specialize (l_load0 y Hy). unfold load, limit in *. cbn [p_borrowed p1' set_held set_borrowed p_max_w p_max_r].
        change (queue_of y p1') with (queue_of y p). pose proof (of_mode_del y id (p_borrowed p)). lia.
      - cbn. apply Forall_forall. intros z Hz. apply map_del_in in Hz. rewrite Forall_forall in l_lent0. now apply l_lent0. }
    set (m := if pw_mode c =? WriteMode then WriteMode else ReadMode).
    assert (Em : pw_mode c = m) by (unfold m; destruct Hcm as [->| ->]; reflexivity).
    assert (Hm : is_mode m) by (rewrite <- Em; exact Hcm).
    assert (Slack : load m p1' + 1 <= limit m p1').
    { specialize (l_load0 m Hm). unfold load, limit in *. cbn [p_borrowed p1' set_held set_borrowed p_max_w p_max_r].
      change (queue_of m p1') with (queue_of m p). pose proof (of_mode_del_one m id _ c Hc Em). lia. }
    destruct D as [(_ & _ & ->)|(w2 & e & w0 & _ & _ & _ & Ea)].
    + eapply (limited_grown b m 1 p1'); [exact Hm| |exact Slack|intros _; exact Hr|exact L1].
      unfold back. fold m. exists [c]. split; [apply queue_set|]. split; [cbn; lia|]. split; [now constructor|].
      split; [apply queue_set_other|]. split; [apply borrowed_set|]. unfold set_queue. destruct (m =? WriteMode); repeat split.
    + apply add_grown in Ea. eapply limited_grown; [exact Hm|exact Ea|exact Slack|intros _; exact Hr|exact L1].
  - destruct (refresh_round K p w) as [[p1 w1] r1] eqn:Es. injection E as <- _ _. unfold refresh_round, bind, mbind in Es.
    destruct (refresh_connections K p w) as [[p2 w2] r2] eqn:Er. pose proof (steady_refresh _ p _ _ _ _ l_look0 Er) as (S1 & S2 & S3 & S4 & S5 & S6 & S7 & _).
    unfold steady in S1. injection S1 as H1 H2 _ _ _ H3 _ _.
    assert (L2 : limited b p2) by (apply (gauge_limited _ p); [unfold gauge; congruence|exact L]).
    destruct r2 as [[]|e| |]; try (now injection Es as <- _ _).
    rewrite (prune_nothing _ p2 w2) in Es by congruence. rewrite balance_nothing in Es by lia. now injection Es as <- _ _.
Qed.

(** Whatever the pool is used for, as long as it is not started again after it was stopped. *)
Lemma limited_run os : forall b p w p' w' l, run_pool K os p w = (p', w', l) -> no_restart b os -> limited b p -> exists b', limited b' p'.
Proof.
  induction os as [|o os IH]; intros b p w p' w' l; cbn [run_pool no_restart]; [intros [= <- _ _] _ L; eauto|].
  destruct (do_pop K o p w) as [[p1 w1] r] eqn:E1. destruct (run_pool K os p1 w1) as [[p2 w2] l'] eqn:E2. intros [= <- _ _] [H1 H2] L.
  eapply IH; [exact E2|exact H2|]. eapply limited_step; eauto.
Qed.
Lemma limited_new leader n auth tls p : 2 <= n -> new_routing_pool leader n auth tls = Ok p -> limited false p.
Proof.
  intros Hn En. assert (N := En). apply new_fields in N. destruct N as (N1 & N2 & N3 & N4 & N5 & N6 & N7 & _).
  assert (M : p_max_w p = 0 /\ p_max_r p = 0) by (unfold new_routing_pool in En; destruct (bytes_eqb leader []); [discriminate|]; destruct (_ || _); [discriminate|]; injection En as <-; auto).
  destruct M as [M1 M2].
  constructor; auto.
  - intros _ _. unfold all_conns. now rewrite N5, N6, N7.
  - intros m [->| ->]; unfold load, limit; cbn; rewrite ?N5, ?N6, N7; cbn; lia.
  - intros m [->| ->]; unfold moded; cbn; rewrite ?N5, ?N6; constructor.
  - rewrite N7. constructor.
  - lia.
Qed.
Theorem limits n auth tls w0 l p w : 2 <= n -> pool_history K n auth tls w0 l p w -> no_restart false (map fst l) ->
  p_min_w p <= zlen (p_wq p) <= p_max_w p /\ p_min_r p <= zlen (p_rq p) <= p_max_r p.
Proof.
  intros Hn (leader & p0 & En & Er) Hs. destruct (limited_run _ _ _ _ _ _ _ Er Hs (limited_new _ _ _ _ _ Hn En)) as [b L].
  assert (N := En). apply new_fields in N. destruct N as (N1 & N2 & _ & _ & _ & _ & _ & _ & _ & _ & _ & _ & _ & Z1 & Z2 & _).
  apply steady_run in Er; auto. unfold steady in Er. injection Er as _ _ _ _ _ _ M1 M2.
  rewrite M1, M2, Z1, Z2. destruct L. pose proof (l_load0 WriteMode (or_introl eq_refl)) as A. pose proof (l_load0 ReadMode (or_intror eq_refl)) as B.
  unfold load, limit in A, B. cbn in A, B. pose proof (zlen_nonneg (of_mode WriteMode (p_borrowed p))). pose proof (zlen_nonneg (of_mode ReadMode (p_borrowed p))).
  pose proof (zlen_nonneg (p_wq p)). pose proof (zlen_nonneg (p_rq p)). lia.
Qed.
End Limits.
