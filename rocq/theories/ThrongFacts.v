(** How many connections a routing pool has open. *)
From Coq Require Import String ZArith List Bool Lia ZifyBool Permutation.
From Verif Require Import Bytes GoVal GoErr Decoder Messages GoStr Routing Pool SpecPool BytesFacts RoutingFacts PoolFacts LendFacts SteadyFacts WatchPoolFacts RouteFacts SizeFacts LimitFacts SpecManners SpecBooks BooksFacts SpecThrong.
Import ListNotations.
Open Scope Z_scope.

(** The connections entered as lent. *)
Definition outs (p : pool) : list nat := map (fun x => pw_conn (snd x)) (p_borrowed p).

Section Throng.
Context {W : Type}.
Variable K : cluster W.
Notation WT := (W * list kevent)%type.
Implicit Type T : nat -> Prop.

Lemma refresh_round_kept T p x p' x' r : refresh_round (watch K) p x = (p', x', r) -> p_lookup p = [] -> p_marked p = [] ->
  kept T p x -> kept T p' x' /\ idle p' = idle p /\ p_borrowed p' = p_borrowed p /\ p_running p' = p_running p /\ p_max_w p' = p_max_w p /\ p_max_r p' = p_max_r p.
Proof.
  intros E Hl Hm H. unfold refresh_round, bind, mbind in E. destruct (refresh_connections (watch K) p x) as [[p2 x2] r2] eqn:Er.
  pose proof (steady_refresh (watch K) _ _ _ _ _ Hl Er) as (S1 & S2 & S3 & S4 & S5 & S6 & S7 & _).
  pose proof (refresh_step K T _ _ _ _ _ Er H) as H2.
  assert (M2 : p_marked p2 = []) by (unfold SteadyFacts.steady in S1; congruence).
  assert (X : p' = p2 /\ x' = x2).
  { destruct r2; try (now injection E as <- <- _). rewrite (prune_nothing _ p2 x2 M2) in E. rewrite balance_nothing in E by lia. now injection E as <- <- _. }
  destruct X as [-> ->]. split; [exact H2|]. unfold idle. rewrite S5, S6. auto.
Qed.
Lemma start_kept T p x p' x' r : start_pool (watch K) p x = (p', x', r) -> p_lookup p = [] -> kept T p x ->
  kept T p' x' /\ p_borrowed p' = p_borrowed p
  /\ (p_max_w p' = p_max_w p /\ p_max_r p' = p_max_r p \/ p_max_w p' = write_share (p_total p) /\ p_max_r p' = read_share (p_total p)).
Proof.
  intros E Hl H. unfold start_pool, get, fail in E. destruct (p_running p); [injection E as <- <- _; auto|].
  unfold bind at 1, mbind at 1, upd at 1 in E. set (q1 := set_max _ _ _) in E. assert (H1 : kept T q1 x) by exact H. unfold bind, mbind at 1 in E.
  destruct (refresh_connections (watch K) q1 x) as [[p2 x2] r2] eqn:Er. pose proof (steady_refresh (watch K) q1 _ _ _ _ Hl Er) as (_ & _ & S3 & S4 & _ & _ & S7 & _).
  pose proof (refresh_step K T _ _ _ _ _ Er H1) as H2. cbn in S3, S4, S7.
  destruct r2 as [[]|e| |]; try (injection E as <- <- _; now auto). unfold mbind in E.
  destruct (times _ (add_conn (watch K) WriteMode) p2 x2) as [[p3 x3] r3] eqn:Et. pose proof (times_step K T _ _ _ _ _ _ _ Et H2) as H3.
  apply times_grown in Et. destruct Et as (_ & _ & _ & _ & _ & A5 & A6 & A7 & _).
  destruct r3 as [[]|e| |]; try (injection E as <- <- _; split; [exact H3|split; [congruence|right; split; congruence]]).
  pose proof (times_step K T _ _ _ _ _ _ _ E H3) as H4. apply times_grown in E. destruct E as (_ & _ & _ & _ & _ & B5 & B6 & B7 & _).
  split; [exact H4|split; [congruence|right; split; congruence]].
Qed.
Lemma stop_kept T p x p' x' r : stop_pool (watch K) p x = (p', x', r) -> p_running p = true -> kept T p x -> (forall h, In h (idle p) -> T h) ->
  kept T p' x' /\ (forall h, In h (idle p') -> T h) /\ p_running p' = false.
Proof.
  intros E Hr H H0. unfold stop_pool, get, fail in E. rewrite Hr in E. cbn [negb] in E. unfold bind at 1, mbind at 1, upd at 1 in E. unfold bind, mbind in E.
  set (q := set_running false p) in E.
  destruct (drain (watch K) _ ReadMode _ x) as [[p2 x2] r2] eqn:Ed. destruct (drain_step K T _ _ _ _ _ _ _ Ed H H0) as [H2 H3].
  pose proof (steady_drain (watch K) _ _ _ _ _ _ _ Ed ltac:(cbn; lia)) as (_ & R2 & _ & _ & _ & Q & _). cbn in R2, Q.
  destruct r2 as [[]|e| |]; try (injection E as <- <- _; auto).
  destruct (drain_step K T _ _ _ _ _ _ _ E H2 H3) as [H4 H5].
  apply (steady_drain (watch K)) in E; [|cbn; rewrite Q; lia]. destruct E as (_ & R3 & _). split; [exact H4|]. split; [exact H5|congruence].
Qed.
Lemma remove_result c p x p' x' r : remove_conn (watch K) (Some c) p x = (p', x', r) -> r = Ok tt \/ exists e, r = Err e.
Proof. intros E. eapply (remove_eff (watch K) anyw) in E; auto using anyw_all. apply E. Qed.
(** What is given back waits or was asked to close. *)
Lemma reclaim_kept id h p x p' x' r : reclaim (watch K) id h p x = (p', x', r) -> NoDup (map fst (p_borrowed p)) ->
  kept (fun d => In d (outs p)) p x -> kept (fun d => In d (outs p')) p' x'.
Proof.
  unfold reclaim, get. intros E Hn H. destruct (negb (p_running p)); [injection E as <- <- <-; exact H|].
  destruct (map_get (p_borrowed p) id) as [c|] eqn:Eg.
  - unfold bind at 1, mbind at 1, upd at 1 in E. set (p1 := set_held _ _) in E. set (T := fun d => In d (outs p1)).
    assert (H1 : kept (fun d => T d \/ d = pw_conn c) p1 x).
    { apply (kept_weak (fun d => In d (outs p)) _ p p1 x H); [now left|]. intros d Hd. right. unfold outs in Hd.
      apply (Permutation_in _ (Permutation_map _ (map_del_perm _ _ _ Hn Eg))) in Hd. destruct Hd as [<-|Hd]; [now right|left; exact Hd]. }
    unfold bind, mbind at 1 in E.
    destruct (valid (watch K) (pw_conn c) p1 x) as [[p2 x2] r2] eqn:Ev. destruct (valid_step K _ _ _ _ _ _ _ Ev H1) as (b & -> & -> & H2 & Et). cbv zeta in E.
    assert (B : forall m p3 (x3 : WT), p_borrowed p3 = p_borrowed p1 -> kept (fun d => T d \/ d = pw_conn c) p3 x3 ->
      kept (fun d => In d (outs (set_queue m (enqueue c (queue_of m p3)) p3))) (set_queue m (enqueue c (queue_of m p3)) p3) x3).
    { intros m p3 x3 Eb X. assert (Eo : outs (set_queue m (enqueue c (queue_of m p3)) p3) = outs p1) by (unfold outs; rewrite <- Eb; unfold set_queue; destruct (m =? WriteMode); reflexivity).
      apply (kept_weak (fun d => T d \/ d = pw_conn c) _ p3); [exact X| |].
      - intros d Hd. left. apply idle_put. now left.
      - intros d [Hd| ->]; [right; rewrite Eo; exact Hd|left]. apply idle_put. now right. }
    destruct b.
    + unfold upd in E. injection E as <- <- <-. exact (B (if pw_mode c =? WriteMode then WriteMode else ReadMode) _ _ eq_refl H2).
    + unfold mbind in E. destruct (remove_conn (watch K) (Some c) p1 x2) as [[p3 x3] r3] eqn:Er. destruct (remove_step K _ _ _ _ _ _ _ Er H2) as (Ei & H3 & D).
      assert (Eb : p_borrowed p3 = p_borrowed p1).
      { assert (Er' := Er). eapply (remove_eff (watch K) anyw) in Er'; auto using anyw_all. destruct Er' as ([y ->] & _). reflexivity. }
      destruct (remove_result _ _ _ _ _ _ Er) as [-> |[e ->]].
      * unfold upd in E. injection E as <- <- <-. exact (B (if pw_mode c =? WriteMode then WriteMode else ReadMode) _ _ Eb H3).
      * assert (H4 : kept T p3 x3).
        { destruct D as [[e' D]|[D _]]; [|discriminate D]. exact (kept_closed _ _ _ _ _ H3 D). }
        assert (X : exists m, add_conn (watch K) m p3 x3 = (p', x', r)) by (destruct (pw_mode c =? WriteMode); eauto).
        destruct X as [m X]. pose proof (add_step K _ _ _ _ _ _ _ X H4) as H5. apply add_grown in X. destruct X as (_ & _ & _ & _ & _ & A5 & _).
        apply (kept_less T); [exact H5|]. intros d Hd. unfold outs. rewrite A5, Eb. exact Hd.
  - unfold mbind in E. destruct (close_conn (watch K) h p x) as [[p1 x1] r1] eqn:Ec. destruct (close_step K _ _ _ _ _ _ _ Ec H) as (-> & H1 & _).
    destruct r1; injection E as <- <- <-; exact H1.
Qed.
Lemma reclaim_max id h p x p' x' r : reclaim (watch K) id h p x = (p', x', r) -> p_max_w p' = p_max_w p /\ p_max_r p' = p_max_r p.
Proof.
  intros Es. eapply (reclaim_eff (watch K) anyw) in Es; auto using anyw_all.
  destruct Es as [(_ & -> & _)|(_ & c & y & _ & [(_ & _ & ->)|(w2 & e & w0 & _ & _ & _ & Ea)])]; [auto| |].
  - unfold back, set_queue. destruct (pw_mode c =? WriteMode); auto.
  - apply steady_add in Ea. destruct Ea as (_ & _ & Ea). exact Ea.
Qed.
Lemma borrow_kept iss before lt (opened : WT -> list nat) (named : WT -> list bytes) m p x p' x' r : borrow (watch K) m p x = (p', x', r) ->
  LendFacts.inv opened named iss before lt p x ->
  kept (fun d => In d (outs p)) p x -> kept (fun d => In d (outs p')) p' x' /\ p_max_w p' = p_max_w p /\ p_max_r p' = p_max_r p.
Proof.
  intros E I H. unfold borrow, get in E. pose proof (borrow_step K _ _ _ _ _ _ _ _ E (i_marks _ _ _ _ _ _ _ I) H) as H1.
  eapply (borrow_eff (watch K) anyw) in E; auto using anyw_all. destruct E as (_ & sk & rest & y & Eq & [(c & rest' & -> & -> & _ & ->)|[[e ->] ->]]).
  - split; [|unfold set_queue; destruct (m =? WriteMode); auto].
    apply (kept_less _ _ _ _ H1). intros d [Hd|(c' & [= <-] & ->)].
    + unfold outs in *. apply in_map_iff in Hd. destruct Hd as ([k b] & <- & Hb). cbn [snd].
      assert (Hc : In c (queue_of m p)) by (rewrite Eq; apply in_or_app; right; now left).
      assert (N : k <> pw_id c).
      { intros ->. pose proof (i_key _ _ _ _ _ _ _ I _ _ Hb) as Ek. 
        assert (Hb' : In b (map snd (p_borrowed p))) by (change b with (snd (pw_id c, b)); now apply in_map).
        assert (Ab : In b (all_conns p)) by (unfold all_conns; rewrite !in_app_iff; auto).
        assert (Ac : In c (all_conns p)) by (unfold all_conns, queue_of in *; rewrite !in_app_iff; destruct (m =? WriteMode); auto).
        assert (Ee : pw_conn b = pw_conn c).
        { eapply NoDup_map_fst; [exact (i_ids _ _ _ _ _ _ _ I)| |exact (i_iss _ _ _ _ _ _ _ I _ Ac)]. rewrite Ek. exact (i_iss _ _ _ _ _ _ _ I _ Ab). }
        pose proof (i_conns _ _ _ _ _ _ _ I) as Nd. unfold all_conns in Nd. rewrite app_assoc, map_app in Nd.
        assert (Dj : forall (l1 l2 : list nat) z, NoDup (l1 ++ l2) -> In z l1 -> In z l2 -> False).
        { induction l1 as [|a l1 IH]; cbn; [tauto|]. intros l2 z Hd. inversion Hd as [|? ? D1 D2]; subst. intros [->|Hz] Hz2; [apply D1, in_or_app; now right|eauto]. }
        apply (Dj _ _ (pw_conn c) Nd).
        - apply in_map. unfold queue_of in Hc. apply in_or_app. destruct (m =? WriteMode); auto.
        - rewrite <- Ee. now apply in_map. }
      apply in_map_iff. exists (k, b). split; [reflexivity|].
      unfold set_queue. destruct (m =? WriteMode); cbn; right; apply map_del_in; auto.
    + unfold outs. apply in_map_iff. exists (pw_id c, c). split; [reflexivity|]. unfold set_queue. destruct (m =? WriteMode); cbn; now left.
  - split; [|unfold set_queue; destruct (m =? WriteMode); auto]. apply (kept_less _ _ _ _ H1). intros d [Hd|(c' & [=] & _)].
    unfold outs in *. unfold set_queue. destruct (m =? WriteMode); exact Hd.
Qed.

(** ** A history *)
Variables (opened : W -> list nat) (named : W -> list bytes).
Hypothesis Fr : fresh K opened named.
Notation lends := (LendFacts.inv (fun x : WT => opened (fst x)) (fun x : WT => named (fst x))).
(** The invariant of C43, whoever gives back what. *)
Lemma lends_pop o q x q' x' r : do_pop (watch K) o q x = (q', x', r) -> (exists iss before lt, lends iss before lt q x) -> exists iss before lt, lends iss before lt q' x'.
Proof.
  intros E (iss & before & lt & I). pose proof (fresh_watch K opened named Fr) as F.
  assert (X : forall o, do_pop (watch K) o q x = (q', x', r) -> match o with OReclaim id h => In (id, h) before \/ ~ In id (map fst before) | _ => True end ->
    exists iss before lt, lends iss before lt q' x').
  { intros o' E' Ho. destruct (LendFacts.inv_step (watch K) _ _ F _ _ _ _ _ _ _ _ _ E' I Ho) as (_ & iss' & _ & I'). eauto. }
  destruct o as [| |m|id h|]; try exact (X _ E Logic.I). destruct (map_get (p_borrowed q) id) as [c|] eqn:Eg.
  - apply (X (OReclaim id (pw_conn c))); [|left; exact (proj1 (i_out _ _ _ _ _ _ _ I _ _ (map_get_in _ _ _ Eg)))].
    rewrite <- E. cbn [do_pop]. unfold reclaim, get. rewrite Eg. reflexivity.
  - cbn [do_pop] in E. destruct (reclaim (watch K) id h q x) as [[p1 x1] r1] eqn:Er. injection E as <- <- _. unfold reclaim, get in Er. rewrite Eg in Er.
    assert (Y : p1 = q /\ (x1 = x \/ x1 = fst (k_close (watch K) h x))).
    { destruct (negb (p_running q)); [injection Er as <- <- _; auto|]. unfold mbind, close_conn in Er. destruct (k_close (watch K) h x) as [x2 [e|]]; injection Er as <- <- _; auto. }
    destruct Y as [-> [->| ->]]; [eauto|]. exists iss, before, lt. apply (LendFacts.inv_grows _ _ _ _ _ _ x); [exact I|]. apply (LendFacts.grows_close (watch K) _ _ F).
Qed.
(** What has not been asked to close and did not waver has its place in [F]. *)
Record placed (n : Z) (F : list nat) (p : pool) (x : WT) : Prop := mkPlaced {
  pl_size : Z.of_nat (length F) <= n;
  pl_kept : kept (fun h => In h F) p x;
  pl_idle : incl (idle p) F
}.
Definition sized_up (p : pool) : Prop := 2 <= p_total p -> p_max_w p + p_max_r p <= p_total p.
Lemma of_both l : Forall (fun x : bytes * wrapper => is_mode (pw_mode (snd x))) l -> zlen l = zlen (of_mode WriteMode l) + zlen (of_mode ReadMode l).
Proof.
  induction 1 as [|[k c] l H _ IH]; [reflexivity|]. rewrite !of_mode_cons. cbn [snd] in H. unfold zlen in *. destruct H as [->| ->].
  - change (WriteMode =? WriteMode) with true. change (WriteMode =? ReadMode) with false. cbv iota. cbn [length]. lia.
  - change (ReadMode =? WriteMode) with false. change (ReadMode =? ReadMode) with true. cbv iota. cbn [length]. lia.
Qed.
Lemma limited_places p : limited false p -> sized_up p -> Z.of_nat (length (idle p ++ outs p)) <= p_total p.
Proof.
  intros [] Hs. specialize (Hs l_total). pose proof (l_load WriteMode (or_introl eq_refl)) as A. pose proof (l_load ReadMode (or_intror eq_refl)) as B.
  pose proof (of_both _ l_lent) as C. unfold load, limit, queue_of in A, B. cbn in A, B. unfold outs, idle. rewrite !app_length, !map_length. unfold zlen in *. lia.
Qed.
Definition phase (stopped : bool) (n : Z) (p : pool) (x : WT) : Prop :=
  if stopped then p_running p = false /\ exists F, placed n F p x
  else limited false p /\ sized_up p /\ p_total p = n /\ kept (fun h => In h (outs p)) p x.
Lemma phase_places b n p x : phase b n p x -> exists F, placed n F p x.
Proof.
  destruct b; intros H; [apply H|]. destruct H as (L & S & <- & H). exists (idle p ++ outs p). constructor.
  - now apply limited_places.
  - apply (kept_less _ _ _ _ H). intros h Hh. apply in_or_app. now right.
  - intros h Hh. apply in_or_app. now left.
Qed.
Lemma phase_world b n p w w' tr : phase b n p (w, tr) -> phase b n p (w', tr).
Proof. destruct b; [|exact (fun H => H)]. intros (H & F & [P1 P2 P3]). split; [exact H|]. exists F. constructor; [exact P1|exact P2|exact P3]. Qed.
Lemma phase_step b n o q x q' x' r : (exists iss before lt, lends iss before lt q x) -> do_pop (watch K) o q x = (q', x', r) -> (o = OStart -> b = false) ->
  phase b n q x -> phase (after b o) n q' x'.
Proof.
  intros (iss & before & lt & I) E Hb H. pose proof (i_marks _ _ _ _ _ _ _ I) as Hm. pose proof (i_lookup _ _ _ _ _ _ _ I) as Hl. destruct b.
  - destruct H as (Hr & F & [P1 P2 P3]). unfold phase. destruct o as [| |m|id h|]; cbn [do_pop after] in *.
    + discriminate (Hb eq_refl).
    + unfold stop_pool, get, fail in E. rewrite Hr in E. cbn in E. injection E as <- <- _. split; [exact Hr|]. exists F. now constructor.
    + destruct (borrow (watch K) _ q x) as [[p1 x1] r1] eqn:Es. injection E as <- <- _. unfold borrow, get in Es.
      pose proof (borrow_step K _ _ _ _ _ _ _ _ Es Hm P2) as H1. set (m' := if m =? ReadMode then ReadMode else WriteMode) in *.
      eapply (borrow_eff (watch K) anyw) in Es; auto using anyw_all. destruct Es as (_ & sk & rest & y & Eq & D).
      assert (Hq : forall c, In c (queue_of m' q) -> In (pw_conn c) F).
      { intros c Hc. apply P3. unfold idle, queue_of in *. apply in_or_app. destruct (m' =? WriteMode); [left|right]; now apply in_map. }
      assert (Hi : forall rest', incl rest' (queue_of m' q) -> incl (idle (set_queue m' rest' q)) F).
      { intros rest' Hi h Hh. unfold idle, set_queue in Hh. destruct (m' =? WriteMode) eqn:Em; cbn in Hh; apply in_app_or in Hh; destruct Hh as [Hh|Hh];
          try (apply P3; unfold idle; apply in_or_app; auto; fail); apply in_map_iff in Hh; destruct Hh as (c & <- & Hc); apply Hq, Hi, Hc. }
      destruct D as [(c & rest' & -> & -> & _ & ->)|[[e ->] ->]].
      * split; [unfold set_queue; destruct (m' =? WriteMode); exact Hr|]. exists F. constructor; [exact P1| |].
        -- apply (kept_less _ _ _ _ H1). intros h [Hh|(c' & [= <-] & ->)]; [exact Hh|]. apply Hq. rewrite Eq. apply in_or_app. right. now left.
        -- apply (Hi rest'). rewrite Eq. intros z Hz. apply in_or_app. right. now right.
      * split; [unfold set_queue; destruct (m' =? WriteMode); exact Hr|]. exists F. constructor; [exact P1| |].
        -- apply (kept_less _ _ _ _ H1). intros h [Hh|(c' & [=] & _)]. exact Hh.
        -- apply (Hi rest). rewrite Eq. intros z Hz. apply in_or_app. now right.
    + unfold reclaim, get, fail in E. rewrite Hr in E. cbn in E. injection E as <- <- _. split; [exact Hr|]. exists F. now constructor.
    + destruct (refresh_round (watch K) q x) as [[p1 x1] r1] eqn:Es. injection E as <- <- _.
      destruct (refresh_round_kept _ _ _ _ _ _ Es Hl Hm P2) as (H1 & H2 & _ & H3 & _). split; [congruence|]. exists F. constructor; [exact P1|exact H1|now rewrite H2].
  - pose proof (phase_places false n q x H) as (F & PF). destruct H as (L & S & Et & H). pose proof (limited_step (watch K) _ _ _ _ _ _ _ E Hb L) as L'.
    pose proof (steady_step (watch K) _ _ _ _ _ _ E Hl Hm) as St. assert (Et' : p_total q' = p_total q) by (unfold SteadyFacts.steady in St; congruence).
    destruct o as [| |m|id h|]; cbn [do_pop after] in *.
    + destruct (start_pool (watch K) q x) as [[p1 x1] r1] eqn:Es. injection E as <- <- _. destruct (start_kept _ _ _ _ _ _ Es Hl H) as (H1 & H2 & H3).
      split; [exact L'|]. split.
      * unfold sized_up in *. rewrite Et'. intros H0. destruct H3 as [[-> ->]|[-> ->]]; [auto|]. rewrite write_share_spec, read_share_spec by exact H0. lia.
      * split; [congruence|]. unfold outs in *. now rewrite H2.
    + destruct (stop_pool (watch K) q x) as [[p1 x1] r1] eqn:Es. injection E as <- <- _. destruct PF as [P1 P2 P3]. destruct (p_running q) eqn:Er.
      * destruct (stop_kept _ _ _ _ _ _ Es Er P2 P3) as (H1 & H2 & H3). split; [exact H3|]. exists F. now constructor.
      * unfold stop_pool, get, fail in Es. rewrite Er in Es. injection Es as <- <- _. split; [exact Er|]. exists F. now constructor.
    + destruct (borrow (watch K) _ q x) as [[p1 x1] r1] eqn:Es. injection E as <- <- _. destruct (borrow_kept _ _ _ _ _ _ _ _ _ _ _ Es I H) as (H1 & H2 & H3).
      split; [exact L'|]. split; [unfold sized_up in *; now rewrite Et', H2, H3|]. split; [congruence|exact H1].
    + destruct (reclaim (watch K) id h q x) as [[p1 x1] r1] eqn:Es. injection E as <- <- _. destruct (reclaim_max _ _ _ _ _ _ _ Es) as (H2 & H3).
      split; [exact L'|]. split; [unfold sized_up in *; now rewrite Et', H2, H3|]. split; [congruence|]. exact (reclaim_kept _ _ _ _ _ _ _ Es (i_keys _ _ _ _ _ _ _ I) H).
    + destruct (refresh_round (watch K) q x) as [[p1 x1] r1] eqn:Es. injection E as <- <- _.
      destruct (refresh_round_kept _ _ _ _ _ _ Es Hl Hm H) as (H1 & H2 & H3 & _ & H5 & H6).
      split; [exact L'|]. split; [unfold sized_up in *; now rewrite Et', H5, H6|]. split; [congruence|]. unfold outs in *. now rewrite H3.
Qed.
Lemma no_restart_app os : forall b o, no_restart b (os ++ [o]) -> no_restart b os /\ (o = OStart -> fold_left after os b = false).
Proof. induction os as [|a os IH]; intros b o; cbn; [tauto|]. intros [H1 H2]. apply IH in H2. tauto. Qed.
Lemma thronged_phase auth tls leader n q0 w0 os q w tr : 2 <= n -> new_routing_pool leader n auth tls = Ok q0 ->
  thronged K (any_use opened named) q0 w0 os q w tr -> no_restart false os ->
  (exists iss before lt, lends iss before lt q (w, tr)) /\ phase (fold_left after os false) n q (w, tr).
Proof.
  intros Hn En. induction 1 as [|os q w tr o q' w' tr' r B IH E|os q w tr h w' B IH [U1 U2]]; intros Ho.
  - split; [exists [], [], []; exact (LendFacts.inv_new _ _ _ _ _ _ _ (w0, []) En)|]. cbn.
    assert (M : p_max_w q0 = 0 /\ p_max_r q0 = 0 /\ p_total q0 = n) by (unfold new_routing_pool in En; destruct (bytes_eqb leader []); [discriminate|]; destruct (_ || _); [discriminate|]; injection En as <-; auto).
    destruct M as (M1 & M2 & M3). split; [exact (limited_new _ _ _ _ _ Hn En)|]. split; [unfold sized_up; lia|]. split; [exact M3|]. intros s d [].
  - apply no_restart_app in Ho. destruct Ho as [H1 H2]. destruct (IH H1) as [I P]. split; [exact (lends_pop _ _ _ _ _ _ E I)|].
    rewrite fold_left_app. cbn [fold_left]. exact (phase_step _ _ _ _ _ _ _ _ I E H2 P).
  - destruct (IH Ho) as [(iss & before & lt & I) P]. split; [|exact (phase_world _ _ _ _ _ _ P)]. exists iss, before, lt. apply (LendFacts.inv_grows _ _ _ _ _ _ (w, tr)); [exact I|].
    unfold LendFacts.grows. cbn. rewrite U1, U2. split; apply incl_refl.
Qed.
Theorem no_throng auth tls leader n q0 w0 os q w tr L : 2 <= n -> new_routing_pool leader n auth tls = Ok q0 ->
  thronged K (any_use opened named) q0 w0 os q w tr -> no_restart false os ->
  NoDup L -> (forall h, In h L -> left_open tr h /\ ~ wavered tr h) -> Z.of_nat (length L) <= n.
Proof.
  intros Hn En B Ho Hd HL. destruct (thronged_phase _ _ _ _ _ _ _ _ _ _ Hn En B Ho) as [_ P]. destruct (phase_places _ _ _ _ P) as (F & [P1 P2 P3]).
  assert (Hi : incl L F).
  { intros h Hh. destruct (HL h Hh) as [[[s Hs] Hc] Hw]. destruct (P2 s h Hs) as [[X|X]|[X|X]]; [now elim Hc|now elim Hw|now apply P3|exact X]. }
  pose proof (NoDup_incl_length Hd Hi). lia.
Qed.
End Throng.
