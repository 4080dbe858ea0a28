(** What the routing pool leaves of what was done with a connection (C81). *)
From Coq Require Import String ZArith List Bool Lia ZifyBool.
From Verif Require Import Bytes GoVal GoErr Decoder Messages GoStr Routing Pool SpecPool PoolFacts WatchPoolFacts.
From Verif Require SpecValues SpecServer Connection Link ExecFacts Wire SpecSession SpecShare.
Import ListNotations.
Open Scope Z_scope.

(** ** A relation that every dealing keeps is kept by every operation *)
Section Relation.
Context {W : Type}.
Variable K : cluster W.
Variable R : W -> W -> Prop.
Hypothesis R_refl : forall w, R w w.
Hypothesis R_trans : forall a b c, R a b -> R b c -> R a c.
Hypothesis R_dial : forall s w, R w (fst (k_dial K s w)).
Hypothesis R_valid : forall h w, R w (fst (k_valid K h w)).
Hypothesis R_close : forall h w, R w (fst (k_close K h w)).
Hypothesis R_name : forall w, R w (fst (k_name K w)).
(** Asking, of a connection just made. *)
Hypothesis R_ask : forall s w w1 h, k_dial K s w = (w1, Ok h) -> R w (fst (k_query K h w1)).

Lemma add_R m p w p' w' r : add_conn K m p w = (p', w', r) -> R w w'.
Proof.
  intros E. eapply (add_eff K R) in E; eauto.
  destruct E as [(s & c & i & x & _ & M & _ & _)|(G & _)]; [|exact G]. eapply made_R; eauto.
Qed.
Lemma times_R n m : forall p w p' w' r, times n (add_conn K m) p w = (p', w', r) -> R w w'.
Proof.
  induction n as [|n IH]; intros p w p' w' r; cbn [times]; [intros [= _ <- _]; auto|].
  unfold bind, mbind. destruct (add_conn K m p w) as [[p1 w1] r1] eqn:E. apply add_R in E.
  destruct r1; try (intros [= _ <- _]; exact E). intros E2. apply IH in E2. eauto.
Qed.
Lemma refresh_R p w p' w' r : refresh_connections K p w = (p', w', r) -> R w w'.
Proof.
  unfold refresh_connections, mbind, get, dial. pose proof (R_dial (p_leader p) w) as H1. pose proof (R_ask (p_leader p) w) as H0.
  destruct (k_dial K (p_leader p) w) as [w1 rd]; cbn in H1. destruct rd as [h|e| |].
  - specialize (H0 w1 h eq_refl). destruct (k_query K h w1) as [w2 [v rows]]; cbn in H0. unfold close_conn.
    pose proof (R_close h w2) as H3. destruct rows as [rows|e| |].
    + destruct (refresh_cluster_info (p_handler p) v (Ok rows)) as [hd x]. destruct (k_close K h w2) as [w3 e]; cbn in H3. intros [= _ <- _]. eauto.
    + destruct (refresh_cluster_info (p_handler p) v (Err e)) as [hd x]. destruct (k_close K h w2) as [w3 e']; cbn in H3. intros [= _ <- _]. eauto.
    + destruct (k_close K h w2) as [w3 e]; cbn in H3. intros [= _ <- _]. eauto.
    + destruct (k_close K h w2) as [w3 e]; cbn in H3. intros [= _ <- _]. eauto.
  - intros [= _ <- _]. auto.
  - intros [= _ <- _]. auto.
  - intros [= _ <- _]. auto.
Qed.
Lemma prune_queue_R remove q : (forall c p w p' w' r, remove c p w = (p', w', r) -> R w w') ->
  forall p w p' w' r, prune_queue (W := W) remove q p w = (p', w', r) -> R w w'.
Proof.
  intros H. induction q as [|c q IH]; intros p w p' w' r; cbn; [intros [= _ <- _]; auto|].
  unfold get, mbind, bind, mbind. destruct (listed _ _).
  - destruct (remove c p w) as [[p1 w1] r1] eqn:E. apply H in E. intros E2. apply IH in E2. eauto.
  - destruct (prune_queue remove q p w) as [[p1 w1] r1] eqn:E. apply IH in E. destruct r1; intros [= _ <- _]; exact E.
Qed.
Lemma prune_R p w p' w' r : prune K p w = (p', w', r) -> R w w'.
Proof.
  unfold prune, bind, mbind, get.
  destruct (prune_queue _ (p_rq p) p w) as [[p1 w1] r1] eqn:E1.
  apply prune_queue_R in E1.
  2: { intros c q x q' x' r'. unfold close_conn. pose proof (R_close (pw_conn c) x) as L. destruct (k_close K (pw_conn c) x). now intros [= _ <- _]. }
  destruct r1; try (intros [= _ <- _]; exact E1).
  destruct (prune_queue _ (p_wq p1) p1 w1) as [[p2 w2] r2] eqn:E2.
  apply prune_queue_R in E2.
  2: { intros c q x q' x' r' E. eapply (remove_eff K R) in E; eauto. apply E. }
  destruct r2; intros [= _ <- _]; eauto.
Qed.
Lemma pop_R o p w p' w' r : do_pop K o p w = (p', w', r) -> R w w'.
Proof.
  destruct o as [| |m|id h|]; cbn [do_pop].
  - destruct (start_pool K p w) as [[p1 w1] r1] eqn:Es. intros [= _ <- _].
    unfold start_pool, get in Es. destruct (p_running p); [injection Es as _ <- _; auto|]. unfold bind, mbind, upd in Es.
    destruct (refresh_connections _ _ w) as [[p2 w2] r2] eqn:Er. apply refresh_R in Er.
    destruct r2; try (injection Es as _ <- _; exact Er).
    destruct (times _ (add_conn K WriteMode) p2 w2) as [[p3 w3] r3] eqn:Et. apply times_R in Et.
    destruct r3; try (injection Es as _ <- _; eauto; fail). apply times_R in Es. eauto.
  - destruct (stop_pool K p w) as [[p1 w1] r1] eqn:Es. intros [= _ <- _].
    unfold stop_pool, get in Es. destruct (p_running p); [|injection Es as _ <- _; auto]. cbn [negb] in Es. unfold bind, mbind, upd in Es.
    destruct (drain _ _ ReadMode _ w) as [[p2 w2] r2] eqn:Er.
    eapply (drain_eff K R) in Er; [|eauto..|cbn; lia]. destruct Er as (L & g & rest & x & Eq & Ep & _).
    destruct r2; try (injection Es as _ <- _; exact L).
    eapply (drain_eff K R) in Es; [|eauto..|].
    + destruct Es as (L2 & _). eauto.
    + subst p2. cbn. lia.
  - destruct (borrow _ _ p w) as [[p1 w1] r1] eqn:Es. intros [= _ <- _]. unfold borrow, get in Es.
    eapply (borrow_eff K R) in Es; eauto. apply Es.
  - destruct (reclaim _ id h p w) as [[p1 w1] r1] eqn:Es. intros [= _ <- _].
    eapply (reclaim_eff K R) in Es; eauto.
    destruct Es as [(G & _)|(_ & c & x & _ & [(G & _)|(w2 & e & w0 & _ & _ & G & E)])]; auto.
    apply add_R in E. eauto.
  - destruct (refresh_round _ p w) as [[p1 w1] r1] eqn:Es. intros [= _ <- _]. unfold refresh_round, bind, mbind in Es.
    destruct (refresh_connections _ p w) as [[p2 w2] r2] eqn:Er. apply refresh_R in Er. destruct r2; try (injection Es as _ <- _; exact Er).
    destruct (prune _ p2 w2) as [[p3 w3] r3] eqn:Ep. apply prune_R in Ep.
    destruct r3; try (injection Es as _ <- _; eauto; fail).
    rewrite balance_nothing in Es by lia. injection Es as _ <- _. eauto.
Qed.
Lemma run_R os : forall p w p' w' l, run_pool K os p w = (p', w', l) -> R w w'.
Proof.
  induction os as [|o os IH]; intros p w p' w' l; cbn [run_pool]; [intros [= _ <- _]; auto|].
  destruct (do_pop K o p w) as [[p1 w1] r] eqn:E1. destruct (run_pool K os p1 w1) as [[p2 w2] l'] eqn:E2. intros [= _ <- _].
  apply pop_R in E1. apply IH in E2. eauto.
Qed.
End Relation.

(** ** Nothing happens to a connection that is not closed *)
Section Untouched.
Context {W X : Type}.
Variables (K : cluster W) (opened : W -> list nat) (named : W -> list bytes) (cell : W -> nat -> X) (h : nat).
Hypothesis Fr : fresh K opened named.
Hypothesis Hi : SpecShare.inert K opened cell.
Definition leaves (a b : W * list kevent) : Prop := exists new, snd b = new ++ snd a
  /\ (In h (opened (fst a)) -> In h (opened (fst b)) /\ ((forall e, ~ In (KClose h e) new) -> cell (fst b) h = cell (fst a) h)).
Lemma leaves_trans a b c : leaves a b -> leaves b c -> leaves a c.
Proof.
  intros (x & Ex & Hx) (y & Ey & Hy). exists (y ++ x). split; [now rewrite Ey, Ex, app_assoc|]. intros H.
  destruct (Hx H) as [H1 H2]. destruct (Hy H1) as [H3 H4]. split; [exact H3|]. intros Hn. rewrite H4, H2; [reflexivity| |].
  - intros e He. apply (Hn e), in_or_app. now right.
  - intros e He. apply (Hn e), in_or_app. now left.
Qed.
Lemma run_leaves os p w p' w' l : run_pool (watch K) os p w = (p', w', l) -> leaves w w'.
Proof.
  apply run_R.
  - intros a. exists []. split; [reflexivity|auto].
  - exact leaves_trans.
  - intros s [a t]. cbn. pose proof (f_dial _ _ _ Fr s a) as [F _]. pose proof (fun H => SpecShare.it_dial _ _ _ Hi s a h H) as I.
    destruct (k_dial K s a) as [b r]. cbn in *. exists [KDial s r]. split; [reflexivity|]. auto.
  - intros x [a t]. cbn. pose proof (f_valid _ _ _ Fr x a) as [F _]. pose proof (fun H => SpecShare.it_valid _ _ _ Hi x a h H) as I.
    destruct (k_valid K x a) as [b r]. cbn in *. exists [KValid x r]. split; [reflexivity|]. auto.
  - intros x [a t]. cbn. pose proof (f_close _ _ _ Fr x a) as [F _]. pose proof (fun H => SpecShare.it_close _ _ _ Hi x a h H) as I.
    destruct (k_close K x a) as [b r]. cbn in *. exists [KClose x r]. split; [reflexivity|]. cbn. intros H. split; [auto|].
    intros Hn. apply I; [exact H|]. intros ->. apply (Hn r). now left.
  - intros [a t]. cbn. pose proof (f_name _ _ _ Fr a) as [F _]. pose proof (fun H => SpecShare.it_name _ _ _ Hi a h H) as I.
    destruct (k_name K a) as [b r]. cbn in *. exists []. split; [reflexivity|]. auto.
  - intros s [a t] [b u] x. cbn. pose proof (f_dial _ _ _ Fr s a) as [F _]. pose proof (fun H => SpecShare.it_dial _ _ _ Hi s a h H) as I.
    pose proof (f_new _ _ _ Fr s a) as Nw.
    destruct (k_dial K s a) as [b' r]. intros [= <- <- ->]. cbn in *. destruct (Nw b' x eq_refl) as [N1 _].
    pose proof (f_query _ _ _ Fr x b') as [F2 _]. pose proof (fun H => SpecShare.it_query _ _ _ Hi x b' h H) as I2.
    destruct (k_query K x b') as [c [v r]]. cbn in *. exists [KQuery x v r; KDial s (Ok x)]. split; [reflexivity|]. intros H.
    split; [auto|]. intros _. transitivity (cell b' h); [|auto]. apply I2; [auto|]. intros ->. contradiction.
Qed.
Lemma untouched os p w tr p' w' new l : run_pool (watch K) os p (w, tr) = (p', (w', new ++ tr), l) -> In h (opened w) ->
  (forall e, ~ In (KClose h e) new) -> cell w' h = cell w h.
Proof.
  intros E Ho Hn. destruct (run_leaves _ _ _ _ _ _ E) as (x & Ex & Hx). cbn [fst snd] in *. apply app_inv_tail in Ex. subst x. now apply Hx.
Qed.
End Untouched.

(** ** Sessions *)
Section Sessions.
Import SpecValues SpecServer Connection Link ExecFacts Wire SpecSession SpecShare.
Context {W : Type}.
Variables (K : cluster W) (opened : W -> list nat) (named : W -> list bytes) (p : nat -> proto) (P : nat -> peer) (cell : W -> nat -> conn * wire).
Hypothesis Fr : fresh K opened named.
Hypothesis Hs : cluster_sessions K opened p P cell.
(** The connection and the server, without the bytes on their way. *)
Definition ends_of (w : W) (h : nat) : conn * srv := (fst (cell w h), w_srv (snd (cell w h))).
Lemma validate_ends Q x y r : does (wired Q) CValidate x y r -> fst y = fst x /\ w_srv (snd y) = w_srv (snd x).
Proof.
  intros (n & E & _). destruct x as [c w], y as [c' w']. cbn [fst snd do_call] in E. unfold pmap, validate_open in E. rewrite exec_bind, exec_get in E.
  destruct (c_closed c); [injection E as <- <- _; auto|]. cbn [exec wired n_probe] in E.
  destruct (p_looks Q); [destruct (w_down w)|]; cbn in E; injection E as <- <- _; auto.
Qed.
Lemma sessions_inert : inert K opened ends_of.
Proof.
  constructor; unfold ends_of.
  - intros s w h Hh. destruct (k_dial K s w) as [w' r] eqn:E. cbn [fst]. destruct (cs_dial _ _ _ _ _ Hs s w w' r E) as [H _]. now rewrite (H h Hh).
  - intros h' w h Hh. destruct (k_valid K h' w) as [w' b] eqn:E. cbn [fst]. destruct (cs_valid _ _ _ _ _ Hs h' w w' b E) as (_ & H1 & H2).
    destruct (Nat.eq_dec h h') as [->|Hn]; [|now rewrite (H1 h Hn)]. specialize (H2 Hh). apply validate_ends in H2. destruct H2 as [-> ->]. reflexivity.
  - intros h' w h Hh Hn. destruct (k_close K h' w) as [w' b] eqn:E. cbn [fst]. destruct (cs_close _ _ _ _ _ Hs h' w w' b E) as (_ & H1 & _). now rewrite (H1 h Hn).
  - intros h' w h Hh Hn. destruct (k_query K h' w) as [w' [v b]] eqn:E. cbn [fst]. destruct (cs_query _ _ _ _ _ Hs h' w w' v b E) as (_ & H1 & _). now rewrite (H1 h Hn).
  - intros w h Hh. destruct (cs_name _ _ _ _ _ Hs w) as [_ H]. now rewrite H.
Qed.
Lemma passed_on os q w tr q' w' new l h : run_pool (watch K) os q (w, tr) = (q', (w', new ++ tr), l) -> In h (opened w) ->
  (forall e, ~ In (KClose h e) new) -> fst (cell w' h) = fst (cell w h) /\ w_srv (snd (cell w' h)) = w_srv (snd (cell w h)).
Proof.
  intros E Hh Hn. pose proof (untouched K opened named ends_of h Fr sessions_inert os q w tr q' w' new l E Hh Hn) as H. unfold ends_of in H. injection H as H1 H2. auto.
Qed.
End Sessions.
