(** Facts about pools whose dealings with the cluster are watched. *)
From Coq Require Import String ZArith List Bool Lia ZifyBool Permutation.
From Verif Require Import Bytes GoVal GoErr Decoder Messages GoStr Routing Pool SpecPool BytesFacts RoutingFacts PoolFacts LendFacts.
Import ListNotations.
Open Scope Z_scope.

Lemma fresh_watch {W} (K : cluster W) opened named : fresh K opened named -> fresh (watch K) (fun w => opened (fst w)) (fun w => named (fst w)).
Proof.
  intros []. constructor.
  - intros s [w tr]. cbn. specialize (f_dial s w). destruct (k_dial K s w). exact f_dial.
  - intros s [w tr] [w' tr'] h. cbn. destruct (k_dial K s w) as [w1 r] eqn:E. intros [= <- _ ->]. eauto.
  - intros h [w tr]. cbn. specialize (f_valid h w). destruct (k_valid K h w). exact f_valid.
  - intros h [w tr]. cbn. specialize (f_close h w). destruct (k_close K h w). exact f_close.
  - intros h [w tr]. cbn. specialize (f_query h w). destruct (k_query K h w) as [? [? ?]]. exact f_query.
  - intros [w tr]. cbn. specialize (f_name w). destruct (k_name K w). exact f_name.
  - intros [w tr] [w' tr'] n. cbn. destruct (k_name K w) as [w1 r] eqn:E. intros [= <- _ ->]. eauto.
Qed.

Section Watched.
Context {W : Type}.
Variable K : cluster W.
Notation WT := (W * list kevent)%type.

Definition longer (a b : WT) : Prop := exists new, snd b = new ++ snd a.
Lemma longer_refl a : longer a a.
Proof. now exists []. Qed.
Lemma longer_trans a b c : longer a b -> longer b c -> longer a c.
Proof. intros [x Hx] [y Hy]. exists (y ++ x). now rewrite Hy, Hx, app_assoc. Qed.
Lemma longer_dial s w : longer w (fst (k_dial (watch K) s w)).
Proof. cbn. destruct (k_dial K s (fst w)) as [w' r]. now exists [KDial s r]. Qed.
Lemma longer_valid h w : longer w (fst (k_valid (watch K) h w)).
Proof. cbn. destruct (k_valid K h (fst w)) as [w' r]. now exists [KValid h r]. Qed.
Lemma longer_close h w : longer w (fst (k_close (watch K) h w)).
Proof. cbn. destruct (k_close K h (fst w)) as [w' r]. now exists [KClose h r]. Qed.
Lemma longer_query h w : longer w (fst (k_query (watch K) h w)).
Proof. cbn. destruct (k_query K h (fst w)) as [w' [v r]]. now exists [KQuery h v r]. Qed.
Lemma longer_name w : longer w (fst (k_name (watch K) w)).
Proof. cbn. destruct (k_name K (fst w)) as [w' r]. now exists []. Qed.
Hint Resolve longer_refl longer_dial longer_valid longer_close longer_query longer_name : core.

Lemma longer_in a b e : longer a b -> In e (snd a) -> In e (snd b).
Proof. intros [n ->] H. apply in_or_app. now right. Qed.

Lemma remove_trace c p w tr p' w' tr' r : remove_conn (watch K) (Some c) p (w, tr) = (p', (w', tr'), r) ->
  exists new, tr' = new ++ tr
  /\ ((r = Ok tt /\ (new = [KValid (pw_conn c) true] \/ new = [KClose (pw_conn c) None; KValid (pw_conn c) false]))
      \/ exists e, r = Err e /\ new = [KClose (pw_conn c) (Some e); KValid (pw_conn c) false]).
Proof.
  unfold remove_conn, bind, mbind, valid. cbn. destruct (k_valid K (pw_conn c) w) as [w1 [|]].
  - intros [= _ _ <- <-]. exists [KValid (pw_conn c) true]. auto.
  - unfold close_conn. cbn. destruct (k_close K (pw_conn c) w1) as [w2 [e|]].
    + intros [= _ _ <- <-]. exists [KClose (pw_conn c) (Some e); KValid (pw_conn c) false]. eauto.
    + intros [= _ _ <- <-]. exists [KClose (pw_conn c) None; KValid (pw_conn c) false]. auto.
Qed.

Definition passed_over (marked : list nat) (new : list kevent) (c : wrapper) : Prop :=
  listed (pw_conn c) marked = true \/ In (KValid (pw_conn c) false) new.
Theorem borrow_trace mode fuel : forall p w tr p' w' tr' r,
  internal_borrow (watch K) fuel mode p (w, tr) = (p', (w', tr'), r) -> (length (queue_of mode p) < fuel)%nat ->
  exists new skipped rest, tr' = new ++ tr /\ queue_of mode p = skipped ++ rest /\ Forall (passed_over (p_marked p) new) skipped
  /\ ((exists c new', rest = c :: queue_of mode p' /\ r = Ok c /\ listed (pw_conn c) (p_marked p) = false /\ new = KValid (pw_conn c) true :: new')
      \/ (exists e, r = Err e /\ queue_of mode p' = rest
          /\ (rest = [] \/ exists c, In c skipped /\ In (KClose (pw_conn c) (Some e)) new))).
Proof.
  induction fuel as [|fuel IH]; intros p w tr p' w' tr' r; [lia|]. cbn [internal_borrow]. unfold get at 1.
  destruct (queue_of mode p) as [|c q] eqn:Eq; cbn [dequeue]; unfold bind at 1, mbind at 1, upd at 1.
  - intros [= <- _ <- <-] _. exists [], [], []. split; [reflexivity|]. split; [reflexivity|]. split; [constructor|]. right.
    eexists. split; [reflexivity|]. split; [apply queue_set|now left].
  - intros E Hl. cbn [length] in Hl.
    assert (Step : forall w0 tr0 ev p2 w2 tr2 r2,
      (listed (pw_conn c) (p_marked p) = true \/ In (KValid (pw_conn c) false) ev) -> tr0 = ev ++ tr ->
      bind (remove_conn (watch K) (Some c)) (fun _ => internal_borrow (watch K) fuel mode) (set_queue mode q p) (w0, tr0) = (p2, (w2, tr2), r2) ->
      exists new skipped rest, tr2 = new ++ tr /\ c :: q = skipped ++ rest /\ Forall (passed_over (p_marked p) new) skipped
      /\ ((exists c new', rest = c :: queue_of mode p2 /\ r2 = Ok c /\ listed (pw_conn c) (p_marked p) = false /\ new = KValid (pw_conn c) true :: new')
          \/ (exists e, r2 = Err e /\ queue_of mode p2 = rest
              /\ (rest = [] \/ exists c, In c skipped /\ In (KClose (pw_conn c) (Some e)) new)))).
    { intros w0 tr0 ev p2 w2 tr2 r2 Hc Htr E'. unfold bind, mbind in E'.
      destruct (remove_conn (watch K) (Some c) (set_queue mode q p) (w0, tr0)) as [[p1 [w1 tr1]] r1] eqn:E1.
      pose proof (remove_trace _ _ _ _ _ _ _ _ E1) as (n1 & -> & Hr).
      pose proof (remove_eff _ longer longer_trans longer_valid longer_close _ _ _ _ _ _ E1) as ([x Hs] & _ & _).
      assert (Q : queue_of mode p1 = q) by (subst p1; unfold queue_of, set_queue; destruct (mode =? WriteMode); reflexivity).
      assert (Mk : p_marked p1 = p_marked p) by (subst p1; unfold set_queue; destruct (mode =? WriteMode); reflexivity).
      destruct Hr as [[-> Hn]|(e & -> & Hn)].
      - apply IH in E'; [|rewrite Q; lia]. destruct E' as (n2 & sk & rest & -> & E2 & Fs & D). rewrite Q in E2. rewrite Mk in Fs, D.
        exists (n2 ++ n1 ++ ev), (c :: sk), rest. split; [rewrite Htr, !app_assoc; reflexivity|]. split; [now rewrite E2|]. split.
        + constructor.
          * destruct Hc as [Hc|Hc]; [now left|right]. apply in_or_app. right. apply in_or_app. now right.
          * eapply Forall_impl; [|exact Fs]. intros d [Hd|Hd]; [now left|right]. apply in_or_app. now left.
        + destruct D as [(d & n' & Er & -> & Hm & ->)|(e & -> & Er & D)].
          * left. exists d, (n' ++ n1 ++ ev). auto.
          * right. exists e. split; [reflexivity|]. split; [exact Er|]. destruct D as [D|(d & Hd & D)]; [now left|right].
            exists d. split; [now right|]. apply in_or_app. now left.
      - injection E' as <- _ <- <-. exists (n1 ++ ev), [c], q. split; [rewrite Htr, !app_assoc; reflexivity|]. split; [reflexivity|]. split.
        + constructor; [|constructor]. destruct Hc as [Hc|Hc]; [now left|right]. apply in_or_app. now right.
        + right. exists e. split; [reflexivity|]. split; [exact Q|]. right. exists c. split; [now left|]. rewrite Hn. now left. }
    destruct (listed (pw_conn c) (p_marked p)) eqn:Em.
    + eapply (Step w tr []); eauto.
    + unfold bind at 1, mbind at 1, valid in E. cbn in E. destruct (k_valid K (pw_conn c) w) as [w0 ok]. destruct ok; cbn [negb] in E.
      * injection E as <- _ <- <-. exists [KValid (pw_conn c) true], [], (c :: q). split; [reflexivity|]. split; [reflexivity|]. split; [constructor|].
        left. exists c, []. split; [f_equal; unfold queue_of, set_queue; destruct (mode =? WriteMode); reflexivity|]. auto.
      * eapply (Step w0 (KValid (pw_conn c) false :: tr) [KValid (pw_conn c) false]); [right; now left|reflexivity|exact E].
Qed.
Lemma listed_in h l : listed h l = true <-> In h l.
Proof. unfold listed. rewrite existsb_exists. split; [intros (x & H & E); apply Nat.eqb_eq in E; now subst|intros H; exists h; split; [exact H|apply Nat.eqb_refl]]. Qed.

(** The trace only grows. *)
Lemma add_longer m p w p' w' r : add_conn (watch K) m p w = (p', w', r) -> longer w w'.
Proof.
  intros E. eapply (add_eff (watch K) longer) in E; eauto using longer_trans.
  destruct E as [(s & c & i & x & _ & M & _ & _)|(G & _)]; [|exact G]. eapply made_R; eauto using longer_trans.
Qed.
Lemma times_longer n m : forall p w p' w' r, times n (add_conn (watch K) m) p w = (p', w', r) -> longer w w'.
Proof.
  induction n as [|n IH]; intros p w p' w' r; cbn [times]; [intros [= _ <- _]; auto|].
  unfold bind, mbind. destruct (add_conn (watch K) m p w) as [[p1 w1] r1] eqn:E. apply add_longer in E.
  destruct r1; try (intros [= _ <- _]; exact E). intros E2. apply IH in E2. eapply longer_trans; eauto.
Qed.
Lemma refresh_longer p w p' w' r : refresh_connections (watch K) p w = (p', w', r) -> longer w w'.
Proof. intros E. eapply (refresh_eff (watch K) longer) in E; eauto using longer_trans. apply E. Qed.
Lemma prune_queue_longer remove q : (forall c p w p' w' r, remove c p w = (p', w', r) -> longer w w') ->
  forall p w p' w' r, prune_queue (W := WT) remove q p w = (p', w', r) -> longer w w'.
Proof.
  intros H. induction q as [|c q IH]; intros p w p' w' r; cbn; [intros [= _ <- _]; auto|].
  unfold get, mbind, bind, mbind. destruct (listed _ _).
  - destruct (remove c p w) as [[p1 w1] r1] eqn:E. apply H in E. intros E2. apply IH in E2. eapply longer_trans; eauto.
  - destruct (prune_queue remove q p w) as [[p1 w1] r1] eqn:E. apply IH in E. destruct r1; intros [= _ <- _]; exact E.
Qed.
Lemma prune_longer p w p' w' r : prune (watch K) p w = (p', w', r) -> longer w w'.
Proof.
  unfold prune, bind, mbind, get.
  destruct (prune_queue _ (p_rq p) p w) as [[p1 w1] r1] eqn:E1.
  apply prune_queue_longer in E1.
  2: { intros c q x q' x' r'. unfold close_conn. pose proof (longer_close (pw_conn c) x) as L. destruct (k_close (watch K) (pw_conn c) x). now intros [= _ <- _]. }
  destruct r1; try (intros [= _ <- _]; exact E1).
  destruct (prune_queue _ (p_wq p1) p1 w1) as [[p2 w2] r2] eqn:E2.
  apply prune_queue_longer in E2.
  2: { intros c q x q' x' r' E. eapply (remove_eff (watch K) longer) in E; eauto using longer_trans. apply E. }
  destruct r2; intros [= _ <- _]; eapply longer_trans; eauto.
Qed.
Lemma pop_longer o p w p' w' r : do_pop (watch K) o p w = (p', w', r) -> longer w w'.
Proof.
  destruct o as [| |m|id h|]; cbn [do_pop].
  - destruct (start_pool (watch K) p w) as [[p1 w1] r1] eqn:Es. intros [= _ <- _].
    unfold start_pool, get in Es. destruct (p_running p); [injection Es as _ <- _; auto|]. unfold bind, mbind, upd in Es.
    destruct (refresh_connections _ _ w) as [[p2 w2] r2] eqn:Er. apply refresh_longer in Er.
    destruct r2; try (injection Es as _ <- _; exact Er).
    destruct (times _ (add_conn (watch K) WriteMode) p2 w2) as [[p3 w3] r3] eqn:Et. apply times_longer in Et.
    destruct r3; try (injection Es as _ <- _; eapply longer_trans; eauto). apply times_longer in Es. eauto using longer_trans.
  - destruct (stop_pool (watch K) p w) as [[p1 w1] r1] eqn:Es. intros [= _ <- _].
    unfold stop_pool, get in Es. destruct (p_running p); [|injection Es as _ <- _; auto]. cbn [negb] in Es. unfold bind, mbind, upd in Es.
    destruct (drain _ _ ReadMode _ w) as [[p2 w2] r2] eqn:Er.
    eapply (drain_eff (watch K) longer) in Er; [|eauto using longer_trans..|cbn; lia]. destruct Er as (L & g & rest & x & Eq & Ep & _).
    destruct r2; try (injection Es as _ <- _; exact L).
    eapply (drain_eff (watch K) longer) in Es; [|eauto using longer_trans..|].
    + destruct Es as (L2 & _). eauto using longer_trans.
    + subst p2. cbn. lia.
  - destruct (borrow _ _ p w) as [[p1 w1] r1] eqn:Es. intros [= _ <- _]. unfold borrow, get in Es.
    eapply (borrow_eff (watch K) longer) in Es; eauto using longer_trans. apply Es.
  - destruct (reclaim _ id h p w) as [[p1 w1] r1] eqn:Es. intros [= _ <- _].
    eapply (reclaim_eff (watch K) longer) in Es; eauto using longer_trans.
    destruct Es as [(G & _)|(_ & c & x & _ & [(G & _)|(w2 & e & w0 & _ & _ & G & E)])]; auto.
    apply add_longer in E. eauto using longer_trans.
  - destruct (refresh_round _ p w) as [[p1 w1] r1] eqn:Es. intros [= _ <- _]. unfold refresh_round, bind, mbind in Es.
    destruct (refresh_connections _ p w) as [[p2 w2] r2] eqn:Er. apply refresh_longer in Er. destruct r2; try (injection Es as _ <- _; exact Er).
    destruct (prune _ p2 w2) as [[p3 w3] r3] eqn:Ep. apply prune_longer in Ep.
    destruct r3; try (injection Es as _ <- _; eauto using longer_trans).
    rewrite balance_nothing in Es by lia. injection Es as _ <- _. eauto using longer_trans.
Qed.
Lemma run_longer os : forall p w p' w' l, run_pool (watch K) os p w = (p', w', l) -> longer w w'.
Proof.
  induction os as [|o os IH]; intros p w p' w' l; cbn [run_pool]; [intros [= _ <- _]; auto|].
  destruct (do_pop (watch K) o p w) as [[p1 w1] r] eqn:E1. destruct (run_pool (watch K) os p1 w1) as [[p2 w2] l'] eqn:E2. intros [= _ <- _].
  apply pop_longer in E1. apply IH in E2. eauto using longer_trans.
Qed.

(** ** Healthy connections are kept (C49) *)

Variable opened : W -> list nat.
Variable named : W -> list bytes.
Hypothesis Fr : fresh K opened named.
Notation inv := (inv (fun w : WT => opened (fst w)) (fun w : WT => named (fst w))).


Lemma keeps_step iss before lt o p w tr p' w' new r : do_pop (watch K) o p (w, tr) = (p', (w', new ++ tr), r) ->
  inv iss before lt p (w, tr) -> everyday o -> healthy new ->
  match o with OReclaim id h => In (id, h) before \/ ~ In id (map fst before) | _ => True end ->
  Permutation (idle p ++ lt) (idle p' ++ lent_by (o, r) lt).
Proof.
  intros E I Ev Hn Hon. destruct o as [| |m|id h|]; cbn [do_pop everyday] in E, Ev; try contradiction.
  - destruct (borrow (watch K) _ p (w, tr)) as [[p1 [w1 tr1]] r1] eqn:Eb. injection E as -> -> -> <-.
    unfold borrow, get in Eb. set (m' := if m =? ReadMode then ReadMode else WriteMode) in *.
    pose proof (borrow_trace _ _ _ _ _ _ _ _ _ Eb ltac:(lia)) as (nw & sk & rest & Et & Eq & Fs & D).
    apply app_inv_tail in Et. subst nw.
    assert (sk = []).
    { destruct sk as [|s sk]; [reflexivity|]. inversion Fs as [|? ? [H|H] _]; subst.
      - destruct I. rewrite i_marks in H. discriminate.
      - apply Hn in H. discriminate. }
    subst sk. cbn [app] in Eq.
    eapply (borrow_eff (watch K) longer) in Eb; eauto using longer_trans.
    destruct Eb as (_ & sk2 & rest2 & x & Eq2 & D2).
    destruct D as [(c & n' & Er & -> & _ & _)|(e & -> & Er & D)].
    + destruct D2 as [(c2 & rest' & -> & [= <-] & _ & ->)|[[e H] _]]; [|discriminate].
      assert (Eq' : queue_of m' p = c :: rest').
      { rewrite Eq, Er. f_equal. unfold queue_of, set_queue. destruct (m' =? WriteMode); reflexivity. }
      cbn [result_of lent_by]. rewrite (idle_perm m' p), Eq', (idle_perm m' (set_borrowed _ _)).
      replace (queue_of m' (set_borrowed _ (set_held x (set_queue m' rest' p)))) with rest' by (unfold queue_of, set_queue; destruct (m' =? WriteMode); reflexivity).
      replace (queue_of (other m') (set_borrowed _ (set_held x (set_queue m' rest' p)))) with (queue_of (other m') p) by (unfold queue_of, set_queue, other; destruct (m' =? WriteMode); reflexivity).
      cbn. apply Permutation_middle.
    + destruct D2 as [(c2 & rest' & _ & H & _)|[_ ->]]; [discriminate|]. cbn [result_of lent_by].
      apply Permutation_app_tail. rewrite (idle_perm m' p), (idle_perm m' (set_held x _)).
      replace (queue_of m' (set_held x (set_queue m' rest2 p))) with rest2 in * by (unfold queue_of, set_queue; destruct (m' =? WriteMode); reflexivity).
      replace (queue_of (other m') (set_held x (set_queue m' rest2 p))) with (queue_of (other m') p) by (unfold queue_of, set_queue, other; destruct (m' =? WriteMode); reflexivity).
      rewrite Eq, <- Er. reflexivity.
  - destruct (reclaim (watch K) id h p (w, tr)) as [[p1 [w1 tr1]] r1] eqn:Er. injection E as -> -> -> <-.
    eapply (reclaim_eff (watch K) longer) in Er; eauto using longer_trans.
    destruct Er as [(G & -> & [e ->] & _)|(_ & c & x & Eg & D)]; [reflexivity|].
    pose proof I as I0. destruct I0. assert (Hin := map_get_in _ _ _ Eg). destruct (i_out _ _ Hin) as [Hb Hl].
    assert (Hh : pw_conn c = h).
    { destruct Hon as [Hon|Hon]; [|destruct Hon; change id with (fst (id, pw_conn c)); now apply in_map].
      eapply NoDup_map_fst; [exact i_ids| |]; apply i_before; eauto. }
    cbv zeta in D. destruct D as [(G & -> & ->)|(w2 & e & w0 & Hv & Hrm & G & Ea)].
    + cbn [result_of lent_by]. rewrite (without_perm h lt) at 1; [|exact i_once|now rewrite <- Hh].
      rewrite <- Permutation_middle, app_comm_cons. apply Permutation_app_tail. rewrite <- Hh.
      unfold back. set (m := if pw_mode c =? WriteMode then WriteMode else ReadMode). set (p1 := set_held x _).
      rewrite (idle_perm m (set_queue m _ p1)), queue_set, queue_set_other, <- app_assoc. cbn [app].
      rewrite map_app. cbn [map]. rewrite <- Permutation_middle. constructor. rewrite <- map_app.
      rewrite <- idle_perm. reflexivity.
    + exfalso. cbn in Hv. destruct (k_valid K (pw_conn c) w) as [wv b]. injection Hv as <- ->.
      assert (In (KValid (pw_conn c) false) (new ++ tr)).
      { apply (longer_in w2 (w', new ++ tr)); [now apply add_longer in Ea|].
        pose proof (remove_eff _ longer longer_trans longer_valid longer_close _ _ _ _ _ _ Hrm) as (_ & L & _).
        apply (longer_in _ _ _ L). now left. }
      pose proof (remove_eff _ longer longer_trans longer_valid longer_close _ _ _ _ _ _ Hrm) as (_ & [n1 L] & _).
      apply add_longer in Ea. destruct Ea as [n2 L2]. cbn in L2. rewrite L in L2. cbn in L2.
      assert (new = n2 ++ n1 ++ [KValid (pw_conn c) false]) as ->.
      { apply (app_inv_tail tr). rewrite L2. rewrite <- !app_assoc. reflexivity. }
      specialize (Hn (pw_conn c) false). discriminate Hn. apply in_or_app. right. apply in_or_app. right. now left.
  - destruct (refresh_round (watch K) p (w, tr)) as [[p1 w1] r1] eqn:Er. injection E as -> -> <-.
    assert (core p' = core p).
    { unfold refresh_round, bind, mbind in Er. destruct (refresh_connections _ p (w, tr)) as [[p2 w2] r2] eqn:E2.
      eapply (refresh_eff (watch K) longer) in E2; eauto using longer_trans.
      assert (C : core p2 = core p) by (destruct E2 as (_ & [->|(hd & -> & _)]); [reflexivity|apply core_merge; apply I]).
      destruct r2; try (injection Er as <- _ _; exact C).
      rewrite (prune_nothing _ p2 w2) in Er by (unfold core in C; injection C as _ _ _ -> _; apply I).
      rewrite balance_nothing in Er by lia. injection Er as <- _ _. exact C. }
    assert (Ei : idle p' = idle p) by (unfold idle; unfold core in H; now injection H as -> -> _ _ _).
    rewrite Ei. destruct r1; reflexivity.
Qed.

Lemma keeps_run os : forall iss before lt p w tr p' w' new l, run_pool (watch K) os p (w, tr) = (p', (w', new ++ tr), l) ->
  inv iss before lt p (w, tr) -> Forall everyday os -> healthy new -> honest before l ->
  Permutation (idle p ++ lt) (idle p' ++ fold_left (fun acc x => lent_by x acc) l lt).
Proof.
  induction os as [|o os IH]; intros iss before lt p w tr p' w' new l; cbn [run_pool].
  - intros [= <- _ _ <-] _ _ _ _. reflexivity.
  - destruct (do_pop (watch K) o p (w, tr)) as [[p1 [w1 tr1]] r] eqn:E1. destruct (run_pool (watch K) os p1 (w1, tr1)) as [[p2 [w2 tr2]] l'] eqn:E2.
    intros [= <- <- -> <-] I Ev Hn [H1 H2]. inversion Ev as [|? ? Ev1 Ev2]; subst.
    destruct (pop_longer _ _ _ _ _ _ E1) as [n1 L1]. cbn in L1. subst tr1.
    destruct (run_longer _ _ _ _ _ _ E2) as [n2 L2]. cbn in L2. rewrite app_assoc in L2. apply app_inv_tail in L2. subst new.
    rewrite (keeps_step _ _ _ _ _ _ _ _ _ _ _ E1 I Ev1); [|intros h b H; apply (Hn h b); apply in_or_app; now right|exact H1].
    destruct (inv_step (watch K) _ _ (fresh_watch K opened named Fr) _ _ _ _ _ _ _ _ _ E1 I H1) as (_ & iss1 & _ & I1).
    cbn [fold_left]. rewrite <- app_assoc in E2. eapply IH; [exact E2|exact I1|exact Ev2| |exact H2].
    intros h b H. apply (Hn h b). apply in_or_app. now left.
Qed.

Lemma run_app os1 os2 p w : run_pool (watch K) (os1 ++ os2) p w =
  (let '(p1, w1, l1) := run_pool (watch K) os1 p w in let '(p2, w2, l2) := run_pool (watch K) os2 p1 w1 in (p2, w2, l1 ++ l2)).
Proof.
  revert p w. induction os1 as [|o os1 IH]; intros p w; cbn [run_pool app].
  - destruct (run_pool (watch K) os2 p w) as [[? ?] ?]. reflexivity.
  - destruct (do_pop (watch K) o p w) as [[p1 w1] r]. rewrite IH. destruct (run_pool (watch K) os1 p1 w1) as [[p2 w2] l1].
    destruct (run_pool (watch K) os2 p2 w2) as [[p3 w3] l2]. reflexivity.
Qed.
Fixpoint before_of (before : list (bytes * nat)) (l : list (pop * presult)) : list (bytes * nat) :=
  match l with [] => before | (_, RLent id h) :: l' => before_of ((id, h) :: before) l' | _ :: l' => before_of before l' end.
Lemma honest_app l1 : forall before l2, honest before (l1 ++ l2) <-> honest before l1 /\ honest (before_of before l1) l2.
Proof.
  induction l1 as [|[o r] l1 IH]; intros before l2; cbn [app honest before_of]; [tauto|]. rewrite IH. destruct r; tauto.
Qed.
Lemma inv_run' os : forall iss before lt p w p' w' l, run_pool (watch K) os p w = (p', w', l) -> honest before l -> inv iss before lt p w ->
  exists iss', inv iss' (before_of before l) (fold_left (fun acc x => lent_by x acc) l lt) p' w'.
Proof.
  induction os as [|o os IH]; intros iss before lt p w p' w' l; cbn [run_pool].
  - intros [= <- <- <-] _ I. cbn. eauto.
  - destruct (do_pop (watch K) o p w) as [[p1 w1] r] eqn:E1. destruct (run_pool (watch K) os p1 w1) as [[p2 w2] l'] eqn:E2. intros [= <- <- <-].
    cbn [honest]. intros [H1 H2] I. destruct (inv_step (watch K) _ _ (fresh_watch K opened named Fr) _ _ _ _ _ _ _ _ _ E1 I H1) as (X & iss1 & S1 & I1).
    destruct (IH _ _ _ _ _ _ _ _ E2 H2 I1) as (iss2 & I2). exists iss2. cbn [before_of fold_left]. destruct r; exact I2.
Qed.
Theorem keeps n auth tls w0 l0 p w tr os p' w' new l :
  pool_history (watch K) n auth tls (w0, []) l0 p (w, tr) -> run_pool (watch K) os p (w, tr) = (p', (w', new ++ tr), l) ->
  honest [] (l0 ++ l) -> Forall everyday os -> healthy new ->
  Permutation (idle p ++ lent l0) (idle p' ++ lent (l0 ++ l)).
Proof.
  intros (leader & p0 & En & Er) E Ho Ev Hn. apply honest_app in Ho. destruct Ho as [H1 H2].
  destruct (inv_run' _ _ _ _ _ _ _ _ _ Er H1 (inv_new _ _ _ _ _ _ _ (w0, []) En)) as (iss & I).
  unfold lent. rewrite fold_left_app. eapply keeps_run; eauto.
Qed.
End Watched.
