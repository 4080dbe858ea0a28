(** What becomes of the connections a routing pool opens. *)
From Coq Require Import String ZArith List Bool Lia.
From Verif Require Import Bytes GoVal GoErr Decoder Messages GoStr Routing Pool SpecPool PoolFacts LendFacts WatchPoolFacts SpecManners TouchFacts MannersFacts SpecBooks.
From Verif Require SteadyFacts.
Import ListNotations.
Open Scope Z_scope.

Section Books.
Context {W : Type}.
Variable K : cluster W.
Notation WT := (W * list kevent)%type.
Implicit Type T : nat -> Prop.

Definition settled_up (tr : list kevent) (h : nat) : Prop := told_to_close tr h \/ wavered tr h.
Definition kept T (p : pool) (x : WT) : Prop := forall s h, In (KDial s (Ok h)) (snd x) -> settled_up (snd x) h \/ In h (idle p) \/ T h.
Lemma settled_more e tr h : settled_up tr h -> settled_up (e :: tr) h.
Proof. intros [[f H]|(a & b & s & -> & H)]; [left; exists f; now right|right; now exists (e :: a), b, s]. Qed.
Lemma kept_weak T T' p p' x : kept T p x -> (forall h, In h (idle p) -> In h (idle p') \/ T' h) -> (forall h, T h -> In h (idle p') \/ T' h) -> kept T' p' x.
Proof. intros H H1 H2 s h Hh. destruct (H s h Hh) as [X|[X|X]]; auto. Qed.
Lemma kept_event T p x x' e : kept T p x -> snd x' = e :: snd x -> (forall s h, e <> KDial s (Ok h)) -> kept T p x'.
Proof.
  intros H E He s h. rewrite E. intros [X|X]; [now elim (He s h)|]. destruct (H s h X) as [Y|Y]; [left; now apply settled_more|now right].
Qed.
Lemma kept_closed T p x h e : kept (fun d => T d \/ d = h) p x -> In (KClose h e) (snd x) -> kept T p x.
Proof. intros H He s d Hd. destruct (H s d Hd) as [X|[X|[X| ->]]]; auto. left. left. now exists e. Qed.
Lemma kept_less T T' p x : kept T p x -> (forall h, T h -> T' h) -> kept T' p x.
Proof. intros H Ht. apply (kept_weak T T' p p x H); auto. Qed.

Lemma close_step T h p x p' x' r : close_conn (watch K) h p x = (p', x', r) -> kept T p x -> p' = p /\ kept T p x' /\ (exists e, In (KClose h e) (snd x')) /\ exists e, snd x' = e :: snd x.
Proof.
  unfold close_conn. cbn. destruct (k_close K h (fst x)) as [w' e]. intros [= <- <- _] H. split; [reflexivity|]. split; [|split].
  - apply (kept_event T p x (w', KClose h e :: snd x) (KClose h e) H); [reflexivity|discriminate].
  - exists e. now left.
  - now exists (KClose h e).
Qed.
Lemma valid_step T h p x p' x' r : valid (watch K) h p x = (p', x', r) -> kept T p x -> exists b, r = Ok b /\ p' = p /\ kept T p x' /\ snd x' = KValid h b :: snd x.
Proof.
  unfold valid. cbn. destruct (k_valid K h (fst x)) as [w' b]. intros [= <- <- <-] H. exists b. split; [reflexivity|]. split; [reflexivity|].
  split; [apply (kept_event T p x (w', KValid h b :: snd x) (KValid h b) H); [reflexivity|discriminate]|reflexivity].
Qed.
(** What is taken out is asked to close if it is found closed. *)
Lemma remove_step T c p x p' x' r : remove_conn (watch K) (Some c) p x = (p', x', r) -> kept T p x ->
  idle p' = idle p /\ kept T p' x' /\ (told_to_close (snd x') (pw_conn c) \/ r = Ok tt /\ snd x' = KValid (pw_conn c) true :: snd x).
Proof.
  cbn [remove_conn]. unfold bind, mbind at 1. destruct (valid (watch K) (pw_conn c) p x) as [[p1 x1] r1] eqn:E. intros E2 H.
  destruct (valid_step _ _ _ _ _ _ _ E H) as (b & -> & -> & H1 & Et). destruct b.
  - cbn in E2. injection E2 as <- <- <-. split; [reflexivity|]. split; [exact H1|]. right. auto.
  - unfold mbind in E2. destruct (close_conn (watch K) (pw_conn c) p x1) as [[p2 x2] r2] eqn:Ec.
    destruct (close_step _ _ _ _ _ _ _ Ec H1) as (-> & H2 & [e He] & _). destruct r2; injection E2 as <- <- <-; (split; [reflexivity|split; [exact H2|left; now exists e]]).
Qed.
Lemma idle_put m c p h : In h (idle (set_queue m (enqueue c (queue_of m p)) p)) <-> In h (idle p) \/ h = pw_conn c.
Proof. unfold idle, set_queue, queue_of, enqueue. destruct (m =? WriteMode); cbn; rewrite !in_app_iff, map_app, in_app_iff; cbn; intuition congruence. Qed.
Lemma idle_take m c q p h : queue_of m p = c :: q -> In h (idle p) -> In h (idle (set_queue m q p)) \/ h = pw_conn c.
Proof. unfold idle, set_queue, queue_of. destruct (m =? WriteMode); cbn; intros ->; rewrite !in_app_iff; cbn; intuition congruence. Qed.
Lemma idle_leave m c q p h : queue_of m p = c :: q -> In h (idle (set_queue m q p)) -> In h (idle p).
Proof. unfold idle, set_queue, queue_of. destruct (m =? WriteMode); cbn; intros ->; rewrite !in_app_iff; cbn; intuition congruence. Qed.
Lemma add_step T m p x p' x' r : add_conn (watch K) m p x = (p', x', r) -> kept T p x -> kept T p' x'.
Proof.
  unfold add_conn, get, fail, crash. intros E H. destruct (strings_for m p) as [|s0 ss]; [injection E as <- <- _; exact H|]. cbv zeta in E.
  set (i := if _ =? _ then _ else _) in E. unfold bind at 1, mbind at 1, upd at 1 in E.
  assert (H1 : kept T (set_index m i p) x) by (apply (kept_weak T T p _ x H); [unfold set_index; destruct (m =? WriteMode); auto|auto]).
  destruct (_ && _); [|injection E as <- <- _; exact H1]. destruct (nth_error _ _) as [s|]; [|injection E as <- <- _; exact H1].
  unfold bind at 1, mbind at 1 in E. unfold new_connection, bind, mbind, dial in E. cbn in E. destruct (k_dial K s (fst x)) as [w1 rd] eqn:Ed. cbn in E.
  destruct rd as [h|e| |].
  - cbn [fst snd] in E. destruct (k_name K w1) as [w2 n]. unfold upd in E. injection E as <- <- _. intros s' d Hd. cbn [snd] in *.
    destruct Hd as [[= _ <-]|Hd]; [right; left; apply idle_put; now right|].
    destruct (H1 s' d Hd) as [X|[X|X]]; [left; now apply settled_more| |now right; right]. right. left. apply idle_put. left. exact X.
  - injection E as <- <- _. now apply (kept_event T _ x (w1, KDial s (Err e) :: snd x) (KDial s (Err e))).
  - injection E as <- <- _. now apply (kept_event T _ x (w1, KDial s Panic :: snd x) (KDial s Panic)).
  - injection E as <- <- _. now apply (kept_event T _ x (w1, KDial s NoFuel :: snd x) (KDial s NoFuel)).
Qed.
Lemma times_step T n m : forall p x p' x' r, times n (add_conn (watch K) m) p x = (p', x', r) -> kept T p x -> kept T p' x'.
Proof.
  induction n as [|n IH]; intros p x p' x' r; cbn [times]; [intros [= <- <- _]; auto|]. unfold bind, mbind.
  destruct (add_conn (watch K) m p x) as [[p1 x1] r1] eqn:E. intros E2 H. pose proof (add_step _ _ _ _ _ _ _ E H) as H1.
  destruct r1; try (injection E2 as <- <- _; exact H1). exact (IH _ _ _ _ _ E2 H1).
Qed.
Lemma refresh_step T p x p' x' r : refresh_connections (watch K) p x = (p', x', r) -> kept T p x -> kept T p' x'.
Proof.
  unfold refresh_connections, mbind, get, dial. cbn [watch k_dial]. destruct (k_dial K (p_leader p) (fst x)) as [w1 rd] eqn:Ed. intros E H.
  destruct rd as [h|e| |].
  - assert (H1 : kept (fun d => T d \/ d = h) p (w1, KDial (p_leader p) (Ok h) :: snd x)).
    { intros s d [[= _ <-]|Hd]; [right; right; now right|]. destruct (H s d Hd) as [X|[X|X]]; [left; now apply settled_more|right; now left|right; right; now left]. }
    cbn [watch k_query fst snd] in E. destruct (k_query K h w1) as [w2 [v rows]] eqn:Eq.
    assert (H2 : kept (fun d => T d \/ d = h) p (w2, KQuery h v rows :: KDial (p_leader p) (Ok h) :: snd x)) by (now apply (kept_event _ p _ (w2, KQuery h v rows :: KDial (p_leader p) (Ok h) :: snd x) (KQuery h v rows) H1)).
    assert (X : exists p2 r2, idle p2 = idle p /\ (let '(p3, x3, r3) := close_conn (watch K) h p2 (w2, KQuery h v rows :: KDial (p_leader p) (Ok h) :: snd x) in (p3, x3, r2)) = (p', x', r)).
    { destruct rows as [rows|e| |].
      - destruct (refresh_cluster_info (p_handler p) v (Ok rows)) as [hd z]. exists (merge_strings (set_handler hd p)), (Ok tt). split; [reflexivity|exact E].
      - destruct (refresh_cluster_info (p_handler p) v (Err e)) as [hd z]. exists (merge_strings (set_handler hd p)), (Ok tt). split; [reflexivity|exact E].
      - exists p, Panic. split; [reflexivity|exact E].
      - exists p, NoFuel. split; [reflexivity|exact E]. }
    destruct X as (p2 & r2 & Ei & Ec). destruct (close_conn (watch K) h p2 _) as [[p3 x3] r3] eqn:Ecl. injection Ec as <- <- _.
    assert (H3 : kept (fun d => T d \/ d = h) p2 (w2, KQuery h v rows :: KDial (p_leader p) (Ok h) :: snd x)) by (apply (kept_weak _ _ p p2 _ H2); rewrite Ei; auto).
    destruct (close_step _ _ _ _ _ _ _ Ecl H3) as (-> & H4 & [e He] & _). exact (kept_closed _ _ _ _ _ H4 He).
  - injection E as <- <- _. now apply (kept_event T _ x (w1, KDial (p_leader p) (Err e) :: snd x) (KDial (p_leader p) (Err e))).
  - injection E as <- <- _. now apply (kept_event T _ x (w1, KDial (p_leader p) Panic :: snd x) (KDial (p_leader p) Panic)).
  - injection E as <- <- _. now apply (kept_event T _ x (w1, KDial (p_leader p) NoFuel :: snd x) (KDial (p_leader p) NoFuel)).
Qed.
Lemma borrow_step T m fuel : forall p x p' x' r, internal_borrow (watch K) fuel m p x = (p', x', r) -> p_marked p = [] -> kept T p x ->
  kept (fun h => T h \/ exists c, r = Ok c /\ h = pw_conn c) p' x'.
Proof.
  induction fuel as [|fuel IH]; intros p x p' x' r; cbn [internal_borrow].
  { intros [= <- <- <-] _ H. apply (kept_less T); [exact H|auto]. }
  unfold get. destruct (queue_of m p) as [|c q] eqn:Eq; cbn [dequeue]; unfold bind at 1, mbind at 1, upd at 1; intros E Hm H.
  { injection E as <- <- <-. apply (kept_weak T _ p); [exact H| |auto]. intros h Hh. left. revert Hh. unfold idle, set_queue, queue_of in *. destruct (m =? WriteMode); cbn; rewrite Eq; auto. }
  assert (Hm1 : p_marked (set_queue m q p) = []) by (unfold set_queue; destruct (m =? WriteMode); exact Hm).
  assert (H1 : kept (fun h => T h \/ h = pw_conn c) (set_queue m q p) x).
  { apply (kept_weak T _ p); [exact H| |auto]. intros h Hh. destruct (idle_take _ _ _ _ _ Eq Hh); auto. }
  rewrite Hm in E. cbn [listed existsb] in E. unfold bind at 1, mbind at 1 in E. destruct (valid (watch K) (pw_conn c) (set_queue m q p) x) as [[p1 x1] r1] eqn:Ev.
  destruct (valid_step _ _ _ _ _ _ _ Ev H1) as (b & -> & -> & H2 & Et). destruct b; cbn [negb] in E.
  - unfold bind, mbind, upd, ret in E. injection E as <- <- <-. apply (kept_weak (fun h => T h \/ h = pw_conn c) _ (set_queue m q p)); [exact H2|auto|].
    intros h [X| ->]; [auto|right; right; eauto].
  - unfold bind at 1, mbind at 1 in E. destruct (remove_conn (watch K) (Some c) (set_queue m q p) x1) as [[p2 x2] r2] eqn:Er.
    pose proof (remove_step _ _ _ _ _ _ _ Er H2) as (Ei & H3 & D).
    assert (Hm2 : p_marked p2 = []).
    { rewrite <- Hm1. cbn [remove_conn] in Er. unfold bind, mbind, valid, close_conn, ret, upd in Er.
      destruct (k_valid (watch K) (pw_conn c) x1) as [y [|]]; [injection Er as <- _ _; reflexivity|]. destruct (k_close (watch K) (pw_conn c) y) as [z [e|]]; injection Er as <- _ _; reflexivity. }
    assert (H4 : kept T p2 x2).
    { intros s h Hh. destruct (H3 s h Hh) as [X|[X|[X| ->]]]; auto. left. destruct D as [[e D]|[_ D]]; [left; now exists e|]. right. exists [], (snd x), s. rewrite D, Et in *.
      split; [reflexivity|]. destruct Hh as [Hh|[Hh|Hh]]; [discriminate Hh..|exact Hh]. }
    destruct r2 as [[]|e| |].
    + exact (IH _ _ _ _ _ E Hm2 H4).
    + injection E as <- <- <-. apply (kept_less T); auto.
    + injection E as <- <- <-. apply (kept_less T); auto.
    + injection E as <- <- <-. apply (kept_less T); auto.
Qed.
Lemma drain_step T m fuel : forall p x p' x' r, drain (watch K) fuel m p x = (p', x', r) -> kept T p x -> (forall h, In h (idle p) -> T h) ->
  kept T p' x' /\ forall h, In h (idle p') -> T h.
Proof.
  induction fuel as [|fuel IH]; intros p x p' x' r; cbn [drain]; [intros [= <- <- _]; auto|]. unfold get. destruct (_ =? _) eqn:Es; [intros [= <- <- _]; auto|].
  unfold bind, mbind at 1. destruct (take_out (watch K) m p x) as [[p1 x1] r1] eqn:E. intros E2 H Hi.
  assert (X : kept T p1 x1 /\ forall h, In h (idle p1) -> T h).
  { unfold take_out, get in E. destruct (queue_of m p) as [|c q] eqn:Eq; [discriminate Es|]. cbn [dequeue] in E. unfold bind, mbind, upd at 1 in E.
    assert (H1 : kept T (set_queue m q p) x).
    { apply (kept_weak T T p); [exact H| |auto]. intros h Hh. right. now apply Hi. }
    destruct (remove_step T c _ _ _ _ _ E H1) as (Ei & H2 & _). split; [exact H2|]. intros h Hh. rewrite Ei in Hh. apply Hi. exact (idle_leave _ _ _ _ _ Eq Hh). }
  destruct X as [X1 X2]. destruct r1 as [[]|e| |]; try (injection E2 as <- <- _; auto). exact (IH _ _ _ _ _ E2 X1 X2).
Qed.
Lemma reclaim_step T id h p x p' x' r : reclaim (watch K) id h p x = (p', x', r) ->
  (forall c, map_get (p_borrowed p) id = Some c -> pw_conn c = h) -> kept (fun d => T d \/ d = h) p x ->
  kept (fun d => T d \/ d = h) p' x' /\ (r = Ok tt -> kept T p' x').
Proof.
  unfold reclaim, get. intros E Hc H. destruct (negb (p_running p)); [injection E as <- <- <-; split; [exact H|discriminate]|].
  destruct (map_get (p_borrowed p) id) as [c|] eqn:Eg.
  - specialize (Hc c eq_refl). unfold bind at 1, mbind at 1, upd at 1 in E. set (p1 := set_held _ _) in E.
    assert (H1 : kept (fun d => T d \/ d = h) p1 x) by exact H. unfold bind, mbind at 1 in E.
    destruct (valid (watch K) (pw_conn c) p1 x) as [[p2 x2] r2] eqn:Ev. destruct (valid_step _ _ _ _ _ _ _ Ev H1) as (b & -> & -> & H2 & Et). cbv zeta in E.
    assert (B : forall m p3 x3, kept (fun d => T d \/ d = h) p3 x3 -> kept T (set_queue m (enqueue c (queue_of m p3)) p3) x3).
    { intros m p3 x3 X. apply (kept_weak (fun d => T d \/ d = h) T p3); [exact X| |].
      - intros d Hd. left. apply idle_put. now left.
      - intros d [Hd| ->]; [now right|left]. apply idle_put. now right. }
    destruct b.
    + unfold upd in E. injection E as <- <- <-. pose proof (B (if pw_mode c =? WriteMode then WriteMode else ReadMode) _ _ H2) as X. split; [|intros _; exact X]. apply (kept_less T); auto.
    + unfold mbind in E. destruct (remove_conn (watch K) (Some c) p1 x2) as [[p3 x3] r3] eqn:Er. destruct (remove_step _ _ _ _ _ _ _ Er H2) as (Ei & H3 & D).
      destruct r3 as [[]|e| |].
      * unfold upd in E. injection E as <- <- <-. pose proof (B (if pw_mode c =? WriteMode then WriteMode else ReadMode) _ _ H3) as X. split; [|intros _; exact X]. apply (kept_less T); auto.
      * assert (H4 : kept T p3 x3).
        { destruct D as [[e' D]|[D _]]; [|discriminate D]. rewrite Hc in D. exact (kept_closed _ _ _ _ _ H3 D). }
        assert (X : kept T p' x') by (destruct (pw_mode c =? WriteMode); exact (add_step _ _ _ _ _ _ _ E H4)). split; [|auto]. apply (kept_less T); auto.
      * injection E as <- <- <-. split; [exact H3|discriminate].
      * injection E as <- <- <-. split; [exact H3|discriminate].
  - unfold mbind in E. destruct (close_conn (watch K) h p x) as [[p1 x1] r1] eqn:Ec. destruct (close_step _ _ _ _ _ _ _ Ec H) as (-> & H1 & _).
    destruct r1; injection E as <- <- <-; (split; [exact H1|discriminate]).
Qed.

(** ** A history *)
Variables (opened : W -> list nat) (named : W -> list bytes).
Hypothesis Fr : fresh K opened named.
Lemma booked_courteous q0 w0 l st q w tr : booked K (any_use opened named) q0 w0 l st q w tr -> courteous K (any_use opened named) (fun _ _ => True) q0 w0 l q w tr.
Proof.
  induction 1 as [|l st q w tr o q' w' tr' r B IH Ho E|l st q w tr h w' B IH Hh U]; [constructor| |exact (co_use _ _ _ _ _ _ _ _ _ _ _ IH Hh U)].
  eapply co_op; [exact IH| |exact E]. destruct o; try exact Logic.I. destruct Ho. auto.
Qed.
Theorem accounted auth tls leader n q0 w0 l st q w tr : new_routing_pool leader n auth tls = Ok q0 ->
  booked K (any_use opened named) q0 w0 l st q w tr -> kept (fun h => In h (lent l) \/ In h st) q (w, tr).
Proof.
  intros En. induction 1 as [|l st q w tr o q' w' tr' r B IH Ho E|l st q w tr h w' B IH Hh U]; [intros s h []| |exact IH].
  destruct (courteous_lends K opened named Fr _ _ _ _ _ _ _ _ _ _ En (booked_courteous _ _ _ _ _ _ _ B)) as [iss I].
  pose proof (i_marks _ _ _ _ _ _ _ I) as Hm. pose proof (i_lookup _ _ _ _ _ _ _ I) as Hk. rewrite lent_more.
  destruct o as [| |m|id h|]; cbn [do_pop] in E.
  - destruct (start_pool (watch K) q (w, tr)) as [[p1 x1] r1] eqn:Es. injection E as <- -> <-. unfold start_pool, get, fail in Es.
    destruct (p_running q); [injection Es as <- <- <-; exact IH|]. unfold bind at 1, mbind at 1, upd at 1 in Es. set (q1 := set_max _ _ _) in Es.
    assert (H1 : kept (fun h => In h (lent l) \/ In h st) q1 (w, tr)) by exact IH. unfold bind, mbind at 1 in Es.
    destruct (refresh_connections (watch K) q1 (w, tr)) as [[p2 x2] r2] eqn:Er. pose proof (refresh_step _ _ _ _ _ _ Er H1) as H2.
    destruct r2 as [[]|e| |]; try (injection Es as <- <- <-; exact H2). unfold mbind in Es.
    destruct (times _ (add_conn (watch K) WriteMode) p2 x2) as [[p3 x3] r3] eqn:Et. pose proof (times_step _ _ _ _ _ _ _ _ Et H2) as H3.
    destruct r3 as [[]|e| |]; try (injection Es as <- <- <-; exact H3). pose proof (times_step _ _ _ _ _ _ _ _ Es H3) as H4. destruct r1; exact H4.
  - destruct (stop_pool (watch K) q (w, tr)) as [[p1 x1] r1] eqn:Es. injection E as <- -> <-. unfold stop_pool, get, fail in Es. set (T := fun h => In h (lent l) \/ In h (idle q ++ st)).
    assert (H1 : kept T q (w, tr)).
    { apply (kept_less _ _ _ _ IH). intros h [X|X]; [now left|right; apply in_or_app; now right]. }
    assert (H0 : forall h, In h (idle q) -> T h) by (intros h X; right; apply in_or_app; now left).
    assert (X : kept T p1 (w', tr')).
    { destruct (p_running q); cbn [negb] in Es; [|injection Es as <- <- <- _; exact H1]. unfold bind at 1, mbind at 1, upd at 1 in Es. unfold bind, mbind in Es.
      destruct (drain (watch K) _ ReadMode _ (w, tr)) as [[p2 x2] r2] eqn:Ed. destruct (drain_step T _ _ _ _ _ _ _ Ed H1 H0) as [H2 H3].
      destruct r2 as [[]|e| |]; try (injection Es as <- <- _; exact H2). exact (proj1 (drain_step T _ _ _ _ _ _ _ Es H2 H3)). }
    destruct r1; exact X.
  - destruct (borrow (watch K) _ q (w, tr)) as [[p1 x1] r1] eqn:Es. unfold borrow, get in Es.
    pose proof (borrow_step _ _ _ _ _ _ _ _ Es Hm IH) as H1. injection E as <- -> <-. destruct r1 as [c|e| |]; cbn [result_of lent_by] in *; apply (kept_less _ _ _ _ H1).
    + intros h [[X|X]|(c' & [= <-] & ->)]; [left; now right|now right|left; now left].
    + intros h [X|(c' & X & _)]; [exact X|discriminate X].
    + intros h [X|(c' & X & _)]; [exact X|discriminate X].
    + intros h [X|(c' & X & _)]; [exact X|discriminate X].
  - destruct (reclaim (watch K) id h q (w, tr)) as [[p1 x1] r1] eqn:Es. injection E as <- -> <-. destruct Ho as [Hh [m Hb]].
    assert (Hc : forall c, map_get (p_borrowed q) id = Some c -> pw_conn c = h).
    { intros c X. apply (NoDup_map_fst iss id); [exact (i_ids _ _ _ _ _ _ _ I)|..]; apply (i_before _ _ _ _ _ _ _ I).
      - apply (i_out _ _ _ _ _ _ _ I id c). now apply map_get_in.
      - exact (lendings_in _ _ _ _ Hb). }
    destruct (reclaim_step (fun d => In d (without h (lent l)) \/ In d st) _ _ _ _ _ _ _ Es Hc) as [H1 H2].
    { apply (kept_less _ _ _ _ IH). intros d [X|X]; [|left; now right]. destruct (Nat.eq_dec d h) as [->|N]; [now right|]. left. left. now apply without_in. }
    destruct r1 as [[]|e| |]; cbn [result_of lent_by]; [exact (H2 eq_refl)|..]; apply (kept_less _ _ _ _ H1); (intros d [[X|X]| ->]; [left; apply without_in in X; apply X|now right|now left]).
  - destruct (refresh_round (watch K) q (w, tr)) as [[p1 x1] r1] eqn:Es. injection E as <- -> <-. unfold refresh_round, bind, mbind at 1 in Es.
    destruct (refresh_connections (watch K) q (w, tr)) as [[p2 x2] r2] eqn:Er. pose proof (refresh_step _ _ _ _ _ _ Er IH) as H2.
    assert (X : kept (fun h => In h (lent l) \/ In h st) p1 (w', tr')).
    { destruct r2 as [[]|e| |]; try (injection Es as <- <- <-; exact H2). pose proof (SteadyFacts.steady_refresh _ _ _ _ _ _ Hk Er) as St.
      assert (Hm2 : p_marked p2 = []) by (destruct St as [St _]; unfold SteadyFacts.steady in St; congruence).
      unfold mbind in Es. rewrite (prune_nothing (watch K) p2 x2 Hm2) in Es. rewrite balance_nothing in Es by lia. now injection Es as <- <- _. }
    destruct r1; exact X.
Qed.
End Books.
