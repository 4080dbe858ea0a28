(** How many connections a driver pool has open: proofs. *)
From Coq Require Import String ZArith List Bool Lia.
From Verif Require Import Bytes GoVal GoErr Messages DriverPool SpecDriver SpecCrowd DriverFacts.
From Verif Require DriverHistory.
Import ListNotations.
Open Scope Z_scope.

Section Crowd.
Context {W : Type}.
Variables (N : net W) (max : Z).
Notation WN := (watch_net N).
Notation WT := (W * list nevent)%type.

(** Every connection the pool has not given up is held by an object of the pool that is not invalid; [fly] is an object that
    is being dealt with. *)
Record tally (fly : list nat) (g : opool) (x : WT) : Prop := mkTally {
  t_count : q_count g = Z.of_nat (length (filter live (q_objs g)));
  t_limit : 0 <= max -> q_count g <= max;
  t_once : NoDup (q_idle g);
  t_idle i : In i (q_idle g) -> o_state (obj g i) = Idle /\ ~ In i fly;
  t_fly i : In i fly -> o_state (obj g i) <> Invalid;
  t_cover c : not_given_up (snd x) c -> exists i, o_state (obj g i) <> Invalid /\ o_conn (obj g i) = c
}.
Lemma given_up_more e tr c : not_given_up (e :: tr) c -> e = NMake (Ok c) \/ not_given_up tr c.
Proof.
  intros [[H1 H2] H3]. destruct H1 as [H1|H1]; [now left|right]. split; [split; [exact H1|]|]; [intros r H; apply (H2 r)|intros H; apply H3]; now right.
Qed.
Lemma tally_more fly g (x x' : WT) e : tally fly g x -> snd x' = e :: snd x -> (forall c, e <> NMake (Ok c)) -> tally fly g x'.
Proof.
  intros [T1 T2 T3 T4 T5 T6] E He. constructor; auto. intros c H. rewrite E in H. apply given_up_more in H as [H|H]; [now elim (He c)|auto].
Qed.
Lemma valid_sees c x x' b : n_valid WN c x = (x', b) -> snd x' = NValid c b :: snd x.
Proof. cbn. destruct (n_valid N c (fst x)). now intros [= <- <-]. Qed.
Lemma close_sees c x x' r : n_close WN c x = (x', r) -> snd x' = NClose c r :: snd x.
Proof. cbn. destruct (n_close N c (fst x)). now intros [= <- <-]. Qed.
Lemma idle_sees c x x' r : n_idle WN c x = (x', r) -> snd x' = NIdle c r :: snd x.
Proof. cbn. destruct (n_idle N c (fst x)). now intros [= <- <-]. Qed.
Lemma make_sees x x' r : n_make WN x = (x', r) -> snd x' = NMake r :: snd x.
Proof. cbn. destruct (n_make N (fst x)). now intros [= <- <-]. Qed.
Lemma live_state o : live o = true <-> o_state o <> Invalid.
Proof. unfold live. destruct (o_state o); intuition discriminate. Qed.
(** The object that is being dealt with gets another state, or another connection for one that is given up. *)
Lemma tally_set i g (x : WT) s c : tally [i] g x -> s <> Invalid -> c = o_conn (obj g i) -> tally [i] (set_obj i (mkObj c s) g) x.
Proof.
  intros [T1 T2 T3 T4 T5 T6] Hs ->. assert (Hi : (i < length (q_objs g))%nat) by (apply obj_in; apply T5; now left).
  constructor; cbn [set_obj q_count q_idle]; auto.
  - rewrite T1. f_equal. pose proof (put_obj_live i (mkObj (o_conn (obj g i)) s) (q_objs g) Hi) as H. change (nth i (q_objs g) none) with (obj g i) in H.
    assert (L : live (obj g i) = true) by (apply live_state, T5; now left). assert (L' : live (mkObj (o_conn (obj g i)) s) = true) by now apply live_state.
    rewrite L, L' in H. cbn in *. lia.
  - intros j Hj. destruct (T4 j Hj) as [A B]. split; [|exact B]. rewrite obj_set_other; [exact A|]. intros ->. apply B. now left.
  - intros j [<-|[]]. now rewrite obj_set_same.
  - intros c Hc. destruct (T6 c Hc) as (j & A & B). destruct (Nat.eq_dec i j) as [<-|Nj]; [exists i; now rewrite obj_set_same|exists j; now rewrite obj_set_other].
Qed.
Lemma tally_swap i g (x x' : WT) c : tally [i] g x -> snd x' = NMake (Ok c) :: snd x -> In (NValid (o_conn (obj g i)) false) (snd x) ->
  tally [i] (set_obj i (mkObj c Allocated) g) x'.
Proof.
  intros [T1 T2 T3 T4 T5 T6] Ex Hd. assert (Hi : (i < length (q_objs g))%nat) by (apply obj_in; apply T5; now left).
  constructor; cbn [set_obj q_count q_idle]; auto.
  - rewrite T1. f_equal. pose proof (put_obj_live i (mkObj c Allocated) (q_objs g) Hi) as H. change (nth i (q_objs g) none) with (obj g i) in H.
    assert (L : live (obj g i) = true) by (apply live_state, T5; now left). rewrite L in H. cbn in *. lia.
  - intros j Hj. destruct (T4 j Hj) as [A B]. split; [|exact B]. rewrite obj_set_other; [exact A|]. intros ->. apply B. now left.
  - intros j [<-|[]]. now rewrite obj_set_same.
  - intros d H. rewrite Ex in H. destruct (given_up_more _ _ _ H) as [E|H'].
    + exists i. rewrite obj_set_same by exact Hi. split; [discriminate|]. cbn. congruence.
    + destruct (T6 d H') as (j & A & B). destruct (Nat.eq_dec i j) as [<-|Nj]; [|exists j; now rewrite obj_set_other].
      exfalso. apply (proj2 H'). now rewrite <- B.
Qed.
Lemma destroy_tally i g (x : WT) g' x' r : tally [i] g x -> destroy WN i g x = (g', x', r) -> tally [] g' x'.
Proof.
  intros T E. unfold destroy, destroy_object in E. destruct (n_valid WN (o_conn (obj g i)) x) as [x1 ok] eqn:Ev. pose proof (valid_sees _ _ _ _ Ev) as S1.
  assert (T1 : tally [i] g x1) by (eapply tally_more; eauto; discriminate).
  assert (G : exists x2, tally [i] g x2 /\ ~ not_given_up (snd x2) (o_conn (obj g i)) /\ x' = x2
    /\ g' = mkOPool (put_obj i (mkObj (o_conn (obj g i)) Invalid) (q_objs g)) (forget (o_conn (obj g i)) (q_all g)) (remove Nat.eq_dec i (q_idle g)) (q_count g - 1) (q_closed g) (q_waiting g)).
  { destruct ok.
    - destruct (n_close WN (o_conn (obj g i)) x1) as [x2 rc] eqn:Ec. pose proof (close_sees _ _ _ _ Ec) as S2. injection E as <- <- _. exists x2.
      split; [eapply tally_more; eauto; discriminate|]. split; [|auto]. intros [[_ H] _]. apply (H rc). rewrite S2. now left.
    - injection E as <- <- _. exists x1. split; [exact T1|]. split; [|auto]. intros [_ H]. apply H. rewrite S1. now left. }
  destruct G as (x2 & [C1 C2 C3 C4 C5 C6] & Hn & -> & ->). clear E T T1 S1 Ev.
  assert (Hi : (i < length (q_objs g))%nat) by (apply obj_in; apply C5; now left).
  assert (Hid : ~ In i (q_idle g)) by (intros H; destruct (C4 i H) as [_ H2]; apply H2; now left).
  rewrite (remove_same i _ Hid). constructor; cbn [q_count q_objs q_idle]; [| |exact C3| | |].
  - pose proof (put_obj_live i (mkObj (o_conn (obj g i)) Invalid) (q_objs g) Hi) as H. change (nth i (q_objs g) none) with (obj g i) in H.
    assert (L : live (obj g i) = true) by (apply live_state, C5; now left). rewrite L in H. cbn in H. cbn [q_objs]. lia.
  - intros H. specialize (C2 H). lia.
  - intros j Hj. destruct (C4 j Hj) as [A B]. split; [|auto]. unfold obj. cbn [q_objs]. change (mkObj 0 Invalid) with none. rewrite put_obj_other; [exact A|]. intros ->. auto.
  - intros j [].
  - intros c Hc. destruct (C6 c Hc) as (j & A & B). destruct (Nat.eq_dec i j) as [<-|Nj].
    + exfalso. apply Hn. now rewrite B.
    + exists j. unfold obj. cbn [q_objs]. change (mkObj 0 Invalid) with none. rewrite put_obj_other by exact Nj. auto.
Qed.
Lemma create_tally g (x : WT) g' x' r : tally [] g x -> create WN max g x = (g', x', r) ->
  match r with Ok (Some i) => tally [i] g' x' /\ o_state (obj g' i) = Idle | _ => tally [] g' x' /\ q_idle g' = q_idle g end.
Proof.
  intros T E. unfold create in E. destruct ((-1 <? max) && (max <? q_count g + 1)) eqn:Ef; [injection E as <- <- <-; auto|].
  destruct (n_make WN x) as [x1 m] eqn:Em. pose proof (make_sees _ _ _ Em) as S1.
  destruct m as [c|e| |]; injection E as <- <- <-; try (split; [eapply tally_more; eauto; discriminate|reflexivity]).
  destruct T as [T1 T2 T3 T4 T5 T6].
  assert (At : nth (length (q_objs g)) (q_objs g ++ [mkObj c Idle]) (mkObj 0 Invalid) = mkObj c Idle) by (rewrite app_nth2 by lia; now rewrite Nat.sub_diag).
  assert (Old : forall j, o_state (obj g j) <> Invalid -> nth j (q_objs g ++ [mkObj c Idle]) (mkObj 0 Invalid) = obj g j) by (intros j Hj; apply obj_in in Hj; now rewrite app_nth1).
  split; [|unfold obj; cbn [q_objs]; now rewrite At]. constructor; cbn [q_count q_idle q_objs]; auto.
  - rewrite filter_app, app_length. cbn. lia.
  - intros H. apply andb_false_iff in Ef. specialize (T2 H). destruct Ef as [Ef|Ef]; apply Z.ltb_ge in Ef; lia.
  - intros j Hj. destruct (T4 j Hj) as [A _]. unfold obj. cbn [q_objs]. rewrite Old by (rewrite A; discriminate). split; [exact A|]. intros [<-|[]].
    assert (o_state (obj g (length (q_objs g))) = Invalid) by (apply obj_out; lia). congruence.
  - intros j [<-|[]]. unfold obj. cbn [q_objs]. rewrite At. discriminate.
  - intros d H. rewrite S1 in H. destruct (given_up_more _ _ _ H) as [X|X].
    + exists (length (q_objs g)). unfold obj. cbn [q_objs]. rewrite At. split; [discriminate|]. cbn. congruence.
    + destruct (T6 d X) as (j & A & B). exists j. unfold obj at 1 2. cbn [q_objs]. rewrite Old by exact A. auto.
Qed.
Lemma tally_land i g x : tally [i] g x -> o_state (obj g i) = Idle -> tally [] (set_idle (i :: q_idle g) g) x.
Proof.
  intros [T1 T2 T3 T4 T5 T6] H. constructor; cbn [set_idle q_count q_idle q_objs]; auto.
  - constructor; [|exact T3]. intros X. apply (proj2 (T4 i X)). now left.
  - intros j [<-|Hj]; [auto|]. split; [|auto]. exact (proj1 (T4 j Hj)).
Qed.
Lemma tally_leave i g x : tally [i] g x -> tally [] g x.
Proof. intros [T1 T2 T3 T4 T5 T6]. constructor; auto. intros j Hj; split; [exact (proj1 (T4 j Hj))|auto]. Qed.
Lemma tally_take i rest g x : tally [] g x -> q_idle g = i :: rest -> tally [i] (set_idle rest g) x /\ o_state (obj g i) = Idle.
Proof.
  intros [T1 T2 T3 T4 T5 T6] E. rewrite E in T3, T4. inversion T3 as [|a b Hn Hd]; subst. destruct (T4 i (or_introl eq_refl)) as [Hs _]. split; [|exact Hs].
  constructor; cbn [set_idle q_count q_idle q_objs]; auto.
  - intros j Hj. split; [exact (proj1 (T4 j (or_intror Hj)))|]. intros [->|[]]. auto.
  - intros j [<-|[]]. change (o_state (obj g i) <> Invalid). rewrite Hs. discriminate.
Qed.
Lemma tally_waiting fly b g x : tally fly g x -> tally fly (set_waiting b g) x.
Proof. intros [T1 T2 T3 T4 T5 T6]. constructor; auto. Qed.
Lemma ensure_tally g (x : WT) g' x' : tally [] g x -> ensure_idle WN max g x = (g', x') -> tally [] g' x'.
Proof.
  intros T E. unfold ensure_idle in E. destruct (q_closed g || negb (q_waiting g)); [injection E as <- <-; exact T|].
  destruct (q_idle g) eqn:Ei; [|injection E as <- <-; exact T]. destruct (create WN max g x) as [[g1 x1] r] eqn:Ec. pose proof (create_tally _ _ _ _ _ T Ec) as H.
  destruct r as [[i|]|e| |]; injection E as <- <-; try exact (proj1 H). destruct H as [H1 H2].
  assert (E1 : q_idle g1 = []).
  { unfold create in Ec. destruct (_ && _); [discriminate|]. destruct (n_make WN x) as [x2 [c|e| |]]; try discriminate. injection Ec as <- _ _. exact Ei. }
  rewrite <- E1 at 1. pose proof (tally_land _ _ _ H1 H2) as H. now rewrite E1 in H |- *.
Qed.
Lemma clear_tally l : forall g (x : WT) g' x', tally [] g x -> q_idle g = l -> clear WN l g x = (g', x') -> tally [] g' x'.
Proof.
  induction l as [|i l IH]; intros g x g' x' T Ei E; cbn [clear] in E; [injection E as <- <-; exact T|].
  destruct (tally_take i l g x T Ei) as [T1 Hs]. destruct (destroy WN i (set_idle l g) x) as [[g1 x1] r] eqn:Ed.
  pose proof (destroy_tally _ _ _ _ _ _ T1 Ed) as T2. apply (IH g1 x1 g' x' T2); [|exact E].
  unfold destroy in Ed. destruct (destroy_object WN _ x) as [x2 r2]. injection Ed as <- _ _. cbn [q_idle set_idle]. apply remove_same.
  destruct T as [_ _ T3 _ _ _]. rewrite Ei in T3. now inversion T3.
Qed.
Lemma borrow_tally fuel : forall g (x : WT) g' x' r, tally [] g x -> borrow_object WN max fuel g x = (g', x', r) -> tally [] g' x'.
Proof.
  induction fuel as [|fuel IH]; intros g x g' x' r T E; cbn [borrow_object] in E; [injection E as <- <- _; exact T|].
  assert (Try : forall i created g x, tally [i] g x -> o_state (obj g i) = Idle ->
    match o_state (obj g i) with
    | Idle =>
        let g := set_obj i (mkObj (o_conn (obj g i)) Allocated) g in
        match activate_object WN (o_conn (obj g i)) x with
        | (w, Ok c) =>
            let g := set_obj i (mkObj c Allocated) g in
            let '(w, valid) := n_valid WN c w in
            if valid then (g, w, BLent c)
            else let '(g, w, _) := destroy WN i g w in
                 if created : bool then (g, w, BErr (EIO 331)) else borrow_object WN max fuel g w
        | (w, Err e) =>
            let '(g, w, _) := destroy WN i g w in
            if created then (g, w, BErr (EIO 330)) else borrow_object WN max fuel g w
        | (w, Panic) => (g, w, BPanic)
        | (w, NoFuel) => (g, w, BNoFuel)
        end
    | _ => borrow_object WN max fuel g x
    end = (g', x', r) -> tally [] g' x').
  { clear g x T E. intros i created g x T Hs E. rewrite Hs in E. cbv zeta in E.
    pose proof (tally_set i g x Allocated _ T ltac:(discriminate) eq_refl) as T1. set (g1 := set_obj i (mkObj (o_conn (obj g i)) Allocated) g) in *.
    unfold activate_object in E. destruct (n_valid WN (o_conn (obj g1 i)) x) as [x1 ok] eqn:Ev. pose proof (valid_sees _ _ _ _ Ev) as S1.
    assert (T2 : tally [i] g1 x1) by (eapply tally_more; eauto; discriminate).
    assert (Fin : forall g x, tally [i] g x -> (let '(g, w, _) := destroy WN i g x in if created then (g, w, BErr (EIO 331)) else borrow_object WN max fuel g w) = (g', x', r)
      \/ (let '(g, w, _) := destroy WN i g x in if created then (g, w, BErr (EIO 330)) else borrow_object WN max fuel g w) = (g', x', r) -> tally [] g' x').
    { intros g2 x2 T3 X. destruct (destroy WN i g2 x2) as [[g3 x3] r3] eqn:Ed. pose proof (destroy_tally _ _ _ _ _ _ T3 Ed) as T4.
      destruct created; destruct X as [X|X]; try (injection X as <- <- _; exact T4); exact (IH _ _ _ _ _ T4 X). }
    assert (Go : forall c g2 x2, tally [i] g2 x2 -> (let '(w, valid) := n_valid WN c x2 in if valid then (g2, w, BLent c)
            else let '(g, w, _) := destroy WN i g2 w in if created then (g, w, BErr (EIO 331)) else borrow_object WN max fuel g w) = (g', x', r) -> tally [] g' x').
    { intros c g2 x2 T3 X. destruct (n_valid WN c x2) as [x3 v] eqn:Ev2. pose proof (valid_sees _ _ _ _ Ev2) as S2.
      assert (T4 : tally [i] g2 x3) by (eapply tally_more; eauto; discriminate).
      destruct v; [injection X as <- <- _; exact (tally_leave _ _ _ T4)|]. exact (Fin _ _ T4 (or_introl X)). }
    destruct ok.
    - refine (Go (o_conn (obj g1 i)) _ x1 _ E). apply tally_set; [exact T2|discriminate|reflexivity].
    - destruct (n_make WN x1) as [x2 m] eqn:Em. pose proof (make_sees _ _ _ Em) as S2. destruct m as [c|e| |].
      + refine (Go c _ x2 _ E). apply (tally_swap i g1 x1 x2 c T2 S2). rewrite S1. now left.
      + apply (Fin g1 x2); [|right; exact E]. eapply tally_more; eauto; discriminate.
      + injection E as <- <- _. eapply tally_leave, tally_more; eauto; discriminate.
      + injection E as <- <- _. eapply tally_leave, tally_more; eauto; discriminate. }
  destruct (q_idle g) as [|i rest] eqn:Ei.
  - destruct (create WN max g x) as [[g1 x1] rc] eqn:Ec. pose proof (create_tally _ _ _ _ _ T Ec) as H.
    destruct rc as [[i|]|e| |]; try (injection E as <- <- _; exact (proj1 H)). destruct H as [H1 H2]. exact (Try i true g1 x1 H1 H2 E).
  - destruct (tally_take i rest g x T Ei) as [T1 Hs]. exact (Try i false _ x T1 Hs E).
Qed.
Lemma return_tally c g (x : WT) g' x' r : tally [] g x -> return_object WN max c g x = (g', x', r) -> tally [] g' x'.
Proof.
  intros T E. unfold return_object in E. destruct (find_obj c (q_all g)) as [i|]; [|injection E as <- <- _; exact T].
  destruct (o_state (obj g i)) eqn:Hs; try (injection E as <- <- _; exact T).
  assert (Ti : tally [i] g x).
  { destruct T as [T1 T2 T3 T4 T5 T6]. constructor; auto.
    - intros j Hj. destruct (T4 j Hj) as [A _]. split; [exact A|]. intros [->|[]]. congruence.
    - intros j [<-|[]]. rewrite Hs. discriminate. }
  pose proof (tally_set i g x Returning _ Ti ltac:(discriminate) eq_refl) as T1. set (g1 := set_obj i (mkObj (o_conn (obj g i)) Returning) g) in *. cbv zeta in E.
  destruct (n_valid WN (o_conn (obj g1 i)) x) as [x1 v] eqn:Ev. pose proof (valid_sees _ _ _ _ Ev) as S1.
  assert (T2 : tally [i] g1 x1) by (eapply tally_more; eauto; discriminate).
  assert (Fin : forall x2, tally [i] g1 x2 -> (let '(g, w, _) := destroy WN i g1 x2 in let '(g, w) := ensure_idle WN max g w in (g, w, Ok tt)) = (g', x', r) -> tally [] g' x').
  { intros x2 T3 X. destruct (destroy WN i g1 x2) as [[g3 x3] r3] eqn:Ed. pose proof (destroy_tally _ _ _ _ _ _ T3 Ed) as T4.
    destruct (ensure_idle WN max g3 x3) as [g4 x4] eqn:Ee. injection X as <- <- _. exact (ensure_tally _ _ _ _ T4 Ee). }
  destruct v; [|exact (Fin x1 T2 E)]. unfold passivate_object in E. destruct (n_idle WN (o_conn (obj g1 i)) x1) as [x2 m] eqn:Em. pose proof (idle_sees _ _ _ _ Em) as S2.
  assert (T3 : tally [i] g1 x2) by (eapply tally_more; eauto; discriminate).
  destruct m as [u|e| |]; [|exact (Fin x2 T3 E)|injection E as <- <- _; exact (tally_leave _ _ _ T3)..].
  pose proof (tally_set i g1 x2 Idle _ T3 ltac:(discriminate) eq_refl) as T4. set (g2 := set_obj i (mkObj (o_conn (obj g1 i)) Idle) g1) in *.
  destruct (_ || _).
  - destruct (destroy WN i g2 x2) as [[g3 x3] r3] eqn:Ed. injection E as <- <- _. exact (destroy_tally _ _ _ _ _ _ T4 Ed).
  - injection E as <- <- _. change (q_idle g) with (q_idle g2). apply tally_land; [exact T4|]. unfold g2. rewrite obj_set_same; [reflexivity|]. apply obj_in. apply (t_fly _ _ _ T3). now left.
Qed.
Lemma event_tally e d (x : WT) d' x' r : d_max d = max -> tally [] (d_pool d) x -> do_event WN e d x = (d', x', r) -> d_max d' = max /\ tally [] (d_pool d') x'.
Proof.
  intros Hm T E.
  assert (L : lend WN d x = (d', x', r) -> d_max d' = max /\ tally [] (d_pool d') x').
  { clear E. intros E. unfold lend in E. rewrite Hm in E. destruct (borrow_object WN max _ _ x) as [[g1 x1] r1] eqn:Eb.
    pose proof (borrow_tally _ _ _ _ _ _ (tally_waiting _ false _ _ T) Eb) as T1. destruct r1 as [c|e1| | |].
    - destruct (n_valid WN c x1) as [x2 v] eqn:Ev. pose proof (valid_sees _ _ _ _ Ev) as S1. injection E as <- <- _. split; [reflexivity|]. eapply tally_more; eauto; discriminate.
    - injection E as <- <- _. auto.
    - injection E as <- <- _. split; [reflexivity|]. now apply tally_waiting.
    - injection E as <- <- _. auto.
    - injection E as <- <- _. auto. }
  destruct e as [| |c|]; cbn [do_event] in E.
  - unfold pool_open in E. destruct (q_waiting (d_pool d)); [injection E as <- <- _; auto|]. destruct (d_closed d); [injection E as <- <- _; auto|exact (L E)].
  - unfold pool_close in E. destruct (q_waiting (d_pool d)); [injection E as <- <- _; auto|]. destruct (d_closed d); [injection E as <- <- _; auto|].
    destruct (close_object_pool WN (d_pool d) x) as [g1 x1] eqn:Ec. injection E as <- <- _. split; [exact Hm|]. cbn [d_pool]. unfold close_object_pool in Ec.
    destruct (q_closed (d_pool d)); [injection Ec as <- <-; exact T|]. refine (clear_tally _ _ _ _ _ _ eq_refl Ec). destruct T as [T1 T2 T3 T4 T5 T6]. constructor; auto.
  - unfold pool_reclaim in E. destruct c as [c|]; [|injection E as <- <- _; auto]. rewrite Hm in E. destruct (return_object WN max c (d_pool d) x) as [[g1 x1] r1] eqn:Er.
    injection E as <- <- _. split; [reflexivity|]. exact (return_tally _ _ _ _ _ _ T Er).
  - unfold pool_wake in E. destruct (q_waiting (d_pool d)); [|injection E as <- <- _; auto]. destruct (q_idle (d_pool d)); [injection E as <- <- _; auto|exact (L E)].
Qed.
Lemma mingled_tally use w0 tr d w : mingled N use max w0 tr d w -> d_max d = max /\ tally [] (d_pool d) (w, tr).
Proof.
  induction 1 as [|tr d w e d' w' tr' r B [IH1 IH2] E|tr d w c w' B [IH1 IH2] U].
  - split; [reflexivity|]. constructor; cbn; try (intros ? []; fail); [reflexivity|auto|constructor|intros c [[[] _] _]].
  - exact (event_tally _ _ _ _ _ _ IH1 IH2 E).
  - split; [exact IH1|]. destruct IH2 as [T1 T2 T3 T4 T5 T6]. constructor; auto.
Qed.
Theorem not_too_many use w0 tr d w L : 0 <= max -> mingled N use max w0 tr d w -> NoDup L -> (forall c, In c L -> not_given_up tr c) ->
  Z.of_nat (length L) <= max.
Proof.
  intros H0 B ND HL. destruct (mingled_tally _ _ _ _ _ B) as [_ [T1 T2 T3 T4 T5 T6]]. specialize (T2 H0).
  assert (X : (length L <= length (filter live (q_objs (d_pool d))))%nat); [|lia].
  apply DriverHistory.live_bound; [exact ND|]. intros c Hc. destruct (T6 c (HL c Hc)) as (i & A & E). exists i. split; [exact (obj_in _ _ A)|auto].
Qed.
End Crowd.
