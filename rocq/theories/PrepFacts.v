(** Facts about what the driver pool lends: it keeps what was made sure of when a connection was made
    or made idle. *)
From Coq Require Import String ZArith List Bool Lia ZifyBool.
From Verif Require Import Bytes GoVal GoErr Messages DriverPool SpecDriver DriverFacts DriverHistory.
Import ListNotations.
Open Scope Z_scope.

(** A property [Q] of connections that holds when they are made and when they are made idle, and that
    nothing done to other connections disturbs. [G] is a property of the world that is kept. *)
Record tends {W} (N : net W) (made : W -> list nat) (G : W -> Prop) (Q : W -> nat -> Prop) : Prop := mkTends {
  t_make w w' r : G w -> n_make N w = (w', r) -> G w' /\ (forall c, r = Ok c -> Q w' c) /\ forall x, In x (made w) -> Q w x -> Q w' x;
  t_valid c w w' b : G w -> In c (made w) -> n_valid N c w = (w', b) -> G w' /\ forall x, Q w x -> Q w' x;
  t_close c w w' r : G w -> In c (made w) -> n_close N c w = (w', r) -> G w' /\ forall x, x <> c -> Q w x -> Q w' x;
  t_idle c w w' r : G w -> In c (made w) -> n_idle N c w = (w', r) ->
    G w' /\ (forall x, x <> c -> Q w x -> Q w' x) /\ forall u, r = Ok u -> Q w' c
}.

(** The same, where the connections [H] are left alone. *)
Record tends_but {W} (N : net W) (made : W -> list nat) (H : list nat) (G : W -> Prop) (Q : W -> nat -> Prop) : Prop := mkTendsBut {
  b_make w w' r : G w -> n_make N w = (w', r) -> G w' /\ (forall c, r = Ok c -> Q w' c) /\ forall x, In x (made w) -> Q w x -> Q w' x;
  b_valid c w w' b : G w -> In c (made w) -> n_valid N c w = (w', b) -> G w' /\ forall x, Q w x -> Q w' x;
  b_close c w w' r : G w -> In c (made w) -> ~ In c H -> n_close N c w = (w', r) -> G w' /\ forall x, x <> c -> Q w x -> Q w' x;
  b_idle c w w' r : G w -> In c (made w) -> ~ In c H -> n_idle N c w = (w', r) ->
    G w' /\ (forall x, x <> c -> Q w x -> Q w' x) /\ forall u, r = Ok u -> Q w' c
}.

Section Prep.
Context {W : Type}.
Variables (N : net W) (made : W -> list nat) (max : Z).
Hypothesis HF : fresh_net N made.
Notation WN := (watch_net N).
Variables (G : W * list nevent -> Prop) (Q : W * list nevent -> nat -> Prop).
Variable H : list nat.
Hypothesis HT : tends_but WN (fun w => made (fst w)) H G Q.
Notation invw := (invw made max).

(** Every idle connection is as it should be. *)
Definition fit (g : opool) (w : W * list nevent) : Prop := G w /\ forall j, In j (q_idle g) -> Q w (o_conn (obj g j)).

Lemma fly_made i g w h rf : invw [i] g w h rf -> o_state (obj g i) <> Invalid -> In (o_conn (obj g i)) (made (fst w)).
Proof. intros I Ho. apply (i_made _ _ _ _ _ _ _ I). apply conn_nth. exists i. split; [now apply obj_in|reflexivity]. Qed.
Lemma idle_made fly g w h rf j : invw fly g w h rf -> In j (q_idle g) -> In (o_conn (obj g j)) (made (fst w)).
Proof.
  intros I Hj. apply (i_made _ _ _ _ _ _ _ I). apply conn_nth. exists j. split; [|reflexivity]. apply obj_in.
  destruct (i_idle _ _ _ _ _ _ _ I) as [_ B]. destruct (B j Hj). congruence.
Qed.
Lemma fly_other i g w h rf j : invw [i] g w h rf -> o_state (obj g i) <> Invalid -> In j (q_idle g) ->
  j <> i /\ o_conn (obj g j) <> o_conn (obj g i).
Proof.
  intros I Ho Hj. destruct (i_idle _ _ _ _ _ _ _ I) as [_ B]. destruct (B j Hj) as [B1 B2].
  assert (X : j <> i) by (intros ->; apply B2; now left). split; [exact X|]. intros E. apply X.
  apply (nth_conn (q_objs g)); [apply (i_conns _ _ _ _ _ _ _ I)|apply obj_in; congruence|now apply obj_in|exact E].
Qed.

Lemma fly_spared i g w h rf : incl H h -> invw [i] g w h rf -> o_state (obj g i) <> Invalid -> ~ In (o_conn (obj g i)) H.
Proof.
  intros Hh I Ho Hin. destruct (i_held _ _ _ _ _ _ _ I) as [_ B]. destruct (B _ (Hh _ Hin)) as (j & Lj & Kj & _ & Fj).
  apply Fj. left. symmetry. apply (nth_conn (q_objs g)); [apply (i_conns _ _ _ _ _ _ _ I)|exact Lj|now apply obj_in|exact Kj].
Qed.

Lemma destroy_fit i g w h rf g' w' r : incl H h -> invw [i] g w h rf -> o_state (obj g i) <> Invalid -> fit g w ->
  destroy WN i g w = (g', w', r) -> fit g' w'.
Proof.
  intros Hh I Ho [Hg Hq] E. unfold destroy, destroy_object in E. pose proof (fly_made _ _ _ _ _ I Ho) as Hm.
  assert (K : forall w2, G w2 -> (forall x, x <> o_conn (obj g i) -> Q w x -> Q w2 x) ->
    fit (mkOPool (put_obj i (mkObj (o_conn (obj g i)) Invalid) (q_objs g)) (forget (o_conn (obj g i)) (q_all g))
           (remove Nat.eq_dec i (q_idle g)) (q_count g - 1) (q_closed g) (q_waiting g)) w2).
  { intros w2 G2 Q2. split; [exact G2|]. intros j Hj. cbn [q_idle] in Hj. apply in_remove in Hj as [Hj Hn].
    unfold obj at 1. cbn [q_objs]. fold none. rewrite put_obj_other by congruence. change (nth j (q_objs g) none) with (obj g j).
    apply Q2; [now apply (fly_other i g w h rf)|now apply Hq]. }
  destruct (n_valid WN (o_conn (obj g i)) w) as [w1 b] eqn:Ev. destruct (b_valid _ _ _ _ _ HT _ _ _ _ Hg Hm Ev) as [G1 Q1].
  destruct b.
  - destruct (n_close WN (o_conn (obj g i)) w1) as [w2 r2] eqn:Ec. injection E as <- <- <-.
    destruct (valid_spec N made HF _ _ _ _ Ev) as [_ M1]. destruct (b_close _ _ _ _ _ HT _ _ _ _ G1 (M1 _ Hm) (fly_spared i g w h rf Hh I Ho) Ec) as [G2 Q2].
    apply K; [exact G2|]. intros x Hx Hxq. apply Q2; auto.
  - injection E as <- <- <-. apply K; [exact G1|]. intros x _. apply Q1.
Qed.
Lemma create_fit g w h rf g' w' r : invw [] g w h rf -> fit g w -> create WN max g w = (g', w', r) ->
  fit g' w' /\ match r with Ok (Some i) => Q w' (o_conn (obj g' i)) | _ => True end.
Proof.
  intros I [Hg Hq] E. unfold create in E. destruct (_ && _); [injection E as <- <- <-; split; [now split|exact Logic.I]|].
  assert (K : forall w1 x, n_make WN w = (w1, x) -> G w1 /\ forall j, In j (q_idle g) -> Q w1 (o_conn (obj g j))).
  { intros w1 x Em. destruct (b_make _ _ _ _ _ HT _ _ _ Hg Em) as (G1 & _ & Q1). split; [exact G1|]. intros j Hj.
    apply Q1; [now apply (idle_made [] g w h rf)|now apply Hq]. }
  destruct (n_make WN w) as [w1 [c|e| |]] eqn:Em; injection E as <- <- <-; try (split; [exact (K _ _ eq_refl)|exact Logic.I]).
  destruct (K _ _ eq_refl) as [G1 K1]. destruct (b_make _ _ _ _ _ HT _ _ _ Hg Em) as (_ & Q1 & _). split.
  - split; [exact G1|]. intros j Hj. cbn [q_idle] in Hj. specialize (K1 j Hj).
    assert (L : (j < length (q_objs g))%nat) by (apply obj_in; destruct (i_idle _ _ _ _ _ _ _ I) as [_ B]; destruct (B j Hj); congruence).
    unfold obj at 1. cbn [q_objs]. rewrite app_nth1 by exact L. exact K1.
  - unfold obj. cbn [q_objs]. rewrite app_nth2, Nat.sub_diag by lia. cbn. now apply Q1.
Qed.
Lemma ensure_fit g w h rf g' w' : invw [] g w h rf -> fit g w -> ensure_idle WN max g w = (g', w') -> fit g' w'.
Proof.
  intros I F E. unfold ensure_idle in E. destruct (_ || _); [now injection E as <- <-|].
  destruct (q_idle g) as [|i0 rest] eqn:Ei; [|now injection E as <- <-].
  destruct (create WN max g w) as [[g1 w1] r] eqn:Ec. destruct (create_fit _ _ _ _ _ _ _ I F Ec) as [F1 Q1].
  destruct r as [[i|]|e| |]; injection E as <- <-; auto. split; [apply F1|]. intros j [<-|[]]. exact Q1.
Qed.
Lemma clear_fit l : forall g w h rf g' w', incl H h -> invw [] g w h rf -> q_idle g = l -> fit g w -> clear WN l g w = (g', w') -> fit g' w'.
Proof.
  induction l as [|i l IH]; intros g w h rf g' w' Hh I El F E; cbn [clear] in E; [now injection E as <- <-|].
  destruct (inv_take _ _ _ _ _ _ _ _ I El) as [I1 S1].
  destruct (destroy WN i (set_idle l g) w) as [[g1 w1] r1] eqn:Ed.
  destruct (destroy_step N made max HF _ _ _ _ _ _ _ _ I1 ltac:(congruence) Ed) as (I2 & A & B & C & D).
  eapply (IH g1 w1 h rf); [exact Hh|exact I2|exact B| |exact E].
  eapply destroy_fit; [exact Hh|exact I1|congruence| |exact Ed]. split; [apply F|]. intros j Hj. apply F. rewrite El. now right.
Qed.
Lemma close_fit g w h rf g' w' : incl H h -> invw [] g w h rf -> fit g w -> close_object_pool WN g w = (g', w') -> fit g' w'.
Proof.
  intros Hh I F E. unfold close_object_pool in E. destruct (q_closed g); [now injection E as <- <-|]. cbn zeta in E.
  eapply clear_fit with (h := h) (rf := rf); [exact Hh| | | |exact E]; [|reflexivity|exact F].
  destruct I as [I1 I2 I3 I4 I5 I6 I7 I8 I9 I10]; constructor; eassumption.
Qed.

Lemma borrow_fit fuel : forall g w h rf g' w' r, incl H h -> invw [] g w h rf -> fit g w -> borrow_object WN max fuel g w = (g', w', r) ->
  fit g' w' /\ match r with BLent c => Q w' c | _ => True end.
Proof.
  induction fuel as [|fuel IH]; intros g w h rf g' w' r Hh I Fg E; cbn [borrow_object] in E; cbv zeta in E.
  { injection E as <- <- <-. auto. }
  assert (T : forall i created g1 w1 g' w' r, invw [i] g1 w1 h rf -> o_state (obj g1 i) = Idle -> fit g1 w1 -> Q w1 (o_conn (obj g1 i)) ->
    match activate_object WN (o_conn (obj (set_obj i (mkObj (o_conn (obj g1 i)) Allocated) g1) i)) w1 with
    | (w, Ok c) =>
        let '(w, valid) := n_valid WN c w in
        if valid then (set_obj i (mkObj c Allocated) (set_obj i (mkObj (o_conn (obj g1 i)) Allocated) g1), w, BLent c)
        else let '(g, w, _) := destroy WN i (set_obj i (mkObj c Allocated) (set_obj i (mkObj (o_conn (obj g1 i)) Allocated) g1)) w in
             if created : bool then (g, w, BErr (EIO 331)) else borrow_object WN max fuel g w
    | (w, Err e) =>
        let '(g, w, _) := destroy WN i (set_obj i (mkObj (o_conn (obj g1 i)) Allocated) g1) w in
        if created then (g, w, BErr (EIO 330)) else borrow_object WN max fuel g w
    | (w, Panic) => (set_obj i (mkObj (o_conn (obj g1 i)) Allocated) g1, w, BPanic)
    | (w, NoFuel) => (set_obj i (mkObj (o_conn (obj g1 i)) Allocated) g1, w, BNoFuel)
    end = (g', w', r) ->
    fit g' w' /\ match r with BLent c => Q w' c | _ => True end).
  { clear g' w' r E. intros i created g1 w1 g' w' r I1 S1 F1 QC E.
    assert (L1 : (i < length (q_objs g1))%nat) by (apply obj_in; congruence).
    rewrite obj_set_same in E by exact L1. cbn [o_conn] in E.
    set (g2 := set_obj i (mkObj (o_conn (obj g1 i)) Allocated) g1) in *.
    assert (I2 : invw [i] g2 w1 h rf) by (apply inv_set with (tr := snd w1) (m := made (fst w1)); auto using incl_refl, same_trace; try congruence; try (intros x Hx; now left)).
    assert (O2 : obj g2 i = mkObj (o_conn (obj g1 i)) Allocated) by (unfold g2; now apply obj_set_same).
    assert (Keep : forall o w2, (forall j, In j (q_idle g1) -> Q w2 (o_conn (obj g1 j))) -> G w2 -> fit (set_obj i o g2) w2).
    { intros o w2 HX Hg. split; [exact Hg|]. intros j Hj. destruct (fly_other i g1 w1 h rf j I1 ltac:(congruence) Hj) as [Hn _].
      rewrite obj_set_other by congruence. unfold g2. rewrite obj_set_other by congruence. now apply HX. }
    assert (F2 : forall w2, (forall j, In j (q_idle g1) -> Q w2 (o_conn (obj g1 j))) -> G w2 -> fit g2 w2).
    { intros w2 HX Hg. split; [exact Hg|]. intros j Hj. destruct (fly_other i g1 w1 h rf j I1 ltac:(congruence) Hj) as [Hn _].
      unfold g2. rewrite obj_set_other by congruence. now apply HX. }
    assert (Hm : In (o_conn (obj g1 i)) (made (fst w1))) by (apply (fly_made i g1 w1 h rf); [exact I1|congruence]).
    assert (Hi2 : q_idle g2 = q_idle g1) by reflexivity.
    assert (S2 : o_state (obj g2 i) <> Invalid) by (rewrite O2; discriminate).
    assert (K2 : o_conn (obj g2 i) = o_conn (obj g1 i)) by now rewrite O2.
    clearbody g2.
    assert (L2 : (i < length (q_objs g2))%nat) by now apply obj_in.
    unfold activate_object in E. destruct (n_valid WN (o_conn (obj g1 i)) w1) as [w2 b] eqn:Ev. destruct (valid_spec N made HF _ _ _ _ Ev) as [T2 M2].
    destruct (b_valid _ _ _ _ _ HT _ _ _ _ (proj1 F1) Hm Ev) as [G2 Q2].
    assert (I3 : invw [i] g2 w2 h rf) by (eapply (invw_more made max); eauto; discriminate).
    assert (F : forall c w3 g' w' r, invw [i] (set_obj i (mkObj c Allocated) g2) w3 h rf -> fit (set_obj i (mkObj c Allocated) g2) w3 -> Q w3 c ->
      (let '(w, valid) := n_valid WN c w3 in
       if valid then (set_obj i (mkObj c Allocated) g2, w, BLent c)
       else let '(g, w, _) := destroy WN i (set_obj i (mkObj c Allocated) g2) w in
             if created : bool then (g, w, BErr (EIO 331)) else borrow_object WN max fuel g w) = (g', w', r) ->
      fit g' w' /\ match r with BLent c => Q w' c | _ => True end).
    { clear g' w' r E. intros c w3 g' w' r I4 F4 Q4 E. set (g3 := set_obj i (mkObj c Allocated) g2) in *.
      assert (O3 : obj g3 i = mkObj c Allocated) by (unfold g3; now apply obj_set_same).
      clearbody g3. destruct (n_valid WN c w3) as [w4 b4] eqn:Ev4. destruct (valid_spec N made HF _ _ _ _ Ev4) as [T4 M4].
      assert (Hm3 : In c (made (fst w3))) by (pose proof (fly_made i g3 w3 h rf I4) as X; rewrite O3 in X; apply X; discriminate).
      destruct (b_valid _ _ _ _ _ HT _ _ _ _ (proj1 F4) Hm3 Ev4) as [G4 Q4'].
      assert (I5 : invw [i] g3 w4 h rf) by (eapply (invw_more made max); eauto; discriminate).
      assert (F5 : fit g3 w4) by (split; [exact G4|intros j Hj; apply Q4', F4, Hj]).
      destruct b4.
      - injection E as <- <- <-. auto.
      - destruct (destroy WN i g3 w4) as [[g5 w5] r5] eqn:Ed. destruct (destroy_step N made max HF _ _ _ _ _ _ _ _ I5 ltac:(rewrite O3; discriminate) Ed) as (I6 & _).
        pose proof (destroy_fit _ _ _ _ _ _ _ _ Hh I5 ltac:(rewrite O3; discriminate) F5 Ed) as F6.
        destruct created; [injection E as <- <- <-; auto|]. exact (IH _ _ _ _ _ _ _ Hh I6 F6 E). }
    destruct b.
    - apply (F (o_conn (obj g1 i)) w2); [| |now apply Q2|exact E].
      + apply inv_set with (tr := snd w2) (m := made (fst w2)); auto using incl_refl, same_trace; try discriminate; try (intros x Hx; now left).
      + apply Keep; [|exact G2]. intros j Hj. apply Q2, F1, Hj.
    - destruct (n_make WN w2) as [w3 r3] eqn:Em. destruct (make_spec N made HF _ _ _ Em) as (T3 & M3 & F3).
      destruct (b_make _ _ _ _ _ HT _ _ _ G2 Em) as (G3 & Q3 & Q3').
      assert (Hd : In (NValid (o_conn (obj g2 i)) false) (snd w2)) by (rewrite T2, K2; now left).
      assert (Q3'' : forall j, In j (q_idle g1) -> Q w3 (o_conn (obj g1 j))).
      { intros j Hj. apply Q3'; [apply M2, (idle_made [i] g1 w1 h rf j I1 Hj)|apply Q2, F1, Hj]. }
      destruct r3 as [c|e| |].
      + apply (F c w3); [| |now apply Q3|exact E].
        * destruct (F3 c eq_refl) as [N1 N2]. apply inv_set with (tr := snd w2) (m := made (fst w2)); auto; try discriminate.
          -- right. split; [exact N2|]. split; [exact N1|]. exists (snd w1). split; [now rewrite K2|exact T3].
          -- now exists [NMake (Ok c)].
          -- intros x Hx. rewrite T3 in Hx. destruct Hx as [Hx|Hx]; [right; congruence|now left].
        * now apply Keep.
      + assert (I4 : invw [i] g2 w3 h rf) by (eapply (invw_more made max); eauto; discriminate).
        assert (F4 : fit g2 w3) by now apply F2.
        destruct (destroy WN i g2 w3) as [[g5 w5] r5] eqn:Ed. destruct (destroy_step N made max HF _ _ _ _ _ _ _ _ I4 S2 Ed) as (I6 & _).
        pose proof (destroy_fit _ _ _ _ _ _ _ _ Hh I4 S2 F4 Ed) as F6.
        destruct created; [injection E as <- <- <-; auto|]. exact (IH _ _ _ _ _ _ _ Hh I6 F6 E).
      + injection E as <- <- <-. split; [now apply F2|exact Logic.I].
      + injection E as <- <- <-. split; [now apply F2|exact Logic.I]. }
  destruct (q_idle g) as [|i rest] eqn:Ei.
  - destruct (create WN max g w) as [[g1 w1] rc] eqn:Ec. destruct (create_step N made max HF _ _ _ _ _ _ _ I Ec) as (A & B & C1 & C2 & D).
    destruct (create_fit _ _ _ _ _ _ _ I Fg Ec) as [Fc Qc].
    destruct rc as [[i|]|e| |]; try (injection E as <- <- <-; auto).
    destruct D as (D1 & D2 & _). rewrite D2 in E. now apply (T i true g1 w1 g' w' r D1 D2 Fc Qc).
  - destruct (inv_take _ _ _ _ _ _ _ _ I Ei) as [I1 S1]. rewrite S1 in E. apply (T i false (set_idle rest g) w g' w' r I1 S1); [| |exact E].
    + split; [apply Fg|]. intros j Hj. apply Fg. rewrite Ei. now right.
    + apply Fg. rewrite Ei. now left.
Qed.

Lemma return_fit c g w h rf g' w' r : incl H (drop c h) -> invw [] g w h rf -> In c h -> fit g w -> return_object WN max c g w = (g', w', r) -> fit g' w'.
Proof.
  intros Hh I Hc Fg E. unfold return_object in E.
  assert (Hs : ~ In c H) by (intros X; apply Hh in X; unfold drop in X; apply filter_In in X as [_ X]; rewrite Nat.eqb_refl in X; discriminate). destruct (find_obj c (q_all g)) as [i|] eqn:Ef; [|now injection E as <- <- <-].
  destruct (inv_take_back _ _ _ _ _ _ _ _ I Hc Ef) as (K & S1 & I1). rewrite S1 in E. cbv zeta in E. rewrite K in E.
  assert (L1 : (i < length (q_objs g))%nat) by (apply obj_in; congruence).
  rewrite obj_set_same in E by exact L1. cbn [o_conn] in E.
  set (g2 := set_obj i (mkObj c Returning) g) in *.
  assert (I2 : invw [i] g2 w (drop c h) rf) by (apply inv_set with (tr := snd w) (m := made (fst w)); auto using incl_refl, same_trace; try congruence; try (intros x Hx; now left)).
  assert (O2 : obj g2 i = mkObj c Returning) by (unfold g2; now apply obj_set_same).
  assert (Hi2 : q_idle g2 = q_idle g) by reflexivity.
  assert (Hj2 : forall j, In j (q_idle g) -> obj g2 j = obj g j /\ o_conn (obj g j) <> c).
  { intros j Hj. destruct (fly_other i g w (drop c h) rf j I1 ltac:(congruence) Hj) as [Hn Hn']. unfold g2. rewrite obj_set_other by congruence. split; [reflexivity|congruence]. }
  clearbody g2. assert (L2 : (i < length (q_objs g2))%nat) by (apply obj_in; rewrite O2; discriminate).
  assert (Hm : In c (made (fst w))) by (rewrite <- K; apply (fly_made i g w (drop c h) rf); [exact I1|congruence]).
  destruct (n_valid WN c w) as [w1 b] eqn:Ev. destruct (valid_spec N made HF _ _ _ _ Ev) as [T1 M1].
  destruct (b_valid _ _ _ _ _ HT _ _ _ _ (proj1 Fg) Hm Ev) as [G1 Q1].
  assert (I3 : invw [i] g2 w1 (drop c h) rf) by (eapply (invw_more made max); eauto; discriminate).
  assert (F3 : fit g2 w1).
  { split; [exact G1|]. intros j Hj. rewrite Hi2 in Hj. destruct (Hj2 j Hj) as [-> _]. apply Q1, Fg, Hj. }
  assert (F : forall w3 g' w' r, invw [i] g2 w3 (drop c h) rf -> fit g2 w3 ->
     (let '(g, w, _) := destroy WN i g2 w3 in let '(g, w) := ensure_idle WN max g w in (g, w, Ok tt)) = (g', w', r) -> fit g' w').
  { clear g' w' r E. intros w3 g' w' r I4 F4 E. destruct (destroy WN i g2 w3) as [[g5 w5] r5] eqn:Ed.
    destruct (destroy_step N made max HF _ _ _ _ _ _ _ _ I4 ltac:(rewrite O2; discriminate) Ed) as (I6 & _).
    pose proof (destroy_fit _ _ _ _ _ _ _ _ Hh I4 ltac:(rewrite O2; discriminate) F4 Ed) as F6.
    destruct (ensure_idle WN max g5 w5) as [g6 w6] eqn:Ee. injection E as <- <- <-. exact (ensure_fit _ _ _ _ _ _ I6 F6 Ee). }
  destruct b; [|now apply (F w1 g' w' r)].
  unfold passivate_object in E. destruct (n_idle WN c w1) as [w2 ri] eqn:Ein. destruct (idle_spec N made HF _ _ _ _ Ein) as [T2 M2].
  destruct (b_idle _ _ _ _ _ HT _ _ _ _ G1 (M1 _ Hm) Hs Ein) as (G2 & Q2 & Q2').
  assert (I4 : invw [i] g2 w2 (drop c h) rf) by (eapply (invw_more made max); eauto; discriminate).
  assert (F4 : fit g2 w2).
  { split; [exact G2|]. intros j Hj. rewrite Hi2 in Hj. destruct (Hj2 j Hj) as [-> Hn]. apply Q2; [exact Hn|]. apply Q1, Fg, Hj. }
  destruct ri as [u|e| |].
  - set (g3 := set_obj i (mkObj c Idle) g2) in *.
    assert (I5 : invw [i] g3 w2 (drop c h) rf) by (apply inv_set with (tr := snd w2) (m := made (fst w2)); auto using incl_refl, same_trace; try congruence; try (intros x Hx; now left); rewrite O2; auto; discriminate).
    assert (O3 : obj g3 i = mkObj c Idle) by (unfold g3; now apply obj_set_same).
    assert (F5 : fit g3 w2).
    { split; [exact G2|]. intros j Hj. destruct (fly_other i g2 w2 (drop c h) rf j I4 ltac:(rewrite O2; discriminate) Hj) as [Hn _].
      unfold g3. rewrite obj_set_other by congruence. now apply F4. }
    clearbody g3. destruct (q_closed g3 || ((-1 <? max) && (max <=? Z.of_nat (length (q_idle g3))))) eqn:Cf.
    + destruct (destroy WN i g3 w2) as [[g5 w5] r5] eqn:Ed. injection E as <- <- <-.
      exact (destroy_fit _ _ _ _ _ _ _ _ Hh I5 ltac:(rewrite O3; discriminate) F5 Ed).
    + injection E as <- <- <-. split; [exact G2|]. intros j Hj. cbn [set_idle q_idle] in Hj.
      change (obj (set_idle (i :: q_idle g3) g3) j) with (obj g3 j). destruct Hj as [<-|Hj]; [rewrite O3; cbn; now apply (Q2' u)|now apply F5].
  - now apply (F w2 g' w' r).
  - now injection E as <- <- <-.
  - now injection E as <- <- <-.
Qed.

(** ** Events *)
Lemma lend_fit d w h rf b d' w' r : incl H h -> dinv made max d w h rf b -> fit (d_pool d) w -> lend WN d w = (d', w', r) ->
  fit (d_pool d') w' /\ forall c, r = DLent c -> exists w1, In c (made (fst w1)) /\ G w1 /\ Q w1 c /\ n_valid WN c w1 = (w', true).
Proof.
  intros Hh I F E. unfold lend in E. rewrite (v_max _ _ _ _ _ _ _ I) in E.
  destruct (borrow_object WN max (borrow_fuel (d_pool d)) (set_waiting false (d_pool d)) w) as [[g1 w1] r1] eqn:Eb.
  assert (I0 : invw [] (set_waiting false (d_pool d)) w h rf) by apply inv_waiting, (v_inv _ _ _ _ _ _ _ I).
  destruct (borrow_step N made max HF _ _ _ _ _ _ _ _ I0 Eb) as (_ & _ & _ & S). destruct (borrow_fit _ _ _ _ _ _ _ _ Hh I0 F Eb) as [F1 Q1].
  destruct r1 as [c|e| | |]; try (injection E as <- <- <-; split; [exact F1|discriminate]).
  destruct S as (i & I1 & [S1 <-]). assert (Hm : In (o_conn (obj g1 i)) (made (fst w1))) by (apply (fly_made i g1 w1 h rf); [exact I1|congruence]).
  destruct (n_valid WN (o_conn (obj g1 i)) w1) as [w2 v] eqn:Ev. destruct (b_valid _ _ _ _ _ HT _ _ _ _ (proj1 F1) Hm Ev) as [G2 Q2].
  injection E as <- <- <-. split; [split; [exact G2|intros j Hj; apply Q2, F1, Hj]|].
  intros c. destruct v; [|discriminate]. intros [= <-]. exists w1. split; [exact Hm|]. split; [apply F1|]. split; [exact Q1|exact Ev].
Qed.
Lemma event_fit e d w h rf b d' w' r : incl H (match e with EvReclaim (Some c) => drop c h | _ => h end) -> dinv made max d w h rf b -> match e with EvReclaim (Some c) => In c h | _ => True end ->
  fit (d_pool d) w -> do_event WN e d w = (d', w', r) ->
  fit (d_pool d') w' /\ forall c, r = DLent c -> exists w1, In c (made (fst w1)) /\ G w1 /\ Q w1 c /\ n_valid WN c w1 = (w', true).
Proof.
  intros Hh I Hf F E. destruct e as [| |[c|]|]; cbn [do_event] in E.
  - unfold pool_open in E. destruct (q_waiting (d_pool d)); [injection E as <- <- <-; split; [exact F|discriminate]|].
    destruct (d_closed d); [injection E as <- <- <-; split; [exact F|discriminate]|]. eapply lend_fit; eassumption.
  - unfold pool_close in E. destruct (q_waiting (d_pool d)); [injection E as <- <- <-; split; [exact F|discriminate]|].
    destruct (d_closed d); [injection E as <- <- <-; split; [exact F|discriminate]|].
    destruct (close_object_pool WN (d_pool d) w) as [g1 w1] eqn:Ec. injection E as <- <- <-.
    split; [exact (close_fit _ _ _ _ _ _ Hh (v_inv _ _ _ _ _ _ _ I) F Ec)|discriminate].
  - cbn [pool_reclaim] in E. rewrite (v_max _ _ _ _ _ _ _ I) in E. destruct (return_object WN max c (d_pool d) w) as [[g1 w1] r1] eqn:Er.
    injection E as <- <- <-. split; [exact (return_fit _ _ _ _ _ _ _ _ Hh (v_inv _ _ _ _ _ _ _ I) Hf F Er)|]. intros x. destruct r1; discriminate.
  - cbn [pool_reclaim] in E. injection E as <- <- <-. split; [exact F|discriminate].
  - unfold pool_wake in E. destruct (q_waiting (d_pool d)); [|injection E as <- <- <-; split; [exact F|discriminate]].
    destruct (q_idle (d_pool d)); [injection E as <- <- <-; split; [exact F|discriminate]|]. eapply lend_fit; eassumption.
Qed.
End Prep.

(** With nothing left alone. *)
Lemma tends_all {W} (N : net W) made G Q : tends N made G Q -> tends_but N made [] G Q.
Proof. intros [A B C D]. constructor; eauto. Qed.
