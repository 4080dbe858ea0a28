(** Facts about what happens to a driver pool. *)
From Coq Require Import String ZArith List Bool Lia ZifyBool.
From Verif Require Import Bytes GoVal GoErr Messages DriverPool SpecDriver DriverFacts.
Import ListNotations.
Open Scope Z_scope.

Section Flags.
Context {W : Type}.
Variables (N : net W) (max : Z).
(** Nothing but Close closes, nothing but Open waits. *)
Lemma destroy_flags i g w g' w' r : destroy N i g w = (g', w', r) -> q_closed g' = q_closed g /\ q_waiting g' = q_waiting g.
Proof. unfold destroy. destruct (destroy_object N (o_conn (obj g i)) w). now intros [= <- <- <-]. Qed.
Lemma create_flags g w g' w' r : create N max g w = (g', w', r) -> q_closed g' = q_closed g /\ q_waiting g' = q_waiting g.
Proof. unfold create. destruct (_ && _); [now intros [= <- <- <-]|]. destruct (n_make N w) as [w1 [c|e| |]]; now intros [= <- <- <-]. Qed.
Lemma ensure_flags g w g' w' : ensure_idle N max g w = (g', w') -> q_closed g' = q_closed g /\ q_waiting g' = q_waiting g.
Proof.
  unfold ensure_idle. destruct (_ || _); [now intros [= <- <-]|]. destruct (q_idle g); [|now intros [= <- <-]].
  destruct (create N max g w) as [[g1 w1] r] eqn:E. apply create_flags in E. destruct r as [[i|]|e| |]; intros [= <- <-]; exact E.
Qed.
Lemma return_flags c g w g' w' r : return_object N max c g w = (g', w', r) -> q_closed g' = q_closed g /\ q_waiting g' = q_waiting g.
Proof.
  unfold return_object. destruct (find_obj c (q_all g)) as [i|]; [|now intros [= <- <- <-]].
  destruct (o_state (obj g i)); try now intros [= <- <- <-]. cbv zeta. set (g2 := set_obj i _ g).
  destruct (n_valid N (o_conn (obj g2 i)) w) as [w1 b].
  assert (F : forall w3 g' w' r, (let '(g, w, _) := destroy N i g2 w3 in let '(g, w) := ensure_idle N max g w in (g, w, Ok tt)) = (g', w', r) -> q_closed g' = q_closed g /\ q_waiting g' = q_waiting g).
  { clear g' w' r. intros w3 g' w' r H. destruct (destroy N i g2 w3) as [[g5 w5] r5] eqn:Ed. apply destroy_flags in Ed. destruct (ensure_idle N max g5 w5) as [g6 w6] eqn:Ee. apply ensure_flags in Ee. injection H as <- <- <-. destruct Ed, Ee. split; etransitivity; eassumption. }
  destruct b; [|apply F]. destruct (passivate_object N (o_conn (obj g2 i)) w1) as [w2 [u|e| |]]; try (now intros [= <- <- <-]); [|apply F].
  destruct (_ || _).
  - match goal with |- context [destroy N i ?g3 w2] => destruct (destroy N i g3 w2) as [[g5 w5] r5] eqn:Ed end. apply destroy_flags in Ed. intros [= <- <- <-]. exact Ed.
  - now intros [= <- <- <-].
Qed.
End Flags.

(** The fuel is enough. *)
Section Fuel.
Context {W : Type}.
Variables (N : net W) (max : Z).
Hypothesis HM : forall w, snd (n_make N w) <> NoFuel.
Lemma remove_shorter i l : (length (remove Nat.eq_dec i l) <= length l)%nat.
Proof. induction l as [|x l IH]; cbn; [lia|]. destruct (Nat.eq_dec i x); cbn; lia. Qed.
Lemma destroy_idle i g w g' w' r : destroy N i g w = (g', w', r) -> (length (q_idle g') <= length (q_idle g))%nat.
Proof. unfold destroy. destruct (destroy_object N (o_conn (obj g i)) w). intros [= <- <- <-]. cbn. apply remove_shorter. Qed.
Lemma make_fuel w w' : n_make N w <> (w', NoFuel).
Proof. intros E. apply (HM w). now rewrite E. Qed.
Lemma activate_fuel c w w' : activate_object N c w <> (w', NoFuel).
Proof. unfold activate_object. destruct (n_valid N c w) as [w1 [|]]; [discriminate|apply make_fuel]. Qed.
Lemma borrow_enough fuel : forall g w g' w', (length (q_idle g) < fuel)%nat -> borrow_object N max fuel g w <> (g', w', BNoFuel).
Proof.
  induction fuel as [|fuel IH]; intros g w g' w' L E; [lia|]. cbn [borrow_object] in E. cbv zeta in E.
  destruct (q_idle g) as [|i rest] eqn:Ei.
  - unfold create in E. destruct (_ && _); [discriminate|]. destruct (n_make N w) as [w1 [c|e| |]] eqn:Em; try discriminate; [|now apply make_fuel in Em].
    match type of E with context [obj ?x (length (q_objs g))] => set (g1 := x) in E end.
    assert (S : obj g1 (length (q_objs g)) = mkObj c Idle) by (unfold obj, g1; cbn; now rewrite app_nth2, Nat.sub_diag by lia). rewrite S in E. cbn [o_state o_conn] in E.
    destruct (activate_object N _ w1) as [w2 [c2|e| |]] eqn:Ea; [| |discriminate|now apply activate_fuel in Ea].
    + destruct (n_valid N c2 w2) as [w3 [|]]; [discriminate|]. destruct (destroy N _ _ w3) as [[g3 w4] r3]. discriminate.
    + destruct (destroy N _ _ w2) as [[g3 w4] r3]. discriminate.
  - cbn in L. destruct (o_state (obj (set_idle rest g) i)); try (apply IH in E; [exact E|cbn; lia]).
    destruct (activate_object N _ w) as [w2 [c2|e| |]] eqn:Ea; [| |discriminate|now apply activate_fuel in Ea].
    + destruct (n_valid N c2 w2) as [w3 [|]]; [discriminate|]. destruct (destroy N _ _ w3) as [[g3 w4] r3] eqn:Ed. apply destroy_idle in Ed. apply IH in E; [exact E|]. cbn in Ed. lia.
    + destruct (destroy N _ _ w2) as [[g3 w4] r3] eqn:Ed. apply destroy_idle in Ed. apply IH in E; [exact E|]. cbn in Ed. lia.
Qed.
End Fuel.
Lemma open_enough {W} (N : net W) (HM : forall w, snd (n_make N w) <> NoFuel) d w d' w' : pool_open N d w <> (d', w', DNoFuel) /\ pool_wake N d w <> (d', w', DNoFuel).
Proof.
  assert (L : lend N d w <> (d', w', DNoFuel)).
  { unfold lend. destruct (borrow_object N (d_max d) (borrow_fuel (d_pool d)) (set_waiting false (d_pool d)) w) as [[g1 w1] r1] eqn:Eb. destruct r1; try discriminate.
    - destruct (n_valid N c w1) as [w2 [|]]; discriminate.
    - exfalso. revert Eb. apply borrow_enough; [exact HM|]. unfold borrow_fuel. cbn. lia. }
  split; [unfold pool_open|unfold pool_wake]; destruct (q_waiting (d_pool d)); try discriminate; [destruct (d_closed d); [discriminate|exact L]|destruct (q_idle (d_pool d)); [discriminate|exact L]].
Qed.

Section Closed.
Context {W : Type}.
Variable N : net W.
Definition shut (d : dpool) : Prop := d_closed d = true /\ q_waiting (d_pool d) = false.
Lemma shut_event e d w d' w' r : shut d -> do_event N e d w = (d', w', r) -> shut d' /\ (e = EvOpen -> r = DErr (ENew (TMsg 335)) /\ d' = d /\ w' = w) /\ (e = EvClose -> r = DErr (EWrap (Some (ESentinel 4)) 336) /\ d' = d /\ w' = w) /\ (forall c, r <> DLent c).
Proof.
  intros [A B] E. destruct e as [| |c|]; cbn [do_event] in E.
  - unfold pool_open in E. rewrite A, B in E. injection E as <- <- <-. repeat split; auto; discriminate.
  - unfold pool_close in E. rewrite A, B in E. injection E as <- <- <-. repeat split; auto; discriminate.
  - destruct c as [c|]; cbn [pool_reclaim] in E; [|injection E as <- <- <-; repeat split; auto; discriminate].
    destruct (return_object N (d_max d) c (d_pool d) w) as [[g1 w1] r1] eqn:Er. apply return_flags in Er. injection E as <- <- <-. repeat split; try discriminate; auto; cbn; [now destruct Er; congruence|]. intros x. destruct r1; discriminate.
  - unfold pool_wake in E. rewrite B in E. injection E as <- <- <-. repeat split; auto; discriminate.
Qed.
Lemma shut_events l : forall d w d' w' rs, shut d -> do_events N l d w = (d', w', rs) -> shut d' /\ forall c, ~ In (DLent c) rs.
Proof.
  induction l as [|e l IH]; intros d w d' w' rs H E; cbn [do_events] in E.
  - injection E as <- <- <-. split; [exact H|intros c []].
  - destruct (do_event N e d w) as [[d1 w1] r1] eqn:Ee. destruct (do_events N l d1 w1) as [[d2 w2] rs2] eqn:Es. injection E as <- <- <-.
    destruct (shut_event _ _ _ _ _ _ H Ee) as (H1 & _ & _ & Hc). destruct (IH _ _ _ _ _ H1 Es) as [H2 Hl]. split; [exact H2|]. intros c [X|X]; [now apply (Hc c)|now apply (Hl c)].
Qed.
Lemma close_object_flags l : forall g w g' w', clear N l g w = (g', w') -> q_closed g' = q_closed g /\ q_waiting g' = q_waiting g.
Proof.
  induction l as [|i l IH]; intros g w g' w' E; cbn [clear] in E; [now injection E as <- <-|].
  destruct (destroy N i (set_idle l g) w) as [[g1 w1] r1] eqn:Ed. apply destroy_flags in Ed. apply IH in E. cbn in Ed. destruct Ed, E. split; congruence.
Qed.
Lemma closing_shuts d w d' w' : pool_close N d w = (d', w', DDone) -> shut d'.
Proof.
  unfold pool_close. destruct (q_waiting (d_pool d)) eqn:Ew; [discriminate|]. destruct (d_closed d) eqn:Ec; [discriminate|].
  destruct (close_object_pool N (d_pool d) w) as [g1 w1] eqn:E. intros [= <- <-]. split; [reflexivity|]. cbn. unfold close_object_pool in E.
  destruct (q_closed (d_pool d)); [injection E as <- <-; exact Ew|]. apply close_object_flags in E. cbn in E. destruct E. congruence.
Qed.
Lemma do_events_app a : forall b d w d' w' rs, do_events N (a ++ b) d w = (d', w', rs) ->
  exists d1 w1 r1 r2, do_events N a d w = (d1, w1, r1) /\ do_events N b d1 w1 = (d', w', r2) /\ rs = r1 ++ r2.
Proof.
  induction a as [|e a IH]; intros b d w d' w' rs E; cbn [app do_events] in *.
  - exists d, w, [], rs. auto.
  - destruct (do_event N e d w) as [[d1 w1] r1]. destruct (do_events N (a ++ b) d1 w1) as [[d2 w2] rs2] eqn:Es. injection E as <- <- <-.
    destruct (IH _ _ _ _ _ _ Es) as (d3 & w3 & r3 & r4 & A & B & ->). exists d3, w3, (r1 :: r3), r4. rewrite A. auto.
Qed.
Lemma do_events_length l : forall d w d' w' rs, do_events N l d w = (d', w', rs) -> length rs = length l.
Proof.
  induction l as [|e l IH]; intros d w d' w' rs E; cbn [do_events] in E; [now injection E as <- <- <-|].
  destruct (do_event N e d w) as [[d1 w1] r1]. destruct (do_events N l d1 w1) as [[d2 w2] rs2] eqn:Es. injection E as <- <- <-. cbn. f_equal. eauto.
Qed.
(** After a Close that returned nil. *)
Lemma closed_history max w0 l d w : driver_history N max w0 l d w -> In (EvClose, DDone) l -> shut d.
Proof.
  unfold driver_history. intros E H. apply in_split in H. destruct H as (a & b & ->). rewrite !map_app in E. cbn [map fst snd] in E.
  apply do_events_app in E. destruct E as (d1 & w1 & r1 & r2 & Ea & Eb & Er). cbn [do_events] in Eb.
  destruct (do_event N EvClose d1 w1) as [[d2 w2] r3] eqn:Ee. destruct (do_events N (map fst b) d2 w2) as [[d3 w3] r4] eqn:Es. injection Eb as <- <- <-.
  assert (r3 = DDone).
  { apply do_events_length in Ea. rewrite map_length in Ea. assert (L : length (map snd a) = length r1) by (rewrite map_length; congruence).
    clear - Er L. revert r1 Er L. induction (map snd a) as [|x q IH]; intros [|y r1] Er L; cbn in *; try discriminate; [congruence|]. injection Er as _ Er. eauto. }
  subst r3. cbn [do_event] in Ee. apply closing_shuts in Ee. now apply shut_events in Es.
Qed.
Lemma closed_pool max w0 l d w : driver_history N max w0 l d w -> In (EvClose, DDone) l ->
  (exists e, do_event N EvOpen d w = (d, w, DErr e))
  /\ (exists n, do_event N EvClose d w = (d, w, DErr (EWrap (Some (ESentinel 4)) n)))
  /\ forall l' d' w' rs, do_events N l' d w = (d', w', rs) -> forall c, ~ In (DLent c) rs.
Proof.
  intros H Hc. pose proof (closed_history _ _ _ _ _ H Hc) as S. destruct S as [A B].
  split; [|split].
  - cbn [do_event]. unfold pool_open. rewrite A, B. eauto.
  - cbn [do_event]. unfold pool_close. rewrite A, B. eauto.
  - intros l' d' w' rs E. exact (proj2 (shut_events _ _ _ _ _ _ (conj A B) E)).
Qed.
End Closed.

(** ** Traces only grow *)
Section Grow.
Context {W : Type}.
Variables (N : net W) (max : Z).
Notation WN := (watch_net N).
Lemma gvalid c w w' b : n_valid WN c w = (w', b) -> snd w' = NValid c b :: snd w.
Proof. unfold watch_net. cbn [n_valid]. destruct (n_valid N c (fst w)). now intros [= <- <-]. Qed.
Lemma gclose c w w' b : n_close WN c w = (w', b) -> snd w' = NClose c b :: snd w.
Proof. unfold watch_net. cbn [n_close]. destruct (n_close N c (fst w)). now intros [= <- <-]. Qed.
Lemma gidle c w w' b : n_idle WN c w = (w', b) -> snd w' = NIdle c b :: snd w.
Proof. unfold watch_net. cbn [n_idle]. destruct (n_idle N c (fst w)). now intros [= <- <-]. Qed.
Lemma gmake w w' b : n_make WN w = (w', b) -> snd w' = NMake b :: snd w.
Proof. unfold watch_net. cbn [n_make]. destruct (n_make N (fst w)). now intros [= <- <-]. Qed.
Lemma grow_destroy i g w g' w' r : destroy WN i g w = (g', w', r) -> after w w'.
Proof.
  unfold destroy, destroy_object. destruct (n_valid WN (o_conn (obj g i)) w) as [w1 b] eqn:Ev. apply gvalid in Ev. destruct b.
  - destruct (n_close WN (o_conn (obj g i)) w1) as [w2 r2] eqn:Ec. apply gclose in Ec. intros [= <- <- <-]. eapply after_trans; eapply after_cons; eassumption.
  - intros [= <- <- <-]. eapply after_cons; eassumption.
Qed.
Lemma grow_create g w g' w' r : create WN max g w = (g', w', r) -> after w w'.
Proof. unfold create. destruct (_ && _); [intros [= <- <- <-]; apply after_refl|]. destruct (n_make WN w) as [w1 [c|e| |]] eqn:E; apply gmake in E; intros [= <- <- <-]; eapply after_cons; eassumption. Qed.
Lemma grow_ensure g w g' w' : ensure_idle WN max g w = (g', w') -> after w w'.
Proof.
  unfold ensure_idle. destruct (_ || _); [intros [= <- <-]; apply after_refl|]. destruct (q_idle g); [|intros [= <- <-]; apply after_refl].
  destruct (create WN max g w) as [[g1 w1] r] eqn:E. apply grow_create in E. destruct r as [[i|]|e| |]; intros [= <- <-]; exact E.
Qed.
Lemma grow_borrow fuel : forall g w g' w' r, borrow_object WN max fuel g w = (g', w', r) -> after w w'.
Proof.
  induction fuel as [|fuel IH]; intros g w g' w' r E; cbn [borrow_object] in E; cbv zeta in E.
  { injection E as <- <- <-. apply after_refl. }
  repeat match type of E with
  | context [match ?x with _ => _ end] => let q := fresh "q" in destruct x eqn:q
  end; try (injection E as <- <- <-).
  all: repeat match goal with
  | q : destroy _ _ _ _ = _ |- _ => apply grow_destroy in q
  | q : create _ _ _ _ = _ |- _ => apply grow_create in q
  | q : borrow_object _ _ _ _ _ = _ |- _ => apply IH in q
  | q : n_valid _ _ _ = _ |- _ => apply gvalid, after_cons in q
  | q : n_make _ _ = _ |- _ => apply gmake, after_cons in q
  | q : activate_object _ _ _ = _ |- _ => unfold activate_object in q
  | q : (let '(_, _) := ?x in _) = _ |- _ => destruct x as [? [|]] eqn:?
  | q : (_, Ok _) = (_, _) |- _ => injection q as <- <-
  | q : (_, Ok _) = (_, Err _) |- _ => discriminate q
  | q : (_, Ok _) = (_, Panic) |- _ => discriminate q
  | q : (_, Ok _) = (_, NoFuel) |- _ => discriminate q
  end.
  all: eauto 7 using after_refl, after_trans.
Qed.
End Grow.

(** ** Histories *)
Section History.
Context {W : Type}.
Variables (N : net W) (made : W -> list nat) (max : Z).
Hypothesis HF : fresh_net N made.
Notation WN := (watch_net N).

Record dinv (d : dpool) (w : W * list nevent) (h rf : list nat) (b : bool) : Prop := mkDinv {
  v_max : d_max d = max;
  v_inv : invw made max [] (d_pool d) w h rf;
  v_closed : q_closed (d_pool d) = d_closed d;
  v_idle : d_closed d = true -> q_idle (d_pool d) = [] /\ q_waiting (d_pool d) = false;
  v_wait : q_waiting (d_pool d) = b
}.
Definition lent_new (r : dres) (h : list nat) : Prop := match r with DLent c => ~ In c h | _ => True end.
Definition got (r : dres) (h : list nat) : list nat := match r with DLent c => c :: h | _ => h end.

Lemma lend_step d w h rf b d' w' r : dinv d w h rf b -> d_closed d = false -> lend WN d w = (d', w', r) ->
  dinv d' w' (got r h) rf (match r with DWait => true | _ => false end) /\ after w w' /\ lent_new r h /\ d_closed d' = false /\
  (r = DWait -> q_idle (d_pool d') = [] /\ 0 <= max < q_count (d_pool d') + 1).
Proof.
  intros I Hc E. destruct I as [V1 V2 V3 V4 V5]. unfold lend in E. rewrite V1 in E.
  destruct (borrow_object WN max (borrow_fuel (d_pool d)) (set_waiting false (d_pool d)) w) as [[g1 w1] r1] eqn:Eb.
  destruct (borrow_step N made max HF _ _ _ _ _ _ _ _ (inv_waiting _ _ _ _ _ _ _ false V2) Eb) as (A & B & C & D).
  cbn [set_waiting q_closed q_waiting] in B, C.
  destruct r1 as [c|e| | |].
  - destruct D as (i & D1 & D2 & D3). destruct (n_valid WN c w1) as [w2 v] eqn:Ev. destruct (valid_spec N made HF _ _ _ _ Ev) as [T M].
    assert (I2 : invw made max [i] g1 w2 h rf) by (eapply invw_more; eauto; discriminate).
    assert (A2 : after w w2) by (eapply after_trans; [exact A|eapply after_cons; eassumption]).
    injection E as <- <- <-. destruct v.
    + destruct (inv_to_lent _ _ _ _ _ _ _ I2 D2) as [X Y]. rewrite D3 in *. cbn [got lent_new]. split; [constructor; cbn; auto; try congruence|]. repeat split; auto; discriminate.
    + cbn [got lent_new]. split; [constructor; cbn; auto; try congruence|].
      * apply inv_to_lost with (i := i); auto. rewrite D3, T. now left.
      * repeat split; auto; discriminate.
  - injection E as <- <- <-. cbn [got lent_new]. split; [constructor; cbn; auto; try congruence|]. repeat split; auto; discriminate.
  - injection E as <- <- <-. cbn [got lent_new]. destruct D as (D1 & D2 & D3). split; [constructor; cbn; auto; try congruence|].
    + now apply inv_waiting.
    + repeat split; auto; apply D3.
  - injection E as <- <- <-. cbn [got lent_new]. split; [constructor; cbn; auto; try congruence|]. repeat split; auto; discriminate.
  - injection E as <- <- <-. cbn [got lent_new]. split; [constructor; cbn; auto; try congruence|]. repeat split; auto; discriminate.
Qed.
Lemma event_step e d w h rf b d' w' r : dinv d w h rf b -> match e with EvReclaim (Some c) => In c h | _ => True end -> do_event WN e d w = (d', w', r) ->
  dinv d' w' (held_after (e, r) h) (refused_after (e, r) rf) (waiting_after (e, r) b) /\ after w w' /\ lent_new r h.
Proof.
  intros I Hf E. destruct e as [| |c|]; cbn [do_event] in E.
  - unfold pool_open in E. destruct (q_waiting (d_pool d)) eqn:Ew.
    { injection E as <- <- <-. cbn. split; [|split; [apply after_refl|exact Coq.Init.Logic.I]]. destruct I as [V1 V2 V3 V4 V5]. constructor; auto. }
    destruct (d_closed d) eqn:Ec.
    { injection E as <- <- <-. cbn. split; [exact I|split; [apply after_refl|exact Coq.Init.Logic.I]]. }
    destruct (lend_step _ _ _ _ _ _ _ _ I Ec E) as (A & B & C & _). split; [|auto].
    assert (b = false) by (destruct I; congruence). subst b. destruct r; exact A.
  - unfold pool_close in E. destruct (q_waiting (d_pool d)) eqn:Ew.
    { injection E as <- <- <-. cbn. split; [exact I|split; [apply after_refl|exact Coq.Init.Logic.I]]. }
    destruct (d_closed d) eqn:Ec.
    { injection E as <- <- <-. cbn. split; [exact I|split; [apply after_refl|exact Coq.Init.Logic.I]]. }
    destruct (close_object_pool WN (d_pool d) w) as [g1 w1] eqn:Ecl. injection E as <- <- <-. destruct I as [V1 V2 V3 V4 V5].
    destruct (close_step N made max HF _ _ _ _ _ _ V2 ltac:(congruence) Ecl) as (A & B & C & D & F). cbn.
    split; [|split; [exact B|exact Coq.Init.Logic.I]]. constructor; cbn; auto; try congruence. intros _. split; congruence.
  - destruct c as [c|]; cbn [pool_reclaim] in E.
    2:{ injection E as <- <- <-. cbn. split; [exact I|split; [apply after_refl|exact Coq.Init.Logic.I]]. }
    destruct I as [V1 V2 V3 V4 V5]. rewrite V1 in E. destruct (return_object WN max c (d_pool d) w) as [[g1 w1] r1] eqn:Er.
    destruct (return_step N made max HF _ _ _ _ _ _ _ _ V2 Hf Er) as (A & B & C & D & F). injection E as <- <- <-.
    assert (P : d_closed d = true -> q_idle g1 = [] /\ q_waiting g1 = false) by (intros X; destruct (V4 X) as [Y Z]; split; [apply D; congruence|congruence]).
    destruct r1; cbn; (split; [constructor; cbn; auto; congruence|split; [exact A|exact Coq.Init.Logic.I]]).
  - unfold pool_wake in E. destruct (q_waiting (d_pool d)) eqn:Ew.
    + assert (Ec : d_closed d = false) by (destruct I as [V1 V2 V3 V4 V5]; destruct (d_closed d); [destruct (V4 eq_refl); congruence|reflexivity]).
      destruct (q_idle (d_pool d)) as [|i rest].
      * injection E as <- <- <-. cbn. split; [exact I|split; [apply after_refl|exact Coq.Init.Logic.I]].
      * destruct (lend_step _ _ _ _ _ _ _ _ I Ec E) as (A & B & C & _). split; [|auto]. assert (b = true) by (destruct I; congruence). subst b. destruct r; exact A.
    + injection E as <- <- <-. cbn. split; [exact I|split; [apply after_refl|exact Coq.Init.Logic.I]].
Qed.
Lemma events_step l : forall d w h rf b d' w', dinv d w h rf b -> fair h l -> do_events WN (map fst l) d w = (d', w', map snd l) ->
  dinv d' w' (fold_left (fun acc x => held_after x acc) l h) (fold_left (fun acc x => refused_after x acc) l rf) (fold_left (fun acc x => waiting_after x acc) l b) /\ after w w' /\ one_holder h l.
Proof.
  induction l as [|[e r] l IH]; intros d w h rf b d' w' I Hf E; cbn [map fst snd do_events fold_left] in *.
  { injection E as <- <-. split; [exact I|]. split; [apply after_refl|exact Coq.Init.Logic.I]. }
  destruct (do_event WN e d w) as [[d1 w1] r1] eqn:Ee. destruct (do_events WN (map fst l) d1 w1) as [[d2 w2] rs] eqn:Es. injection E as <- <- -> ->.
  destruct Hf as [Hf1 Hf2]. destruct (event_step _ _ _ _ _ _ _ _ _ I Hf1 Ee) as (I1 & A1 & L1).
  destruct (IH _ _ _ _ _ _ _ I1 Hf2 Es) as (I2 & A2 & L2). split; [exact I2|]. split; [eapply after_trans; eassumption|]. split; assumption.
Qed.
Lemma new_inv w0 : dinv (new_driver_pool max) (w0, []) [] [] false.
Proof.
  constructor; [reflexivity| |reflexivity|discriminate|reflexivity]. constructor; cbn.
  - constructor.
  - intros x [].
  - intros c i [].
  - split; [constructor|intros i []].
  - intros i. unfold obj. cbn. destruct i; intros [].
  - split; [constructor|intros c []].
  - reflexivity.
  - auto.
  - intros c [].
  - split; [intros c []|]. intros i Hi. lia.
Qed.
Lemma history_inv w0 l d w : driver_history WN max (w0, []) l d w -> fair [] l ->
  dinv d w (held l) (refused l) (waiting l) /\ one_holder [] l.
Proof. intros H Hf. destruct (events_step _ _ _ _ _ _ _ _ (new_inv w0) Hf H) as (A & _ & B). split; assumption. Qed.

(** ** Counting *)
Lemma live_at g i : (i < length (q_objs g))%nat -> o_state (obj g i) <> Invalid -> In (o_conn (obj g i)) (map o_conn (filter live (q_objs g))).
Proof.
  intros Hi Hs. apply in_map. apply filter_In. split; [now apply nth_In|]. unfold live. destruct (o_state (obj g i)); try reflexivity. now destruct Hs.
Qed.
Lemma live_bound g L : NoDup L -> (forall c, In c L -> exists i, (i < length (q_objs g))%nat /\ o_conn (obj g i) = c /\ o_state (obj g i) <> Invalid) ->
  (length L <= length (filter live (q_objs g)))%nat.
Proof.
  intros ND H. rewrite <- (map_length o_conn (filter live (q_objs g))). apply NoDup_incl_length; [exact ND|]. intros c Hc. destruct (H c Hc) as (i & A & <- & B). now apply live_at.
Qed.
Lemma nodup_map_filter (f : pobj -> bool) l : NoDup (map o_conn l) -> NoDup (map o_conn (filter f l)).
Proof.
  induction l as [|o l IH]; cbn; [auto|]. intros H. inversion H as [|x y A B]; subst. destruct (f o); cbn; [|auto]. constructor; [|auto].
  intros X. apply A. apply in_map_iff in X. destruct X as (o' & E & X). apply filter_In in X. rewrite <- E. now apply in_map.
Qed.
Lemma held_bound g w h rf : invw made max [] g w h rf -> Z.of_nat (length h) <= q_count g.
Proof.
  intros I. rewrite (i_count _ _ _ _ _ _ _ I). apply inj_le. destruct (i_held _ _ _ _ _ _ _ I) as [A B]. apply live_bound; [exact A|]. intros c Hc. destruct (B c Hc) as (i & X & Y & Z & _). exists i. repeat split; auto. congruence.
Qed.
Lemma full_bound g w h rf : invw made max [] g w h rf -> q_idle g = [] -> no_deaths (snd w) -> no_hangs (snd w) -> q_count g <= Z.of_nat (length h).
Proof.
  intros I E Hd Hh. rewrite (i_count _ _ _ _ _ _ _ I). apply inj_le. rewrite <- (map_length o_conn (filter live (q_objs g))). apply NoDup_incl_length.
  - apply nodup_map_filter, (i_conns _ _ _ _ _ _ _ I).
  - intros c Hc. apply in_map_iff in Hc. destruct Hc as (o & <- & Ho). apply filter_In in Ho. destruct Ho as [Ho Hl]. apply In_nth with (d := none) in Ho. destruct Ho as (i & Hi & Ei).
    change (nth i (q_objs g) none) with (obj g i) in Ei. subst o. pose proof (i_rest _ _ _ _ _ _ _ I i) as R. unfold live in Hl.
    destruct (i_well _ _ _ _ _ _ _ I Hd) as [Rf _]. rewrite E, Rf in R.
    destruct (o_state (obj g i)); try discriminate.
    + destruct R as [[]|[]].
    + destruct R as [R|[R|[[]|[]]]]; [exact R|now apply Hd in R].
    + destruct R as [[]|[R|R]]; now apply Hh in R.
Qed.
Lemma idle_bound g w h rf c : invw made max [] g w h rf -> In c h -> Z.of_nat (length (q_idle g)) < q_count g.
Proof.
  intros I Hc. rewrite (i_count _ _ _ _ _ _ _ I). apply inj_lt. destruct (i_held _ _ _ _ _ _ _ I) as [A B]. destruct (B c Hc) as (i & X & Y & Z & _).
  destruct (i_idle _ _ _ _ _ _ _ I) as [C D].
  enough (length (c :: map (fun j => o_conn (obj g j)) (q_idle g)) <= length (filter live (q_objs g)))%nat by (cbn in H; rewrite map_length in H; lia).
  assert (Lj : forall j, In j (q_idle g) -> (j < length (q_objs g))%nat) by (intros j Hj; apply obj_in; destruct (D j Hj); congruence).
  apply live_bound.
  - constructor.
    + intros H. apply in_map_iff in H. destruct H as (j & Ej & Hj). assert (j = i) by (apply (nth_conn (q_objs g)); auto; [apply (i_conns _ _ _ _ _ _ _ I)|unfold obj in *; fold none in *; congruence]). subst j. destruct (D i Hj). congruence.
    + clear - C Lj I. induction (q_idle g) as [|j l IH]; cbn; [constructor|]. inversion C; subst. constructor; [|apply IH; [assumption|intros k Hk; apply Lj; now right]].
      intros H. apply in_map_iff in H. destruct H as (k & Ek & Hk). assert (k = j) by (apply (nth_conn (q_objs g)); auto; [apply (i_conns _ _ _ _ _ _ _ I)|apply Lj; now right|apply Lj; now left]). congruence.
  - intros x [<-|Hx]; [exists i; repeat split; auto; congruence|]. apply in_map_iff in Hx. destruct Hx as (j & <- & Hj). exists j. repeat split; auto. destruct (D j Hj); congruence.
Qed.

(** ** What the theorems say *)
Lemma exclusive w0 l d w : driver_history WN max (w0, []) l d w -> fair [] l -> one_holder [] l /\ NoDup (held l).
Proof. intros H Hf. destruct (history_inv _ _ _ _ H Hf) as [I A]. split; [exact A|]. apply (i_held _ _ _ _ _ _ _ (v_inv _ _ _ _ _ I)). Qed.
Lemma limited w0 l d w : driver_history WN max (w0, []) l d w -> fair [] l -> 0 <= max -> Z.of_nat (length (held l)) <= max.
Proof. intros H Hf Hm. destruct (history_inv _ _ _ _ H Hf) as [I A]. pose proof (held_bound _ _ _ _ (v_inv _ _ _ _ _ I)). pose proof (i_max _ _ _ _ _ _ _ (v_inv _ _ _ _ _ I) Hm). lia. Qed.
(** What comes of giving a connection back that did not replace another. *)
Lemma given_back_original g w h rf c g' w' r : invw made max [] g w h rf -> In c h -> ~ replacement c (snd w) -> return_object WN max c g w = (g', w', r) ->
  (r = Ok tt \/ In (NIdle c Panic) (snd w') \/ In (NIdle c NoFuel) (snd w'))
  /\ (~ In (NValid c false) (snd w') -> (forall x, In (NIdle c x) (snd w') -> x = Ok tt) -> q_closed g = false -> exists i rest, q_idle g' = i :: rest /\ o_conn (obj g' i) = c).
Proof.
  intros I Hc Hr E. unfold return_object in E. destruct (find_obj c (q_all g)) as [i|] eqn:Ef.
  2:{ destruct (i_held _ _ _ _ _ _ _ I) as [_ B]. destruct (B c Hc) as (j & J1 & J2 & J3 & _). destruct (i_orig _ _ _ _ _ _ _ I) as [_ X]. destruct (X j J1) as [Y|Y]; [congruence| |]; rewrite J2 in Y; [congruence|now destruct Hr]. }
  destruct (inv_take_back _ _ _ _ _ _ _ _ I Hc Ef) as (K & S1 & I1). rewrite S1 in E. cbv zeta in E. rewrite K in E.
  assert (L1 : (i < length (q_objs g))%nat) by (apply obj_in; congruence).
  rewrite obj_set_same in E by exact L1. cbn [o_conn] in E. set (g2 := set_obj i (mkObj c Returning) g) in *.
  destruct (n_valid WN c w) as [w1 b] eqn:Ev. pose proof (gvalid _ _ _ _ _ Ev) as T1.
  destruct b.
  2:{ destruct (destroy WN i g2 w1) as [[g5 w5] r5] eqn:Ed. apply grow_destroy in Ed. destruct (ensure_idle WN max g5 w5) as [g6 w6] eqn:Ee. apply grow_ensure in Ee. injection E as <- <- <-.
      split; [now left|]. intros Hd. exfalso. apply Hd. apply Ee, Ed. rewrite T1. now left. }
  unfold passivate_object in E. destruct (n_idle WN c w1) as [w2 ri] eqn:Ein. pose proof (gidle _ _ _ _ _ Ein) as T2. destruct ri as [u|e| |].
  - pose proof (idle_bound _ _ _ _ _ I Hc) as Bd. pose proof (i_max _ _ _ _ _ _ _ I) as Mx.
    destruct (q_closed _ || _) eqn:Cf.
    + destruct (destroy WN i _ w2) as [[g5 w5] r5] eqn:Ed. injection E as <- <- <-. split; [now left|]. intros _ _ Hcl. exfalso. cbn in Cf. rewrite Hcl in Cf. cbn in Cf. lia.
    + injection E as <- <- <-. split; [now left|]. intros _ _ _. exists i, (q_idle g). split; [reflexivity|]. change (o_conn (obj (set_obj i (mkObj c Idle) g2) i) = c). rewrite obj_set_same; [reflexivity|]. unfold g2, set_obj. cbn. now rewrite put_obj_length.
  - destruct (destroy WN i g2 w2) as [[g5 w5] r5] eqn:Ed. apply grow_destroy in Ed. destruct (ensure_idle WN max g5 w5) as [g6 w6] eqn:Ee. apply grow_ensure in Ee. injection E as <- <- <-.
    split; [now left|]. intros _ Hi. exfalso. assert (X : Err e = Ok tt) by (apply Hi, Ee, Ed; rewrite T2; now left). discriminate X.
  - injection E as <- <- <-. rewrite T2. split; [right; left; now left|]. intros _ Hi. assert (X : Panic = Ok tt) by (apply Hi; now left). discriminate X.
  - injection E as <- <- <-. rewrite T2. split; [right; right; now left|]. intros _ Hi. assert (X : NoFuel = Ok tt) by (apply Hi; now left). discriminate X.
Qed.
(** What comes of giving a connection back when none has died. *)
Lemma given_back g w h rf c g' w' r : invw made max [] g w h rf -> In c h -> return_object WN max c g w = (g', w', r) -> no_deaths (snd w') -> no_hangs (snd w') ->
  r = Ok tt /\ (no_idle_errors (snd w') -> q_closed g = false -> q_idle g' <> []).
Proof.
  intros I Hc E Hd Hh. destruct (return_step N made max HF _ _ _ _ _ _ _ _ I Hc E) as (A & _).
  assert (Hd0 : no_deaths (snd w)) by (intros x X; apply (Hd x); now apply A).
  destruct (given_back_original _ _ _ _ _ _ _ _ I Hc (fun X => replaced_deaths _ _ X Hd0) E) as [[X|[X|X]] Y].
  - split; [exact X|]. intros Hi Hcl. destruct Y as (i & rest & -> & _); [apply Hd| |exact Hcl|discriminate].
    intros [[]|e| |] Z; [reflexivity|now apply Hi in Z|now apply Hh in Z|now apply Hh in Z].
  - now apply Hh in X.
  - now apply Hh in X.
Qed.
Lemma reclaimed_original w0 l d w c d' w' r : driver_history WN max (w0, []) l d w -> fair [] l -> In c (held l) -> ~ replacement c (snd w) ->
  do_event WN (EvReclaim (Some c)) d w = (d', w', r) -> ~ In (NIdle c Panic) (snd w') -> ~ In (NIdle c NoFuel) (snd w') -> r = DDone.
Proof.
  intros H Hf Hc Hr E Hp Hn. destruct (history_inv _ _ _ _ H Hf) as [I A]. cbn [do_event pool_reclaim] in E. rewrite (v_max _ _ _ _ _ I) in E.
  destruct (return_object WN max c (d_pool d) w) as [[g1 w1] r1] eqn:Er. injection E as <- <- <-.
  destruct (given_back_original _ _ _ _ _ _ _ _ (v_inv _ _ _ _ _ I) Hc Hr Er) as [[->|[X|X]] _]; tauto.
Qed.
Lemma reclaimed w0 l d w c d' w' r : driver_history WN max (w0, []) l d w -> fair [] l -> In c (held l) ->
  do_event WN (EvReclaim (Some c)) d w = (d', w', r) -> no_deaths (snd w') -> no_hangs (snd w') -> r = DDone.
Proof.
  intros H Hf Hc E Hd Hh. destruct (history_inv _ _ _ _ H Hf) as [I A]. cbn [do_event pool_reclaim] in E. rewrite (v_max _ _ _ _ _ I) in E.
  destruct (return_object WN max c (d_pool d) w) as [[g1 w1] r1] eqn:Er. injection E as <- <- <-.
  destruct (given_back _ _ _ _ _ _ _ _ (v_inv _ _ _ _ _ I) Hc Er Hd Hh) as [-> _]. reflexivity.
Qed.
(** What nobody holds and has not been found dead is not taken back. *)
Lemma not_taken_back w0 l d w c : driver_history WN max (w0, []) l d w -> fair [] l -> ~ In c (held l) -> ~ In (NValid c false) (snd w) ->
  exists e, do_event WN (EvReclaim (Some c)) d w = (d, w, DErr e).
Proof.
  intros H Hf Hh Hd. destruct (history_inv _ _ _ _ H Hf) as [I _]. pose proof (v_inv _ _ _ _ _ I) as J. cbn [do_event pool_reclaim]. unfold return_object.
  assert (E : forall g w' e, g = d_pool d -> w' = w -> (mkDPool (d_max d) (d_closed d) g, w', DErr e) = (d, w, DErr e)) by (intros; subst; now destruct d).
  destruct (find_obj c (q_all (d_pool d))) as [i|] eqn:Ef; [|eexists; now apply E].
  destruct (i_all _ _ _ _ _ _ _ J c i (find_obj_in _ _ _ Ef)) as (_ & _ & [K|[_ K]]); [|contradiction].
  pose proof (i_rest _ _ _ _ _ _ _ J i) as R. rewrite K in R.
  destruct (o_state (obj (d_pool d) i)); try (eexists; now apply E). destruct R as [R|[R|[R|[]]]]; try contradiction.
  destruct (proj1 (i_orig _ _ _ _ _ _ _ J) c R) as (_ & _ & X). congruence.
Qed.
(** Open waits only when every place of the pool is taken. *)
Lemma used_up w0 l d w d' w' : driver_history WN max (w0, []) l d w -> fair [] l -> do_event WN EvOpen d w = (d', w', DWait) ->
  waiting l = true \/ exists L, NoDup L /\ Z.of_nat (length L) = max
    /\ forall c, In c L -> In c (held l) \/ In c (refused l) \/ In (NValid c false) (snd w') \/ In (NIdle c Panic) (snd w') \/ In (NIdle c NoFuel) (snd w').
Proof.
  intros H Hf E. destruct (history_inv _ _ _ _ H Hf) as [I A]. cbn [do_event] in E. unfold pool_open in E.
  destruct (q_waiting (d_pool d)) eqn:Ew; [left; destruct I; congruence|]. destruct (d_closed d) eqn:Ec; [discriminate|].
  destruct (lend_step _ _ _ _ _ _ _ _ I Ec E) as (B & _ & _ & _ & D). destruct (D eq_refl) as (D1 & D2). cbn [got] in B. right.
  pose proof (v_inv _ _ _ _ _ B) as V. exists (map o_conn (filter live (q_objs (d_pool d')))). split; [apply nodup_map_filter, (i_conns _ _ _ _ _ _ _ V)|].
  split; [rewrite map_length, <- (i_count _ _ _ _ _ _ _ V); pose proof (i_max _ _ _ _ _ _ _ V); lia|].
  intros c Hc. apply in_map_iff in Hc. destruct Hc as (o & <- & Ho). apply filter_In in Ho. destruct Ho as [Ho Hl]. apply In_nth with (d := none) in Ho. destruct Ho as (i & Hi & Ei).
  change (nth i (q_objs (d_pool d')) none) with (obj (d_pool d') i) in Ei. subst o. pose proof (i_rest _ _ _ _ _ _ _ V i) as R. unfold live in Hl. rewrite D1 in R.
  destruct (o_state (obj (d_pool d') i)); try discriminate.
  - destruct R as [[]|[]].
  - destruct R as [R|[R|[R|[]]]]; tauto.
  - destruct R as [[]|R]; tauto.
Qed.
(** Open waits only when the pool is used up. *)
Lemma waits w0 l d w d' w' : driver_history WN max (w0, []) l d w -> fair [] l -> do_event WN EvOpen d w = (d', w', DWait) -> no_deaths (snd w') -> no_hangs (snd w') ->
  waiting l = true \/ 0 <= max /\ Z.of_nat (length (held l)) = max.
Proof.
  intros H Hf E Hd Hh. destruct (history_inv _ _ _ _ H Hf) as [I A]. cbn [do_event] in E. unfold pool_open in E.
  destruct (q_waiting (d_pool d)) eqn:Ew; [left; destruct I; congruence|]. destruct (d_closed d) eqn:Ec; [discriminate|].
  destruct (lend_step _ _ _ _ _ _ _ _ I Ec E) as (B & _ & _ & _ & D). destruct (D eq_refl) as (D1 & D2). cbn [got] in B. right. split; [apply D2|].
  pose proof (full_bound _ _ _ _ (v_inv _ _ _ _ _ B) D1 Hd Hh). pose proof (held_bound _ _ _ _ (v_inv _ _ _ _ _ B)). pose proof (i_max _ _ _ _ _ _ _ (v_inv _ _ _ _ _ B)). lia.
Qed.
(** An idle connection that is alive is lent. *)
Lemma lent_idle d w h rf b d' w' r : dinv d w h rf b -> q_idle (d_pool d) <> [] -> lend WN d w = (d', w', r) -> no_deaths (snd w') -> exists c, r = DLent c.
Proof.
  intros I Hi E Hd. unfold lend in E. rewrite (v_max _ _ _ _ _ I) in E. unfold borrow_fuel in E.
  destruct (borrow_object WN max _ _ w) as [[g1 w1] r1] eqn:Eb.
  assert (G : after w1 w').
  { destruct r1; try (injection E as <- <- <-; apply after_refl). destruct (n_valid WN c w1) as [w2 v] eqn:Ev. injection E as <- <- <-. apply gvalid in Ev. eapply after_cons; eassumption. }
  assert (X : exists c, r1 = BLent c).
  { cbn [borrow_object] in Eb. cbn [set_waiting q_idle] in Eb. destruct (q_idle (d_pool d)) as [|i rest] eqn:Ei; [now destruct Hi|]. cbv zeta in Eb.
    pose proof (v_inv _ _ _ _ _ I) as V. assert (S1 : o_state (obj (d_pool d) i) = Idle) by (apply (i_idle _ _ _ _ _ _ _ V); rewrite Ei; now left).
    assert (L : (i < length (q_objs (d_pool d)))%nat) by (apply obj_in; congruence).
    change (obj (set_idle rest (set_waiting false (d_pool d))) i) with (obj (d_pool d) i) in Eb. rewrite S1 in Eb.
    rewrite obj_set_same in Eb by exact L. cbn [o_conn] in Eb. unfold activate_object in Eb.
    destruct (n_valid WN (o_conn (obj (d_pool d) i)) w) as [w2 v] eqn:Ev. pose proof (gvalid _ _ _ _ _ Ev) as T2. destruct v.
    - destruct (n_valid WN (o_conn (obj (d_pool d) i)) w2) as [w3 v3] eqn:Ev3. pose proof (gvalid _ _ _ _ _ Ev3) as T3. destruct v3; [injection Eb as <- <- <-; eauto|]. exfalso.
      destruct (destroy WN i _ w3) as [[g5 w5] r5] eqn:Ed. apply grow_destroy in Ed. apply grow_borrow in Eb. apply (Hd (o_conn (obj (d_pool d) i))). apply G, Eb, Ed. rewrite T3. now left.
    - exfalso. apply (Hd (o_conn (obj (d_pool d) i))). apply G.
      assert (Q : In (NValid (o_conn (obj (d_pool d) i)) false) (snd w2)) by (rewrite T2; now left).
      destruct (n_make WN w2) as [w3 [c|e| |]] eqn:Em; pose proof (after_cons _ _ _ (gmake _ _ _ _ Em)) as T3.
      + destruct (n_valid WN c w3) as [w4 v4] eqn:Ev4. pose proof (after_cons _ _ _ (gvalid _ _ _ _ _ Ev4)) as T4. destruct v4; [injection Eb as <- <- <-; now apply T4, T3|].
        destruct (destroy WN i _ w4) as [[g5 w5] r5] eqn:Ed. apply grow_destroy in Ed. apply grow_borrow in Eb. now apply Eb, Ed, T4, T3.
      + destruct (destroy WN i _ w3) as [[g5 w5] r5] eqn:Ed. apply grow_destroy in Ed. apply grow_borrow in Eb. now apply Eb, Ed, T3.
      + injection Eb as <- <- <-. now apply T3.
      + injection Eb as <- <- <-. now apply T3. }
  destruct X as [c ->]. destruct (n_valid WN c w1) as [w2 v] eqn:Ev. injection E as <- <- <-. apply gvalid in Ev. destruct v; [eauto|]. exfalso. apply (Hd c). rewrite Ev. now left.
Qed.
(** A goroutine that waits is served when a connection is given back. *)
Lemma served w0 l d w c d1 w1 r1 d2 w2 r2 : driver_history WN max (w0, []) l d w -> fair [] l -> waiting l = true -> In c (held l) ->
  do_event WN (EvReclaim (Some c)) d w = (d1, w1, r1) -> do_event WN EvWake d1 w1 = (d2, w2, r2) ->
  no_deaths (snd w2) -> no_hangs (snd w2) -> no_idle_errors (snd w2) -> exists c', r2 = DLent c'.
Proof.
  intros H Hf Hw Hc E1 E2 Hd Hh Hi. destruct (history_inv _ _ _ _ H Hf) as [I _].
  destruct (event_step (EvReclaim (Some c)) _ _ _ _ _ _ _ _ I Hc E1) as (I1 & A1 & _). destruct (event_step EvWake _ _ _ _ _ _ _ _ I1 Coq.Init.Logic.I E2) as (_ & A2 & _).
  assert (X1 : no_deaths (snd w1)) by (intros x X; apply (Hd x); now apply A2).
  assert (X2 : no_hangs (snd w1)) by (intros x; split; intros X; [apply (proj1 (Hh x))|apply (proj2 (Hh x))]; now apply A2).
  assert (X3 : no_idle_errors (snd w1)) by (intros x e X; apply (Hi x e); now apply A2).
  assert (Q : d_closed d = false) by (destruct I as [V1 V2 V3 V4 V5]; destruct (d_closed d); [destruct (V4 eq_refl); congruence|reflexivity]).
  assert (Y : q_idle (d_pool d1) <> []).
  { cbn [do_event pool_reclaim] in E1. rewrite (v_max _ _ _ _ _ I) in E1. destruct (return_object WN max c (d_pool d) w) as [[g3 w3] r3] eqn:Er. injection E1 as <- <- <-.
    destruct (given_back _ _ _ _ _ _ _ _ (v_inv _ _ _ _ _ I) Hc Er X1 X2) as [_ Z]. apply Z; [exact X3|]. rewrite (v_closed _ _ _ _ _ I). exact Q. }
  cbn [do_event] in E2. unfold pool_wake in E2. assert (Z : q_waiting (d_pool d1) = true) by (rewrite (v_wait _ _ _ _ _ I1); exact Hw). rewrite Z in E2.
  destruct (q_idle (d_pool d1)) as [|i rest] eqn:Ei; [now destruct Y|]. eapply lent_idle; [exact I1|rewrite Ei; exact Y|exact E2|exact Hd].
Qed.
Lemma lent_first d w h rf b d' w' r i rest : dinv d w h rf b -> q_idle (d_pool d) = i :: rest -> lend WN d w = (d', w', r) -> ~ In (NValid (o_conn (obj (d_pool d) i)) false) (snd w') ->
  r = DLent (o_conn (obj (d_pool d) i)).
Proof.
  intros I Ei E Hd. unfold lend in E. rewrite (v_max _ _ _ _ _ I) in E. unfold borrow_fuel in E.
  destruct (borrow_object WN max _ _ w) as [[g1 w1] r1] eqn:Eb.
  assert (G : after w1 w').
  { destruct r1; try (injection E as <- <- <-; apply after_refl). destruct (n_valid WN c w1) as [w2 v] eqn:Ev. injection E as <- <- <-. apply gvalid in Ev. eapply after_cons; eassumption. }
  assert (X : r1 = BLent (o_conn (obj (d_pool d) i))).
  { cbn [borrow_object] in Eb. cbn [set_waiting q_idle] in Eb. rewrite Ei in Eb. cbv zeta in Eb.
    pose proof (v_inv _ _ _ _ _ I) as V. assert (S1 : o_state (obj (d_pool d) i) = Idle) by (apply (i_idle _ _ _ _ _ _ _ V); rewrite Ei; now left).
    assert (L : (i < length (q_objs (d_pool d)))%nat) by (apply obj_in; congruence).
    change (obj (set_idle rest (set_waiting false (d_pool d))) i) with (obj (d_pool d) i) in Eb. rewrite S1 in Eb.
    rewrite obj_set_same in Eb by exact L. cbn [o_conn] in Eb. unfold activate_object in Eb.
    destruct (n_valid WN (o_conn (obj (d_pool d) i)) w) as [w2 v] eqn:Ev. pose proof (gvalid _ _ _ _ _ Ev) as T2. destruct v.
    - destruct (n_valid WN (o_conn (obj (d_pool d) i)) w2) as [w3 v3] eqn:Ev3. pose proof (gvalid _ _ _ _ _ Ev3) as T3. destruct v3; [injection Eb as <- <- <-; reflexivity|]. exfalso.
      destruct (destroy WN i _ w3) as [[g5 w5] r5] eqn:Ed. apply grow_destroy in Ed. apply grow_borrow in Eb. apply Hd. apply G, Eb, Ed. rewrite T3. now left.
    - exfalso. apply Hd. apply G.
      assert (Q : In (NValid (o_conn (obj (d_pool d) i)) false) (snd w2)) by (rewrite T2; now left).
      destruct (n_make WN w2) as [w3 [c|e| |]] eqn:Em; pose proof (after_cons _ _ _ (gmake _ _ _ _ Em)) as T3.
      + destruct (n_valid WN c w3) as [w4 v4] eqn:Ev4. pose proof (after_cons _ _ _ (gvalid _ _ _ _ _ Ev4)) as T4. destruct v4; [injection Eb as <- <- <-; now apply T4, T3|].
        destruct (destroy WN i _ w4) as [[g5 w5] r5] eqn:Ed. apply grow_destroy in Ed. apply grow_borrow in Eb. now apply Eb, Ed, T4, T3.
      + destruct (destroy WN i _ w3) as [[g5 w5] r5] eqn:Ed. apply grow_destroy in Ed. apply grow_borrow in Eb. now apply Eb, Ed, T3.
      + injection Eb as <- <- <-. now apply T3.
      + injection Eb as <- <- <-. now apply T3. }
  rewrite X in E. destruct (n_valid WN (o_conn (obj (d_pool d) i)) w1) as [w2 v] eqn:Ev. injection E as <- <- <-. apply gvalid in Ev. destruct v; [reflexivity|]. exfalso. apply Hd. rewrite Ev. now left.
Qed.
(** A goroutine that waits is served with the connection that is given back. *)
Lemma served_original w0 l d w c d1 w1 r1 d2 w2 r2 : driver_history WN max (w0, []) l d w -> fair [] l -> waiting l = true -> In c (held l) -> ~ replacement c (snd w) ->
  do_event WN (EvReclaim (Some c)) d w = (d1, w1, r1) -> do_event WN EvWake d1 w1 = (d2, w2, r2) ->
  ~ In (NValid c false) (snd w2) -> (forall x, In (NIdle c x) (snd w2) -> x = Ok tt) -> r2 = DLent c.
Proof.
  intros H Hf Hw Hc Hr E1 E2 Hd Hi. destruct (history_inv _ _ _ _ H Hf) as [I _].
  destruct (event_step (EvReclaim (Some c)) _ _ _ _ _ _ _ _ I Hc E1) as (I1 & A1 & _). destruct (event_step EvWake _ _ _ _ _ _ _ _ I1 Coq.Init.Logic.I E2) as (_ & A2 & _).
  assert (Q : d_closed d = false) by (destruct I as [V1 V2 V3 V4 V5]; destruct (d_closed d); [destruct (V4 eq_refl); congruence|reflexivity]).
  assert (Y : exists i rest, q_idle (d_pool d1) = i :: rest /\ o_conn (obj (d_pool d1) i) = c).
  { cbn [do_event pool_reclaim] in E1. rewrite (v_max _ _ _ _ _ I) in E1. destruct (return_object WN max c (d_pool d) w) as [[g3 w3] r3] eqn:Er. injection E1 as <- <- <-.
    destruct (given_back_original _ _ _ _ _ _ _ _ (v_inv _ _ _ _ _ I) Hc Hr Er) as [_ Z]. apply Z; [intros X; now apply Hd, A2|intros x X; now apply Hi, A2|]. rewrite (v_closed _ _ _ _ _ I). exact Q. }
  destruct Y as (i & rest & Y1 & Y2).
  cbn [do_event] in E2. unfold pool_wake in E2. assert (Z : q_waiting (d_pool d1) = true) by (rewrite (v_wait _ _ _ _ _ I1); exact Hw). rewrite Z, Y1 in E2.
  rewrite <- Y2. eapply lent_first; [exact I1|exact Y1|exact E2|now rewrite Y2].
Qed.
(** What has become of every connection once the pool is closed. *)
Lemma accounted w0 l d w c : driver_history WN max (w0, []) l d w -> fair [] l -> In (EvClose, DDone) l -> In (NMake (Ok c)) (snd w) ->
  (exists r, In (NClose c r) (snd w)) \/ In (NValid c false) (snd w) \/ In c (held l) \/ In c (refused l) \/ In (NIdle c Panic) (snd w) \/ In (NIdle c NoFuel) (snd w).
Proof.
  intros H Hf Hcl Hc. destruct (history_inv _ _ _ _ H Hf) as [I _]. destruct (closed_history _ _ _ _ _ _ H Hcl) as [Q _].
  pose proof (v_inv _ _ _ _ _ I) as V. destruct (i_trace _ _ _ _ _ _ _ V c Hc) as [(i & L & K & S)|[X|X]]; auto.
  pose proof (i_rest _ _ _ _ _ _ _ V i) as R. destruct (v_idle _ _ _ _ _ I Q) as [Ei _]. rewrite Ei, K in R. destruct (o_state (obj (d_pool d) i)); try now destruct S.
  - destruct R as [[]|[]].
  - destruct R as [R|[R|[R|[]]]]; tauto.
  - destruct R as [[]|R]; tauto.
Qed.
(** Only what replaced another is ever refused. *)
Lemma refused_replacement w0 l d w c : driver_history WN max (w0, []) l d w -> fair [] l -> In c (refused l) -> replacement c (snd w).
Proof. intros H Hf Hc. destruct (history_inv _ _ _ _ H Hf) as [I _]. destruct (i_orig _ _ _ _ _ _ _ (v_inv _ _ _ _ _ I)) as [A _]. apply (A c Hc). Qed.
Lemma closed_original w0 l d w c : driver_history WN max (w0, []) l d w -> fair [] l -> In (EvClose, DDone) l -> In (NMake (Ok c)) (snd w) ->
  ~ In c (held l) -> ~ replacement c (snd w) -> ~ In (NValid c false) (snd w) -> ~ In (NIdle c Panic) (snd w) -> ~ In (NIdle c NoFuel) (snd w) -> exists r, In (NClose c r) (snd w).
Proof.
  intros H Hf Hcl Hc H1 H2 H3 H4 H5. destruct (accounted _ _ _ _ _ H Hf Hcl Hc) as [X|[X|[X|[X|[X|X]]]]]; auto; try contradiction.
  destruct H2. exact (refused_replacement _ _ _ _ _ H Hf X).
Qed.
Lemma all_closed w0 l d w c : driver_history WN max (w0, []) l d w -> fair [] l -> In (EvClose, DDone) l -> held l = [] -> no_deaths (snd w) -> no_hangs (snd w) -> In (NMake (Ok c)) (snd w) ->
  exists r, In (NClose c r) (snd w).
Proof.
  intros H Hf Hcl Hh Hd Hg Hc. destruct (history_inv _ _ _ _ H Hf) as [I _]. destruct (accounted _ _ _ _ _ H Hf Hcl Hc) as [X|[X|[X|[X|[X|X]]]]]; auto.
  - now apply Hd in X.
  - rewrite Hh in X. destruct X.
  - destruct (i_well _ _ _ _ _ _ _ (v_inv _ _ _ _ _ I) Hd) as [R _]. rewrite R in X. destruct X.
  - now apply Hg in X.
  - now apply Hg in X.
Qed.
End History.
