(** Facts about sharing the connections of a driver pool. *)
From Coq Require Import String ZArith List Bool Lia ZifyBool.
From Verif Require Import Bytes GoVal GoErr Messages DriverPool SpecDriver DriverFacts DriverHistory PrepFacts.
From Verif Require SpecValues SpecServer Connection Link Wire SpecSession SpecShare.
Import ListNotations.
Open Scope Z_scope.
Import SpecShare(shared, sh_new, sh_event, sh_use).

(** ** Watching changes nothing *)
Section Watch.
Context {W : Type}.
Variables (N : net W) (max : Z).
Notation WN := (watch_net N).
Definition same {A} (x : A * (W * list nevent)) (y : A * W) : Prop := fst x = fst y /\ fst (snd x) = snd y.
Definition same3 {A B} (x : A * (W * list nevent) * B) (y : A * W * B) : Prop := fst (fst x) = fst (fst y) /\ fst (snd (fst x)) = snd (fst y) /\ snd x = snd y.
Lemma watch_make w tr : exists tr', n_make WN (w, tr) = (fst (n_make N w), tr', snd (n_make N w)).
Proof. cbn. destruct (n_make N w). eexists. reflexivity. Qed.
Lemma watch_valid c w tr : exists tr', n_valid WN c (w, tr) = (fst (n_valid N c w), tr', snd (n_valid N c w)).
Proof. cbn. destruct (n_valid N c w). eexists. reflexivity. Qed.
Lemma watch_close c w tr : exists tr', n_close WN c (w, tr) = (fst (n_close N c w), tr', snd (n_close N c w)).
Proof. cbn. destruct (n_close N c w). eexists. reflexivity. Qed.
Lemma watch_idle c w tr : exists tr', n_idle WN c (w, tr) = (fst (n_idle N c w), tr', snd (n_idle N c w)).
Proof. cbn. destruct (n_idle N c w). eexists. reflexivity. Qed.
Ltac watch_op :=
  match goal with
  | |- context [n_make WN (?w, ?tr)] => let t := fresh "tr" in let H := fresh "H" in destruct (watch_make w tr) as [t H]; rewrite H; clear H; destruct (n_make N w) as [? [?|?| |]]; cbn [fst snd]
  | |- context [n_valid WN ?c (?w, ?tr)] => let t := fresh "tr" in let H := fresh "H" in destruct (watch_valid c w tr) as [t H]; rewrite H; clear H; destruct (n_valid N c w) as [? [|]]; cbn [fst snd]
  | |- context [n_close WN ?c (?w, ?tr)] => let t := fresh "tr" in let H := fresh "H" in destruct (watch_close c w tr) as [t H]; rewrite H; clear H; destruct (n_close N c w) as [? ?]; cbn [fst snd]
  | |- context [n_idle WN ?c (?w, ?tr)] => let t := fresh "tr" in let H := fresh "H" in destruct (watch_idle c w tr) as [t H]; rewrite H; clear H; destruct (n_idle N c w) as [? [?|?| |]]; cbn [fst snd]
  end.
Lemma watch_destroy i g w tr : exists tr', destroy WN i g (w, tr) = (fst (fst (destroy N i g w)), (snd (fst (destroy N i g w)), tr'), snd (destroy N i g w)).
Proof. unfold destroy, destroy_object. repeat watch_op; eexists; reflexivity. Qed.
Lemma watch_create g w tr : exists tr', create WN max g (w, tr) = (fst (fst (create N max g w)), (snd (fst (create N max g w)), tr'), snd (create N max g w)).
Proof. unfold create. destruct (_ && _); [eexists; reflexivity|]. repeat watch_op; eexists; reflexivity. Qed.
Lemma watch_ensure g w tr : exists tr', ensure_idle WN max g (w, tr) = (fst (ensure_idle N max g w), (snd (ensure_idle N max g w), tr')).
Proof.
  unfold ensure_idle. destruct (_ || _); [eexists; reflexivity|]. destruct (q_idle g); [|eexists; reflexivity].
  destruct (watch_create g w tr) as [t ->]. destruct (create N max g w) as [[g1 w1] [[i|]|e| |]]; eexists; reflexivity.
Qed.
Lemma watch_clear l : forall g w tr, exists tr', clear WN l g (w, tr) = (fst (clear N l g w), (snd (clear N l g w), tr')).
Proof.
  induction l as [|i l IH]; intros g w tr; cbn [clear]; [eexists; reflexivity|].
  destruct (watch_destroy i (set_idle l g) w tr) as [t ->]. destruct (destroy N i (set_idle l g) w) as [[g1 w1] r1]. cbn [fst snd]. apply IH.
Qed.
Lemma watch_borrow fuel : forall g w tr, exists tr', borrow_object WN max fuel g (w, tr)
  = (fst (fst (borrow_object N max fuel g w)), (snd (fst (borrow_object N max fuel g w)), tr'), snd (borrow_object N max fuel g w)).
Proof.
  induction fuel as [|fuel IH]; intros g w tr; cbn [borrow_object]; cbv zeta; [eexists; reflexivity|].
  assert (T : forall i (created : bool) g w tr, exists tr',
    match o_state (obj g i) with
    | Idle =>
        let g := set_obj i (mkObj (o_conn (obj g i)) Allocated) g in
        match activate_object WN (o_conn (obj g i)) (w, tr) with
        | (w, Ok c) =>
            let g := set_obj i (mkObj c Allocated) g in
            let '(w, valid) := n_valid WN c w in
            if valid then (g, w, BLent c)
            else let '(g, w, _) := destroy WN i g w in
                 if created then (g, w, BErr (EIO 331)) else borrow_object WN max fuel g w
        | (w, Err e) =>
            let '(g, w, _) := destroy WN i g w in
            if created then (g, w, BErr (EIO 330)) else borrow_object WN max fuel g w
        | (w, Panic) => (g, w, BPanic)
        | (w, NoFuel) => (g, w, BNoFuel)
        end
    | _ => borrow_object WN max fuel g (w, tr)
    end =
    let x := match o_state (obj g i) with
    | Idle =>
        let g := set_obj i (mkObj (o_conn (obj g i)) Allocated) g in
        match activate_object N (o_conn (obj g i)) w with
        | (w, Ok c) =>
            let g := set_obj i (mkObj c Allocated) g in
            let '(w, valid) := n_valid N c w in
            if valid then (g, w, BLent c)
            else let '(g, w, _) := destroy N i g w in
                 if created then (g, w, BErr (EIO 331)) else borrow_object N max fuel g w
        | (w, Err e) =>
            let '(g, w, _) := destroy N i g w in
            if created then (g, w, BErr (EIO 330)) else borrow_object N max fuel g w
        | (w, Panic) => (g, w, BPanic)
        | (w, NoFuel) => (g, w, BNoFuel)
        end
    | _ => borrow_object N max fuel g w
    end in (fst (fst x), (snd (fst x), tr'), snd x)).
  { clear g w tr. intros i created g w tr. destruct (o_state (obj g i)); try apply IH. cbv zeta. set (g1 := set_obj i _ g). unfold activate_object.
    assert (D : forall g2 w2 tr2 e, exists tr',
      (let '(g, w, _) := destroy WN i g2 (w2, tr2) in if created then (g, w, BErr e) else borrow_object WN max fuel g w)
      = let x := (let '(g, w, _) := destroy N i g2 w2 in if created then (g, w, BErr e) else borrow_object N max fuel g w) in (fst (fst x), (snd (fst x), tr'), snd x)).
    { intros g2 w2 tr2 e. destruct (watch_destroy i g2 w2 tr2) as [t ->]. destruct (destroy N i g2 w2) as [[g3 w3] r3]. cbn [fst snd].
      destruct created; [eexists; reflexivity|apply IH]. }
    watch_op.
    - watch_op; [eexists; reflexivity|apply D].
    - watch_op; try (eexists; reflexivity).
      + watch_op; [eexists; reflexivity|apply D].
      + apply D. }
  destruct (q_idle g) as [|i rest]; [|destruct (T i false (set_idle rest g) w tr) as [t Ht]; exists t; exact Ht]. destruct (watch_create g w tr) as [t ->].
  destruct (create N max g w) as [[g1 w1] [[i|]|e| |]]; cbn [fst snd]; try (eexists; reflexivity).
  destruct (T i true g1 w1 t) as [t' Ht]; exists t'; exact Ht.
Qed.
Lemma watch_return c g w tr : exists tr', return_object WN max c g (w, tr)
  = (fst (fst (return_object N max c g w)), (snd (fst (return_object N max c g w)), tr'), snd (return_object N max c g w)).
Proof.
  unfold return_object. destruct (find_obj c (q_all g)) as [i|]; [|eexists; reflexivity]. destruct (o_state (obj g i)); try (eexists; reflexivity).
  cbv zeta. set (g1 := set_obj i _ g). unfold passivate_object.
  assert (D : forall w2 tr2, exists tr',
      (let '(g, w, _) := destroy WN i g1 (w2, tr2) in let '(g, w) := ensure_idle WN max g w in (g, w, Ok tt : res unit))
      = let x := (let '(g, w, _) := destroy N i g1 w2 in let '(g, w) := ensure_idle N max g w in (g, w, Ok tt)) in (fst (fst x), (snd (fst x), tr'), snd x)).
  { intros w2 tr2. destruct (watch_destroy i g1 w2 tr2) as [t ->]. destruct (destroy N i g1 w2) as [[g3 w3] r3]. cbn [fst snd].
    destruct (watch_ensure g3 w3 t) as [t' ->]. destruct (ensure_idle N max g3 w3). eexists. reflexivity. }
  watch_op; [|apply D]. watch_op; try (eexists; reflexivity); [|apply D].
  destruct (_ || _); [|eexists; reflexivity].
  match goal with |- context [destroy WN i ?g2 (?w2, ?t2)] => destruct (watch_destroy i g2 w2 t2) as [t ->]; destruct (destroy N i g2 w2) as [[? ?] ?] end.
  eexists. reflexivity.
Qed.
End Watch.
Lemma watch_event {W} (N : net W) e d w tr : exists tr', do_event (watch_net N) e d (w, tr)
  = (fst (fst (do_event N e d w)), (snd (fst (do_event N e d w)), tr'), snd (do_event N e d w)).
Proof.
  assert (L : exists tr', lend (watch_net N) d (w, tr) = (fst (fst (lend N d w)), (snd (fst (lend N d w)), tr'), snd (lend N d w))).
  { unfold lend. destruct (watch_borrow N (d_max d) (borrow_fuel (d_pool d)) (set_waiting false (d_pool d)) w tr) as [t ->].
    destruct (borrow_object N (d_max d) _ _ w) as [[g1 w1] [c|x| | |]]; cbn [fst snd]; try (eexists; reflexivity).
    destruct (watch_valid N c w1 t) as [t' ->]. destruct (n_valid N c w1) as [w2 [|]]; eexists; reflexivity. }
  destruct e as [| |[c|]|]; cbn [do_event].
  - unfold pool_open. destruct (q_waiting _); [eexists; reflexivity|]. destruct (d_closed d); [eexists; reflexivity|exact L].
  - unfold pool_close. destruct (q_waiting _); [eexists; reflexivity|]. destruct (d_closed d); [eexists; reflexivity|].
    unfold close_object_pool. destruct (q_closed (d_pool d)); [eexists; reflexivity|]. cbv zeta.
    match goal with |- context [clear (watch_net N) ?l ?g _] => destruct (watch_clear N l g w tr) as [t ->]; destruct (clear N l g w) end. eexists. reflexivity.
  - cbn [pool_reclaim]. destruct (watch_return N (d_max d) c (d_pool d) w tr) as [t ->]. destruct (return_object N (d_max d) c (d_pool d) w) as [[g1 w1] r1].
    eexists. reflexivity.
  - eexists. reflexivity.
  - unfold pool_wake. destruct (q_waiting _); [|eexists; reflexivity]. destruct (q_idle (d_pool d)); [eexists; reflexivity|exact L].
Qed.

(** ** Shared pools *)
Section Shared.
Context {W : Type}.
Variables (N : net W) (made : W -> list nat) (use : nat -> W -> W -> Prop) (max : Z) (w0 : W).
Variables (G : W -> Prop) (Q : W -> nat -> Prop).
Hypothesis HF : fresh_net N made.
Hypothesis HT : tends N made G Q.
Hypothesis HU : forall c w w', G w -> In c (made w) -> use c w w' -> G w' /\ incl (made w) (made w') /\ forall x, x <> c -> Q w x -> Q w' x.
Hypothesis H0 : G w0.

Lemma tends_watched : tends (watch_net N) (fun w => made (fst w)) (fun w => G (fst w)) (fun w => Q (fst w)).
Proof.
  constructor.
  - intros [w tr] w' r Hg. cbn [watch_net n_make fst snd]. destruct (n_make N w) as [w1 r1] eqn:E. intros [= <- <-]. exact (t_make _ _ _ _ HT _ _ _ Hg E).
  - intros c [w tr] w' r Hg Hm. cbn [watch_net n_valid fst snd]. destruct (n_valid N c w) as [w1 r1] eqn:E. intros [= <- <-]. exact (t_valid _ _ _ _ HT _ _ _ _ Hg Hm E).
  - intros c [w tr] w' r Hg Hm. cbn [watch_net n_close fst snd]. destruct (n_close N c w) as [w1 r1] eqn:E. intros [= <- <-]. exact (t_close _ _ _ _ HT _ _ _ _ Hg Hm E).
  - intros c [w tr] w' r Hg Hm. cbn [watch_net n_idle fst snd]. destruct (n_idle N c w) as [w1 r1] eqn:E. intros [= <- <-]. exact (t_idle _ _ _ _ HT _ _ _ _ Hg Hm E).
Qed.
Definition gfit := fit (fun w : W * list nevent => G (fst w)) (fun w => Q (fst w)).
Lemma shared_inv l d w : shared N use max w0 l d w ->
  exists tr, dinv made max d (w, tr) (held l) (refused l) (waiting l) /\ gfit (d_pool d) (w, tr).
Proof.
  induction 1 as [|l d w e r d' w' H (tr & I & F) Hf E|l d w c w' H (tr & I & F) Hc Hu].
  - exists []. split; [apply new_inv|]. split; [exact H0|]. intros j [].
  - destruct (watch_event N e d w tr) as [tr' E']. rewrite E in E'. cbn [fst snd] in E'. exists tr'.
    destruct (event_step N made max HF e d (w, tr) _ _ _ d' (w', tr') r I Hf E') as (I' & _).
    destruct (event_fit N made max HF _ _ [] (tends_all _ _ _ _ tends_watched) e d (w, tr) _ _ _ d' (w', tr') r (incl_nil_l _) I Hf F E') as [F' _].
    unfold held, refused, waiting. rewrite !fold_left_app. split; [exact I'|exact F'].
  - exists tr. assert (V := v_inv _ _ _ _ _ _ _ I). destruct (i_held _ _ _ _ _ _ _ V) as [_ B]. destruct (B c Hc) as (i & Li & Ki & Si & _).
    assert (Hm : In c (made w)) by (apply (i_made _ _ _ _ _ _ _ V); apply conn_nth; exists i; auto).
    destruct (HU c w w' (proj1 F) Hm Hu) as (G' & M' & Q'). split.
    + destruct I as [V1 V2 V3 V4 V5]. constructor; auto. unfold invw in *. cbn [fst snd] in *.
      eapply inv_trace; [exact V2|now exists []|exact M'|auto].
    + split; [exact G'|]. intros j Hj. cbn [fst]. apply Q'; [|now apply F].
      destruct (i_idle _ _ _ _ _ _ _ V) as [_ D]. destruct (D j Hj) as [D1 _]. intros X.
      assert (j = i); [|congruence]. apply (nth_conn (q_objs (d_pool d))); [apply (i_conns _ _ _ _ _ _ _ V)|apply obj_in; congruence|exact Li|].
      change (o_conn (obj (d_pool d) j) = o_conn (obj (d_pool d) i)). congruence.
Qed.
Lemma shared_lends l d w e d' w' c : shared N use max w0 l d w -> match e with EvReclaim (Some c) => In c (held l) | _ => True end ->
  do_event N e d w = (d', w', DLent c) ->
  ~ In c (held l) /\ exists w1, In c (made w1) /\ G w1 /\ Q w1 c /\ n_valid N c w1 = (w', true).
Proof.
  intros H Hf E. destruct (shared_inv _ _ _ H) as (tr & I & F). destruct (watch_event N e d w tr) as [tr' E']. rewrite E in E'. cbn [fst snd] in E'.
  destruct (event_step N made max HF e d (w, tr) _ _ _ d' (w', tr') _ I Hf E') as (_ & _ & L).
  destruct (event_fit N made max HF _ _ [] (tends_all _ _ _ _ tends_watched) e d (w, tr) _ _ _ d' (w', tr') _ (incl_nil_l _) I Hf F E') as [_ X].
  destruct (X c eq_refl) as ([w1 tr1] & M1 & G1 & Q1 & V1). split; [exact L|]. exists w1. split; [exact M1|]. split; [exact G1|]. split; [exact Q1|].
  cbn [watch_net n_valid fst snd] in V1. destruct (n_valid N c w1) as [w2 b]. injection V1 as <- _ ->. reflexivity.
Qed.
End Shared.

(** ** C79 *)
Section Noted.
Context {W : Type}.
Variables (N : net W) (made : W -> list nat) (max : Z) (w0 : W).
Hypothesis HF : fresh_net N made.
Notation NN := (SpecShare.noted N).
Lemma noted_fresh : fresh_net NN (fun w => made (fst w)).
Proof.
  constructor.
  - intros [w l]. cbn. pose proof (fn_make _ _ HF w) as H. destruct (n_make N w). exact H.
  - intros [w l] w' c. cbn. pose proof (fn_new _ _ HF w) as H. destruct (n_make N w) as [w1 r1]. intros [= <- ->]. now apply H.
  - intros c [w l]. cbn. pose proof (fn_valid _ _ HF c w) as H. destruct (n_valid N c w). exact H.
  - intros c [w l]. cbn. pose proof (fn_close _ _ HF c w) as H. destruct (n_close N c w). exact H.
  - intros c [w l]. cbn. pose proof (fn_idle _ _ HF c w) as H. destruct (n_idle N c w). exact H.
Qed.
Lemma noted_tends : tends NN (fun w => made (fst w)) (fun _ => True) (fun w c => SpecShare.prepared c (snd w) = true).
Proof.
  constructor.
  - intros [w l] w' r _. cbn. pose proof (fn_new _ _ HF w) as X. destruct (n_make N w) as [w1 [c|e| |]]; intros [= <- <-]; (split; [exact Logic.I|]); cbn [snd fst];
      (split; [intros x; try discriminate; intros [= <-]; cbn; now rewrite Nat.eqb_refl|]); auto.
    intros x Hx Hp. cbn. destruct (Nat.eqb_spec c x) as [->|]; [reflexivity|exact Hp].
  - intros c [w l] w' b _ _. cbn. destruct (n_valid N c w). intros [= <- <-]. auto.
  - intros c [w l] w' b _ _. cbn. destruct (n_close N c w). intros [= <- <-]. split; [exact Logic.I|]. cbn. intros x Hx Hp.
    destruct (Nat.eqb_spec c x); [congruence|exact Hp].
  - intros c [w l] w' b _ _. cbn. destruct (n_idle N c w) as [w1 r1]. intros [= <- <-]. split; [exact Logic.I|]. cbn. split.
    + intros x Hx Hp. destruct (Nat.eqb_spec c x); [congruence|exact Hp].
    + intros u ->. now rewrite Nat.eqb_refl.
Qed.
Lemma lends_prepared l d w e d' w' c : shared NN (SpecShare.noted_use made) max (w0, []) l d w ->
  match e with EvReclaim (Some c) => In c (held l) | _ => True end ->
  do_event NN e d w = (d', w', DLent c) -> SpecShare.prepared c (snd w') = true.
Proof.
  intros H Hf E.
  destruct (shared_lends NN (fun w => made (fst w)) (SpecShare.noted_use made) max (w0, []) (fun _ => True) _ noted_fresh noted_tends) with (3 := H) (4 := Hf) (5 := E)
    as (_ & [w1 l1] & _ & _ & Q1 & V1).
  - intros x [wa la] [wb lb] _ _ (Hs & Hm). cbn [fst snd] in *. subst lb. split; [exact Logic.I|]. split; [exact Hm|].
    intros y Hy Hp. cbn. destruct (Nat.eqb_spec x y); [congruence|exact Hp].
  - exact Logic.I.
  - cbn in V1. destruct (n_valid N c w1) as [w2 b]. injection V1 as <- _. exact Q1.
Qed.
End Noted.

(** ** C80 *)
From Verif Require Import RestFacts.
Section Sessions.
Import SpecValues SpecServer Connection Link Wire SpecSession SpecShare.
Context {W : Type}.
Variables (N : DriverPool.net W) (made : W -> list nat) (p : nat -> proto) (P : nat -> peer) (user password : bytes) (cell : W -> nat -> conn * wire).
Variables (max : Z) (w0 : W).
Hypothesis HF : fresh_net N made.
Hypothesis HS : over_sessions N made p P user password cell.
Hypothesis H0 : made w0 = [].
Definition kept (w : W) : Prop := forall c, In c (made w) -> exists l, session polite (p c) (P c) user password l (cell w c).
Definition fresh_cell (w : W) (c : nat) : Prop := c_closed (fst (cell w c)) = false -> rested (cell w c).
Lemma polite_bare c o : statement_of o = None -> clean_call c o -> polite c o.
Proof. intros H Hc. split; [exact Hc|]. unfold ordinary_call. now rewrite H. Qed.
Lemma kept_one w w' c l : kept w -> made w' = made w -> (forall d, d <> c -> cell w' d = cell w d) ->
  session polite (p c) (P c) user password l (cell w' c) -> kept w'.
Proof.
  intros K Hm Hd Hs d Hin. rewrite Hm in Hin. destruct (Nat.eq_dec d c) as [->|Hne]; [now exists l|]. rewrite (Hd d Hne). now apply K.
Qed.
Lemma sessions_tend : tends N made kept fresh_cell.
Proof.
  destruct HS as [Hpeer [Hu Hpw] Hmake Hvalid Hclose Hidle]. constructor.
  - intros w w' r K E. destruct (Hmake w w' r E) as (M1 & M2 & M3). split; [|split].
    + intros d Hd. destruct (M1 d Hd) as [Hin| ->].
      * rewrite (M2 d Hin). now apply K.
      * exists []. split; [apply Hpeer|]. split; [exact Hu|]. split; [exact Hpw|]. exists (cell w' d). split; [now apply M3|constructor].
    + intros c -> _. specialize (M3 c eq_refl). destruct (cell w' c) as [k v] eqn:Ec. destruct (opens_accepted (p c) (P c) user password (Hpeer c) Hu Hpw) as [_ A].
      specialize (A k v _ M3). destruct (j_outcome (p_judge (P c)) 0); [|apply A..]. destruct A as (e & A & _). discriminate.
    + intros x Hx Hq. unfold fresh_cell in *. now rewrite (M2 x Hx).
  - intros c w w' b K Hin E. destruct (Hvalid c w w' b Hin E) as (M1 & M2 & M3). destruct (K c Hin) as [l Hs].
    destruct (cell w c) as [k v] eqn:E1. destruct (cell w' c) as [k' v'] eqn:E2.
    destruct (validate_same _ _ _ _ _ _ _ _ _ _ (session_polite _ _ _ _ _ _ Hs) M3) as [X _]. injection X as -> ->. split.
    + apply (kept_one w w' c l K M1 M2). now rewrite E2.
    + intros x Hq. unfold fresh_cell in *. destruct (Nat.eq_dec x c) as [->|Hne]; [|now rewrite (M2 x Hne)]. rewrite E2. now rewrite E1 in Hq.
  - intros c w w' r K Hin E. destruct (Hclose c w w' r Hin E) as (M1 & M2 & M3). destruct (K c Hin) as [l Hs]. split.
    + assert (X : cell w' c = cell w c \/ does (wired (P c)) CClose (cell w c) (cell w' c) (back r)) by (destruct r; auto).
      destruct X as [X|X]; [apply (kept_one w w' c l K M1 M2); now rewrite X|].
      apply (kept_one w w' c (l ++ [(CClose, back r)]) K M1 M2). apply (session_more _ _ _ _ _ _ _ _ _ _ Hs); [|exact X]. now apply polite_bare.
    + intros x Hne Hq. unfold fresh_cell in *. now rewrite (M2 x Hne).
  - intros c w w' r K Hin E. destruct (Hidle c w w' r Hin E) as (M1 & M2 & M3). destruct (K c Hin) as [l Hs]. split; [|split].
    + assert (X : cell w' c = cell w c \/ does (wired (P c)) CMakeIdle (cell w c) (cell w' c) (back r)) by (destruct r; auto).
      destruct X as [X|X]; [apply (kept_one w w' c l K M1 M2); now rewrite X|].
      apply (kept_one w w' c (l ++ [(CMakeIdle, back r)]) K M1 M2). apply (session_more _ _ _ _ _ _ _ _ _ _ Hs); [|exact X]. now apply polite_bare.
    + intros x Hne Hq. unfold fresh_cell in *. now rewrite (M2 x Hne).
    + intros u ->. cbn in M3. unfold fresh_cell. destruct (cell w c) as [k v]. destruct (cell w' c) as [k' v'].
      destruct (idle_rested _ _ _ _ _ _ _ _ _ _ Hs M3) as [X Y]. cbn [fst]. rewrite X. exact Y.
Qed.
Lemma lends_rested l d w e d' w' c : shared N (session_use polite made P cell) max w0 l d w ->
  match e with EvReclaim (Some c) => In c (held l) | _ => True end ->
  do_event N e d w = (d', w', DLent c) ->
  ~ In c (held l) /\ c_closed (fst (cell w' c)) = false /\ rested (cell w' c).
Proof.
  intros H Hf E.
  destruct (shared_lends N made (session_use polite made P cell) max w0 kept fresh_cell HF sessions_tend) with (3 := H) (4 := Hf) (5 := E)
    as (Hn & w1 & M1 & G1 & Q1 & V1).
  - intros x wa wb K Hin (U1 & U2 & o & r & U3 & U4). destruct (K x Hin) as [lx Hs]. split; [|split].
    + apply (kept_one wa wb x (lx ++ [(o, r)]) K U1 U2). now apply (session_more _ _ _ _ _ _ _ _ _ _ Hs).
    + rewrite U1. apply incl_refl.
    + intros y Hy Hq. unfold fresh_cell in *. now rewrite (U2 y Hy).
  - intros x Hx. rewrite H0 in Hx. destruct Hx.
  - split; [exact Hn|]. destruct (os_valid _ _ _ _ _ _ _ HS c w1 w' true M1 V1) as (X1 & X2 & X3). destruct (G1 c M1) as [lx Hs].
    unfold fresh_cell in Q1. destruct (cell w1 c) as [k v]. destruct (cell w' c) as [k' v'].
    destruct (validate_same _ _ _ _ _ _ _ _ _ _ (session_polite _ _ _ _ _ _ Hs) X3) as [X Y]. injection X as -> ->. cbn [fst] in *.
    split; [now apply Y|]. now apply Q1, Y.
Qed.
End Sessions.
