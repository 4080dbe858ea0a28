(** Facts about the holder of a connection lent by a driver pool. *)
From Coq Require Import String ZArith List Bool Lia ZifyBool.
From Verif Require Import Bytes BytesFacts GoVal GoErr Encoder Decoder SpecPack SpecValues SpecCodec SpecServer
  Messages Connection Errors Link ExecFacts ServeFacts CallFacts Wire WireFacts SpecSession OpenFacts ShapeFacts SessionFacts TxFacts
  SpecShare RestFacts CaseFacts SpecHolder.
From Verif Require DriverPool SpecDriver DriverFacts DriverHistory PrepFacts ShareFacts.
Import ListNotations.
Open Scope Z_scope.

(** Calls made from a moment of rest. *)
Lemma kept_rested p P user password l0 c w l c' w' : session clean_call p P user password l0 (c, w) -> rested (c, w) ->
  history (wired P) clean_call (c, w) l (c', w') -> all_disciplined p l ->
  exists new, s_perm (w_srv w') = s_perm (w_srv w) ++ new
  /\ Forall2 (fun x st => is_stmt (codec p) (fst x) (snd x) st) (lg_perm (ledger_of l)) new.
Proof.
  intros Hs (_ & Ht & Hc) Hh Hd. destruct (session_linked _ _ _ _ _ _ _ Hs) as (s & _ & L & Hp & HP & _). cbn [fst snd] in *.
  destruct (wire_history P (codec p) HP c w s l c' w' L Hh) as (s' & S & L').
  assert (Es : w_srv w = bare s) by apply L. assert (Es' : w_srv w' = bare s') by apply L'.
  assert (Hn : c_transaction c = None).
  { destruct (c_transaction c) as [t|] eqn:E; [|reflexivity]. apply (i_txs _ _ (l_inv _ _ _ _ _ L)) in E. rewrite Hc in E. discriminate. }
  assert (Hx : s_tx s = None) by (rewrite Es in Ht; exact Ht).
  destruct (kept_since P p l (c, s) (c', s') S Hd (l_inv _ _ _ _ _ L) Hp Hn Hx) as [(new & E & K) _]. cbn [snd] in *.
  exists new. split; [|exact K]. rewrite Es, Es'. exact E.
Qed.

(** Calls of the pool add nothing. *)
Definition pool_call (o : call) : Prop := match o with CValidate | CClose | CMakeIdle => True | _ => False end.
Lemma perm_end J k c s t : k <> KCommit -> s_perm (snd (fst (a_end J k c s t))) = s_perm s.
Proof.
  intro Hk. unfold a_end. destruct (tx_closed c t); [reflexivity|]. destruct (s_mode s); try reflexivity. cbv zeta.
  assert (X : s_perm (after_control J k None (native (c_proto c)) s) = s_perm s).
  { unfold after_control. destruct k; [|now elim Hk|]; destruct (control_fits _ s); destruct (j_outcome J (s_next s)); cbn; try reflexivity;
      destruct (s_tx s) as [[? ?]|]; cbn; rewrite ?app_nil_r; reflexivity. }
  destruct (control_error J k (native (c_proto c)) s); exact X.
Qed.
Lemma perm_pool p P user password l c w o c' w' r : session clean_call p P user password l (c, w) -> pool_call o ->
  does (wired P) o (c, w) (c', w') r -> s_perm (w_srv w') = s_perm (w_srv w).
Proof.
  intros Hs Ho Hd. destruct (session_linked _ _ _ _ _ _ _ Hs) as (s & _ & L & Hp & HP & _).
  assert (Hcl : clean_call c o) by (destruct o; try contradiction; exact I).
  destruct (wire_does P (codec p) HP o c w s c' w' r L Hcl Hd) as (s' & E & L').
  assert (Es : w_srv w = bare s) by apply L. assert (Es' : w_srv w' = bare s') by apply L'. rewrite Es, Es'. change (s_perm s' = s_perm s).
  destruct o; try contradiction; cbn [astep] in E; unfold a_close, a_idle in E.
  - destruct (c_closed c); [now injection E as _ <- _|]. destruct (c_transaction c) as [t|].
    + pose proof (perm_end (p_judge P) KRollback c s t ltac:(discriminate)) as X.
      destruct (a_end (p_judge P) KRollback c s t) as [[c1 s1] [[]| | |]]; cbn [fst snd] in X; injection E as _ <- _; exact X.
    + now injection E as _ <- _.
  - destruct (c_transaction c) as [t|].
    + pose proof (perm_end (p_judge P) KRollback c s t ltac:(discriminate)) as X.
      destruct (a_end (p_judge P) KRollback c s t) as [[c1 s1] r1]; cbn [fst snd] in X; injection E as _ <- _; exact X.
    + now injection E as _ <- _.
  - now injection E as _ <- _.
Qed.

(** ** The pool *)
Section Pool.
Context {W : Type}.
Variables (N : DriverPool.net W) (made : W -> list nat) (p : nat -> proto) (P : nat -> peer) (user password : bytes) (cell : W -> nat -> conn * wire).
Variables (max : Z) (w0 : W).
Hypothesis HF : SpecDriver.fresh_net N made.
Hypothesis HS : over_sessions N made p P user password cell.
Hypothesis H0 : made w0 = [].
Notation kept := (ShareFacts.kept made p P user password cell).
Notation use := (session_use polite made P cell).
Notation perm := (permanent cell).

Lemma use_keeps c w w' : kept w -> In c (made w) -> use c w w' -> kept w' /\ incl (made w) (made w')
  /\ forall x, x <> c -> ShareFacts.fresh_cell cell w x -> ShareFacts.fresh_cell cell w' x.
Proof.
  intros K Hin (U1 & U2 & o & r & U3 & U4). destruct (K c Hin) as [l Hs]. split; [|split].
  - apply (ShareFacts.kept_one made p P user password cell w w' c (l ++ [(o, r)]) K U1 U2). now apply (session_more _ _ _ _ _ _ _ _ _ _ Hs).
  - rewrite U1. apply incl_refl.
  - intros y Hy Hq. unfold ShareFacts.fresh_cell in *. now rewrite (U2 y Hy).
Qed.

(** The one who is lent a connection. *)
Lemma lent_session l d w e d' w' c : shared N use max w0 l d w ->
  match e with DriverPool.EvReclaim (Some c) => In c (SpecDriver.held l) | _ => True end ->
  DriverPool.do_event N e d w = (d', w', DriverPool.DLent c) ->
  (exists lc, session polite (p c) (P c) user password lc (cell w' c))
  /\ c_closed (fst (cell w' c)) = false /\ rested (cell w' c) /\ (p_looks (P c) = true -> ready (snd (cell w' c))).
Proof.
  intros H Hf E.
  destruct (ShareFacts.lends_rested N made p P user password cell max w0 HF HS H0 l d w e d' w' c H Hf E) as (_ & Hc & Hr).
  destruct (ShareFacts.shared_lends N made use max w0 kept (ShareFacts.fresh_cell cell) HF
    (ShareFacts.sessions_tend N made p P user password cell HS)) with (3 := H) (4 := Hf) (5 := E) as (_ & w1 & M1 & G1 & Q1 & V1).
  - intros x wa wb K Hin U. now apply use_keeps.
  - intros x Hx. rewrite H0 in Hx. destruct Hx.
  - destruct (os_valid _ _ _ _ _ _ _ HS c w1 w' true M1 V1) as (X1 & X2 & X3). destruct (G1 c M1) as [lx Hs].
    destruct (cell w1 c) as [k v]. destruct (cell w' c) as [k' v'] eqn:E2.
    pose proof (session_polite _ _ _ _ _ _ Hs) as Hs'.
    destruct (validate_same _ _ _ _ _ _ _ _ _ _ Hs' X3) as [X _]. injection X as -> ->.
    split; [now exists lx|]. split; [exact Hc|]. split; [exact Hr|]. intros Hl.
    destruct (validate_tells _ _ _ _ _ _ _ _ _ _ Hs' Hl X3) as (_ & b & Eb & B). injection Eb as <-.
    destruct (proj1 B eq_refl) as [_ Hm]. split; [apply Hr|]. cbn [snd].
    destruct (session_linked _ _ _ _ _ _ _ Hs') as (s & _ & L & _). cbn [fst] in Hc.
    assert (Es : w_srv v = bare s) by apply L. rewrite Es in *. 
    destruct (settled_modes s (proj2 (proj2 (i_open _ _ (l_inv _ _ _ _ _ L) Hc)))) as [X|X]; [exact X|]. now elim Hm.
Qed.

(** What the pool does. *)
Lemma pool_tends (base : W) : PrepFacts.tends N made
  (fun w => kept w /\ incl (made base) (made w) /\ forall x, In x (made w) -> perm w x = if in_dec Nat.eq_dec x (made base) then perm base x else [])
  (fun _ _ => True).
Proof.
  pose proof (ShareFacts.sessions_tend N made p P user password cell HS) as T. destruct HS as [Hpeer [Hu Hpw] Hmake Hvalid Hclose Hidle].
  assert (B : forall o r c w w' l, pool_call o -> made w' = made w -> (forall d, d <> c -> cell w' d = cell w d) ->
    session polite (p c) (P c) user password l (cell w c) -> cell w' c = cell w c \/ does (wired (P c)) o (cell w c) (cell w' c) r ->
    forall x, perm w' x = perm w x).
  { intros o r c w w' l Ho Hm Hd Hs X x. unfold permanent. destruct (Nat.eq_dec x c) as [->|Hne]; [|now rewrite (Hd x Hne)].
    destruct X as [->|X]; [reflexivity|]. destruct (cell w c) as [k v]. destruct (cell w' c) as [k' v']. cbn [snd].
    exact (perm_pool _ _ _ _ _ _ _ _ _ _ _ (session_polite _ _ _ _ _ _ Hs) Ho X). }
  constructor.
  - intros w w' r (K & Hi & Hp) E. destruct (Hmake w w' r E) as (M1 & M2 & M3). split; [|auto].
    split; [exact (proj1 (PrepFacts.t_make _ _ _ _ T w w' r K E))|].
    assert (Hi' : incl (made w) (made w')) by (pose proof (SpecDriver.fn_make _ _ HF w) as X; rewrite E in X; exact X).
    split; [eapply incl_tran; eassumption|]. intros x Hx. destruct (in_dec Nat.eq_dec x (made w)) as [Hin|Hout].
    + unfold permanent at 1. rewrite (M2 x Hin). now apply Hp.
    + destruct (M1 x Hx) as [X| ->]; [contradiction|]. destruct (in_dec Nat.eq_dec x (made base)) as [Y|Y]; [elim Hout; now apply Hi|].
      specialize (M3 x eq_refl). unfold permanent. destruct (cell w' x) as [k v]. cbn [snd]. destruct (Hpeer x) as [Hn Hs Hg].
      destruct (open_does (P x) (p x) user password k v (Ok tt) Hn Hs Hg Hu Hpw M3) as [_ A].
      destruct (j_outcome (p_judge (P x)) 0); destruct A as [Er A]; try discriminate;
        (assert (Es : w_srv v = bare (after_login (p x))) by apply A); rewrite Es; reflexivity.
  - intros c w w' b (K & Hi & Hp) Hin E. destruct (Hvalid c w w' b Hin E) as (M1 & M2 & M3). destruct (K c Hin) as [l Hs]. split; [|auto].
    split; [exact (proj1 (PrepFacts.t_valid _ _ _ _ T c w w' b K Hin E))|]. rewrite M1. split; [exact Hi|]. intros x Hx.
    rewrite (B CValidate _ c w w' l I M1 M2 Hs (or_intror M3)). now apply Hp.
  - intros c w w' r (K & Hi & Hp) Hin E. destruct (Hclose c w w' r Hin E) as (M1 & M2 & M3). destruct (K c Hin) as [l Hs]. split; [|auto].
    split; [exact (proj1 (PrepFacts.t_close _ _ _ _ T c w w' r K Hin E))|]. rewrite M1. split; [exact Hi|]. intros x Hx.
    rewrite (B CClose (back r) c w w' l I M1 M2 Hs); [now apply Hp|]. destruct r; auto.
  - intros c w w' r (K & Hi & Hp) Hin E. destruct (Hidle c w w' r Hin E) as (M1 & M2 & M3). destruct (K c Hin) as [l Hs]. split; [|auto].
    split; [exact (proj1 (PrepFacts.t_idle _ _ _ _ T c w w' r K Hin E))|]. rewrite M1. split; [exact Hi|]. intros x Hx.
    rewrite (B CMakeIdle (back r) c w w' l I M1 M2 Hs); [now apply Hp|]. destruct r; auto.
Qed.
Lemma pool_adds_nothing l d w e d' w' r : shared N use max w0 l d w ->
  match e with DriverPool.EvReclaim (Some c) => In c (SpecDriver.held l) | _ => True end ->
  DriverPool.do_event N e d w = (d', w', r) ->
  (forall x, In x (made w) -> perm w' x = perm w x) /\ forall x, In x (made w') -> ~ In x (made w) -> perm w' x = [].
Proof.
  intros H Hf E.
  destruct (ShareFacts.shared_inv N made use max w0 kept (ShareFacts.fresh_cell cell) HF (ShareFacts.sessions_tend N made p P user password cell HS)) with (3 := H)
    as (tr & I & F).
  - intros x wa wb K Hin U. now apply use_keeps.
  - intros x Hx. rewrite H0 in Hx. destruct Hx.
  - destruct (ShareFacts.watch_event N e d w tr) as [tr' E']. rewrite E in E'. cbn [fst snd] in E'.
    pose proof (ShareFacts.tends_watched N made _ _ (pool_tends w)) as T.
    assert (F0 : PrepFacts.fit (fun x => (fun w1 => kept w1 /\ incl (made w) (made w1) /\ forall x, In x (made w1) -> perm w1 x = if in_dec Nat.eq_dec x (made w) then perm w x else []) (fst x))
      (fun _ _ => True) (DriverPool.d_pool d) (w, tr)).
    { split; [|auto]. split; [apply F|]. split; [apply incl_refl|]. intros x Hx. now destruct (in_dec Nat.eq_dec x (made w)). }
    destruct (PrepFacts.event_fit N made max HF _ _ [] (PrepFacts.tends_all _ _ _ _ T) e d (w, tr) _ _ _ d' (w', tr') r (incl_nil_l _) I Hf F0 E') as [[(_ & Hi & Hp) _] _]. cbn [fst] in *.
    split.
    + intros x Hx. rewrite (Hp x (Hi x Hx)). now destruct (in_dec Nat.eq_dec x (made w)).
    + intros x Hx Hn. rewrite (Hp x Hx). now destruct (in_dec Nat.eq_dec x (made w)).
Qed.

(** The pool leaves alone what it lent. *)
Lemma left_alone (base : W) c : PrepFacts.tends_but N made [c] (fun w => kept w /\ In c (made w) /\ cell w c = cell base c) (fun _ _ => True).
Proof.
  pose proof (ShareFacts.sessions_tend N made p P user password cell HS) as T. destruct HS as [Hpeer [Hu Hpw] Hmake Hvalid Hclose Hidle].
  constructor.
  - intros w w' r (K & Hi & Hc) E. destruct (Hmake w w' r E) as (M1 & M2 & M3). split; [|auto].
    split; [exact (proj1 (PrepFacts.t_make _ _ _ _ T w w' r K E))|].
    split; [pose proof (SpecDriver.fn_make _ _ HF w c Hi) as X; now rewrite E in X|]. now rewrite (M2 c Hi).
  - intros x w w' b (K & Hi & Hc) Hin E. destruct (Hvalid x w w' b Hin E) as (M1 & M2 & M3). destruct (K x Hin) as [l Hs]. split; [|auto].
    split; [exact (proj1 (PrepFacts.t_valid _ _ _ _ T x w w' b K Hin E))|]. rewrite M1. split; [exact Hi|]. rewrite <- Hc.
    destruct (Nat.eq_dec c x) as [<-|Hne]; [|now rewrite (M2 c Hne)].
    destruct (cell w c) as [k v]. destruct (cell w' c) as [k' v'].
    destruct (validate_same _ _ _ _ _ _ _ _ _ _ (session_polite _ _ _ _ _ _ Hs) M3) as [X _]. now injection X as -> ->.
  - intros x w w' r (K & Hi & Hc) Hin Hne E. destruct (Hclose x w w' r Hin E) as (M1 & M2 & _). split; [|auto].
    split; [exact (proj1 (PrepFacts.t_close _ _ _ _ T x w w' r K Hin E))|]. rewrite M1. split; [exact Hi|]. rewrite <- Hc. apply M2.
    intros <-. apply Hne. now left.
  - intros x w w' r (K & Hi & Hc) Hin Hne E. destruct (Hidle x w w' r Hin E) as (M1 & M2 & _). split; [|auto].
    split; [exact (proj1 (PrepFacts.t_idle _ _ _ _ T x w w' r K Hin E))|]. rewrite M1. split; [exact Hi|]. rewrite <- Hc. apply M2.
    intros <-. apply Hne. now left.
Qed.
Lemma shared_kept l d w : shared N use max w0 l d w ->
  exists tr, DriverHistory.dinv made max d (w, tr) (SpecDriver.held l) (SpecDriver.refused l) (SpecDriver.waiting l) /\ kept w.
Proof.
  intros H.
  destruct (ShareFacts.shared_inv N made use max w0 kept (ShareFacts.fresh_cell cell) HF (ShareFacts.sessions_tend N made p P user password cell HS)) with (3 := H)
    as (tr & I & F).
  - intros x wa wb K Hin U. now apply use_keeps.
  - intros x Hx. rewrite H0 in Hx. destruct Hx.
  - exists tr. split; [exact I|apply F].
Qed.
Lemma held_made l d w c : shared N use max w0 l d w -> In c (SpecDriver.held l) -> In c (made w).
Proof.
  intros H Hc. destruct (shared_kept _ _ _ H) as (tr & I & _). assert (V := DriverHistory.v_inv _ _ _ _ _ _ _ I).
  destruct (DriverFacts.i_held _ _ _ _ _ _ _ V) as [_ B]. destruct (B c Hc) as (i & Li & Ki & Si & _).
  apply (DriverFacts.i_made _ _ _ _ _ _ _ V). apply DriverFacts.conn_nth. exists i. auto.
Qed.
Lemma held_alone l d w e d' w' r c : shared N use max w0 l d w -> In c (SpecDriver.held l) -> e <> DriverPool.EvReclaim (Some c) ->
  match e with DriverPool.EvReclaim (Some x) => In x (SpecDriver.held l) | _ => True end ->
  DriverPool.do_event N e d w = (d', w', r) -> cell w' c = cell w c.
Proof.
  intros H Hc He Hf E. pose proof (held_made _ _ _ _ H Hc) as Hm. destruct (shared_kept _ _ _ H) as (tr & I & K).
  destruct (ShareFacts.watch_event N e d w tr) as [tr' E']. rewrite E in E'. cbn [fst snd] in E'.
  assert (T : PrepFacts.tends_but (SpecDriver.watch_net N) (fun x => made (fst x)) [c] (fun x => (fun w1 => kept w1 /\ In c (made w1) /\ cell w1 c = cell w c) (fst x)) (fun _ _ => True)).
  { pose proof (left_alone w c) as A. constructor.
    - intros [wa ta] w1 r1 Hg. cbn. destruct (DriverPool.n_make N wa) as [w2 r2] eqn:X. intros [= <- <-]. exact (PrepFacts.b_make _ _ _ _ _ A _ _ _ Hg X).
    - intros x [wa ta] w1 r1 Hg Hi. cbn. destruct (DriverPool.n_valid N x wa) as [w2 r2] eqn:X. intros [= <- <-]. exact (PrepFacts.b_valid _ _ _ _ _ A _ _ _ _ Hg Hi X).
    - intros x [wa ta] w1 r1 Hg Hi Hn. cbn. destruct (DriverPool.n_close N x wa) as [w2 r2] eqn:X. intros [= <- <-]. exact (PrepFacts.b_close _ _ _ _ _ A _ _ _ _ Hg Hi Hn X).
    - intros x [wa ta] w1 r1 Hg Hi Hn. cbn. destruct (DriverPool.n_idle N x wa) as [w2 r2] eqn:X. intros [= <- <-]. exact (PrepFacts.b_idle _ _ _ _ _ A _ _ _ _ Hg Hi Hn X). }
  assert (Hi : incl [c] (match e with DriverPool.EvReclaim (Some x) => SpecDriver.drop x (SpecDriver.held l) | _ => SpecDriver.held l end)).
  { intros x [<-|[]]. destruct e as [| |[x|]|]; try exact Hc. unfold SpecDriver.drop. apply filter_In. split; [exact Hc|].
    apply negb_true_iff, Nat.eqb_neq. congruence. }
  destruct (PrepFacts.event_fit N made max HF _ _ [c] T e d (w, tr) _ _ _ d' (w', tr') r Hi I Hf) as [[(_ & _ & X) _] _]; [|exact E'|exact X].
  split; [|auto]. cbn [fst]. auto.
Qed.

(** ** C127 *)
Notation tenured := (tenure N made P cell).
Lemma held_snoc l x : SpecDriver.held (l ++ [x]) = SpecDriver.held_after x (SpecDriver.held l).
Proof. unfold SpecDriver.held. now rewrite fold_left_app. Qed.
Lemma held_stays e r h c : In c h -> e <> DriverPool.EvReclaim (Some c) -> In c (SpecDriver.held_after (e, r) h).
Proof.
  intros Hc He. destruct e as [| |[x|]|]; cbn [SpecDriver.held_after]; try (destruct r; auto; now right).
  unfold SpecDriver.drop. apply filter_In. split; [exact Hc|]. apply negb_true_iff, Nat.eqb_neq. congruence.
Qed.
Lemma tenure_history c l1 d1 w1 own l2 d2 w2 : shared N use max w0 l1 d1 w1 -> In c (SpecDriver.held l1) ->
  tenured c (l1, d1, w1) own (l2, d2, w2) ->
  shared N use max w0 l2 d2 w2 /\ In c (SpecDriver.held l2) /\ history (wired (P c)) polite (cell w1 c) own (cell w2 c).
Proof.
  intros H Hc T. remember (l2, d2, w2) as s eqn:Es. revert l2 d2 w2 Es.
  induction T as [|own l d w e r d' w' T IH He Hf E|own l d w x w' T IH Hx Hn U|own l d w o r w' T IH Hm Hd Hp Ho]; intros l2 d2 w2 Es; injection Es as <- <- <-.
  - split; [exact H|]. split; [exact Hc|constructor].
  - destruct (IH _ _ _ eq_refl) as (A & B & C). split; [eapply sh_event; eassumption|]. split; [rewrite held_snoc; now apply held_stays|].
    now rewrite (held_alone _ _ _ _ _ _ _ _ A B He Hf E).
  - destruct (IH _ _ _ eq_refl) as (A & B & C). split; [exact (sh_use _ _ _ _ _ _ _ _ _ A Hx U)|]. split; [exact B|].
    destruct U as (_ & U & _). now rewrite (U c ltac:(congruence)).
  - destruct (IH _ _ _ eq_refl) as (A & B & C). split; [|split; [exact B|eapply hist_snoc; eassumption]].
    eapply sh_use; [exact A|exact B|]. split; [exact Hm|]. split; [exact Hd|]. eauto.
Qed.
Lemma history_weaken {St} (M : net St) (C D : conn -> call -> Prop) w l w' : (forall c o, C c o -> D c o) -> history M C w l w' -> history M D w l w'.
Proof. intros HX. induction 1; [constructor|econstructor; eauto]. Qed.

(** From the event that lent the connection. *)
Lemma holder_keeps l d w e d1 w1 c own l2 d2 w2 : shared N use max w0 l d w ->
  match e with DriverPool.EvReclaim (Some x) => In x (SpecDriver.held l) | _ => True end ->
  DriverPool.do_event N e d w = (d1, w1, DriverPool.DLent c) ->
  tenured c (l ++ [(e, DriverPool.DLent c)], d1, w1) own (l2, d2, w2) ->
  history (wired (P c)) polite (cell w1 c) own (cell w2 c)
  /\ (all_disciplined (p c) own -> exists new, perm w2 c = perm w1 c ++ new
      /\ Forall2 (fun x st => is_stmt (codec (p c)) (fst x) (snd x) st) (lg_perm (ledger_of own)) new).
Proof.
  intros H Hf E T. assert (H1 : shared N use max w0 (l ++ [(e, DriverPool.DLent c)]) d1 w1) by (eapply sh_event; eassumption).
  assert (Hc : In c (SpecDriver.held (l ++ [(e, DriverPool.DLent c)]))).
  { rewrite held_snoc. destruct e as [| |[x|]|]; cbn [SpecDriver.held_after]; try now left.
    exfalso. cbn [DriverPool.do_event DriverPool.pool_reclaim] in E. destruct (DriverPool.return_object _ _ _ _ _) as [[? ?] [?|?| |]] in E; discriminate. }
  destruct (tenure_history _ _ _ _ _ _ _ _ H1 Hc T) as (_ & _ & Hh). split; [exact Hh|]. intros Hd.
  destruct (lent_session _ _ _ _ _ _ _ H Hf E) as ((lc & Hs) & _ & Hr & _). unfold permanent.
  destruct (cell w1 c) as [k v]. destruct (cell w2 c) as [k' v']. cbn [snd].
  apply (kept_rested (p c) (P c) user password lc k v own k' v'); [exact (session_polite _ _ _ _ _ _ Hs)|exact Hr| |exact Hd].
  apply (history_weaken _ polite clean_call); [|exact Hh]. now intros ? ? [X _].
Qed.
End Pool.
