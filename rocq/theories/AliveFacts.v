(** In a session ValidateOpen does not contradict itself. *)
From Coq Require Import String ZArith List Bool Lia.
From Verif Require Import Bytes GoVal GoErr SpecValues SpecCodec SpecServer Messages Connection Link CallFacts Wire WireFacts SpecSession ServeFacts OpenFacts SpecShare RestFacts SpecManners MannersFacts SpecBooks.
From Verif Require BooksFacts.
From Verif Require Import Pool.
From Verif Require SpecPool LendFacts WatchPoolFacts RouteShare.
Import SpecPool(kevent(..), watch, fresh, lent, lent_by, idle).
Import ListNotations.
Open Scope Z_scope.

(** ** A connection found closed stays closed *)
Definition dead (P : peer) (x : conn * wire) : Prop := c_closed (fst x) = true \/ p_looks P = true /\ s_mode (w_srv (snd x)) = Gone.
Lemma dead_stays p P user password l x o x' r : session polite p P user password l x -> polite (fst x) o -> does (wired P) o x x' r -> dead P x -> dead P x'.
Proof.
  destruct x as [c w], x' as [c' w']. intros Hs [Hcl _] Hd H. destruct (session_tied _ _ _ _ _ _ _ Hs) as (s & L & _ & HP & _).
  destruct (wire_does P (codec p) HP o c w s c' w' r L Hcl Hd) as (s' & E & L').
  assert (Es : w_srv w = bare s) by apply L. assert (Es' : w_srv w' = bare s') by apply L'. unfold dead in *. cbn [fst snd] in *. rewrite Es in H. rewrite Es'.
  change (c_closed c = true \/ p_looks P = true /\ s_mode s = Gone) in H. change (c_closed c' = true \/ p_looks P = true /\ s_mode s' = Gone).
  assert (Q : forall q ps db t, s_mode s = Gone -> fst (a_query (p_judge P) c s q ps db t) = s).
  { intros q ps db t Hg. unfold a_query. destruct (_ && _); [reflexivity|]. destruct (c_closed c); [reflexivity|]. destruct (snd _); [reflexivity|]. now rewrite Hg. }
  assert (F : forall k t, s_mode s = Gone -> fst (a_end (p_judge P) k c s t) = (c, s)).
  { intros k t Hg. unfold a_end. destruct (tx_closed c t); [reflexivity|]. now rewrite Hg. }
  assert (G : forall k t, c_closed (fst (fst (a_end (p_judge P) k c s t))) = c_closed c).
  { intros k t. unfold a_end. destruct (tx_closed c t); [reflexivity|]. destruct (s_mode s); try reflexivity. cbv zeta. destruct (control_error _ _ _ _); reflexivity. }
  destruct o; cbn [astep] in E; unfold on_query in E.
  - injection E as <- <- _. destruct H as [H|[H1 H2]]; [now left|right]. now rewrite Q.
  - injection E as <- <- _. destruct H as [H|[H1 H2]]; [now left|right]. now rewrite Q.
  - unfold a_begin in E. destruct (c_transaction c); [injection E as <- <- _; exact H|]. destruct (c_closed c) eqn:Ec; [injection E as <- <- _; left; exact Ec|].
    destruct (snd _); [injection E as <- <- _; rewrite Ec; exact H|]. destruct H as [H|[H1 H2]]; [discriminate|]. rewrite H2 in E. injection E as <- <- _. auto.
  - injection E as <- <- _. destruct H as [H|[H1 H2]]; [now left|right]. now rewrite Q.
  - injection E as <- <- _. destruct H as [H|[H1 H2]]; [now left|right]. now rewrite Q.
  - injection E as <- <- _. destruct H as [H|[H1 H2]]; [now left|right]. now rewrite Q.
  - specialize (F KCommit t). specialize (G KCommit t). destruct (a_end _ _ _ _ _) as [[c1 s1] r1]. injection E as <- <- _. cbn [fst] in *.
    destruct H as [H|[H1 H2]]; [left; congruence|right]. specialize (F H2). injection F as _ ->. auto.
  - specialize (F KRollback t). specialize (G KRollback t). destruct (a_end _ _ _ _ _) as [[c1 s1] r1]. injection E as <- <- _. cbn [fst] in *.
    destruct H as [H|[H1 H2]]; [left; congruence|right]. specialize (F H2). injection F as _ ->. auto.
  - unfold a_close, a_idle in E. destruct (c_closed c) eqn:Ec; [injection E as <- <- _; now left|]. destruct H as [H|[H1 H2]]; [discriminate|].
    destruct (c_transaction c) as [t|]; [|injection E as <- <- _; now left]. specialize (F KRollback t H2). destruct (a_end _ _ _ _ _) as [[c1 s1] r1]. cbn [fst] in F. injection F as -> ->.
    destruct r1; injection E as <- <- _; [now left|auto..].
  - unfold a_idle in E. destruct (c_transaction c) as [t|]; [|injection E as <- <- _; exact H].
    specialize (F KRollback t). specialize (G KRollback t). destruct (a_end _ _ _ _ _) as [[c1 s1] r1]. injection E as <- <- _. cbn [fst] in *.
    destruct H as [H|[H1 H2]]; [left; congruence|right]. specialize (F H2). injection F as _ ->. auto.
  - injection E as <- <- _. exact H.
  - injection E as <- <- _. exact H.
Qed.
Lemma valid_dead p P user password l x x' b : session polite p P user password l x -> does (wired P) CValidate x x' (Ok (ABool b)) -> x' = x /\ (b = false <-> dead P x).
Proof.
  destruct x as [c w], x' as [c' w']. intros Hs Hd. destruct (session_tied _ _ _ _ _ _ _ Hs) as (s & L & _ & HP & _).
  split; [exact (proj1 (validate_same _ _ _ _ _ _ _ _ _ _ (session_polite _ _ _ _ _ _ Hs) Hd))|].
  destruct (wire_does P (codec p) HP CValidate c w s c' w' _ L Logic.I Hd) as (s' & E & L'). assert (Es : w_srv w = bare s) by apply L.
  unfold dead. cbn [fst snd]. rewrite Es. change (b = false <-> c_closed c = true \/ p_looks P = true /\ s_mode s = Gone).
  cbn [astep] in E. injection E as _ _ <-. destruct (c_closed c), (p_looks P), (s_mode s); cbn; intuition discriminate.
Qed.

Section Alive.
Context {W : Type}.
Variables (K : cluster W) (opened : W -> list nat) (named : W -> list bytes) (p : nat -> proto) (P : nat -> peer) (cell : W -> nat -> conn * wire).
Hypothesis Fr : fresh K opened named.
Hypothesis Cl : cluster_sessions K opened p P cell.
Hypothesis Ao : asks_overview K opened P cell.
Notation WT := (W * list kevent)%type.
Notation dialled := (@dialled W).
Notation proper := (proper opened p P cell).
(** Looked at since it was dialled, and found closed. *)
Definition found_closed (tr : list kevent) (h : nat) : Prop :=
  exists later before s, tr = later ++ KDial s (Ok h) :: before /\ In (KValid h false) later.
Record sincere (x : WT) : Prop := mkSincere {
  sc_dead h : found_closed (snd x) h -> dead (P h) (cell (fst x) h);
  sc_never h : ~ wavered (snd x) h
}.
Lemma found_dialled (x : WT) h : found_closed (snd x) h -> dialled x h.
Proof. intros (a & b & s & E & _). exists s. rewrite E. apply in_or_app. right. now left. Qed.
Lemma found_more e tr h : found_closed (e :: tr) h -> found_closed tr h \/ e = KValid h false.
Proof.
  intros (a & b & s & E & H). destruct a as [|e' a]; [easy|]. cbn in E. injection E as <- ->. destruct H as [H|H]; [now right|left]. now exists a, b, s.
Qed.
Lemma wavered_more e tr h : wavered (e :: tr) h -> wavered tr h \/ e = KValid h true /\ found_closed tr h.
Proof.
  intros (a & b & s & E & H). destruct a as [|e' a]; cbn in E.
  - injection E as -> ->. right. split; [reflexivity|]. apply in_split in H. destruct H as (b1 & b2 & ->).
    exists (KValid h false :: b1), b2, s. split; [reflexivity|now left].
  - injection E as <- ->. left. now exists a, b, s.
Qed.
(** An event that is not a look, and what it leaves of the dead. *)
Lemma sincere_event w tr w' e : sincere (w, tr) -> (forall h b, e <> KValid h b) -> (forall h, dialled (w, tr) h -> dead (P h) (cell w h) -> dead (P h) (cell w' h)) ->
  sincere (w', e :: tr).
Proof.
  intros [H1 H2] He Hd. constructor; cbn [fst snd] in *.
  - intros h X. destruct (found_more _ _ _ X) as [Y|Y]; [|now elim (He h false)]. apply Hd; [exact (found_dialled (w, tr) h Y)|auto].
  - intros h X. destruct (wavered_more _ _ _ X) as [Y|[Y _]]; [exact (H2 h Y)|now elim (He h true)].
Qed.
Definition candid (a b : WT) : Prop := proper a -> sincere a -> proper b /\ sincere b.
Lemma candid_dial s x : candid x (fst (k_dial (watch K) s x)).
Proof.
  intros Hp Hs. split; [exact (proj1 (leaves_dial K opened named p P cell Fr Cl s x Hp))|]. destruct x as [w tr]. cbn. destruct (k_dial K s w) as [w' r] eqn:E.
  apply (sincere_event w tr); [exact Hs|discriminate|]. intros h Hd. now rewrite (proj1 (cs_dial _ _ _ _ _ Cl _ _ _ _ E) h (proj1 (Hp h Hd))).
Qed.
Lemma candid_pop o q x q' x' r : do_pop (watch K) o q x = (q', x', r) -> candid x x'.
Proof.
  apply (RouteShare.pop_R (watch K) candid); clear x x' q q' r.
  - intros a H1 H2. auto.
  - intros a b c Hab Hbc H1 H2. destruct (Hab H1 H2). auto.
  - exact candid_dial.
  - intros h x Hp Hs. split; [exact (proj1 (leaves_valid K opened p P cell Cl h x Hp))|]. destruct x as [w tr]. cbn. destruct (k_valid K h w) as [w' b] eqn:E.
    destruct (cs_valid _ _ _ _ _ Cl _ _ _ _ E) as (_ & H2 & H3). destruct Hs as [S1 S2]. cbn [fst snd] in *.
    assert (V : dialled (w, tr) h -> cell w' h = cell w h /\ (b = false <-> dead (P h) (cell w h))).
    { intros Hd. destruct (Hp h Hd) as (Hi & u & pw & l & Hl). exact (valid_dead _ _ _ _ _ _ _ _ Hl (H3 Hi)). }
    constructor; cbn [fst snd].
    + intros d X. destruct (Nat.eq_dec d h) as [->|N].
      * assert (Hd : dialled (w, tr) h).
        { destruct (found_dialled (w', KValid h b :: tr) h X) as [s [Y|Y]]; [discriminate Y|now exists s]. }
        destruct (V Hd) as [-> V2]. destruct (found_more _ _ _ X) as [Y|Y]; [auto|]. apply V2. congruence.
      * rewrite H2 by exact N. apply S1. destruct (found_more _ _ _ X) as [Y|Y]; [exact Y|congruence].
    + intros d X. destruct (wavered_more _ _ _ X) as [Y|[Y Z]]; [exact (S2 d Y)|]. injection Y as -> ->.
      destruct (V (found_dialled (w, tr) d Z)) as [_ V2]. apply S1 in Z. apply V2 in Z. discriminate.
  - intros h x Hp Hs. split; [exact (proj1 (leaves_close K opened p P cell Cl h x Hp))|]. destruct x as [w tr]. cbn. destruct (k_close K h w) as [w' e] eqn:E.
    destruct (cs_close _ _ _ _ _ Cl _ _ _ _ E) as (_ & H2 & H3). apply (sincere_event w tr); [exact Hs|discriminate|]. intros d Hd Hx.
    destruct (Nat.eq_dec d h) as [->|N]; [|now rewrite H2]. destruct (Hp h Hd) as (Hi & u & pw & l & Hl). destruct (H3 Hi) as [->|(r & X & _)]; [exact Hx|].
    refine (dead_stays _ _ _ _ _ _ CClose _ _ Hl _ X Hx). split; exact Logic.I.
  - intros x Hp Hs. split; [exact (proj1 (leaves_name K opened p P cell Cl x Hp))|]. destruct x as [w tr]. cbn. pose proof (proj2 (cs_name _ _ _ _ _ Cl w)) as H.
    destruct (k_name K w) as [w' n]. destruct Hs as [S1 S2]. constructor; cbn [fst snd] in *; [|exact S2]. intros h X. rewrite H. now apply S1.
  - intros s x x1 h E Hp Hs. split; [exact (proj1 (leaves_ask K opened named p P cell Fr Cl Ao s x x1 h E Hp))|].
    pose proof (candid_dial s x Hp Hs) as [Hp1 Hs1]. rewrite E in Hp1, Hs1. cbn [fst] in Hp1, Hs1. destruct x as [w tr]. cbn in E. destruct (k_dial K s w) as [w1 r1] eqn:Ed. injection E as <- ->.
    cbn. destruct (k_query K h w1) as [w2 [v r]] eqn:Eq. destruct Hs1 as [S1 S2]. cbn [fst snd] in *.
    destruct (cs_query _ _ _ _ _ Cl _ _ _ _ _ Eq) as (_ & H2 & _). constructor; cbn [fst snd].
    + intros d X. destruct (found_more _ _ _ X) as [Y|Y]; [|discriminate Y]. destruct (Nat.eq_dec d h) as [->|N]; [|rewrite H2 by exact N; auto].
      exfalso. destruct (found_more _ _ _ Y) as [Z|Z]; [|discriminate Z]. exact (proj1 (SpecPool.f_new _ _ _ Fr _ _ _ _ Ed) (proj1 (Hp h (found_dialled (w, tr) h Z)))).
    + intros d X. destruct (wavered_more _ _ _ X) as [Y|[Y _]]; [exact (S2 d Y)|discriminate Y].
Qed.
Lemma booked_any q0 w0 l st q w tr : booked K (holder_use opened named P cell) q0 w0 l st q w tr -> booked K (any_use opened named) q0 w0 l st q w tr.
Proof.
  induction 1 as [|l st q w tr o q' w' tr' r B IH Ho E|l st q w tr h w' B IH Hh (U1 & U2 & _)]; [constructor|exact (bk_op _ _ _ _ _ _ _ _ _ _ _ _ _ _ IH Ho E)|].
  eapply bk_use; [exact IH|exact Hh|]. split; assumption.
Qed.
Lemma booked_sincere q0 w0 l st q w tr : booked K (holder_use opened named P cell) q0 w0 l st q w tr -> proper (w, tr) /\ sincere (w, tr).
Proof.
  induction 1 as [|l st q w tr o q' w' tr' r B [H1 H2] Ho E|l st q w tr h w' B [H1 H2] Hh (U1 & U2 & U3 & o & r & Hc & Hd)].
  - split; [intros h [s []]|]. constructor; intros h; cbn.
    + intros (a & b & s & E & _). destruct a; discriminate E.
    + intros (a & b & s & E & _). destruct a; discriminate E.
  - exact (candid_pop _ _ _ _ _ _ E H1 H2).
  - split.
    + intros d Hdd. destruct (H1 d Hdd) as (Hi & u & pw & ll & Hl). cbn [fst] in *. rewrite U2. split; [exact Hi|].
      destruct (Nat.eq_dec d h) as [->|N]; [|rewrite U3 by exact N; eauto]. exists u, pw, (ll ++ [(o, r)]). exact (session_more _ _ _ _ _ _ _ _ _ _ Hl Hc Hd).
    + destruct H2 as [S1 S2]. constructor; cbn [fst snd] in *; [|exact S2]. intros d X. destruct (Nat.eq_dec d h) as [->|N]; [|rewrite U3 by exact N; auto].
      destruct (H1 h (found_dialled (w, tr) h X)) as (_ & u & pw & ll & Hl). exact (dead_stays _ _ _ _ _ _ _ _ _ Hl Hc Hd (S1 h X)).
Qed.
Theorem accounted_sessions auth tls leader n q0 w0 l st q w tr s h : new_routing_pool leader n auth tls = Ok q0 ->
  booked K (holder_use opened named P cell) q0 w0 l st q w tr -> In (KDial s (Ok h)) tr ->
  told_to_close tr h \/ In h (idle q) \/ In h (lent l) \/ In h st.
Proof.
  intros En B Hd. destruct (booked_sincere _ _ _ _ _ _ _ B) as [_ [_ S]].
  destruct (BooksFacts.accounted K opened named Fr auth tls leader n q0 w0 l st q w tr En (booked_any _ _ _ _ _ _ _ B) s h Hd) as [[X|X]|[X|[X|X]]]; auto. now elim (S h).
Qed.
End Alive.
Lemma courteous_booked {W} (K : cluster W) use fit q0 w0 l q w tr : courteous K use fit q0 w0 l q w tr -> ~ In OStop (map fst l) -> booked K use q0 w0 l [] q w tr.
Proof.
  induction 1 as [|l q w tr o q' w' tr' r B IH Ho E|l q w tr h w' B IH Hh U]; intros N; [constructor| |exact (bk_use _ _ _ _ _ _ _ _ _ _ _ (IH N) Hh U)].
  rewrite map_app, in_app_iff in N. cbn in N. assert (B' := IH (fun X => N (or_introl X))).
  assert (X := bk_op K use q0 w0 l [] q w tr o q' w' tr' r B'). destruct o; try (exact (X Logic.I E)); try (elim N; auto; fail).
  apply X; [|exact E]. destruct Ho as (H1 & H2 & _). auto.
Qed.
