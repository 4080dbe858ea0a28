(** The holder of a connection of a routing pool. *)
From Coq Require Import String ZArith List Bool Lia.
From Verif Require Import Bytes GoVal GoErr SpecValues SpecCodec SpecServer Messages Connection Link Wire SpecSession SpecShare RestFacts SpecHolder SpecManners MannersFacts.
From Verif Require HolderFacts.
From Verif Require Import Pool.
From Verif Require SpecPool LendFacts WatchPoolFacts RouteShare TouchFacts.
Import SpecPool(kevent(..), watch, fresh, lent, lent_by).
Import ListNotations.
Open Scope Z_scope.

Section Care.
Context {W : Type}.
Variables (K : cluster W) (opened : W -> list nat) (named : W -> list bytes) (p : nat -> proto) (P : nat -> peer) (cell : W -> nat -> conn * wire).
Hypothesis Fr : fresh K opened named.
Hypothesis Cl : cluster_sessions K opened p P cell.
Hypothesis Ao : asks_overview K opened P cell.
Notation WT := (W * list kevent)%type.
Notation use := (holder_use opened named P cell).
Notation fit := (fun h w => no_loose_ends (fst (cell w h))).
Notation dialled := (@dialled W).
Notation proper := (proper opened p P cell).

(** ** A connection the pool does not deal with stays as it is *)
Definition spares (h : nat) (a b : WT) : Prop := exists new, snd b = new ++ snd a
  /\ (In h (opened (fst a)) -> In h (opened (fst b)) /\ ((forall e, In e new -> dealt e <> Some h) -> cell (fst b) h = cell (fst a) h)).
Lemma spares_trans h a b c : spares h a b -> spares h b c -> spares h a c.
Proof.
  intros (x & Ex & Hx) (y & Ey & Hy). exists (y ++ x). split; [now rewrite Ey, Ex, app_assoc|]. intros H.
  destruct (Hx H) as [H1 H2]. destruct (Hy H1) as [H3 H4]. split; [exact H3|]. intros Hn. rewrite H4, H2; [reflexivity| |].
  - intros e He. apply Hn, in_or_app. now right.
  - intros e He. apply Hn, in_or_app. now left.
Qed.
Lemma spares_one h d w w' tr e : opened w' = opened w -> (forall x, x <> d -> cell w' x = cell w x) -> dealt e = Some d -> spares h (w, tr) (w', e :: tr).
Proof.
  intros Eo Ec Ee. exists [e]. split; [reflexivity|]. cbn [fst]. rewrite Eo. intros H. split; [exact H|]. intros Hn. apply Ec. intros ->. exact (Hn e (or_introl eq_refl) Ee).
Qed.
Lemma spares_dial h s x : spares h x (fst (k_dial (watch K) s x)).
Proof.
  destruct x as [w tr]. cbn. destruct (k_dial K s w) as [w' r] eqn:E. exists [KDial s r]. split; [reflexivity|]. cbn [fst].
  pose proof (proj1 (SpecPool.f_dial _ _ _ Fr s w)) as I. rewrite E in I. intros H. split; [now apply I|]. intros _. exact (proj1 (cs_dial _ _ _ _ _ Cl _ _ _ _ E) h H).
Qed.
Lemma spares_query h d x : spares h x (fst (k_query (watch K) d x)).
Proof.
  destruct x as [w tr]. cbn. destruct (k_query K d w) as [w' [v r]] eqn:E. destruct (cs_query _ _ _ _ _ Cl _ _ _ _ _ E) as (H1 & H2 & _).
  exact (spares_one h d w w' tr (KQuery d v r) H1 H2 eq_refl).
Qed.
Lemma spares_pop h o q x q' x' r : do_pop (watch K) o q x = (q', x', r) -> spares h x x'.
Proof.
  apply (RouteShare.pop_R (watch K) (spares h)).
  - intros a. exists []. split; [reflexivity|]. auto.
  - intros a b c. apply spares_trans.
  - apply spares_dial.
  - intros d [w tr]. cbn. destruct (k_valid K d w) as [w' b] eqn:E. destruct (cs_valid _ _ _ _ _ Cl _ _ _ _ E) as (H1 & H2 & _).
    exact (spares_one h d w w' tr (KValid d b) H1 H2 eq_refl).
  - intros d [w tr]. cbn. destruct (k_close K d w) as [w' e] eqn:E. destruct (cs_close _ _ _ _ _ Cl _ _ _ _ E) as (H1 & H2 & _).
    exact (spares_one h d w w' tr (KClose d e) H1 H2 eq_refl).
  - intros [w tr]. cbn. pose proof (cs_name _ _ _ _ _ Cl w) as [H1 H2]. destruct (k_name K w) as [w' n]. cbn [fst] in *.
    exists []. split; [reflexivity|]. cbn [fst]. rewrite H1. auto.
  - intros s y y1 d E. apply spares_trans with (b := y1); [pose proof (spares_dial h s y) as X; now rewrite E in X|apply spares_query].
Qed.

(** ** Nothing the pool does is permanent *)
Definition adds_none (h : nat) (a b : WT) : Prop := proper a -> dialled a h -> dialled b h /\ permanent cell (fst b) h = permanent cell (fst a) h.
Lemma adds_pop h o q x q' x' r : do_pop (watch K) o q x = (q', x', r) -> adds_none h x x'.
Proof.
  set (R := fun a b : WT => proper a -> dialled a h -> proper b /\ dialled b h /\ permanent cell (fst b) h = permanent cell (fst a) h).
  intros E. enough (X : R x x') by (intros H1 H2; destruct (X H1 H2) as (_ & Y); exact Y). revert E.
  apply (RouteShare.pop_R (watch K) R); clear x x' q q' r.
  - intros a H1 H2. auto.
  - intros a b c Hab Hbc H1 H2. destruct (Hab H1 H2) as (A1 & A2 & A3). destruct (Hbc A1 A2) as (B1 & B2 & B3). split; [exact B1|]. split; [exact B2|]. congruence.
  - intros s x H1 H2. destruct (leaves_dial K opened named p P cell Fr Cl s x H1) as (L1 & _). split; [exact L1|].
    destruct x as [w tr]. cbn in *. destruct (k_dial K s w) as [w' r] eqn:E. cbn [fst] in *.
    split; [destruct H2 as [s' H2]; exists s'; now right|]. unfold permanent. now rewrite (proj1 (cs_dial _ _ _ _ _ Cl _ _ _ _ E) h (proj1 (H1 h H2))).
  - intros d x H1 H2. destruct (leaves_valid K opened p P cell Cl d x H1) as (L1 & _). split; [exact L1|].
    destruct x as [w tr]. cbn in *. destruct (k_valid K d w) as [w' b] eqn:E. cbn [fst] in *. split; [destruct H2 as [s' H2]; exists s'; now right|].
    destruct (cs_valid _ _ _ _ _ Cl _ _ _ _ E) as (_ & X1 & X2). unfold permanent. destruct (Nat.eq_dec h d) as [->|N]; [|now rewrite X1].
    destruct (H1 d H2) as (Hi & u & pw & l & Hl). specialize (X2 Hi). cbn [fst] in *. destruct (cell w d) as [c k], (cell w' d) as [c' k'].
    exact (HolderFacts.perm_pool _ _ _ _ _ _ _ CValidate _ _ _ (session_polite _ _ _ _ _ _ Hl) Logic.I X2).
  - intros d x H1 H2. destruct (leaves_close K opened p P cell Cl d x H1) as (L1 & _). split; [exact L1|].
    destruct x as [w tr]. cbn in *. destruct (k_close K d w) as [w' b] eqn:E. cbn [fst] in *. split; [destruct H2 as [s' H2]; exists s'; now right|].
    destruct (cs_close _ _ _ _ _ Cl _ _ _ _ E) as (_ & X1 & X2). unfold permanent. destruct (Nat.eq_dec h d) as [->|N]; [|now rewrite X1].
    destruct (H1 d H2) as (Hi & u & pw & l & Hl). destruct (X2 Hi) as [->|(r & X & _)]; [reflexivity|]. cbn [fst] in *. destruct (cell w d) as [c k], (cell w' d) as [c' k'].
    exact (HolderFacts.perm_pool _ _ _ _ _ _ _ CClose _ _ _ (session_polite _ _ _ _ _ _ Hl) Logic.I X).
  - intros x H1 H2. destruct (leaves_name K opened p P cell Cl x H1) as (L1 & _). split; [exact L1|].
    destruct x as [w tr]. cbn in *. pose proof (proj2 (cs_name _ _ _ _ _ Cl w) h) as X. destruct (k_name K w) as [w' n]. cbn [fst] in *. split; [exact H2|]. unfold permanent. now rewrite X.
  - intros s x x1 d E H1 H2. destruct (leaves_ask K opened named p P cell Fr Cl Ao s x x1 d E H1) as (L1 & _). split; [exact L1|].
    destruct x as [w tr]. cbn in *. destruct (k_dial K s w) as [w' r] eqn:Ed. injection E as <- ->. cbn in *.
    destruct (k_query K d w') as [w2 [v r]] eqn:Eq. cbn [fst] in *. split; [destruct H2 as [s' H2]; exists s'; right; now right|].
    destruct (H1 h H2) as (Hi & _). cbn [fst] in Hi. unfold permanent.
    rewrite (proj1 (proj2 (cs_query _ _ _ _ _ Cl _ _ _ _ _ Eq))); [now rewrite (proj1 (cs_dial _ _ _ _ _ Cl _ _ _ _ Ed) h Hi)|].
    intros ->. exact (proj1 (SpecPool.f_new _ _ _ Fr _ _ _ _ Ed) Hi).
Qed.

(** ** The holder *)
Variables (auth tls leader : bytes) (n : Z) (q0 : pool) (w0 : W).
Hypothesis En : new_routing_pool leader n auth tls = Ok q0.
Notation mannerly := (courteous K use fit q0 w0).
Lemma still_lent l o r h : In h (lent l) -> match o with OReclaim _ d => d <> h | _ => True end -> In h (lent (l ++ [(o, r)])).
Proof.
  intros H Ho. rewrite lent_more. destruct o as [| |m|i d|]; cbn; try exact H; destruct r; auto; [now right|]. apply LendFacts.without_in. auto.
Qed.
Lemma care_history h l1 q1 w1 tr1 own l2 q2 w2 tr2 : mannerly l1 q1 w1 tr1 -> In h (lent l1) ->
  in_care K opened named P cell h (l1, q1, w1, tr1) own (l2, q2, w2, tr2) ->
  mannerly l2 q2 w2 tr2 /\ In h (lent l2) /\ history (wired (P h)) polite (cell w1 h) own (cell w2 h).
Proof.
  intros H Hh T. remember (l2, q2, w2, tr2) as s eqn:Es. revert l2 q2 w2 tr2 Es.
  induction T as [|own l q w tr o q' w' tr' r T IH Ho E|own l q w tr d w' T IH Hd Hn U|own l q w tr o r w' T IH Hm Hnm Hc Hp Hx];
    intros l2 q2 w2 tr2 Es; injection Es as <- <- <- <-.
  - split; [exact H|]. split; [exact Hh|constructor].
  - destruct (IH _ _ _ _ eq_refl) as (A & B & C). split; [eapply co_op; [exact A| |exact E]; destruct o; try exact Logic.I; apply Ho|].
    split; [apply still_lent; [exact B|destruct o; try exact Logic.I; apply Ho]|].
    pose proof (courteous_manners K opened named p P cell Fr Cl Ao auth tls _ _ _ _ _ _ _ _ En A) as I. destruct (im_lend _ _ _ _ _ _ _ _ _ _ I) as [iss Il].
    destruct (spares_pop h _ _ _ _ _ _ E) as (new & En' & X). cbn [fst snd] in *. subst tr'.
    destruct X as [_ X]; [exact (proj1 (LendFacts.i_lent _ _ _ _ _ _ _ Il h B))|]. rewrite X; [exact C|]. intros e He.
    refine (proj1 (lent_alone K opened named Fr _ _ _ _ _ _ _ _ _ _ _ Il B _ E e He)). destruct o; try exact Logic.I. split; apply Ho.
  - destruct (IH _ _ _ _ eq_refl) as (A & B & C). split; [exact (co_use _ _ _ _ _ _ _ _ _ _ _ A Hd U)|]. split; [exact B|].
    destruct U as (_ & _ & U & _). now rewrite (U h ltac:(congruence)).
  - destruct (IH _ _ _ _ eq_refl) as (A & B & C). split; [|split; [exact B|eapply hist_snoc; eassumption]].
    eapply co_use; [exact A|exact B|]. split; [exact Hnm|]. split; [exact Hm|]. split; [exact Hc|]. eauto.
Qed.
Theorem holder_keeps l q w tr m q1 w1 tr1 id h own l2 q2 w2 tr2 : mannerly l q w tr ->
  do_pop (watch K) (OBorrow m) q (w, tr) = (q1, (w1, tr1), RLent id h) ->
  in_care K opened named P cell h (l ++ [(OBorrow m, RLent id h)], q1, w1, tr1) own (l2, q2, w2, tr2) ->
  history (wired (P h)) polite (cell w1 h) own (cell w2 h)
  /\ (all_disciplined (p h) own -> exists new, permanent cell w2 h = permanent cell w1 h ++ new
      /\ Forall2 (fun x st => is_stmt (codec (p h)) (fst x) (snd x) st) (lg_perm (ledger_of own)) new).
Proof.
  intros H E T. assert (H1 : mannerly (l ++ [(OBorrow m, RLent id h)]) q1 w1 tr1) by (eapply co_op; [exact H|exact Logic.I|exact E]).
  assert (Hh : In h (lent (l ++ [(OBorrow m, RLent id h)]))) by (rewrite lent_more; now left).
  destruct (care_history _ _ _ _ _ _ _ _ _ _ H1 Hh T) as (_ & _ & C). split; [exact C|]. intros Hd.
  destruct (lends_rested K opened named p P cell Fr Cl Ao auth tls _ _ _ _ _ _ _ _ _ _ _ _ _ _ En H E) as (_ & _ & Hr).
  pose proof (courteous_manners K opened named p P cell Fr Cl Ao auth tls _ _ _ _ _ _ _ _ En H1) as I.
  destruct (im_proper _ _ _ _ _ _ _ _ _ _ I h (im_dialled _ _ _ _ _ _ _ _ _ _ I h Hh)) as (_ & u & pw & ll & Hl). cbn [fst] in Hl.
  unfold permanent. destruct (cell w1 h) as [k v]. destruct (cell w2 h) as [k' v']. cbn [snd].
  apply (HolderFacts.kept_rested (p h) (P h) u pw ll k v own k' v'); [exact (session_polite _ _ _ _ _ _ Hl)|exact Hr| |exact Hd].
  apply (HolderFacts.history_weaken _ polite clean_call); [|exact C]. now intros ? ? [X _].
Qed.
(** Connections the pool has opened. *)
Theorem pool_adds_nothing l q w tr o q' w' tr' r h : mannerly l q w tr -> do_pop (watch K) o q (w, tr) = (q', (w', tr'), r) ->
  (exists s, In (KDial s (Ok h)) tr) -> permanent cell w' h = permanent cell w h.
Proof.
  intros H E Hd. pose proof (courteous_manners K opened named p P cell Fr Cl Ao auth tls _ _ _ _ _ _ _ _ En H) as I.
  exact (proj2 (adds_pop h _ _ _ _ _ _ E (im_proper _ _ _ _ _ _ _ _ _ _ I) Hd)).
Qed.
End Care.
