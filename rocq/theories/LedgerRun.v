(** What becomes of the connections a routing pool opens while goroutines use it: the whole (C143). *)
From Coq Require Import String ZArith List Bool Lia ZifyBool Permutation.
From Verif Require Import Bytes GoVal GoErr Decoder Messages GoStr Routing Pool SpecPool SpecManners SpecBooks SpecThrong BytesFacts RoutingFacts PoolFacts LendFacts WatchPoolFacts MannersFacts.
From Verif Require Import Concurrency ConcurFacts PoolRace RaceFacts SpecCrew SpecLeave SpecLedger CrewFacts LedgerFacts LedgerStep.
From Verif Require BooksFacts ThrongFacts LeaveFacts SteadyFacts.
Import ListNotations.
Open Scope Z_scope.

Lemma nodup_ids (l : list wrapper) (iss : list (bytes * nat)) : NoDup (map pw_conn l) -> (forall c, In c l -> In (pw_id c, pw_conn c) iss) -> NoDup (map fst iss) -> NoDup (map pw_id l).
Proof.
  intros Nc Hi Ni. induction l as [|c l IH]; cbn; constructor; inversion Nc as [|? ? N1 N2]; subst.
  - intros H. apply in_map_iff in H. destruct H as (d & E & H). apply N1. apply in_map_iff. exists d. split; [|exact H].
    apply (NoDup_map_fst iss (pw_id c)); [exact Ni|rewrite <- E; apply Hi; now right|apply Hi; now left].
  - apply IH; [exact N2|]. intros d H. apply Hi. now right.
Qed.

Section Run.
Context {W : Type}.
Variable K : cluster W.
Variables (opened : W -> list nat) (named : W -> list bytes).
Hypothesis Fr : fresh K opened named.
Notation in_order := (in_order named).

Lemma ledger_run lost is : forall x x', gschedule (watch K) is x = Some x' -> in_order lost x -> in_order lost x'.
Proof.
  induction is as [|i is IH]; intros x x'; cbn [gschedule]; [now intros [= <-]|].
  destruct (gsys_step (watch K) i x) as [x1|] eqn:E; [|discriminate]. intros E' L. eapply IH; [exact E'|]. eapply ledger_step; eauto.
Qed.
(** Every connection is written off, lost before, idle or borrowed. *)
Definition balanced (lost : list nat) (p : pool) (tr : list kevent) : Prop := forall h, made tr h -> written_off tr h \/ In h lost \/ In h (map pw_conn (pooled p)).
Definition sound (p : pool) (w : W) : Prop := NoDup (map pw_id (pooled p)) /\ (forall c, In c (pooled p) -> known_id named w c) /\ (forall k c, In (k, c) (p_borrowed p) -> k = pw_id c) /\ p_marked p = [] /\ p_lookup p = [].
Lemma pooled_all p c : In c (pooled p) -> In c (all_conns p).
Proof. unfold pooled, all_conns. rewrite !in_app_iff. tauto. Qed.
Lemma sound_inv iss before lt p (x : W * list kevent) : inv (fun x => opened (fst x)) (fun x => named (fst x)) iss before lt p x -> sound p (fst x).
Proof.
  intros I. split.
  - apply (nodup_ids _ iss); [|intros c H; apply (i_iss _ _ _ _ _ _ _ I); now apply pooled_all|exact (i_ids _ _ _ _ _ _ _ I)].
    apply (Permutation_NoDup (l := map pw_conn (all_conns p))); [|exact (i_conns _ _ _ _ _ _ _ I)]. apply Permutation_map. unfold all_conns, pooled. perm.
  - split; [|split; [exact (i_key _ _ _ _ _ _ _ I)|split; [exact (i_marks _ _ _ _ _ _ _ I)|exact (i_lookup _ _ _ _ _ _ _ I)]]].
    intros c H. exact (proj2 (i_known _ _ _ _ _ _ _ I _ _ (i_iss _ _ _ _ _ _ _ I c (pooled_all p c H)))).
Qed.
Lemma ledger_start lost p w tr ts : Forall shares ts -> sound p w -> balanced lost p tr -> in_order lost (mkG p (w, tr) (mkRW false 0) (map work ts)).
Proof.
  intros Hs (S1 & S2 & S3 & S4) Hb. destruct (locked_start (W := W * list kevent) p (w, tr) ts) as (tps & Et & F & L1). exists tps, (map (fun _ => at_rest) ts).
  assert (Free : map snd tps = map (fun _ => PFree) ts).
  { subst ts. clear - L1. destruct L1 as (A & B & _). cbn in A, B. unfold readers, writers in *. induction tps as [|[t ph] tps IH]; [reflexivity|]. cbn in A, B |- *. destruct ph; cbn in A, B; try lia. now rewrite IH. }
  assert (G : gripped (map (fun _ => at_rest) ts) = []) by (clear; induction ts; [reflexivity|exact IHts]).
  constructor; cbn [g_threads g_pool g_world fst snd]; rewrite ?G, ?app_nil_r; auto.
  - split; [exact F|exact L1].
  - rewrite map_map. cbn. now rewrite Free.
  - clear - Hs. induction Hs as [|t ts H Hs IH]; cbn; constructor; [now apply careful_tasks|exact IH].
  - apply Forall_forall. intros s H. apply in_map_iff in H. destruct H as (t & <- & _). constructor; cbn; auto; discriminate || congruence.
  - intros h H. destruct (Hb h H) as [X|[X|X]]; auto.
Qed.
Lemma ledger_end lost x : in_order lost x -> Forall over (g_threads x) -> balanced lost (g_pool x) (snd (g_world x)).
Proof.
  intros (tps & ss & [Ph Es Fs Fm Hi Hk Hy Ha Hm]) Fo h H.
  assert (E : Forall (fun s => free_hands s /\ d_seed s = None) ss).
  { clear - Fs Fo. induction Fs as [|s t ss ts Ht Fs IH]; [constructor|]. inversion Fo as [|? ? O Fo']; subst. constructor; [destruct t; try destruct O; exact Ht|auto]. }
  rewrite Forall_forall in E, Fm. destruct (Ha h H) as [X|[X|[X|X]]]; auto.
  - rewrite map_app, in_app_iff in X. destruct X as [X|X]; [auto|]. left. apply in_map_iff in X. destruct X as (c & <- & X). apply in_flat_map in X. destruct X as (s & Hs & X).
    unfold grips in X. destruct (d_hand s) as [c0|] eqn:Eh; [|destruct X]. destruct X as [->|[]]. destruct (E s Hs) as [[F|F] _]; [congruence|]. exact (t_gone _ _ _ (Fm s Hs) F c Eh).
  - apply in_flat_map in X. destruct X as (s & Hs & X). rewrite (proj2 (E s Hs)) in X. destruct X.
Qed.
Lemma balanced_task lost t p w tr p' w' tr' l' t' : shares t -> solo (watch K) (work t) p (w, tr) (mkRW false 0) = Some (p', (w', tr'), l', t') -> sound p w -> balanced lost p tr -> balanced lost p' tr'.
Proof.
  intros Hs E S1 B. destruct (LeaveFacts.solo_schedule _ _ _ _ _ _ _ _ _ E) as [O [is H]]. pose proof (ledger_start lost p w tr [t] (Forall_cons _ Hs (Forall_nil _)) S1 B) as L.
  apply (ledger_run _ _ _ _ H) in L. apply ledger_end in L; [exact L|]. constructor; [exact O|constructor].
Qed.
Lemma idle_pooled p h : In h (map pw_conn (pooled p)) <-> In h (idle p) \/ In h (lent_out p).
Proof. unfold pooled, idle, lent_out. rewrite !map_app, !in_app_iff, map_map. tauto. Qed.
Lemma wavered_rose tr h : wavered tr h -> rose tr h.
Proof. intros (a & b & s & -> & _). now exists a, [], b. Qed.
Lemma balanced_kept lost q tr p w' tr' : balanced lost q tr -> p_borrowed p = p_borrowed q -> ext tr tr' ->
  BooksFacts.kept (fun h => In h (lent_out q) \/ In h lost \/ written_off tr h) p (w' : W, tr') -> balanced lost p tr'.
Proof.
  intros B Eb X H h [s Hh]. assert (El : lent_out p = lent_out q) by (unfold lent_out; now rewrite Eb).
  destruct (H s h Hh) as [[Y|Y]|[Y|[Y|[Y|Y]]]].
  - left. now left.
  - left. right. now apply wavered_rose.
  - right. right. apply idle_pooled. now left.
  - right. right. apply idle_pooled. right. now rewrite El.
  - auto.
  - left. eapply off_ext; eauto.
Qed.
Lemma kept_balanced lost q w tr : balanced lost q tr -> BooksFacts.kept (fun h => In h (lent_out q) \/ In h lost \/ written_off tr h) q (w : W, tr).
Proof. intros B s h Hh. destruct (B h (ex_intro _ s Hh)) as [Y|[Y|Y]]; auto. apply idle_pooled in Y. tauto. Qed.
Lemma stop_borrowed p x p' x' r : stop_pool (watch K) p x = (p', x', r) -> p_borrowed p' = p_borrowed p.
Proof.
  unfold stop_pool, get, fail. destruct (p_running p); cbn [negb]; [|now intros [= <- _ _]]. unfold bind at 1, mbind at 1, upd at 1. unfold bind, mbind.
  destruct (drain (watch K) _ ReadMode _ x) as [[p2 x2] r2] eqn:Ed. pose proof (SteadyFacts.steady_drain (watch K) _ _ _ _ _ _ _ Ed ltac:(cbn; lia)) as (_ & _ & _ & _ & B1 & Q & _). cbn in B1, Q.
  intros E. destruct r2 as [[]|e| |]; try (injection E as <- _ _; exact B1). apply (SteadyFacts.steady_drain (watch K)) in E; [|cbn; rewrite Q; lia]. destruct E as (_ & _ & _ & _ & B2 & _). congruence.
Qed.
Theorem booked_balanced auth tls leader n q0 w0 l st q w tr : new_routing_pool leader n auth tls = Ok q0 -> booked K (any_use opened named) q0 w0 l st q w tr -> sound q w /\ balanced st q tr.
Proof.
  intros En B. assert (S0 : forall l st q w tr, booked K (any_use opened named) q0 w0 l st q w tr -> sound q w).
  { clear B. intros l' st' q' w' tr' B. destruct (courteous_lends K opened named Fr _ _ _ _ _ _ _ _ _ _ En (BooksFacts.booked_courteous K opened named _ _ _ _ _ _ _ B)) as [iss I]. exact (sound_inv _ _ _ _ _ I). }
  split; [exact (S0 _ _ _ _ _ B)|]. induction B as [|l st q w tr o q' w' tr' r B IH Ho E|l st q w tr h w' B IH Hh U]; [intros h [s []]| |exact IH].
  pose proof (S0 _ _ _ _ _ B) as Sq. pose proof (proj2 (proj2 (proj2 (proj2 Sq)))) as Hl. pose proof (pop_longer K _ _ _ _ _ _ E) as Lg. cbn [snd] in Lg.
  destruct o as [| |m|id h|]; cbn [do_pop] in E.
  - destruct (start_pool (watch K) q (w, tr)) as [[p1 x1] r1] eqn:Es. injection E as <- -> _.
    destruct (ThrongFacts.start_kept K _ _ _ _ _ _ Es Hl (kept_balanced _ _ w _ IH)) as (H1 & H2 & _). exact (balanced_kept _ _ _ _ _ _ IH H2 Lg H1).
  - destruct (stop_pool (watch K) q (w, tr)) as [[p1 x1] r1] eqn:Es. injection E as <- -> _. assert (IH' : balanced (idle q ++ st) q tr).
    { intros d Hd. destruct (IH d Hd) as [Y|[Y|Y]]; auto. right. left. apply in_or_app. now right. }
    destruct (p_running q) eqn:Er; [|unfold stop_pool, get, fail in Es; rewrite Er in Es; injection Es as <- <- <- _; exact IH'].
    destruct (ThrongFacts.stop_kept K _ _ _ _ _ _ Es Er (kept_balanced _ _ w _ IH')) as (H1 & _ & _).
    { intros h Hh. right. left. apply in_or_app. now left. }
    exact (balanced_kept _ _ _ _ _ _ IH' (stop_borrowed _ _ _ _ _ Es) Lg H1).
  - destruct (borrow (watch K) _ q (w, tr)) as [[p1 x1] r1] eqn:Es. injection E as <- -> _. unfold borrow, get in Es.
    match type of Es with internal_borrow _ ?f ?m _ _ = _ => pose proof (solo_borrow (watch K) f m q (w, tr) 0) as S1; rewrite Es in S1; exact (balanced_task st (TBorrow f m) _ _ _ _ _ _ _ _ Logic.I S1 Sq IH) end.
  - destruct (reclaim (watch K) id h q (w, tr)) as [[p1 x1] r1] eqn:Es. injection E as <- -> _. destruct (solo_reclaim (watch K) id h q (w, tr)) as [c S1]. rewrite Es in S1.
    exact (balanced_task st (TReclaim id h) _ _ _ _ _ _ _ _ Logic.I S1 Sq IH).
  - destruct (refresh_round (watch K) q (w, tr)) as [[p1 x1] r1] eqn:Es. injection E as <- -> _. pose proof (solo_round (watch K) q (w, tr)) as S1. rewrite Es in S1.
    exact (balanced_task st (TRound 1) _ _ _ _ _ _ _ _ Logic.I S1 Sq IH).
Qed.
Theorem ledger_balanced auth tls leader n q0 w0 l st q w tr ts is x h : new_routing_pool leader n auth tls = Ok q0 -> booked K (any_use opened named) q0 w0 l st q w tr ->
  Forall shares ts -> gschedule (watch K) is (mkG q (w, tr) (mkRW false 0) (map work ts)) = Some x -> Forall over (g_threads x) -> made (snd (g_world x)) h ->
  told_to_close (snd (g_world x)) h \/ In h (idle (g_pool x)) \/ In h (lent_out (g_pool x)) \/ rose (snd (g_world x)) h \/ In h st.
Proof.
  intros En B Hs E O H. destruct (booked_balanced _ _ _ _ _ _ _ _ _ _ _ En B) as [S1 S2]. pose proof (ledger_start st q w tr ts Hs S1 S2) as L. apply (ledger_run _ _ _ _ E) in L.
  apply ledger_end in L; [|exact O]. destruct (L h H) as [[X|X]|[X|X]]; auto. apply idle_pooled in X. tauto.
Qed.
(** What a goroutine has to account for. *)
Definition owes (s : desk) : list nat := (match d_doubt s with DGone => [] | _ => map pw_conn (grips s) end) ++ match d_seed s with Some h => [h] | None => [] end.
Lemma owes_one p tr s : true_desk p tr s -> (length (owes s) <= 1)%nat.
Proof.
  intros T. pose proof (t_seed _ _ _ T) as X. unfold owes, grips. destruct (d_seed s); [rewrite X by discriminate; destruct (d_doubt s); cbn; lia|]. rewrite app_nil_r. destruct (d_doubt s), (d_hand s); cbn; lia.
Qed.
Lemma ledger_adrift lost x L : in_order lost x -> NoDup L -> (forall h, In h L -> adrift (g_pool x) (snd (g_world x)) h /\ ~ In h lost) -> (length L <= length (filter busy (g_threads x)))%nat.
Proof.
  intros (tps & ss & [Ph Es Fs Fm Hi Hk Hy Ha Hm]) Nd HL.
  assert (I : incl L (flat_map owes ss)).
  { intros h H. destruct (HL h H) as [(M & N1 & N2 & N3 & N4) N5]. apply in_flat_map. destruct (Ha h M) as [[X|X]|[X|[X|X]]]; try contradiction.
    - rewrite map_app, in_app_iff in X. destruct X as [X|X]; [apply idle_pooled in X; tauto|]. apply in_map_iff in X. destruct X as (c & <- & X). apply in_flat_map in X. destruct X as (s & Hs & X).
      exists s. split; [exact Hs|]. unfold owes. apply in_or_app. left. assert (Eh : d_hand s = Some c) by (unfold grips in X; destruct (d_hand s); [destruct X as [->|[]]; reflexivity|destruct X]).
      assert (Y : d_doubt s <> DGone) by (intros D; rewrite Forall_forall in Fm; destruct (t_gone _ _ _ (Fm s Hs) D c Eh); contradiction).
      destruct (d_doubt s); [now apply in_map..|now elim Y].
    - apply in_flat_map in X. destruct X as (s & Hs & X). exists s. split; [exact Hs|]. unfold owes. apply in_or_app. now right. }
  apply (NoDup_incl_length Nd) in I. etransitivity; [exact I|]. clear - Fs Fm. revert Fm. generalize (g_threads x) Fs. clear Fs. intros ts Fs. induction Fs as [|s t ss ts Ht Fs IH]; intros Fm; [cbn; lia|].
  inversion Fm as [|? ? T Fm']; subst. cbn [flat_map filter]. rewrite app_length. specialize (IH Fm'). pose proof (owes_one _ _ _ T) as O.
  destruct (busy t) eqn:Eb; [cbn [length]; lia|]. assert (E : free_hands s /\ d_seed s = None) by (destruct t; try discriminate Eb; exact Ht). destruct E as [[F|F] Z].
  - assert (X : owes s = []) by (unfold owes, grips; rewrite F, Z; destruct (d_doubt s); reflexivity). rewrite X. exact IH.
  - assert (X : owes s = []) by (unfold owes; rewrite F, Z; reflexivity). rewrite X. exact IH.
Qed.
Theorem ledger_moment auth tls leader n q0 w0 l st q w tr ts is x L : new_routing_pool leader n auth tls = Ok q0 -> booked K (any_use opened named) q0 w0 l st q w tr ->
  Forall shares ts -> gschedule (watch K) is (mkG q (w, tr) (mkRW false 0) (map work ts)) = Some x -> NoDup L ->
  (forall h, In h L -> adrift (g_pool x) (snd (g_world x)) h /\ ~ In h st) -> (length L <= length (filter busy (g_threads x)))%nat.
Proof.
  intros En B Hs E Nd HL. destruct (booked_balanced _ _ _ _ _ _ _ _ _ _ _ En B) as [S1 S2]. pose proof (ledger_start st q w tr ts Hs S1 S2) as Lg. apply (ledger_run _ _ _ _ E) in Lg.
  exact (ledger_adrift _ _ _ Lg Nd HL).
Qed.
End Run.
