(** What becomes of the connections a routing pool opens while goroutines use it: the steps (C143). *)
From Coq Require Import String ZArith List Bool Lia ZifyBool Permutation.
From Verif Require Import Bytes GoVal GoErr Decoder Messages GoStr Routing Pool SpecPool SpecBooks SpecThrong BytesFacts RoutingFacts PoolFacts LendFacts Concurrency ConcurFacts PoolRace RaceFacts SpecCrew SpecLeave SpecLedger CrewFacts LedgerFacts.
Import ListNotations.
Open Scope Z_scope.

Ltac turn := match goal with |- Permutation _ (?b ++ ?r) => rewrite (Permutation_app_comm b r); rewrite <- ?app_assoc end.
Ltac perm := rewrite ?app_nil_r; rewrite <- ?app_assoc; do 60 (try first [reflexivity|apply Permutation_app_head|turn]).

Lemma nodup_left {T} (a b : list T) : NoDup (a ++ b) -> NoDup a.
Proof. induction a as [|x a IH]; cbn; intros H; constructor; inversion H; subst; auto. intros X. apply H2. apply in_or_app. now left. Qed.
Lemma nodup_right {T} (a b : list T) : NoDup (a ++ b) -> NoDup b.
Proof. induction a as [|x a IH]; cbn; intros H; [exact H|]. inversion H; subst; auto. Qed.
Lemma nodup_apart {T} (a b : list T) x : NoDup (a ++ b) -> In x a -> In x b -> False.
Proof. induction a as [|y a IH]; cbn; intros H Ha Hb; [exact Ha|]. inversion H; subst. destruct Ha as [->|Ha]; [|auto]. apply H2. apply in_or_app. now right. Qed.

Section Ledger.
Context {W : Type}.
Variable K : cluster W.
Variables (opened : W -> list nat) (named : W -> list bytes).
Hypothesis Fr : fresh K opened named.
Variable lost : list nat.
Notation sys := (gsys (W := W * list kevent)).
Definition ext (tr tr' : list kevent) : Prop := exists e, tr' = e ++ tr.
Lemma ext_refl tr : ext tr tr.
Proof. now exists []. Qed.
Lemma ext_cons e tr : ext tr (e :: tr).
Proof. now exists [e]. Qed.
Lemma ext_in e tr tr' : ext tr tr' -> In e tr -> In e tr'.
Proof. intros [l ->] H. apply in_or_app. now right. Qed.
Definition written_off (tr : list kevent) (h : nat) : Prop := told_to_close tr h \/ rose tr h.
Lemma off_ext tr tr' h : ext tr tr' -> written_off tr h -> written_off tr' h.
Proof. intros X [[e H]|(a & b & c & ->)]; [left; exists e; exact (ext_in _ _ _ X H)|right]. destruct X as [l ->]. exists (l ++ a), b, c. now rewrite <- app_assoc. Qed.
Definition made (tr : list kevent) (h : nat) : Prop := exists s, In (KDial s (Ok h)) tr.
(** What a goroutine knows is so. *)
Record true_desk (p : pool) (tr : list kevent) (s : desk) : Prop := mkTrue {
  t_free : d_ph s <> PWrite -> d_r s = None /\ d_w s = None /\ d_key s = None;
  t_r : forall q, d_r s = Some q -> p_rq p = q;
  t_w : forall q, d_w s = Some q -> p_wq p = q;
  t_key : forall id c, d_key s = Some (id, c) -> map_get (p_borrowed p) id = Some c;
  t_closed : d_doubt s = DClosed -> forall c, d_hand s = Some c -> In (KValid (pw_conn c) false) tr;
  t_gone : d_doubt s = DGone -> forall c, d_hand s = Some c -> written_off tr (pw_conn c);
  t_seed : d_seed s <> None -> d_hand s = None
}.
Definition gripped (ss : list desk) : list wrapper := flat_map grips ss.
Definition asked (ss : list desk) : list nat := flat_map (fun s => match d_seed s with Some h => [h] | None => [] end) ss.
Definition pooled (p : pool) : list wrapper := p_rq p ++ p_wq p ++ map snd (p_borrowed p).
Definition known_id (w : W) (c : wrapper) : Prop := exists m n, pw_id c = make_conn_id m n /\ In n (named w).
Record ledger (tps : list (task * phase)) (ss : list desk) (x : sys) : Prop := mkLedger {
  l_phased : phased tps x;
  l_phases : map d_ph ss = map snd tps;
  l_careful : Forall2 careful ss (g_threads x);
  l_true : Forall (true_desk (g_pool x) (snd (g_world x))) ss;
  l_ids : NoDup (map pw_id (pooled (g_pool x) ++ gripped ss));
  l_known : forall c, In c (pooled (g_pool x) ++ gripped ss) -> known_id (fst (g_world x)) c;
  l_keys : forall k c, In (k, c) (p_borrowed (g_pool x)) -> k = pw_id c;
  l_all : forall h, made (snd (g_world x)) h -> written_off (snd (g_world x)) h \/ In h lost \/ In h (map pw_conn (pooled (g_pool x) ++ gripped ss)) \/ In h (asked ss);
  l_marks : p_marked (g_pool x) = [] /\ p_lookup (g_pool x) = []
}.
Definition in_order (x : sys) : Prop := exists tps ss, ledger tps ss x.

Lemma flat_put {T} (f : desk -> list T) ss : forall i s s', nth_error ss i = Some s -> Permutation (f s' ++ flat_map f ss) (f s ++ flat_map f (put_nth i s' ss)).
Proof.
  induction ss as [|x ss IH]; intros [|i] s s'; cbn [nth_error]; try discriminate.
  - intros [= ->]. cbn. rewrite !app_assoc. apply Permutation_app_tail, Permutation_app_comm.
  - intros H. cbn [put_nth flat_map]. specialize (IH i s s' H). rewrite (Permutation_app_comm (f x)), app_assoc, IH, <- app_assoc. apply Permutation_app_head, Permutation_app_comm.
Qed.
Lemma pooled_queue mode q p : Permutation (pooled (set_queue mode q p) ++ queue_of mode p) (pooled p ++ q).
Proof. unfold pooled, set_queue, queue_of. destruct (mode =? WriteMode); cbn; perm. Qed.

Lemma ledger_step i x x' : gsys_step (watch K) i x = Some x' -> in_order x -> in_order x'.
Proof.
  intros E (tps & ss & [Ph Es Fs Fm Hi Hk Hy Ha [Hm Hlk]]).
  destruct (phased_step (watch K) tps i x x' E Ph) as (t & t0 & ph & ph' & Et & Ep & Ph' & Sh).
  unfold gsys_step in E. rewrite Et in E. destruct (Forall2_at _ _ _ _ _ Fs Et) as (s & Hs & Ht).
  assert (Hph : d_ph s = ph).
  { assert (X : nth_error (map d_ph ss) i = Some (d_ph s)) by now rewrite nth_error_map, Hs. rewrite Es, nth_error_map, Ep in X. cbn in X. congruence. }
  assert (Tj : forall j s1, nth_error ss j = Some s1 -> true_desk (g_pool x) (snd (g_world x)) s1) by (intros j s1 H; apply (proj1 (Forall_forall _ _) Fm); eapply nth_error_In; eauto).
  pose proof (Tj _ _ Hs) as Ti.
  assert (Other : ph <> PFree -> forall j s1, j <> i -> nth_error ss j = Some s1 -> d_ph s1 <> PWrite).
  { intros Np j s1 N' Hj. assert (X : nth_error (map d_ph ss) j = Some (d_ph s1)) by now rewrite nth_error_map, Hj. rewrite Es, nth_error_map in X.
    destruct (nth_error tps j) as [[t1 ph1]|] eqn:Ej; [|discriminate]. cbn in X. injection X as <-. exact (alone tps x i j t0 ph t1 ph1 Ph Ep Ej N' Np). }
  assert (Move : forall p w l t' s' new gone, x' = mkG p w l (put_nth i t' (g_threads x)) -> careful s' t' -> d_ph s' = ph' -> ext (snd (g_world x)) (snd w) -> incl (named (fst (g_world x))) (named (fst w)) ->
    true_desk p (snd w) s' -> (forall j s1, j <> i -> nth_error ss j = Some s1 -> true_desk p (snd w) s1) ->
    Permutation ((pooled p ++ grips s') ++ gone) ((pooled (g_pool x) ++ grips s) ++ new) -> (forall c, In c gone -> written_off (snd w) (pw_conn c)) ->
    (new = [] \/ exists c m n, new = [c] /\ pw_id c = make_conn_id m n /\ ~ In n (named (fst (g_world x))) /\ In n (named (fst w))) ->
    (forall k c, In (k, c) (p_borrowed p) -> k = pw_id c) ->
    (forall h, made (snd w) h -> made (snd (g_world x)) h \/ In h (map pw_conn new) \/ d_seed s' = Some h) ->
    (forall h, d_seed s = Some h -> written_off (snd w) h \/ d_seed s' = Some h) -> p_marked p = [] /\ p_lookup p = [] -> in_order x').
  { intros p w l t' s' new gone Ex Hc Hp' Hw Hn Ht' Ho Hpm Hg Hnew Hy' Hd Hsd Hmk. exists (put_nth i (t0, ph') tps), (put_nth i s' ss).
    pose proof (flat_put grips ss i s s' Hs) as P1. pose proof (flat_put (fun s => match d_seed s with Some h => [h] | None => [] end) ss i s s' Hs) as P2.
    fold (gripped ss) in P1. fold (gripped (put_nth i s' ss)) in P1. set (G' := gripped (put_nth i s' ss)) in *. set (G := gripped ss) in *.
    assert (P : Permutation ((pooled p ++ G') ++ gone) ((pooled (g_pool x) ++ G) ++ new)).
    { apply (Permutation_app_inv_r (grips s)). transitivity ((((pooled p ++ grips s') ++ gone)) ++ G).
      - transitivity ((pooled p ++ gone) ++ (grips s ++ G')); [perm|]. rewrite <- P1. perm.
      - rewrite Hpm. perm. }
    assert (S2 : forall h, In h (asked ss) -> d_seed s = Some h \/ In h (asked (put_nth i s' ss))).
    { intros h H. assert (X : In h ((match d_seed s with Some h => [h] | None => [] end) ++ asked (put_nth i s' ss))) by (unfold asked; rewrite <- P2; apply in_or_app; now right).
      apply in_app_or in X. destruct X as [X|X]; [left|now right]. destruct (d_seed s); [destruct X as [->|[]]; reflexivity|destruct X]. }
    assert (S1 : forall h, d_seed s' = Some h -> In h (asked (put_nth i s' ss))).
    { intros h H. unfold asked. apply in_flat_map. exists s'. split; [exact (nth_error_In _ i (nth_put_same i s' s ss Hs))|]. rewrite H. now left. }
    assert (Kn : forall c, In c ((pooled (g_pool x) ++ G) ++ new) -> known_id (fst w) c).
    { intros c H. apply in_app_or in H. destruct H as [H|H].
      - destruct (Hk c H) as (m & n & A1 & A2). exists m, n. auto.
      - destruct Hnew as [->|(c0 & m & n & -> & A1 & A2 & A3)]; [destruct H|]. destruct H as [<-|[]]. exists m, n. auto. }
    assert (Nd : NoDup (map pw_id ((pooled (g_pool x) ++ G) ++ new))).
    { destruct Hnew as [->|(c0 & m & n & -> & A1 & A2 & A3)]; [rewrite app_nil_r; exact Hi|]. apply (Permutation_NoDup (l := pw_id c0 :: map pw_id (pooled (g_pool x) ++ G))).
      - rewrite (map_app pw_id (pooled (g_pool x) ++ G)). apply Permutation_cons_append.
      - constructor; [|exact Hi]. intros H. apply in_map_iff in H. destruct H as (c & Hc' & H). destruct (Hk c H) as (m' & n' & B1 & B2).
        rewrite Hc', A1 in B1. apply conn_id_name in B1. subst n'. contradiction. }
    assert (C : forall c, In c ((pooled (g_pool x) ++ G) ++ new) -> written_off (snd w) (pw_conn c) \/ In (pw_conn c) (map pw_conn (pooled p ++ G'))).
    { intros c H. apply (Permutation_in _ (Permutation_sym P)) in H. apply in_app_or in H. destruct H as [H|H]; [right; now apply in_map|left; auto]. }
    subst x'. constructor; cbn [g_threads g_pool g_world].
    - exact Ph'.
    - rewrite !map_put, Es. cbn. now rewrite Hp'.
    - now apply Forall2_put.
    - now apply Forall_put.
    - apply (Permutation_NoDup (Permutation_map pw_id (Permutation_sym P))) in Nd. rewrite map_app in Nd. exact (nodup_left _ _ Nd).
    - intros c H. apply Kn. apply (Permutation_in _ P). apply in_or_app. now left.
    - exact Hy'.
    - intros h H. apply Hd in H. destruct H as [H|[H|H]].
      + apply Ha in H. destruct H as [H|[H|[H|H]]].
        * left. eapply off_ext; eauto.
        * auto.
        * apply in_map_iff in H. destruct H as (c & <- & H). destruct (C c) as [X|X]; [apply in_or_app; now left|auto..].
        * apply S2 in H. destruct H as [H|H]; [|auto]. apply Hsd in H. destruct H as [H|H]; [now left|]. apply S1 in H. auto.
      + apply in_map_iff in H. destruct H as (c & <- & H). destruct (C c) as [X|X]; [apply in_or_app; now right|auto..].
      + apply S1 in H. auto.
    - exact Hmk. }
  assert (Bare : forall p tr' s1, d_ph s1 <> PWrite -> ext (snd (g_world x)) tr' -> true_desk (g_pool x) (snd (g_world x)) s1 -> true_desk p tr' s1).
  { intros p tr' s1 N1 X [T1 _ _ _ T5 T6 T7]. destruct (T1 N1) as (R1 & R2 & R3). constructor; [auto|rewrite R1; discriminate|rewrite R2; discriminate|rewrite R3; discriminate| | |exact T7].
    - intros Y c Z. eapply ext_in; eauto.
    - intros Y c Z. eapply off_ext; eauto. }
  assert (Same : forall p tr', p_rq p = p_rq (g_pool x) -> p_wq p = p_wq (g_pool x) -> p_borrowed p = p_borrowed (g_pool x) -> ext (snd (g_world x)) tr' ->
    forall s1, true_desk (g_pool x) (snd (g_world x)) s1 -> true_desk p tr' s1).
  { intros p tr' E1 E2 E3 X s1 [T1 T2 T3 T4 T5 T6 T7]. constructor; rewrite ?E1, ?E2, ?E3; auto.
    - intros Y c Z. eapply ext_in; eauto.
    - intros Y c Z. eapply off_ext; eauto. }
  (* The pool keeps its connections. *)
  assert (Keep : forall p w l t' s' gone, x' = mkG p w l (put_nth i t' (g_threads x)) -> careful s' t' -> d_ph s' = ph' ->
    p_rq p = p_rq (g_pool x) -> p_wq p = p_wq (g_pool x) -> p_borrowed p = p_borrowed (g_pool x) -> p_marked p = [] /\ p_lookup p = [] -> ext (snd (g_world x)) (snd w) -> incl (named (fst (g_world x))) (named (fst w)) ->
    (forall h, made (snd w) h -> made (snd (g_world x)) h \/ d_seed s' = Some h) -> grips s = grips s' ++ gone -> (forall c, In c gone -> written_off (snd w) (pw_conn c)) ->
    (forall h, d_seed s = Some h -> written_off (snd w) h \/ d_seed s' = Some h) -> true_desk (g_pool x) (snd w) s' -> in_order x').
  { intros p w l t' s' gone Ex Hc Hp' E1 E2 E3 Hmk Hw Hn Hd Hg Hgo Hsd Htd. apply (Move p w l t' s' [] gone); auto.
    - destruct Htd as [T1 T2 T3 T4 T5 T6 T7]. constructor; rewrite ?E1, ?E2, ?E3; auto.
    - intros j s1 _ Hj. apply Same; eauto.
    - rewrite app_nil_r, Hg. unfold pooled. rewrite E1, E2, E3. perm.
    - rewrite E3. exact Hy.
    - intros h H. destruct (Hd h H); auto. }
  assert (Easy : forall p w l t', x' = mkG p w l (put_nth i t' (g_threads x)) -> careful s t' -> ph' = ph ->
    p_rq p = p_rq (g_pool x) -> p_wq p = p_wq (g_pool x) -> p_borrowed p = p_borrowed (g_pool x) -> p_marked p = [] /\ p_lookup p = [] -> ext (snd (g_world x)) (snd w) -> incl (named (fst (g_world x))) (named (fst w)) ->
    (forall h, made (snd w) h -> made (snd (g_world x)) h) -> in_order x').
  { intros p w l t' Ex Hc -> E1 E2 E3 Hmk Hw Hn Hd. apply (Keep p w l t' s []); auto; [now rewrite app_nil_r|intros c []]. }
  assert (Let : free_hands s -> forall tr', ext (snd (g_world x)) tr' -> forall c, In c (grips s) -> written_off tr' (pw_conn c)).
  { intros [H|H] tr' X c Hc; unfold grips in Hc; [rewrite H in Hc; destruct Hc|]. destruct (d_hand s) as [c0|] eqn:Eh; [|destruct Hc]. destruct Hc as [<-|[]]. eapply off_ext; [exact X|]. exact (t_gone _ _ _ Ti H _ Eh). }
  assert (Lock : forall l t' phx, x' = mkG (g_pool x) (g_world x) l (put_nth i t' (g_threads x)) -> free_hands s -> careful (blank phx s) t' -> ph' = phx -> in_order x').
  { intros l t' phx Ex Hf Hc Hp'. apply (Keep (g_pool x) (g_world x) l t' (blank phx s) (grips s)); auto using incl_refl, ext_refl.
    constructor; cbn; try discriminate; auto. }
  assert (Seen : forall e, (forall s1 h1, e <> KDial s1 (Ok h1)) -> forall h, made (e :: snd (g_world x)) h -> made (snd (g_world x)) h).
  { intros e He h [s1 [H|H]]; [destruct (He _ _ H)|exists s1; exact H]. }
  assert (Wrote : forall mode, d_ph s = PWrite -> true_desk (g_pool x) (snd (g_world x)) (note mode (Some (queue_of mode (g_pool x))) s)).
  { intros mode P. destruct Ti as [T1 T2 T3 T4 T5 T6 T7]. unfold note, queue_of. destruct (mode =? WriteMode); constructor; cbn; auto; congruence. }
  destruct t; cbn [gstep] in E; cbn [careful] in Ht; cbn [shifts] in Sh; try discriminate; try contradiction.
  all: try (injection E as <-; eapply Easy; [reflexivity|apply Ht|auto using incl_refl, ext_refl..]; fail).
  - destruct (rw_writer (g_lock x)); [discriminate|]. injection E as <-. destruct Ht, Sh. eapply Lock; eauto.
  - injection E as <-. destruct Ht, Sh. eapply Lock; eauto.
  - destruct (rw_writer (g_lock x)); [discriminate|]. destruct (rw_readers (g_lock x)); [|discriminate]. injection E as <-. destruct Ht, Sh. eapply Lock; eauto.
  - injection E as <-. destruct Ht, Sh. eapply Lock; eauto.
  - (* GSize *)
    destruct Ht as [P Ht]. injection E as <-. subst ph'. eapply (Keep _ _ _ _ (note mode (Some (queue_of mode (g_pool x))) s) []); [reflexivity|apply Ht|auto using incl_refl, ext_refl..].
    + intros q0 H. destruct Ti as [_ T2 T3 _ _ _ T7]. unfold noted, queue_of in *. destruct (mode =? WriteMode); auto.
    + unfold note. destruct (mode =? WriteMode); exact Hph.
    + unfold note, grips. destruct (mode =? WriteMode); cbn; now rewrite app_nil_r.
    + intros c [].
    + unfold note. intros h H. right. destruct (mode =? WriteMode); exact H.
  - (* GDequeue *)
    destruct Ht as (P & Hn0 & Hf & Ht). destruct (dequeue (queue_of mode (g_pool x))) as [o q] eqn:Eq. injection E as <-. subst ph'.
    assert (Q : queue_of mode (g_pool x) = grips (grip o s) ++ q) by (destruct (queue_of mode (g_pool x)); injection Eq as <- <-; reflexivity).
    assert (Np : ph <> PFree) by congruence.
    eapply (Move _ _ _ _ (grip o s) [] (grips s)); [reflexivity|apply Ht|exact Hph|apply ext_refl|apply incl_refl| | | | |now left| | | |].
    + destruct Ti as [T1 _ _ _ _ _ T7]. assert (Y : d_ph s <> PWrite) by congruence. destruct (T1 Y) as (R1 & R2 & R3). constructor; cbn; [auto|rewrite R1; discriminate|rewrite R2; discriminate|rewrite R3; discriminate|discriminate|discriminate|auto; congruence].
    + intros j s1 Nj Hj. apply Bare; [exact (Other Np j s1 Nj Hj)|apply ext_refl|eauto].
    + rewrite app_nil_r. apply (Permutation_app_inv_r q). transitivity ((pooled (set_queue mode q (g_pool x)) ++ queue_of mode (g_pool x)) ++ grips s); [rewrite Q; perm|]. rewrite pooled_queue. perm.
    + apply Let; [exact Hf|apply ext_refl].
    + rewrite borrowed_set. exact Hy.
    + auto.
    + auto.
    + unfold set_queue. destruct (mode =? WriteMode); cbn; auto.
  - (* GEnqueue *)
    destruct Ht as (P & Hh & Ht). injection E as <-. subst ph'. assert (Np : ph <> PFree) by congruence.
    eapply (Move _ _ _ _ (unread (grip None s)) [] []); [reflexivity|apply Ht|exact Hph|apply ext_refl|apply incl_refl| | | | |now left| | | |].
    + destruct Ti as [T1 _ _ T4 _ _ T7]. constructor; cbn; try discriminate; [intros Y; destruct (T1 Y) as (R1 & R2 & R3); auto| |reflexivity]. rewrite borrowed_set. exact T4.
    + intros j s1 Nj Hj. apply Bare; [exact (Other Np j s1 Nj Hj)|apply ext_refl|eauto].
    + unfold grips. rewrite Hh. cbn [unread grip d_hand]. rewrite !app_nil_r. apply (Permutation_app_inv_r (queue_of mode (g_pool x))). rewrite pooled_queue. unfold enqueue. perm.
    + intros c0 [].
    + rewrite borrowed_set. exact Hy.
    + auto.
    + auto.
    + unfold set_queue. destruct (mode =? WriteMode); cbn; auto.
  - (* GMarked *)
    injection E as <-. rewrite Hm in *. cbn [listed existsb]. eapply Easy; [reflexivity|apply Ht|auto using incl_refl, ext_refl..].
  - (* GValid *)
    cbn [watch k_valid] in E. pose proof (f_valid _ _ _ Fr h (fst (g_world x))) as [_ Fn]. destruct (k_valid K h (fst (g_world x))) as [w1 b] eqn:Ev. injection E as <-. subst ph'.
    eapply (Keep _ _ _ _ (heard h b s) []); [reflexivity|apply Ht|destruct (same_heard h b s) as (-> & _); exact Hph|reflexivity|reflexivity|reflexivity|split; assumption|..]; cbn [fst snd].
    + apply ext_cons.
    + exact Fn.
    + intros h0 H. left. revert h0 H. apply Seen. discriminate.
    + unfold grips. destruct (same_heard h b s) as (_ & _ & ->). now rewrite app_nil_r.
    + intros c [].
    + intros h0 H. right. destruct (same_heard h b s) as (_ & -> & _). exact H.
    + destruct Ti as [T1 T2 T3 T4 T5 T6 T7]. unfold heard. destruct (mine h s) eqn:Em.
      * unfold mine, grips in Em. destruct (d_hand s) as [c|] eqn:Eh; [|discriminate Em]. cbn in Em. rewrite orb_false_r in Em. apply Nat.eqb_eq in Em.
        constructor; cbn; auto; rewrite Eh; [| |exact T7]; intros D c' [= <-].
        -- destruct (d_doubt s) eqn:Ed, b; try discriminate D; [left; now rewrite Em|right; now apply T5].
        -- destruct (d_doubt s) eqn:Ed, b; try discriminate D; [|eapply off_ext; [apply ext_cons|now apply T6]..].
           right. rewrite Em in *. specialize (T5 eq_refl c eq_refl). rewrite Em in T5. apply in_split in T5. destruct T5 as (a & b0 & ->). now exists [], a, b0.
      * constructor; auto; intros D c Hc; [right; auto|eapply off_ext; [apply ext_cons|auto]].
  - (* GClose *)
    cbn [watch k_close] in E. pose proof (f_close _ _ _ Fr h (fst (g_world x))) as [_ Fn]. destruct (k_close K h (fst (g_world x))) as [w1 e] eqn:Ev. injection E as <-. subst ph'.
    eapply (Keep _ _ _ _ (ended_by h s) []); [reflexivity|apply Ht|destruct (same_ended h s) as (-> & _); exact Hph|reflexivity|reflexivity|reflexivity|split; assumption|..]; cbn [fst snd].
    + apply ext_cons.
    + exact Fn.
    + intros h0 H. left. revert h0 H. apply Seen. discriminate.
    + unfold grips. destruct (same_ended h s) as (_ & _ & ->). now rewrite app_nil_r.
    + intros c [].
    + intros h0 H. right. destruct (same_ended h s) as (_ & -> & _). exact H.
    + destruct Ti as [T1 T2 T3 T4 T5 T6 T7]. unfold ended_by. destruct (mine h s) eqn:Em.
      * unfold mine, grips in Em. destruct (d_hand s) as [c|] eqn:Eh; [|discriminate Em]. cbn in Em. rewrite orb_false_r in Em. apply Nat.eqb_eq in Em.
        constructor; cbn; auto; rewrite ?Eh; [discriminate| |exact T7]. intros _ c' [= <-]. left. exists e. left. now rewrite Em.
      * constructor; auto; intros D c Hc; [right; auto|eapply off_ext; [apply ext_cons|auto]].
  - (* GRead *)
    destruct Ht as (-> & P & Ht). injection E as <-. subst ph'. cbn [field_of].
    eapply (Keep _ _ _ _ (entry (option_map (pair id) (map_get (p_borrowed (g_pool x)) id)) s) []); [reflexivity|apply Ht|auto using incl_refl, ext_refl..].
    + unfold grips. cbn. now rewrite app_nil_r.
    + intros c [].
    + destruct Ti as [T1 T2 T3 T4 T5 T6 T7]. constructor; cbn; auto; [congruence|]. intros id' c'. destruct (map_get (p_borrowed (g_pool x)) id) eqn:Eg; [|discriminate]. cbn. intros [= <- <-]. exact Eg.
  - (* GWrite *)
    injection E as <-. subst ph'. destruct f; [eapply Easy; [reflexivity|exact Ht|auto using incl_refl, ext_refl..]|]. cbn [set_field field_of].
    assert (Kd : NoDup (map fst (p_borrowed (g_pool x)))).
    { assert (X : map fst (p_borrowed (g_pool x)) = map pw_id (map snd (p_borrowed (g_pool x)))).
      { rewrite map_map. apply map_ext_in. intros [k0 c0] H. exact (Hy _ _ H). }
      rewrite X. unfold pooled in Hi. rewrite !map_app in Hi. apply nodup_left in Hi. apply nodup_right in Hi. now apply nodup_right in Hi. }
    destruct Ht as [(c & -> & P & Hh & Ht)|(id & c & -> & P & Hk' & Hn0 & Hf & Ht)].
    + assert (Out : ~ In (pw_id c) (map fst (p_borrowed (g_pool x)))).
      { intros H. assert (Gc : In c (gripped ss)) by (unfold gripped; apply in_flat_map; exists s; split; [eapply nth_error_In; eauto|unfold grips; rewrite Hh; now left]).
        apply in_map_iff in H. destruct H as ([k0 c0] & Ek & H). cbn in Ek. subst k0. pose proof (Hy _ _ H) as Ei. rewrite map_app in Hi. apply (nodup_apart _ _ (pw_id c) Hi).
        - rewrite Ei. apply in_map. unfold pooled. apply in_or_app. right. apply in_or_app. right. exact (in_map snd _ _ H).
        - now apply in_map. }
      assert (Np : ph <> PFree) by congruence.
      eapply (Move _ _ _ _ (grip None s) [] []); [reflexivity|exact Ht|exact Hph|apply ext_refl|apply incl_refl| | | | |now left| | | |].
      * destruct Ti as [T1 _ _ _ _ _ T7]. assert (Y : d_ph s <> PWrite) by congruence. destruct (T1 Y) as (R1 & R2 & R3). constructor; cbn; [auto|rewrite R1; discriminate|rewrite R2; discriminate|rewrite R3; discriminate|discriminate|discriminate|auto; congruence].
      * intros j s1 Nj Hj. apply Bare; [exact (Other Np j s1 Nj Hj)|apply ext_refl|eauto].
      * rewrite !app_nil_r. unfold pooled, map_set. cbn [p_rq p_wq p_borrowed set_field field_of set_borrowed map snd]. rewrite (map_del_out _ _ Out). unfold grips. rewrite Hh. cbn [grip d_hand]. rewrite ?app_nil_r.
        change (c :: map snd (p_borrowed (g_pool x))) with ([c] ++ map snd (p_borrowed (g_pool x))). perm.
      * intros c0 [].
      * cbn [p_borrowed set_field field_of set_borrowed]. unfold map_set. intros k0 c0 [H|H]; [injection H as <- <-; reflexivity|]. apply map_del_in in H. exact (Hy _ _ (proj1 H)).
      * auto.
      * auto.
      * cbn. auto.
    + pose proof (t_key _ _ _ Ti _ _ Hk') as Hg. pose proof (map_del_perm id c _ Kd Hg) as Pd. apply (Permutation_map snd) in Pd. cbn in Pd.
      assert (Np : ph <> PFree) by congruence.
      eapply (Move _ _ _ _ (entry None (grip (Some c) s)) [] (grips s)); [reflexivity|exact Ht|exact Hph|apply ext_refl|apply incl_refl| | | | |now left| | | |].
      * destruct Ti as [_ T2 T3 _ _ _ T7]. constructor; cbn; [congruence|exact T2|exact T3|discriminate|discriminate|discriminate|congruence].
      * intros j s1 Nj Hj. apply Bare; [exact (Other Np j s1 Nj Hj)|apply ext_refl|eauto].
      * rewrite !app_nil_r. unfold pooled. cbn [p_rq p_wq p_borrowed set_field field_of set_borrowed]. rewrite Pd. change (grips (entry None (grip (Some c) s))) with [c].
        change (c :: map snd (map_del id (p_borrowed (g_pool x)))) with ([c] ++ map snd (map_del id (p_borrowed (g_pool x)))). perm.
      * apply Let; [exact Hf|apply ext_refl].
      * cbn [p_borrowed set_field field_of set_borrowed]. intros k0 c0 H. apply map_del_in in H. exact (Hy _ _ (proj1 H)).
      * auto.
      * auto.
      * cbn. auto.
  - (* GMake *)
    destruct Ht as (Hn0 & Hf & Ht & Hr). unfold make in E. cbn [watch k_dial k_name] in E. pose proof (f_dial _ _ _ Fr s0 (fst (g_world x))) as [_ Fn].
    destruct (k_dial K s0 (fst (g_world x))) as [w1 [hd|e| |]] eqn:Ed; cbn [fst snd] in *.
    + pose proof (f_name _ _ _ Fr w1) as [_ Fn2]. destruct (k_name K w1) as [w2 nm] eqn:En. injection E as <-. subst ph'. set (c := mkWrap hd (make_conn_id mode nm) s0 mode).
      destruct (f_unused _ _ _ Fr _ _ _ En) as [N1 N2].
      eapply (Move _ _ _ _ (grip (Some c) s) [c] (grips s)); [reflexivity|apply Ht|exact Hph|apply ext_cons|intros n Hn; apply Fn2, Fn, Hn| | | | | |exact Hy| | |auto]; cbn [fst snd].
      * destruct Ti as [T1 T2 T3 T4 _ _ T7]. constructor; cbn; auto; discriminate || congruence.
      * intros j s1 _ Hj. apply Same; eauto using ext_cons.
      * cbn [grip grips d_hand]. perm.
      * apply Let; [exact Hf|apply ext_cons].
      * right. exists c, mode, nm. split; [reflexivity|]. split; [reflexivity|]. split; [|exact N2]. intros Hn. apply N1, Fn, Hn.
      * intros h [s1 [H|H]]; [injection H as _ <-; right; left; now left|left; now exists s1].
      * auto.
    + injection E as <-. eapply Easy; [reflexivity|apply Hr; discriminate|auto..]; [apply ext_cons|apply Seen; discriminate].
    + injection E as <-. eapply Easy; [reflexivity|apply Hr; discriminate|auto..]; [apply ext_cons|apply Seen; discriminate].
    + injection E as <-. eapply Easy; [reflexivity|apply Hr; discriminate|auto..]; [apply ext_cons|apply Seen; discriminate].
  - (* GSeed *)
    destruct Ht as (Hn0 & Hf & Hok & Hr). cbn [watch k_dial] in E. pose proof (f_dial _ _ _ Fr (p_leader (g_pool x)) (fst (g_world x))) as [_ Fn].
    destruct (k_dial K _ (fst (g_world x))) as [w1 [hd|e| |]] eqn:Ed; cbn [fst snd] in *; injection E as <-.
    + subst ph'. eapply (Keep _ _ _ _ (asking (Some hd) s) (grips s)); [reflexivity|apply Hok|exact Hph|reflexivity|reflexivity|reflexivity|split; assumption|..]; cbn [fst snd].
      * apply ext_cons.
      * exact Fn.
      * intros h [s1 [H|H]]; [injection H as _ <-; now right|left; now exists s1].
      * reflexivity.
      * apply Let; [exact Hf|apply ext_cons].
      * rewrite Hn0. discriminate.
      * destruct Ti as [T1 T2 T3 T4 T5 T6 T7]. constructor; cbn; auto; discriminate.
    + eapply Easy; [reflexivity|apply Hr; discriminate|auto..]; [apply ext_cons|apply Seen; discriminate].
    + eapply Easy; [reflexivity|apply Hr; discriminate|auto..]; [apply ext_cons|apply Seen; discriminate].
    + eapply Easy; [reflexivity|apply Hr; discriminate|auto..]; [apply ext_cons|apply Seen; discriminate].
  - (* GOverview *)
    cbn [watch k_query] in E. pose proof (f_query _ _ _ Fr h (fst (g_world x))) as [_ Fn]. destruct (k_query K h (fst (g_world x))) as [w1 [v r]] eqn:Ev. cbn [fst snd] in *. injection E as <-.
    eapply Easy; [reflexivity|apply Ht|auto..]; [apply ext_cons|apply Seen; discriminate].
  - (* GQuit *)
    destruct Ht as [Hq Ht]. cbn [watch k_close] in E. pose proof (f_close _ _ _ Fr h (fst (g_world x))) as [_ Fn]. destruct (k_close K h (fst (g_world x))) as [w1 e] eqn:Ev. cbn [fst snd] in *. injection E as <-. subst ph'.
    eapply (Keep _ _ _ _ (asking None s) []); [reflexivity|apply Ht|exact Hph|reflexivity|reflexivity|reflexivity|split; assumption|..]; cbn [fst snd].
    + apply ext_cons.
    + exact Fn.
    + intros h0 H. left. revert h0 H. apply Seen. discriminate.
    + unfold grips. rewrite (t_seed _ _ _ Ti) by (rewrite Hq; discriminate). reflexivity.
    + intros c [].
    + intros h0 H. left. rewrite Hq in H. injection H as <-. left. exists e. now left.
    + destruct Ti as [T1 T2 T3 T4 T5 T6 T7]. constructor; cbn; auto; discriminate.
  - (* GMark *)
    injection E as <-. eapply Easy; [reflexivity|apply Ht|auto using incl_refl, ext_refl..]. unfold mark_all. cbn. rewrite Hlk, Hm. split; [|reflexivity]. rewrite app_nil_r. clear. induction dead; auto.
  - (* GSetStrings *)
    injection E as <-. eapply Easy; [reflexivity|apply Ht|exact Sh|unfold set_strings_for; destruct (mode =? WriteMode); cbn; auto using incl_refl, ext_refl..].
  - (* GItems *)
    destruct Ht as [P Ht]. injection E as <-. subst ph'. eapply (Keep _ _ _ _ (note mode (Some (queue_of mode (g_pool x))) s) []); [reflexivity|apply Ht|auto using incl_refl, ext_refl..].
    + intros q0 H. destruct Ti as [_ T2 T3 _ _ _ T7]. unfold noted, queue_of in *. destruct (mode =? WriteMode); auto.
    + unfold note. destruct (mode =? WriteMode); exact Hph.
    + unfold note, grips. destruct (mode =? WriteMode); cbn; now rewrite app_nil_r.
    + intros c [].
    + unfold note. intros h H. right. destruct (mode =? WriteMode); exact H.
  - (* GReplace *)
    destruct Ht as (P & Hq & Ht). injection E as <-.
    assert (X : set_queue mode q (g_pool x) = g_pool x).
    { destruct Ti as [_ T2 T3 _ _ _ T7]. unfold noted, set_queue in *. destruct (mode =? WriteMode); [rewrite <- (T3 _ Hq)|rewrite <- (T2 _ Hq)]; now destruct (g_pool x). }
    rewrite X in *. eapply Easy; [reflexivity|apply Ht|auto using incl_refl, ext_refl..].
  - (* GSetIndex *)
    injection E as <-. eapply Easy; [reflexivity|apply Ht|exact Sh|unfold set_index; destruct (mode =? WriteMode); cbn; auto using incl_refl, ext_refl..].
Qed.
End Ledger.
