(** Goroutines that borrow and return connections of a routing pool, again and again: nobody else touches what one of them uses (C101). *)
From Coq Require Import String ZArith List Bool Lia ZifyBool Permutation.
From Verif Require Import Bytes GoVal GoErr Decoder Messages GoStr Routing Pool SpecPool BytesFacts RoutingFacts PoolFacts LendFacts Concurrency ConcurFacts PoolRace RaceFacts.
Import ListNotations.
Open Scope Z_scope.

Lemma get_del_other {A} (m : list (bytes * A)) k k' : k <> k' -> map_get (map_del k' m) k = map_get m k.
Proof.
  intros N. induction m as [|[a v] m IH]; [reflexivity|]. cbn. destruct (bytes_eqb k' a) eqn:E.
  - apply bytes_eqb_eq in E. subst a. rewrite IH. now rewrite (proj2 (bytes_eqb_neq k k') N).
  - cbn. now rewrite IH.
Qed.
Lemma get_set_other {A} (m : list (bytes * A)) k k' v : k <> k' -> map_get (map_set k' v m) k = map_get m k.
Proof. intros N. cbn. rewrite (proj2 (bytes_eqb_neq k k') N). now apply get_del_other. Qed.
Lemma get_set_same {A} (m : list (bytes * A)) k v : map_get (map_set k v m) k = Some v.
Proof. cbn. now rewrite bytes_eqb_refl. Qed.

(** What a goroutine has in its hands: nothing, a connection it took from a queue, or one that the pool lists as lent. *)
Inductive hand := HNone | HTaken (c : wrapper) | HLent (c : wrapper).
Definition held (s : hand) : list wrapper := match s with HNone => [] | HTaken c | HLent c => [c] end.
Definition has (h : nat) (s : hand) : Prop := exists c, In c (held s) /\ pw_conn c = h.
Definition taken (o : option wrapper) : hand := match o with Some c => HTaken c | None => HNone end.
Lemma flat_two {A} (g : wrapper -> A) hs : NoDup (map g (flat_map held hs)) -> forall i j s s' c d, i <> j -> nth_error hs i = Some s -> nth_error hs j = Some s' ->
  In c (held s) -> In d (held s') -> g c <> g d.
Proof.
  assert (B : forall hs j s d, nth_error hs j = Some s -> In d (held s) -> In (g d) (map g (flat_map held hs))).
  { intros hs0 j s d H Hd. apply in_map. apply in_flat_map. exists s. split; [eapply nth_error_In; eauto|exact Hd]. }
  induction hs as [|a hs IH]; intros N i j s s' c d Nij Hi Hj Hc Hd; [destruct i; discriminate|].
  cbn [flat_map] in N. rewrite map_app in N.
  destruct i, j; cbn in Hi, Hj; try lia.
  - injection Hi as ->. intros E. apply (in_map g) in Hc. apply in_split in Hc. destruct Hc as (a1 & a2 & Hc). rewrite Hc, <- app_assoc in N. cbn [app] in N.
    apply NoDup_remove_2 in N. apply N. apply in_or_app. right. apply in_or_app. right. rewrite E. eapply B; eauto.
  - injection Hj as ->. intros E. apply (in_map g) in Hd. apply in_split in Hd. destruct Hd as (a1 & a2 & Hd). rewrite Hd, <- app_assoc in N. cbn [app] in N.
    apply NoDup_remove_2 in N. apply N. apply in_or_app. right. apply in_or_app. right. rewrite <- E. eapply B; eauto.
  - apply NoDup_drop in N. eapply (IH N i j); eauto.
Qed.

Lemma Forall2_weaken {A B} (R S : A -> B -> Prop) l l' : (forall a b, R a b -> S a b) -> Forall2 R l l' -> Forall2 S l l'.
Proof. intros H F. induction F; constructor; auto. Qed.

Lemma Forall2_len {A B} (R : A -> B -> Prop) l l' : Forall2 R l l' -> length l = length l'.
Proof. induction 1; cbn; auto. Qed.

Section Tame.
(** Whether connecting may run out of fuel. *)
Variable lax : Prop.
(** A goroutine that only touches what it has in its hands, and does not run out of fuel while there are fewer than [f] connections. *)
Fixpoint tame (f : nat) (s : hand) (t : gprog) : Prop :=
  match t with
  | GDone r => r = NoFuel -> f = O \/ lax
  | GEnd => True
  | GRLock k | GRUnlock k | GLock k | GUnlock k | GSetRunning _ k => tame f s k
  | GRunning k => forall b, tame f s (k b)
  | GSize _ k => forall n, tame f s (k n)
  | GDequeue _ k => forall o, tame f (taken o) (k o)
  | GEnqueue _ c k => s = HTaken c /\ tame f HNone k
  | GMarked h k | GValid h k => has h s /\ forall b, tame f s (k b)
  | GClose h k => has h s /\ forall e, tame f s (k e)
  | GRead g id k => g = FBorrowed /\ exists c, s = HLent c /\ id = pw_id c /\ tame f s (k (Some c))
  | GWrite FHeld _ k => tame f s k \/ held s <> [] /\ tame (pred f) HNone k
  | GWrite FBorrowed g k => (exists c, s = HTaken c /\ g = map_set (pw_id c) c /\ tame f (HLent c) k)
                            \/ (exists c, s = HLent c /\ g = map_del (pw_id c) /\ tame f (HTaken c) k)
  | GMake _ _ k => (exists c, s = HTaken c) /\ (forall c, tame f (HTaken c) (k (Ok c)))
                   /\ forall r, (forall c, r <> Ok c) -> (r = NoFuel -> lax) -> tame f HNone (k r)
  | GUse c k => s = HLent c /\ tame f s k
  | GStrings _ k => forall l, tame f s (k l)
  | GIndex _ k => forall i, tame f s (k i)
  | GSetIndex _ _ k => tame f s k
  | GItems _ _ | GReplace _ _ _ | GLimits _ | GShare _ => False
  | GSeed _ | GOverview _ _ | GQuit _ _ | GPart _ _ | GSetPart _ _ _ | GAuth _ | GMark _ _ | GSetStrings _ _ _ => False
  end.
Lemma tame_remove f c k : tame (pred f) HNone (k None) -> (forall e, tame f (HTaken c) (k (Some e))) -> tame f (HTaken c) (g_remove c k).
Proof.
  intros H1 H2. assert (A : has (pw_conn c) (HTaken c)) by (exists c; cbn; auto).
  cbn. split; [exact A|]. intros [|]; cbn; [right; split; [discriminate|exact H1]|]. split; [exact A|].
  intros [e|]; cbn; [apply H2|]. right. split; [discriminate|exact H1].
Qed.
Lemma tame_internal fuel mode k : (forall f s, (f <= fuel)%nat -> (forall e, tame f s (k (Err e))) /\ forall c, tame f (HLent c) (k (Ok c))) -> (forall s, tame 0 s (k NoFuel)) ->
  forall fuel' f s, (fuel' <= fuel)%nat -> (f <= fuel')%nat -> tame f s (g_internal_borrow fuel' mode k).
Proof.
  intros Hk Hn. induction fuel' as [|fuel' IH]; intros f s L1 L2.
  { replace f with 0%nat by lia. apply Hn. }
  cbn [g_internal_borrow tame]. intros [c|]; cbn [taken]; [|now apply (Hk f HNone); lia].
  assert (A : tame f (HTaken c) (g_remove c (fun e => match e with Some e => k (Err e) | None => g_internal_borrow fuel' mode k end))).
  { apply tame_remove; [apply IH; lia|]. intros e. apply (Hk f (HTaken c)). lia. }
  assert (B : has (pw_conn c) (HTaken c)) by (exists c; cbn; auto).
  cbn [tame]. split; [exact B|]. intros [|]; [exact A|]. cbn [tame]. split; [exact B|]. intros [|]; cbn [negb]; [|exact A].
  cbn [tame]. left. left. exists c. split; [reflexivity|]. split; [reflexivity|]. apply (Hk f HNone). lia.
Qed.
Lemma tame_new f c mode k : (forall s e, tame f s (k (Err e))) -> tame f HNone (k (Ok tt)) -> (forall s, tame f s (k Panic)) -> (lax -> tame f HNone (k NoFuel)) ->
  tame f (HTaken c) (g_new mode k).
Proof.
  intros He Ho Hp Hn. unfold g_new. cbn [tame]. intros l i. destruct (_ && _); [|apply Hp]. destruct (nth_error _ _); [|apply Hp]. cbn [tame].
  split; [eauto|]. split; [intros d; left; auto|]. intros [d|e| |] N Hr; [now destruct (N d)|apply He|apply Hp|auto].
Qed.
Lemma tame_add f c mode k : (forall s e, tame f s (k (Err e))) -> tame f HNone (k (Ok tt)) -> (forall s, tame f s (k Panic)) -> (lax -> tame f HNone (k NoFuel)) ->
  tame f (HTaken c) (g_add mode k).
Proof.
  intros He Ho Hp Hn. unfold g_add. cbn [tame]. intros [|s l]; [apply He|]. cbn [tame]. intros i j l'. destruct (_ =? _); cbn [tame]; now apply tame_new.
Qed.
Lemma tame_return f c k : (forall s e, tame f s (k (Err e))) -> (forall c, tame f HNone (k (Ok c))) -> (forall s, tame f s (k Panic)) -> (lax -> tame f HNone (k NoFuel)) ->
  tame f (HLent c) (g_return (pw_id c) (pw_conn c) k).
Proof.
  intros He Ho Hp Hn. assert (A : has (pw_conn c) (HTaken c)) by (exists c; cbn; auto).
  unfold g_return. cbn [tame]. intros [|]; cbn [negb tame]; [|apply He]. split; [reflexivity|]. exists c. split; [reflexivity|]. split; [reflexivity|].
  cbn [tame]. right. exists c. split; [reflexivity|]. split; [reflexivity|]. left. split; [exact A|].
  set (m := if pw_mode c =? WriteMode then WriteMode else ReadMode).
  assert (B : tame f (HTaken c) (GEnqueue m c (GUnlock (k (Ok c))))) by (cbn; split; [reflexivity|apply Ho]).
  intros [|]; [exact B|]. cbn [g_remove tame]. split; [exact A|]. intros [|]; [left; exact B|]. cbn [tame]. split; [exact A|].
  intros [e|]; [|left; exact B]. apply tame_add; cbn [tame]; auto.
Qed.
Lemma tame_client fuel modes : forall f s, (f <= fuel)%nat -> tame f s (g_client fuel modes).
Proof.
  induction modes as [|m modes IH]; intros f s L; [exact I|]. cbn [g_client]. unfold g_lend. cbn [tame].
  apply (tame_internal fuel); [|cbn; auto|lia|exact L].
  intros f' s' L'. split; [intros e; cbn [tame]; now apply IH|]. intros c. cbn [tame]. split; [reflexivity|]. apply tame_return.
  - intros. now apply IH.
  - intros. now apply IH.
  - discriminate.
  - intros X. cbn. auto.
Qed.
Lemma tame_drain F mode k : (forall f s, (f <= F)%nat -> (forall e, tame f s (k (Err e))) /\ tame f s (k (Ok tt))) -> (forall s, tame 0 s (k NoFuel)) ->
  forall fuel f s, (f <= F)%nat -> (f <= fuel)%nat -> tame f s (g_drain fuel mode k).
Proof.
  intros Hk Hn. induction fuel as [|fuel IH]; intros f s L1 L2.
  { replace f with 0%nat by lia. apply Hn. }
  cbn [g_drain tame]. intros n. destruct (n =? 0); [apply (Hk f s); lia|]. cbn [tame]. intros [c|]; cbn [taken]; [|apply (Hk f HNone); lia].
  apply tame_remove; [apply IH; lia|]. intros e. apply (Hk f (HTaken c)). lia.
Qed.
Lemma tame_stop n m f s : (f <= n)%nat -> (f <= m)%nat -> tame f s (g_stop n m).
Proof.
  intros L1 L2. unfold g_stop. cbn [tame]. intros [|]; cbn [negb tame]; [|discriminate].
  apply (tame_drain f); [|cbn; auto|lia|exact L1]. intros f' s' L. split; [intros e; cbn; discriminate|].
  apply (tame_drain f'); [|cbn; auto|lia|lia]. intros f'' s'' L'. split; [intros e; cbn; discriminate|exact I].
Qed.
End Tame.

Section Exclude.
Context {W : Type}.
Variable K : cluster W.
Variable opened : W -> list nat.
Variable named : W -> list bytes.
Hypothesis F : fresh K opened named.
Variable lax : Prop.
Hypothesis dialled : forall s w, snd (k_dial K s w) = NoFuel -> lax.
(** The connections lent before. *)
Variable out : list nat.

Lemma make_made mode s w c w' : make K mode s w = (w', Ok c) -> made K mode s w c w'.
Proof.
  unfold make, made. destruct (k_dial K s w) as [w1 [h|e| |]]; try discriminate. destruct (k_name K w1) as [w2 name] eqn:En.
  intros [= <- <-]. exists w1, name. auto.
Qed.
Lemma make_failed mode s w r w' : make K mode s w = (w', r) -> (forall c, r <> Ok c) -> grows opened named w w' /\ (r = NoFuel -> lax).
Proof.
  unfold make. intros E N. pose proof (grows_dial K opened named F s w) as G. pose proof (dialled s w) as D. destruct (k_dial K s w) as [w1 [h|e| |]]; cbn in G, D.
  - destruct (k_name K w1). injection E as _ <-. now destruct (N (mkWrap h (make_conn_id mode b) s mode)).
  - injection E as <- <-. split; [exact G|discriminate].
  - injection E as <- <-. split; [exact G|discriminate].
  - injection E as <- <-. split; [exact G|auto].
Qed.
Definition in_hands (hs : list hand) : list wrapper := flat_map held hs.
Definition around_all (p : pool) (hs : list hand) : list wrapper := p_wq p ++ p_rq p ++ in_hands hs.
Record good (cs : list wrapper) (w : W) : Prop := mkGood {
  g_conns : NoDup (map pw_conn cs);
  g_ids : NoDup (map pw_id cs);
  g_known : forall c, In c cs -> In (pw_conn c) (opened w) /\ ~ In (pw_conn c) out /\ exists m n, pw_id c = make_conn_id m n /\ In n (named w);
  g_out : incl out (opened w)
}.
Lemma good_grows cs w w' : grows opened named w w' -> good cs w -> good cs w'.
Proof.
  intros [G1 G2] []. constructor; auto.
  - intros c H. destruct (g_known0 c H) as (? & ? & m & n & ? & ?). split; [auto|]. split; [auto|]. exists m, n. auto.
  - eapply incl_tran; eauto.
Qed.
Lemma good_sub d cs cs' w : Permutation cs (d ++ cs') -> good cs w -> good cs' w.
Proof.
  intros P []. constructor.
  - apply (Permutation_NoDup (Permutation_map pw_conn P)) in g_conns0. rewrite map_app in g_conns0. now apply NoDup_drop in g_conns0.
  - apply (Permutation_NoDup (Permutation_map pw_id P)) in g_ids0. rewrite map_app in g_ids0. now apply NoDup_drop in g_ids0.
  - intros c H. apply g_known0. apply (Permutation_in _ (Permutation_sym P)). apply in_or_app. now right.
  - exact g_out0.
Qed.
Lemma good_made cs w m s c w' : made K m s w c w' -> good cs w -> good (c :: cs) w'.
Proof.
  intros M [].
  assert (G : grows opened named w w') by (eapply made_R; eauto using grows_trans, grows_dial, grows_name).
  destruct M as (w1 & name & Ed & En & Ec).
  destruct (f_new _ _ _ F _ _ _ _ Ed) as [New1 New2]. destruct (f_unused _ _ _ F _ _ _ En) as [New3 New4].
  assert (G1 : grows opened named w w1) by (pose proof (grows_dial K opened named F s w) as X; now rewrite Ed in X).
  assert (G2 : grows opened named w1 w') by (pose proof (grows_name K opened named F w1) as X; now rewrite En in X).
  constructor.
  - cbn. constructor; [|exact g_conns0]. intros H. apply in_map_iff in H. destruct H as (d & Hd & H). apply New1. rewrite <- Hd. now apply g_known0.
  - cbn. constructor; [|exact g_ids0]. intros H. apply in_map_iff in H. destruct H as (d & Hd & H).
    destruct (g_known0 d H) as (_ & _ & m' & n & E & Hn). rewrite Hd, Ec in E. cbn in E. apply conn_id_name in E. subst n. apply New3. now apply (proj2 G1).
  - intros d [<-|H].
    + split; [now apply (proj1 G2)|]. split; [intros H; apply New1; auto|]. exists m, name. split; [now rewrite Ec|exact New4].
    + destruct (g_known0 d H) as (? & ? & m' & n & ? & ?). split; [now apply (proj1 G)|]. split; [auto|]. exists m', n. split; [auto|now apply (proj2 G)].
  - eapply incl_tran; [exact g_out0|apply G].
Qed.
Lemma in_hands_put hs : forall i s s', nth_error hs i = Some s -> Permutation (held s' ++ in_hands hs) (held s ++ in_hands (put_nth i s' hs)).
Proof.
  induction hs as [|x hs IH]; intros [|i] s s'; cbn [nth_error]; try discriminate.
  - intros [= ->]. unfold in_hands. cbn [put_nth flat_map]. apply Permutation_app_swap_app.
  - intros H. specialize (IH _ _ s' H). unfold in_hands in *. cbn [put_nth flat_map] in *.
    etransitivity; [apply Permutation_app_swap_app|]. etransitivity; [|apply Permutation_app_swap_app]. now apply Permutation_app_head.
Qed.
Lemma around_put p hs i s s' : nth_error hs i = Some s -> Permutation (held s' ++ around_all p hs) (held s ++ around_all p (put_nth i s' hs)).
Proof.
  intros H. unfold around_all. rewrite (app_assoc (p_wq p)), (app_assoc (p_wq p) (p_rq p) (in_hands (put_nth i s' hs))).
  etransitivity; [apply Permutation_app_swap_app|]. etransitivity; [|apply Permutation_app_swap_app]. apply Permutation_app_head. now apply in_hands_put.
Qed.
(** Which connections the pool lists as lent. *)
Definition listed_lent (p : pool) (hs : list hand) : Prop := forall i c, nth_error hs i = Some (HLent c) -> map_get (p_borrowed p) (pw_id c) = Some c.
Definition apart_all (x : gsys (W := W)) : Prop :=
  exists hs, Forall2 (fun s t => exists f, tame lax f s t /\ (length (around_all (g_pool x) hs) < f)%nat) hs (g_threads x)
  /\ good (around_all (g_pool x) hs) (g_world x) /\ listed_lent (g_pool x) hs.
Lemma good_hands p hs w i j s s' c d : good (around_all p hs) w -> i <> j -> nth_error hs i = Some s -> nth_error hs j = Some s' ->
  In c (held s) -> In d (held s') -> pw_id c <> pw_id d /\ pw_conn c <> pw_conn d.
Proof.
  intros [N1 N2 _ _] N Hi Hj Hc Hd. unfold around_all in N1, N2. rewrite app_assoc, map_app in N1, N2. apply NoDup_drop in N1, N2.
  split; [exact (flat_two pw_id hs N2 i j s s' c d N Hi Hj Hc Hd)|exact (flat_two pw_conn hs N1 i j s s' c d N Hi Hj Hc Hd)].
Qed.
Lemma step_exclusive i x x' : gsys_step K i x = Some x' -> apart_all x -> apart_all x'.
Proof.
  intros E (hs & Fs & G & L). unfold gsys_step in E. destruct (nth_error (g_threads x) i) as [t|] eqn:Et; [|discriminate].
  destruct (Forall2_at _ _ _ _ _ Fs Et) as (s & Es & f & Ht & Hf).
  assert (Move : forall p w l t' s' f' d, x' = mkG p w l (put_nth i t' (g_threads x)) -> tame lax f' s' t' ->
    Permutation (around_all (g_pool x) hs) (d ++ around_all p (put_nth i s' hs)) -> (f <= f' + length d)%nat -> grows opened named (g_world x) w ->
    listed_lent p (put_nth i s' hs) -> apart_all x').
  { intros p w l t' s' f' d -> T P Lf Gr L'. exists (put_nth i s' hs). cbn [g_pool g_threads g_world].
    pose proof (Permutation_length P) as Len. rewrite app_length in Len.
    split; [|split; [|exact L']].
    - apply Forall2_put; [|exists f'; split; [exact T|lia]]. eapply Forall2_weaken; [|exact Fs]. intros a b (g & H1 & H2). exists g. split; [exact H1|lia].
    - eapply good_grows; [exact Gr|]. eapply good_sub; eauto. }
  assert (Keep : forall p w l t', x' = mkG p w l (put_nth i t' (g_threads x)) -> tame lax f s t' ->
    p_wq p = p_wq (g_pool x) -> p_rq p = p_rq (g_pool x) -> p_borrowed p = p_borrowed (g_pool x) -> grows opened named (g_world x) w -> apart_all x').
  { intros p w l t' E' T E1 E2 E3 Gr. apply (Move p w l t' s f []); [exact E'|exact T| |cbn; lia|exact Gr|].
    - rewrite (put_same hs i s Es). unfold around_all. rewrite E1, E2. reflexivity.
    - rewrite (put_same hs i s Es). unfold listed_lent. now rewrite E3. }
  assert (Gr0 : grows opened named (g_world x) (g_world x)) by apply grows_refl.
  assert (Others : forall p s', p_borrowed p = p_borrowed (g_pool x) -> (forall c, s' <> HLent c) -> listed_lent p (put_nth i s' hs)).
  { intros p s' E1 N j c H. destruct (Nat.eq_dec i j) as [<-|Nij].
    - rewrite (nth_put_same i s' _ _ Es) in H. injection H as ->. now destruct (N c).
    - rewrite nth_put_other in H by exact Nij. rewrite E1. eapply L; eauto. }
  destruct t; cbn [gstep] in E; cbn [tame] in Ht.
  - discriminate.
  - discriminate.
  - destruct (rw_writer (g_lock x)); [discriminate|]. injection E as <-. eapply Keep; [reflexivity|exact Ht|auto..].
  - injection E as <-. eapply Keep; [reflexivity|exact Ht|auto..].
  - destruct (rw_writer (g_lock x)); [discriminate|]. destruct (rw_readers (g_lock x)); [|discriminate]. injection E as <-. eapply Keep; [reflexivity|exact Ht|auto..].
  - injection E as <-. eapply Keep; [reflexivity|exact Ht|auto..].
  - injection E as <-. eapply Keep; [reflexivity|apply Ht|auto..].
  - injection E as <-. eapply Keep; [reflexivity|exact Ht|auto..].
  - injection E as <-. eapply Keep; [reflexivity|apply Ht|auto..].
  - destruct (dequeue (queue_of mode (g_pool x))) as [o q] eqn:Eq. injection E as <-.
    eapply (Move _ _ _ _ (taken o) f (held s)); [reflexivity|apply Ht| |lia|exact Gr0|].
    + assert (P : Permutation (p_wq (g_pool x) ++ p_rq (g_pool x)) (held (taken o) ++ p_wq (set_queue mode q (g_pool x)) ++ p_rq (set_queue mode q (g_pool x)))).
      { unfold set_queue, queue_of in *. destruct (mode =? WriteMode); cbn [p_wq p_rq set_wq set_rq].
        - destruct (p_wq (g_pool x)); injection Eq as <- <-; reflexivity.
        - destruct (p_rq (g_pool x)); injection Eq as <- <-; [reflexivity|]. cbn. symmetry. apply Permutation_middle. }
      etransitivity; [|apply around_put; exact Es]. unfold around_all. rewrite app_assoc, P, <- !app_assoc. reflexivity.
    + apply Others; [apply borrowed_set|]. destruct o; discriminate.
  - destruct Ht as [-> Ht]. injection E as <-.
    eapply (Move _ _ _ _ HNone f []); [reflexivity|exact Ht| |cbn; lia|exact Gr0|].
    + cbn [app]. etransitivity; [apply (around_put (g_pool x) hs i (HTaken c) HNone Es)|]. cbn [held app]. unfold around_all, set_queue, enqueue, queue_of.
      destruct (mode =? WriteMode); cbn [p_wq p_rq set_wq set_rq].
      * rewrite <- app_assoc. apply Permutation_middle.
      * rewrite <- app_assoc. cbn [app]. rewrite !app_assoc. apply Permutation_middle.
    + apply Others; [apply borrowed_set|discriminate].
  - injection E as <-. eapply Keep; [reflexivity|apply Ht|auto..].
  - destruct (k_valid K h (g_world x)) as [w1 b] eqn:Ev. injection E as <-. eapply Keep; [reflexivity|apply Ht|auto..].
    pose proof (grows_valid K opened named F h (g_world x)) as X. now rewrite Ev in X.
  - destruct (k_close K h (g_world x)) as [w1 e] eqn:Ev. injection E as <-. eapply Keep; [reflexivity|apply Ht|auto..].
    pose proof (grows_close K opened named F h (g_world x)) as X. now rewrite Ev in X.
  - destruct Ht as (-> & c & -> & -> & Ht). injection E as <-. eapply Keep; [reflexivity| |auto..]. cbn [field_of]. rewrite (L i c Es). exact Ht.
  - injection E as <-. destruct f0.
    + destruct Ht as [Ht|[Hs Ht]]; [eapply Keep; [reflexivity|exact Ht|auto..]|].
      eapply (Move _ _ _ _ HNone (pred f) (held s)); [reflexivity|exact Ht| | |exact Gr0|].
      * apply (around_put (g_pool x) hs i s HNone Es).
      * destruct (held s); [congruence|cbn; lia].
      * apply Others; [reflexivity|discriminate].
    + assert (Same : forall s', held s' = held s -> Permutation (around_all (g_pool x) hs) ([] ++ around_all (g_pool x) (put_nth i s' hs))).
      { intros s' Eh. pose proof (around_put (g_pool x) hs i s s' Es) as P. rewrite Eh in P. now apply Permutation_app_inv_l in P. }
      destruct Ht as [(c & -> & -> & Ht)|(c & -> & -> & Ht)].
      * eapply (Move _ _ _ _ (HLent c) f []); [reflexivity|exact Ht|now apply Same|cbn; lia|exact Gr0|].
        intros j d H. cbn [set_field p_borrowed set_borrowed field_of]. destruct (Nat.eq_dec i j) as [<-|Nij].
        -- rewrite (nth_put_same i _ _ _ Es) in H. injection H as <-. apply get_set_same.
        -- rewrite nth_put_other in H by exact Nij. rewrite get_set_other; [eapply L; eauto|].
           eapply (good_hands _ _ _ j i (HLent d) (HTaken c) d c G); cbn; auto.
      * eapply (Move _ _ _ _ (HTaken c) f []); [reflexivity|exact Ht|now apply Same|cbn; lia|exact Gr0|].
        intros j d H. cbn [set_field p_borrowed set_borrowed field_of]. destruct (Nat.eq_dec i j) as [<-|Nij].
        -- rewrite (nth_put_same i _ _ _ Es) in H. discriminate.
        -- rewrite nth_put_other in H by exact Nij. rewrite get_del_other; [eapply L; eauto|].
           eapply (good_hands _ _ _ j i (HLent d) (HLent c) d c G); cbn; auto.
  - destruct Ht as ([c ->] & Ho & Ht). destruct (make K mode s0 (g_world x)) as [w1 r] eqn:Em. injection E as <-.
    pose proof (around_put (g_pool x) hs i (HTaken c) HNone Es) as P. cbn [held app] in P.
    destruct r as [n|e| |].
    + apply make_made in Em. exists (put_nth i (HTaken n) hs). cbn [g_pool g_threads g_world].
      assert (P' : Permutation (around_all (g_pool x) (put_nth i (HTaken n) hs)) (n :: around_all (g_pool x) (put_nth i HNone hs))).
      { pose proof (around_put (g_pool x) hs i (HTaken c) (HTaken n) Es) as Q. cbn [held app] in Q. rewrite P in Q.
        rewrite perm_swap in Q. apply Permutation_cons_inv in Q. now symmetry. }
      pose proof (Permutation_length P') as Len. pose proof (Permutation_length P) as Len'. cbn [length] in Len, Len'.
      split; [|split].
      * apply Forall2_put; [|exists f; split; [apply Ho|lia]]. eapply Forall2_weaken; [|exact Fs]. intros a b (g & H1 & H2). exists g. split; [exact H1|lia].
      * pose proof (good_sub [c] _ _ _ P G) as G'. pose proof (good_made _ _ _ _ _ _ Em G') as G2. apply (good_sub [] _ _ _ (Permutation_sym P') G2).
      * apply Others; [reflexivity|discriminate].
    + destruct (make_failed _ _ _ _ _ Em) as [Gr Hr]; [discriminate|]. eapply (Move _ _ _ _ HNone f [c]); [reflexivity|apply Ht; [discriminate|exact Hr]|exact P|cbn; lia|exact Gr|].
      apply Others; [reflexivity|discriminate].
    + destruct (make_failed _ _ _ _ _ Em) as [Gr Hr]; [discriminate|]. eapply (Move _ _ _ _ HNone f [c]); [reflexivity|apply Ht; [discriminate|exact Hr]|exact P|cbn; lia|exact Gr|].
      apply Others; [reflexivity|discriminate].
    + destruct (make_failed _ _ _ _ _ Em) as [Gr Hr]; [discriminate|]. eapply (Move _ _ _ _ HNone f [c]); [reflexivity|apply Ht; [discriminate|exact Hr]|exact P|cbn; lia|exact Gr|].
      apply Others; [reflexivity|discriminate].
  - destruct Ht as [-> Ht]. injection E as <-. eapply Keep; [reflexivity|exact Ht|auto..].
  - contradiction.
  - contradiction.
  - contradiction.
  - contradiction.
  - contradiction.
  - contradiction.
  - contradiction.
  - contradiction.
  - contradiction.
  - contradiction.
  - contradiction.
  - injection E as <-. eapply Keep; [reflexivity|apply Ht|auto..].
  - injection E as <-. eapply Keep; [reflexivity|apply Ht|auto..].
  - injection E as <-. eapply Keep; [reflexivity|exact Ht|unfold set_index; destruct (mode =? WriteMode); reflexivity..|exact Gr0].
  - contradiction.
Qed.
Lemma run_exclusive is : forall x x', gschedule K is x = Some x' -> apart_all x -> apart_all x'.
Proof.
  induction is as [|i is IH]; intros x x'; cbn [gschedule]; [now intros [= <-]|].
  destruct (gsys_step K i x) as [x1|] eqn:E; [|discriminate]. intros E' L. eapply IH; [exact E'|]. eapply step_exclusive; eauto.
Qed.
Theorem nobody_else x i c k : apart_all x -> nth_error (g_threads x) i = Some (GUse c k) ->
  ~ In (pw_conn c) (idle (g_pool x)) /\ ~ In (pw_conn c) out /\ forall j t, j <> i -> nth_error (g_threads x) j = Some t -> ~ touches (pw_conn c) t.
Proof.
  intros (hs & Fs & G & L) Hi. destruct (Forall2_at _ _ _ _ _ Fs Hi) as (s & Es & f & [-> _] & _).
  assert (Hin : In c (in_hands hs)) by (apply in_flat_map; exists (HLent c); split; [eapply nth_error_In; eauto|now left]).
  split; [|split].
  - destruct G as [N _ _ _]. unfold around_all in N. rewrite app_assoc, map_app in N. unfold idle. rewrite <- map_app. intros H.
    apply in_split in H. destruct H as (a & b & H). rewrite H, <- app_assoc in N. cbn [app] in N. apply NoDup_remove_2 in N. apply N.
    apply in_or_app. right. apply in_or_app. right. now apply in_map.
  - apply (g_known _ _ G). unfold around_all. rewrite app_assoc. apply in_or_app. now right.
  - intros j t Nji Hj T. destruct (Forall2_at _ _ _ _ _ Fs Hj) as (s & Es' & f' & Ht & _).
    assert (Hs : has (pw_conn c) s).
    { destruct t; cbn in T; try contradiction; cbn in Ht; subst.
      - destruct Ht as [-> _]. exists c0. cbn. auto.
      - apply Ht.
      - apply Ht.
      - apply Ht.
      - destruct Ht as [-> _]. exists c0. cbn. auto. }
    destruct Hs as (d & Hd & Ed). destruct (good_hands _ _ _ j i s (HLent c) d c G Nji Es' Es Hd (or_introl eq_refl)) as [_ X]. contradiction.
Qed.
Theorem no_stop_short x i : apart_all x -> nth_error (g_threads x) i = Some (GDone NoFuel) -> lax.
Proof. intros (hs & Fs & _ & _) Hi. destruct (Forall2_at _ _ _ _ _ Fs Hi) as (s & Es & f & Ht & L). cbn in Ht. destruct (Ht eq_refl) as [->|X]; [lia|exact X]. Qed.
Lemma start_apart p w ts : good (p_wq p ++ p_rq p) w -> Forall (enough (length (idle p))) ts -> apart_all (mkG p w (mkRW false 0) (map work ts)).
Proof.
  intros G E. assert (A : around_all p (map (fun _ => HNone) ts) = p_wq p ++ p_rq p).
  { unfold around_all, in_hands. replace (flat_map _ _) with (@nil wrapper); [now rewrite app_nil_r|]. clear. induction ts as [|b ts IH]; [reflexivity|exact IH]. }
  exists (map (fun _ => HNone) ts). cbn [g_pool g_threads g_world]. rewrite A. split; [|split; [exact G|]].
  - assert (Len : length (p_wq p ++ p_rq p) = length (idle p)) by (unfold idle; now rewrite !app_length, !map_length). rewrite Len. clear - E.
    induction E as [|t ts Ht E IH]; cbn [map]; constructor; [|exact IH]. exists (S (length (idle p))). split; [|lia].
    destruct t; cbn [work enough] in *; [destruct Ht|destruct Ht|apply tame_stop; lia|apply tame_client; lia|destruct Ht|destruct Ht].
  - intros i c H. rewrite nth_error_map in H. destruct (nth_error ts i); discriminate.
Qed.
End Exclude.

Lemma NoDup_keys {A B C} (f : A -> B) (g : A -> C) l : NoDup (map f l) -> (forall a b, In a l -> In b l -> g a = g b -> f a = f b) -> NoDup (map g l).
Proof.
  induction l as [|x l IH]; cbn; [constructor|]. intros N H. inversion N as [|? ? N1 N2]; subst. constructor; [|apply IH; [exact N2|auto]].
  intros Hi. apply in_map_iff in Hi. destruct Hi as (y & E & Hy). apply N1. rewrite (H x y); [now apply in_map|now left|now right|now symmetry].
Qed.
Lemma NoDup_first {A} (a b : list A) : NoDup (a ++ b) -> NoDup a.
Proof. induction a as [|x a IH]; [constructor|]. cbn. intros N. inversion N as [|? ? N1 N2]; subst. constructor; [|auto]. intros H. apply N1. apply in_or_app. now left. Qed.
Lemma history_good {W} (K : cluster W) opened named n auth tls w0 l p w : fresh K opened named -> pool_history K n auth tls w0 l p w -> honest [] l ->
  good opened named (lent l) (p_wq p ++ p_rq p) w.
Proof.
  intros F (leader & p0 & En & Er) Ho.
  destruct (inv_run K opened named F _ _ _ _ _ _ _ _ _ Er Ho (inv_new opened named _ _ _ _ _ w0 En)) as (_ & iss & b & _ & I). destruct I.
  assert (Sub : forall c, In c (p_wq p ++ p_rq p) -> In c (all_conns p)) by (intros c H; unfold all_conns; rewrite app_assoc; apply in_or_app; now left).
  assert (N : NoDup (map pw_conn (p_wq p ++ p_rq p))) by (unfold all_conns in i_conns; rewrite app_assoc, map_app in i_conns; now apply NoDup_first in i_conns).
  constructor; [exact N| | |].
  - eapply NoDup_keys; [exact N|]. intros a c Ha Hc E. apply Sub, i_iss in Ha, Hc. rewrite E in Ha. eapply NoDup_map_fst; eauto.
  - intros c Hc. destruct (i_known _ _ (i_iss c (Sub c Hc))) as [H1 H2]. split; [exact H1|]. split; [|exact H2].
    intros H. destruct (i_lent _ H) as [_ X]. apply X. unfold idle. rewrite <- map_app. now apply in_map.
  - intros h H. now apply i_lent.
Qed.
Theorem used_by_one {W} (K : cluster W) opened named n auth tls w0 l p w ts is x i c k : fresh K opened named -> pool_history K n auth tls w0 l p w -> honest [] l ->
  Forall (enough (length (idle p))) ts -> gschedule K is (mkG p w (mkRW false 0) (map work ts)) = Some x -> nth_error (g_threads x) i = Some (GUse c k) ->
  ~ In (pw_conn c) (idle (g_pool x)) /\ ~ In (pw_conn c) (lent l) /\ forall j t, j <> i -> nth_error (g_threads x) j = Some t -> ~ touches (pw_conn c) t.
Proof.
  intros F H Ho E Er Hi. assert (G := history_good K opened named n auth tls w0 l p w F H Ho).
  eapply (nobody_else opened named True (lent l)); [|exact Hi]. eapply run_exclusive; [exact F|auto|exact Er|]. now apply start_apart.
Qed.
Theorem fuel_suffices {W} (K : cluster W) opened named n auth tls w0 l p w ts is x i : fresh K opened named -> pool_history K n auth tls w0 l p w -> honest [] l ->
  (forall s w, snd (k_dial K s w) <> NoFuel) -> Forall (enough (length (idle p))) ts -> gschedule K is (mkG p w (mkRW false 0) (map work ts)) = Some x ->
  nth_error (g_threads x) i <> Some (GDone NoFuel).
Proof.
  intros F H Ho D E Er Hi. assert (G := history_good K opened named n auth tls w0 l p w F H Ho).
  eapply (no_stop_short opened named False (lent l)); [|exact Hi]. eapply run_exclusive; [exact F|intros s w1; exact (D s w1)|exact Er|]. now apply start_apart.
Qed.

(** ** Every schedule comes to an end *)

Section Ends.
Context {W : Type}.
Variable K : cluster W.
Definition next_of (t' t : gprog) : Prop := exists p w l p' w' l', gstep K t p w l = Some (p', w', l', t').
Lemma next_of_wf t : Acc next_of t.
Proof.
  induction t; constructor; intros y (p & w & rw & p' & w' & rw' & E); cbn [gstep] in E;
    repeat match type of E with
    | (if ?b then _ else _) = _ => destruct b
    | match rw_readers ?l with _ => _ end = _ => destruct (rw_readers l)
    | (let '(_, _) := ?a in _) = _ => destruct a
    end; try discriminate; try (injection E as; subst; auto).
Qed.
Definition one_steps (ts' ts : list gprog) : Prop := exists i t t', nth_error ts i = Some t /\ next_of t' t /\ ts' = put_nth i t' ts.
Lemma one_steps_wf ts : Acc one_steps ts.
Proof.
  induction ts as [|t ts IH].
  - constructor. intros y (i & p & p' & H & _). destruct i; discriminate.
  - revert t. induction IH as [ts _ IHt]. intro t. induction (next_of_wf t) as [t _ IHp].
    constructor. intros y (i & q & q' & H & Hs & ->). destruct i as [|i]; cbn in H |- *.
    + injection H as <-. now apply IHp.
    + apply IHt. exists i, q, q'. auto.
Qed.
Lemma gmoves_wf x : Acc (gmoves K) x.
Proof.
  destruct x as [p w l ts]. revert p w l. induction (one_steps_wf ts) as [ts _ IH]. intros p w l.
  constructor. intros y (i & E). unfold gsys_step in E. cbn [g_threads g_pool g_world g_lock] in E.
  destruct (nth_error ts i) as [t|] eqn:Ei; [|discriminate].
  destruct (gstep K t p w l) as [[[[p' w'] l'] t']|] eqn:Et; [|discriminate]. injection E as <-.
  apply IH. exists i, t, t'. split; [exact Ei|]. split; [|reflexivity]. exists p, w, l, p', w', l'. exact Et.
Qed.
(** Somebody can go on, unless all have ended. *)
Theorem somebody_moves p w ts is x : gschedule K is (mkG p w (mkRW false 0) (map work ts)) = Some x ->
  (forall i t, nth_error (g_threads x) i = Some t -> ended t) \/ exists i x', gsys_step K i x = Some x'.
Proof.
  intros E. apply (locked_run K ts) in E; [|apply locked_start]. destruct E as (tps & _ & Fs & S1 & S2 & S3).
  destruct (rw_writer (g_lock x) || negb (Nat.eqb (rw_readers (g_lock x)) 0)) eqn:Busy.
  - (* somebody is inside *)
    assert (In1 : exists i ph, nth_error (map snd tps) i = Some ph /\ ph <> PFree).
    { unfold readers in S1. unfold writers in S2.
      assert (C : forall f : phase -> bool, (0 < length (filter f (map snd tps)))%nat -> exists i ph, nth_error (map snd tps) i = Some ph /\ f ph = true).
      { intros f L. destruct (filter f (map snd tps)) as [|ph ?] eqn:Ef; [cbn in L; lia|]. assert (Hin : In ph (filter f (map snd tps))) by (rewrite Ef; now left).
        apply filter_In in Hin. destruct Hin as [Hin Hp]. apply In_nth_error in Hin. destruct Hin as [i Hi]. eauto. }
      destruct (rw_writer (g_lock x)).
      - destruct (C (fun ph => match ph with PWrite => true | _ => false end)) as (i & ph & Hi & Hp); [rewrite S2; lia|]. exists i, ph. split; [exact Hi|]. intros ->. discriminate.
      - destruct (C (fun ph => match ph with PRead => true | _ => false end)) as (i & ph & Hi & Hp); [cbn in Busy; lia|]. exists i, ph. split; [exact Hi|]. intros ->. discriminate. }
    destruct In1 as (i & ph & Hi & Hp). rewrite nth_error_map in Hi. destruct (nth_error tps i) as [[t0 ph']|] eqn:Ei; [|discriminate]. injection Hi as ->.
    assert (Len := Forall2_len _ _ _ Fs). destruct (nth_error (g_threads x) i) as [t|] eqn:Et.
    2:{ apply nth_error_None in Et. assert (X : (i < length tps)%nat) by (apply nth_error_Some; congruence). lia. }
    destruct (Forall2_at _ _ _ _ _ Fs Et) as (tp & Ei' & Ht). rewrite Ei in Ei'. injection Ei' as <-.
    assert (Hok : ok ph t) by (unfold fits in Ht; cbn [fst snd] in Ht; destruct t0; [exact Ht|apply Ht|destruct Ht; contradiction|exact Ht|apply Ht|destruct Ht; contradiction]).
    right. exists i. unfold gsys_step. rewrite Et.
    destruct t; cbn [ok] in Hok; try contradiction; try (subst ph; contradiction); try (destruct Hok as [-> _]; contradiction); cbn [gstep]; eauto.
    all: repeat match goal with |- context [let '(_, _) := ?a in _] => destruct a end; eauto.
  - apply orb_false_iff in Busy. destruct Busy as [B1 B2]. assert (B3 : rw_readers (g_lock x) = 0%nat) by lia.
    assert (D : (forall i t, nth_error (g_threads x) i = Some t -> ended t) \/ exists i t, nth_error (g_threads x) i = Some t /\ ~ ended t).
    { generalize (g_threads x). clear. intros ts. induction ts as [|t ts IH]; [left; intros [|i] t H; discriminate|].
      assert (Dt : ended t \/ ~ ended t) by (destruct t; cbn; tauto).
      destruct Dt as [Dt|Dt]; [|right; exists 0%nat, t; auto]. destruct IH as [IH|(i & u & H & N)]; [left|right; exists (S i), u; auto].
      intros [|i] u H; cbn in H; [now injection H as <-|eauto]. }
    destruct D as [D|(i & t & Et & Nt)]; [now left|]. right. exists i. unfold gsys_step. rewrite Et.
    destruct t; cbn in Nt; try tauto; cbn [gstep]; rewrite ?B1, ?B3; eauto.
    all: repeat match goal with |- context [let '(_, _) := ?a in _] => destruct a end; eauto.
Qed.
Lemma gschedule_app is js x : gschedule K (is ++ js) x = match gschedule K is x with Some y => gschedule K js y | None => None end.
Proof. revert x. induction is as [|i is IH]; intro x; cbn; [reflexivity|]. destruct (gsys_step K i x); auto. Qed.
Theorem all_end p w ts is x : gschedule K is (mkG p w (mkRW false 0) (map work ts)) = Some x ->
  Acc (gmoves K) x /\ exists js y, gschedule K (is ++ js) (mkG p w (mkRW false 0) (map work ts)) = Some y /\ forall i t, nth_error (g_threads y) i = Some t -> ended t.
Proof.
  intros H. split; [apply gmoves_wf|]. revert is H. induction (gmoves_wf x) as [x _ IH]. intros is H.
  destruct (somebody_moves p w ts is x H) as [D|(i & x' & E)].
  - exists [], x. rewrite app_nil_r. auto.
  - destruct (IH x' (ex_intro _ i E) (is ++ [i])) as (js & y & H1 & H2).
    { rewrite gschedule_app, H. cbn. now rewrite E. }
    exists (i :: js), y. split; [|exact H2]. now rewrite <- app_assoc in H1.
Qed.
End Ends.
