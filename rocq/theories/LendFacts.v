(** Who holds the connections of a routing pool. *)
From Coq Require Import String ZArith List Bool Lia ZifyBool Permutation.
From Verif Require Import Bytes GoVal GoErr Decoder Messages GoStr Routing Pool SpecPool BytesFacts RoutingFacts PoolFacts.
Import ListNotations.
Open Scope Z_scope.

Definition all_conns (p : pool) : list wrapper := p_wq p ++ p_rq p ++ map snd (p_borrowed p).
(** What the invariant speaks about. *)
Definition core (p : pool) := (p_wq p, p_rq p, p_borrowed p, p_marked p, p_lookup p).
Lemma core_held x p : core (set_held x p) = core p.
Proof. reflexivity. Qed.
Lemma core_index m i p : core (set_index m i p) = core p.
Proof. unfold set_index. destruct (m =? WriteMode); reflexivity. Qed.
Lemma core_merge hd p : p_lookup p = [] -> core (merge_strings (set_handler hd p)) = core p.
Proof.
  intros H. unfold core, merge_strings. cbn. rewrite H. do 2 f_equal.
  replace (flat_map _ _) with (@nil nat); [reflexivity|]. symmetry.
  induction (_ ++ _) as [|a l IH]; [reflexivity|exact IH].
Qed.
Lemma queue_set m q p : queue_of m (set_queue m q p) = q.
Proof. unfold queue_of, set_queue. destruct (m =? WriteMode); reflexivity. Qed.
Lemma queue_set_other m q p : queue_of (other m) (set_queue m q p) = queue_of (other m) p.
Proof. unfold queue_of, set_queue, other. destruct (m =? WriteMode); reflexivity. Qed.
Lemma borrowed_set m q p : p_borrowed (set_queue m q p) = p_borrowed p.
Proof. unfold set_queue. destruct (m =? WriteMode); reflexivity. Qed.
Lemma marked_set m q p : p_marked (set_queue m q p) = p_marked p.
Proof. unfold set_queue. destruct (m =? WriteMode); reflexivity. Qed.
Lemma lookup_set m q p : p_lookup (set_queue m q p) = p_lookup p.
Proof. unfold set_queue. destruct (m =? WriteMode); reflexivity. Qed.
Lemma all_perm m p : Permutation (all_conns p) (queue_of m p ++ queue_of (other m) p ++ map snd (p_borrowed p)).
Proof.
  unfold all_conns, queue_of, other. destruct (m =? WriteMode); [reflexivity|]. cbn.
  rewrite !app_assoc. apply Permutation_app_tail, Permutation_app_comm.
Qed.
Lemma idle_perm m p : Permutation (idle p) (map pw_conn (queue_of m p ++ queue_of (other m) p)).
Proof.
  rewrite map_app. unfold idle, queue_of, other. destruct (m =? WriteMode); [reflexivity|]. apply Permutation_app_comm.
Qed.

Lemma NoDup_map_fst {A B} (l : list (A * B)) a b b' : NoDup (map fst l) -> In (a, b) l -> In (a, b') l -> b = b'.
Proof.
  induction l as [|[x y] l IH]; cbn; [tauto|]. intros N. inversion N as [|? ? N1 N2]; subst. intros [E|H] [E'|H'].
  - congruence.
  - injection E as -> ->. destruct N1. change a with (fst (a, b')). now apply in_map.
  - injection E' as -> ->. destruct N1. change a with (fst (a, b)). now apply in_map.
  - auto.
Qed.

Section Lending.
Context {W : Type}.
Variable K : cluster W.
Variable opened : W -> list nat.
Variable named : W -> list bytes.
Hypothesis F : fresh K opened named.

Definition grows (w w' : W) : Prop := incl (opened w) (opened w') /\ incl (named w) (named w').
Lemma grows_refl w : grows w w.
Proof. split; apply incl_refl. Qed.
Lemma grows_trans a b c : grows a b -> grows b c -> grows a c.
Proof. intros [? ?] [? ?]. split; eapply incl_tran; eauto. Qed.
Lemma grows_dial s w : grows w (fst (k_dial K s w)). Proof. exact (f_dial _ _ _ F s w). Qed.
Lemma grows_valid h w : grows w (fst (k_valid K h w)). Proof. exact (f_valid _ _ _ F h w). Qed.
Lemma grows_close h w : grows w (fst (k_close K h w)). Proof. exact (f_close _ _ _ F h w). Qed.
Lemma grows_query h w : grows w (fst (k_query K h w)). Proof. exact (f_query _ _ _ F h w). Qed.
Lemma grows_name w : grows w (fst (k_name K w)). Proof. exact (f_name _ _ _ F w). Qed.

Record inv (iss before : list (bytes * nat)) (lt : list nat) (p : pool) (w : W) : Prop := mkInv {
  i_marks : p_marked p = [];
  i_lookup : p_lookup p = [];
  i_conns : NoDup (map pw_conn (all_conns p));
  i_iss : forall c, In c (all_conns p) -> In (pw_id c, pw_conn c) iss;
  i_ids : NoDup (map fst iss);
  i_known : forall i h, In (i, h) iss -> In h (opened w) /\ exists m n, i = make_conn_id m n /\ In n (named w);
  i_keys : NoDup (map fst (p_borrowed p));
  i_key : forall k c, In (k, c) (p_borrowed p) -> k = pw_id c;
  i_before : incl before iss;
  i_out : forall k c, In (k, c) (p_borrowed p) -> In (k, pw_conn c) before /\ In (pw_conn c) lt;
  i_lent : forall h, In h lt -> In h (opened w) /\ ~ In h (idle p);
  i_once : NoDup lt
}.

Lemma inv_grows iss before lt p w w' : inv iss before lt p w -> grows w w' -> inv iss before lt p w'.
Proof.
  intros [] [G1 G2]. constructor; auto.
  - intros i h H. destruct (i_known0 i h H) as (? & m & n & ? & ?). split; [auto|]. exists m, n. auto.
  - intros h H. destruct (i_lent0 h H). auto.
Qed.
Lemma inv_core iss before lt p p' w : core p' = core p -> inv iss before lt p w -> inv iss before lt p' w.
Proof.
  intros E []. unfold core in E. injection E as E1 E2 E3 E4 E5.
  assert (Ea : all_conns p' = all_conns p) by (unfold all_conns; now rewrite E1, E2, E3).
  assert (Ei : idle p' = idle p) by (unfold idle; now rewrite E1, E2).
  constructor; rewrite ?Ea, ?Ei, ?E3, ?E4, ?E5; auto.
Qed.

(** A connection leaves the queue. *)
Lemma inv_drop iss before lt p w m skipped rest : queue_of m p = skipped ++ rest -> inv iss before lt p w -> inv iss before lt (set_queue m rest p) w.
Proof.
  intros Eq [].
  assert (Pa := all_perm m p). assert (Pb := all_perm m (set_queue m rest p)).
  rewrite queue_set, queue_set_other, borrowed_set in Pb. rewrite Eq, <- app_assoc in Pa.
  assert (Sub : forall c, In c (all_conns (set_queue m rest p)) -> In c (all_conns p)).
  { intros c H. apply (Permutation_in _ (Permutation_sym Pa)). apply (Permutation_in _ Pb) in H. apply in_or_app. now right. }
  constructor; rewrite ?marked_set, ?lookup_set, ?borrowed_set; auto.
  - apply (Permutation_NoDup (Permutation_map pw_conn (Permutation_sym Pb))).
    apply (Permutation_NoDup (Permutation_map pw_conn Pa)) in i_conns0.
    rewrite map_app in i_conns0. induction (map pw_conn skipped); [exact i_conns0|]. apply IHl. now inversion i_conns0.
  - intros h H. destruct (i_lent0 h H) as [H1 H2]. split; [exact H1|]. intros Hi. apply H2.
    apply (Permutation_in _ (Permutation_sym (idle_perm m p))). apply (Permutation_in _ (idle_perm m _)) in Hi.
    rewrite queue_set, queue_set_other in Hi. rewrite Eq, <- app_assoc, map_app. apply in_or_app. now right.
Qed.

(** A new connection joins the queue. *)
Lemma inv_made iss before lt p w m s c w' : made K m s w c w' -> inv iss before lt p w ->
  inv ((pw_id c, pw_conn c) :: iss) before lt (set_queue m (queue_of m p ++ [c]) p) w'.
Proof.
  intros M I. assert (G : grows w w') by (eapply made_R; eauto using grows_trans, grows_dial, grows_name).
  destruct M as (w1 & name & Ed & En & Ec).
  destruct (f_new _ _ _ F _ _ _ _ Ed) as [New1 New2]. destruct (f_unused _ _ _ F _ _ _ En) as [New3 New4].
  assert (G1 : grows w w1) by (pose proof (grows_dial s w) as X; now rewrite Ed in X).
  assert (G2 : grows w1 w') by (pose proof (grows_name w1) as X; now rewrite En in X).
  destruct I. set (p' := set_queue m (queue_of m p ++ [c]) p).
  assert (Pb : Permutation (all_conns p') (c :: all_conns p)).
  { rewrite (all_perm m p'). unfold p'. rewrite queue_set, queue_set_other, borrowed_set, <- app_assoc. cbn [app].
    rewrite <- Permutation_middle. constructor. symmetry. apply all_perm. }
  constructor; unfold p'; rewrite ?marked_set, ?lookup_set, ?borrowed_set; auto; fold p'.
  - apply (Permutation_NoDup (Permutation_map pw_conn (Permutation_sym Pb))). cbn. constructor; [|exact i_conns0].
    intros H. apply in_map_iff in H. destruct H as (d & Hd & H). apply New1. rewrite <- Hd. now destruct (i_known0 _ _ (i_iss0 d H)).
  - intros d H. apply (Permutation_in _ Pb) in H. destruct H as [->|H]; [now left|right; auto].
  - cbn. constructor; [|exact i_ids0]. intros H. apply in_map_iff in H. destruct H as ([i h] & Hi & H).
    destruct (i_known0 i h H) as (_ & m' & n' & E & Hn). cbn in Hi. rewrite Ec in Hi. cbn in Hi. rewrite Hi in E.
    apply conn_id_name in E. subst n'. apply New3. now apply (proj2 G1).
  - intros i h [E|H].
    + injection E as <- <-. split; [now apply (proj1 G2)|]. exists m, name. split; [now rewrite Ec|exact New4].
    + destruct (i_known0 i h H) as (Ho & m' & n' & E & Hn). split; [now apply (proj1 G)|]. exists m', n'. split; [exact E|now apply (proj2 G)].
  - intros x H. right. auto.
  - intros h H. destruct (i_lent0 h H) as [H1 H2]. split; [now apply (proj1 G)|]. intros Hi.
    apply (Permutation_in _ (idle_perm m p')) in Hi. unfold p' in Hi. rewrite queue_set, queue_set_other, <- app_assoc in Hi. cbn [app] in Hi.
    rewrite map_app in Hi. apply in_app_or in Hi. cbn [map] in Hi.
    assert (Hi' : h = pw_conn c \/ In h (idle p)).
    { destruct Hi as [Hi|[Hi|Hi]]; [right|left; auto|right];
        apply (Permutation_in _ (Permutation_sym (idle_perm m p))); rewrite map_app; apply in_or_app; auto. }
    destruct Hi' as [->|Hi']; [now apply New1|auto].
Qed.

(** A connection is lent. *)
Lemma inv_borrow iss before lt p w m c rest : queue_of m p = c :: rest -> inv iss before lt p w ->
  inv iss ((pw_id c, pw_conn c) :: before) (pw_conn c :: lt) (set_borrowed (map_set (pw_id c) c (p_borrowed p)) (set_queue m rest p)) w
  /\ ~ In (pw_conn c) lt /\ map_set (pw_id c) c (p_borrowed p) = (pw_id c, c) :: p_borrowed p.
Proof.
  intros Eq I. pose proof I as I0. destruct I. assert (Pa := all_perm m p). rewrite Eq in Pa. cbn [app] in Pa.
  set (p' := set_borrowed _ _).
  assert (Hc : In c (all_conns p)) by (apply (Permutation_in _ (Permutation_sym Pa)); now left).
  assert (Hout : ~ In (pw_id c) (map fst (p_borrowed p))).
  { intros H. apply in_map_iff in H. destruct H as ([k d] & Hk & H). cbn in Hk. subst k.
    pose proof (i_key0 _ _ H) as E.
    assert (Hd : In d (all_conns p)) by (unfold all_conns; apply in_or_app; right; apply in_or_app; right; change d with (snd (pw_id c, d)); now apply in_map).
    assert (pw_conn c = pw_conn d).
    { eapply NoDup_map_fst; [exact i_ids0|apply (i_iss0 c Hc)|]. rewrite E. now apply i_iss0. }
    apply (Permutation_NoDup (Permutation_map pw_conn Pa)) in i_conns0. cbn in i_conns0. inversion i_conns0 as [|? ? N1 N2]. apply N1.
    rewrite H0, map_app. apply in_or_app. right. rewrite map_app. apply in_or_app. right. apply in_map. change d with (snd (pw_id c, d)). now apply in_map. }
  assert (Es : map_set (pw_id c) c (p_borrowed p) = (pw_id c, c) :: p_borrowed p) by (unfold map_set; now rewrite map_del_out).
  assert (Hidle : In (pw_conn c) (idle p)).
  { apply (Permutation_in _ (Permutation_sym (idle_perm m p))). rewrite Eq. now left. }
  assert (Hlent : ~ In (pw_conn c) lt) by (intros H; now apply (i_lent0 _ H)).
  assert (Pb : Permutation (all_conns p') (all_conns p)).
  { rewrite (all_perm m p'). unfold p'.
    replace (queue_of m (set_borrowed _ (set_queue m rest p))) with rest by (unfold queue_of, set_queue; destruct (m =? WriteMode); reflexivity).
    replace (queue_of (other m) (set_borrowed _ (set_queue m rest p))) with (queue_of (other m) p) by (unfold queue_of, set_queue, other; destruct (m =? WriteMode); reflexivity).
    change (p_borrowed (set_borrowed ?a ?b)) with a. rewrite Es, Pa. cbn [map snd]. rewrite app_assoc, <- Permutation_middle, <- app_assoc. reflexivity. }
  assert (Pi : Permutation (idle p) (pw_conn c :: idle p')).
  { rewrite (idle_perm m p), Eq, (idle_perm m p'). unfold p'.
    replace (queue_of m (set_borrowed _ (set_queue m rest p))) with rest by (unfold queue_of, set_queue; destruct (m =? WriteMode); reflexivity).
    now replace (queue_of (other m) (set_borrowed _ (set_queue m rest p))) with (queue_of (other m) p) by (unfold queue_of, set_queue, other; destruct (m =? WriteMode); reflexivity). }
  split; [|auto]. constructor; auto.
  - unfold p'. change (p_marked (set_borrowed ?a ?b)) with (p_marked b). now rewrite marked_set.
  - unfold p'. change (p_lookup (set_borrowed ?a ?b)) with (p_lookup b). now rewrite lookup_set.
  - apply (Permutation_NoDup (Permutation_map pw_conn (Permutation_sym Pb))). exact i_conns0.
  - intros d H. apply (Permutation_in _ Pb) in H. auto.
  - change (p_borrowed p') with (map_set (pw_id c) c (p_borrowed p)). rewrite Es. cbn. now constructor.
  - change (p_borrowed p') with (map_set (pw_id c) c (p_borrowed p)). rewrite Es. intros k d [E|H]; [now injection E as <- <-|auto].
  - intros x [<-|H]; [now apply i_iss0|auto].
  - change (p_borrowed p') with (map_set (pw_id c) c (p_borrowed p)). rewrite Es.
    intros k d [E|H]; [injection E as <- <-; split; now left|]. destruct (i_out0 k d H). split; now right.
  - assert (N : NoDup (idle p)).
    { apply (Permutation_NoDup (Permutation_map pw_conn Pa)) in i_conns0. apply (Permutation_NoDup (Permutation_sym (idle_perm m p))).
      rewrite Eq. change (c :: rest ++ queue_of (other m) p ++ map snd (p_borrowed p)) with ((c :: rest) ++ queue_of (other m) p ++ map snd (p_borrowed p)) in i_conns0.
      rewrite app_assoc, map_app in i_conns0. clear - i_conns0. revert i_conns0. generalize (map pw_conn ((c :: rest) ++ queue_of (other m) p)). intros l N.
      induction l as [|x l IH]; [constructor|]. cbn in N. inversion N; subst. constructor; [|auto]. intros H. apply H1. apply in_or_app. now left. }
    apply (Permutation_NoDup Pi) in N. inversion N as [|? ? N1 N2]; subst.
    intros h [<-|H].
    + split; [now destruct (i_known0 _ _ (i_iss0 c Hc))|exact N1].
    + destruct (i_lent0 h H) as [H1 H2]. split; [exact H1|]. intros H3. apply H2. apply (Permutation_in _ (Permutation_sym Pi)). now right.
  - now constructor.
Qed.

(** A connection comes back. *)
Lemma without_in h l x : In x (without h l) <-> In x l /\ x <> h.
Proof. unfold without. rewrite filter_In. destruct (Nat.eqb_spec x h); cbn; intuition congruence. Qed.
Lemma without_perm h l : NoDup l -> In h l -> Permutation l (h :: without h l).
Proof.
  induction l as [|x l IH]; [intros _ []|]. intros N. inversion N as [|? ? N1 N2]; subst. unfold without. cbn [filter].
  destruct (Nat.eqb_spec x h) as [->|Hx]; cbn [negb].
  - intros _. constructor. fold (without h l). assert (E : without h l = l); [|now rewrite E].
    clear - N1. induction l as [|y l IH]; [reflexivity|]. unfold without. cbn [filter]. destruct (Nat.eqb_spec y h) as [->|]; [destruct N1; now left|].
    cbn [negb]. f_equal. apply IH. intros H. apply N1. now right.
  - intros [->|H]; [congruence|]. rewrite perm_swap. constructor. now apply IH.
Qed.
Lemma NoDup_without h l : NoDup l -> NoDup (without h l).
Proof. apply NoDup_filter. Qed.

Lemma core_borrowed_del id p : core (set_borrowed (map_del id (p_borrowed p)) p) = (p_wq p, p_rq p, map_del id (p_borrowed p), p_marked p, p_lookup p).
Proof. reflexivity. Qed.
Lemma inv_forget iss before lt p w id c : map_get (p_borrowed p) id = Some c -> inv iss before lt p w ->
  inv iss before lt (set_borrowed (map_del id (p_borrowed p)) p) w
  /\ Permutation (all_conns p) (c :: all_conns (set_borrowed (map_del id (p_borrowed p)) p)).
Proof.
  intros Eg []. assert (Pm := map_del_perm id c (p_borrowed p) i_keys0 Eg). set (p' := set_borrowed _ p).
  assert (Pb : Permutation (all_conns p) (c :: all_conns p')).
  { unfold all_conns, p'. cbn [p_wq p_rq p_borrowed set_borrowed]. rewrite (Permutation_map snd Pm). cbn [map snd].
    rewrite app_assoc, <- Permutation_middle, <- app_assoc. reflexivity. }
  split; [|exact Pb]. constructor; auto.
  - apply (Permutation_NoDup (Permutation_map pw_conn Pb)) in i_conns0. now inversion i_conns0.
  - intros d H. apply i_iss0. apply (Permutation_in _ (Permutation_sym Pb)). now right.
  - now apply map_del_keys.
  - intros k d H. cbn in H. apply map_del_in in H. now apply i_key0.
  - intros k d H. cbn in H. apply map_del_in in H. now apply i_out0.
Qed.
Lemma inv_return iss before lt p w c : inv iss before lt p w ->
  In (pw_id c, pw_conn c) iss -> ~ In (pw_conn c) (map pw_conn (all_conns p)) ->
  inv iss before (without (pw_conn c) lt) (back c p) w.
Proof.
  intros [] Hc N. unfold back. set (m := if pw_mode c =? WriteMode then WriteMode else ReadMode). set (p' := set_queue m (queue_of m p ++ [c]) p).
  assert (Pb : Permutation (all_conns p') (c :: all_conns p)).
  { rewrite (all_perm m p'). unfold p'. rewrite queue_set, queue_set_other, borrowed_set, <- app_assoc. cbn [app].
    rewrite <- Permutation_middle. constructor. symmetry. apply all_perm. }
  constructor; unfold p'; rewrite ?marked_set, ?lookup_set, ?borrowed_set; auto; fold p'.
  - apply (Permutation_NoDup (Permutation_map pw_conn (Permutation_sym Pb))). cbn. now constructor.
  - intros d H. apply (Permutation_in _ Pb) in H. destruct H as [->|H]; auto.
  - intros k d H. destruct (i_out0 k d H) as [H1 H2]. split; [exact H1|]. apply without_in. split; [exact H2|].
    intros E. apply N. rewrite <- E. apply in_map. unfold all_conns. apply in_or_app; right; apply in_or_app; right. change d with (snd (k, d)). now apply in_map.
  - intros h H. apply without_in in H. destruct H as [H Hne]. destruct (i_lent0 h H) as [H1 H2]. split; [exact H1|]. intros Hi.
    apply (Permutation_in _ (idle_perm m p')) in Hi. unfold p' in Hi. rewrite queue_set, queue_set_other, <- app_assoc in Hi. cbn [app] in Hi.
    rewrite map_app in Hi. apply in_app_or in Hi. cbn [map] in Hi. apply H2.
    apply (Permutation_in _ (Permutation_sym (idle_perm m p))). rewrite map_app. apply in_or_app.
    destruct Hi as [Hi|[Hi|Hi]]; [auto|now destruct Hne|auto].
  - now apply NoDup_without.
Qed.
Lemma inv_without iss before lt p w h : inv iss before lt p w -> ~ In h (map pw_conn (all_conns p)) -> inv iss before (without h lt) p w.
Proof.
  intros [] N. constructor; auto.
  - intros k d H. destruct (i_out0 k d H) as [H1 H2]. split; [exact H1|]. apply without_in. split; [exact H2|].
    intros E. apply N. rewrite <- E. apply in_map. unfold all_conns. apply in_or_app; right; apply in_or_app; right. change d with (snd (k, d)). now apply in_map.
  - intros x H. apply without_in in H. now apply i_lent0.
  - now apply NoDup_without.
Qed.

Lemma inv_add iss before lt p w m p' w' r : add_conn K m p w = (p', w', r) -> inv iss before lt p w ->
  exists iss', incl iss iss' /\ inv iss' before lt p' w'.
Proof.
  intros E I. eapply (add_eff K grows) in E; eauto using grows_refl, grows_trans, grows_dial, grows_valid, grows_close, grows_query, grows_name.
  destruct E as [(s & c & i & x & _ & M & _ & ->)|(G & _ & [->|[i ->]])].
  - exists ((pw_id c, pw_conn c) :: iss). split; [intros y H; now right|].
    eapply inv_core; [|eapply inv_made; [exact M|exact I]].
    rewrite core_held. unfold core, set_queue, set_index, queue_of. destruct (m =? WriteMode); reflexivity.
  - exists iss. split; [apply incl_refl|]. eapply inv_grows; eauto.
  - exists iss. split; [apply incl_refl|]. eapply inv_core; [apply core_index|]. eapply inv_grows; eauto.
Qed.
Lemma inv_times iss before lt n m : forall p w p' w' r, times n (add_conn K m) p w = (p', w', r) -> inv iss before lt p w ->
  exists iss', incl iss iss' /\ inv iss' before lt p' w'.
Proof.
  revert iss. induction n as [|n IH]; intros iss p w p' w' r; cbn [times].
  - intros [= <- <- _] I. exists iss. split; [apply incl_refl|exact I].
  - unfold bind, mbind. destruct (add_conn K m p w) as [[p1 w1] r1] eqn:E. intros E2 I.
    destruct (inv_add _ _ _ _ _ _ _ _ _ E I) as (iss1 & H1 & I1).
    destruct r1; try (injection E2 as <- <- _; eauto).
    destruct (IH iss1 _ _ _ _ _ E2 I1) as (iss2 & H2 & I2). exists iss2. split; [eapply incl_tran; eauto|exact I2].
Qed.
Lemma inv_refresh iss before lt p w p' w' r : refresh_connections K p w = (p', w', r) -> inv iss before lt p w -> inv iss before lt p' w'.
Proof.
  intros E I. eapply (refresh_eff K grows) in E; eauto using grows_refl, grows_trans, grows_dial, grows_valid, grows_close, grows_query, grows_name.
  destruct E as (G & [->|(hd & -> & _)]); [eapply inv_grows; eauto|].
  eapply inv_core; [apply core_merge; apply I|]. eapply inv_grows; eauto.
Qed.
Lemma inv_drain iss before lt m fuel p w p' w' r : drain K fuel m p w = (p', w', r) -> (length (queue_of m p) < fuel)%nat ->
  inv iss before lt p w -> inv iss before lt p' w'.
Proof.
  intros E Hl I. eapply (drain_eff K grows) in E; eauto using grows_refl, grows_trans, grows_dial, grows_valid, grows_close, grows_query, grows_name.
  destruct E as (G & gone & rest & x & Eq & -> & _). eapply inv_core; [apply core_held|]. eapply inv_drop; [exact Eq|]. eapply inv_grows; eauto.
Qed.
Lemma drain_other m fuel p w p' w' r : drain K fuel m p w = (p', w', r) -> (length (queue_of m p) < fuel)%nat ->
  queue_of (other m) p' = queue_of (other m) p.
Proof.
  intros E Hl. eapply (drain_eff K grows) in E; eauto using grows_refl, grows_trans, grows_dial, grows_valid, grows_close, grows_query, grows_name.
  destruct E as (G & gone & rest & x & Eq & -> & _). unfold queue_of, other, set_held, set_queue. destruct (m =? WriteMode); reflexivity.
Qed.

(** One operation. *)
Lemma inv_step iss before lt o p w p' w' r : do_pop K o p w = (p', w', r) -> inv iss before lt p w ->
  match o with OReclaim id h => In (id, h) before \/ ~ In id (map fst before) | _ => True end ->
  match r with RLent _ h => ~ In h lt | _ => True end
  /\ exists iss', incl iss iss' /\ inv iss' (match r with RLent id h => (id, h) :: before | _ => before end) (lent_by (o, r) lt) p' w'.
Proof.
  intros E I Hon. destruct o as [| |m|id h|]; cbn [do_pop] in E.
  - destruct (start_pool K p w) as [[p1 w1] r1] eqn:Es. injection E as <- <- <-.
    assert (exists iss', incl iss iss' /\ inv iss' before lt p1 w1) as (iss' & H1 & I').
    { unfold start_pool, get in Es. destruct (p_running p); [injection Es as <- <- _; exists iss; split; [apply incl_refl|exact I]|].
      unfold bind, mbind, upd in Es. set (p0 := set_max _ _ _) in Es.
      assert (I0 : inv iss before lt p0 w) by (eapply inv_core; [|exact I]; reflexivity).
      destruct (refresh_connections K p0 w) as [[p2 w2] r2] eqn:Er. pose proof (inv_refresh _ _ _ _ _ _ _ _ Er I0) as I2.
      destruct r2; try (injection Es as <- <- _; exists iss; split; [apply incl_refl|exact I2]).
      destruct (times (Z.to_nat (p_max_w p2)) (add_conn K WriteMode) p2 w2) as [[p3 w3] r3] eqn:Et.
      destruct (inv_times _ _ _ _ _ _ _ _ _ _ Et I2) as (iss3 & H3 & I3).
      destruct r3; try (injection Es as <- <- _; exists iss3; auto).
      destruct (inv_times _ _ _ _ _ _ _ _ _ _ Es I3) as (iss4 & H4 & I4). exists iss4. split; [eapply incl_tran; eauto|exact I4]. }
    destruct r1; cbn; (split; [trivial|exists iss'; auto]).
  - destruct (stop_pool K p w) as [[p1 w1] r1] eqn:Es. injection E as <- <- <-.
    assert (inv iss before lt p1 w1) as I'.
    { unfold stop_pool, get in Es. destruct (p_running p); [|now injection Es as <- <- _]. cbn [negb] in Es.
      unfold bind, mbind, upd in Es. set (p0 := set_running false p) in Es.
      assert (I0 : inv iss before lt p0 w) by (eapply inv_core; [|exact I]; reflexivity).
      destruct (drain K (S (length (p_rq p))) ReadMode p0 w) as [[p2 w2] r2] eqn:Er.
      assert (I2 : inv iss before lt p2 w2) by (eapply inv_drain; [exact Er| |exact I0]; cbn; lia).
      pose proof (drain_other _ _ _ _ _ _ _ Er ltac:(cbn; lia)) as Q. change (queue_of (other ReadMode) p2) with (p_wq p2) in Q. cbn in Q.
      destruct r2; try (injection Es as <- <- _; exact I2).
      eapply inv_drain; [exact Es| |exact I2]. change (queue_of WriteMode p2) with (p_wq p2). rewrite Q. lia. }
    destruct r1; cbn; (split; [trivial|exists iss; split; [apply incl_refl|exact I']]).
  - destruct (borrow K _ p w) as [[p1 w1] r1] eqn:Eb. injection E as <- <- <-.
    unfold borrow, get in Eb. eapply (borrow_eff K grows) in Eb;
      eauto using grows_refl, grows_trans, grows_dial, grows_valid, grows_close, grows_query, grows_name.
    set (m' := if m =? ReadMode then ReadMode else WriteMode) in *.
    destruct Eb as (G & sk & rest & x & Eq & [(c & rest' & -> & -> & _ & ->)|[[e ->] ->]]).
    + assert (I1 : inv iss before lt (set_queue m' (c :: rest') p) w1) by (eapply inv_drop; [exact Eq|eapply inv_grows; eauto]).
      destruct (inv_borrow _ _ _ _ _ m' c rest' (queue_set m' _ p) I1) as (I2 & N & _).
      cbn. split; [exact N|]. exists iss. split; [apply incl_refl|].
      eapply inv_core; [|exact I2]. unfold core, set_queue. destruct (m' =? WriteMode); reflexivity.
    + cbn. split; [trivial|]. exists iss. split; [apply incl_refl|]. eapply inv_core; [apply core_held|]. eapply inv_drop; [exact Eq|]. eapply inv_grows; eauto.
  - destruct (reclaim K id h p w) as [[p1 w1] r1] eqn:Er. injection E as <- <- <-.
    eapply (reclaim_eff K grows) in Er; eauto using grows_refl, grows_trans, grows_dial, grows_valid, grows_close, grows_query, grows_name.
    destruct Er as [(G & -> & [e ->] & _)|(_ & c & x & Eg & D)].
    + cbn. split; [trivial|]. exists iss. split; [apply incl_refl|]. eapply inv_grows; eauto.
    + pose proof I as I0. destruct I0. assert (Hin := map_get_in _ _ _ Eg). destruct (i_out0 _ _ Hin) as [Hb Hl].
      assert (Hh : pw_conn c = h).
      { destruct Hon as [Hon|Hon]; [|destruct Hon; change id with (fst (id, pw_conn c)); now apply in_map].
        eapply NoDup_map_fst; [exact i_ids0| |]; apply i_before0; eauto. }
      destruct (inv_forget _ _ _ _ _ _ _ Eg I) as [I1 Pb]. set (q := set_borrowed _ p) in *.
      assert (N : ~ In (pw_conn c) (map pw_conn (all_conns q))).
      { apply (Permutation_NoDup (Permutation_map pw_conn Pb)) in i_conns0. now inversion i_conns0. }
      assert (I1' : inv iss before lt (set_held x q) w) by (eapply inv_core; [apply core_held|exact I1]).
      cbv zeta in D. destruct D as [(G & -> & ->)|(w2 & e & w0 & _ & _ & G & Ea)].
      * cbn. split; [trivial|]. exists iss. split; [apply incl_refl|]. rewrite <- Hh. apply inv_return.
        -- eapply inv_grows; eauto.
        -- pose proof (i_key0 _ _ Hin) as Ek. rewrite <- Ek. now apply i_before0.
        -- exact N.
      * assert (I2 : inv iss before lt (set_held x q) w2) by (eapply inv_grows; eauto).
        destruct r1 as [u|e'| |]; cbn [result_of lent_by]; (split; [trivial|]);
          try solve [destruct (inv_add _ _ _ _ _ _ _ _ _ Ea I2) as (iss' & H' & I'); exists iss'; auto].
        destruct (inv_add iss before (without h lt) _ _ _ _ _ _ Ea) as (iss' & H' & I').
        { apply inv_without; [exact I2|]. rewrite <- Hh. exact N. }
        exists iss'. auto.
  - destruct (refresh_round K p w) as [[p1 w1] r1] eqn:Er. injection E as <- <- <-.
    assert (inv iss before lt p1 w1) as I'.
    { unfold refresh_round, bind, mbind in Er. destruct (refresh_connections K p w) as [[p2 w2] r2] eqn:E2.
      pose proof (inv_refresh _ _ _ _ _ _ _ _ E2 I) as I2. destruct r2; try (injection Er as <- <- _; exact I2).
      rewrite (prune_nothing K p2 w2) in Er by apply I2. rewrite balance_nothing in Er by lia. now injection Er as <- <- _. }
    destruct r1; cbn; (split; [trivial|exists iss; split; [apply incl_refl|exact I']]).
Qed.

Lemma inv_run os : forall iss before lt p w p' w' l, run_pool K os p w = (p', w', l) -> honest before l -> inv iss before lt p w ->
  exclusive lt l /\ exists iss' before', incl iss iss' /\ inv iss' before' (fold_left (fun acc x => lent_by x acc) l lt) p' w'.
Proof.
  induction os as [|o os IH]; intros iss before lt p w p' w' l; cbn [run_pool].
  - intros [= <- <- <-] _ I. cbn. split; [trivial|]. exists iss, before. split; [apply incl_refl|exact I].
  - destruct (do_pop K o p w) as [[p1 w1] r] eqn:E1. destruct (run_pool K os p1 w1) as [[p2 w2] l'] eqn:E2. intros [= <- <- <-].
    cbn [honest]. intros [H1 H2] I. destruct (inv_step _ _ _ _ _ _ _ _ _ E1 I H1) as (X & iss1 & S1 & I1).
    destruct (IH _ _ _ _ _ _ _ _ E2 H2 I1) as (Y & iss2 & b2 & S2 & I2).
    cbn [exclusive fold_left snd]. split; [split; [exact X|exact Y]|]. exists iss2, b2. split; [eapply incl_tran; eauto|exact I2].
Qed.
Lemma inv_new leader n auth tls p w : new_routing_pool leader n auth tls = Ok p -> inv [] [] [] p w.
Proof.
  unfold new_routing_pool. destruct (bytes_eqb leader []); [discriminate|]. destruct (_ || _); [discriminate|].
  intros [= <-]. constructor; cbn; try constructor; try easy; intros; contradiction.
Qed.

Theorem lending n auth tls w0 l p w : pool_history K n auth tls w0 l p w -> honest [] l ->
  exclusive [] l /\ NoDup (lent l) /\ NoDup (idle p) /\ forall h, In h (lent l) -> ~ In h (idle p).
Proof.
  intros (leader & p0 & En & Er) Ho. destruct (inv_run _ _ _ _ _ _ _ _ _ Er Ho (inv_new _ _ _ _ _ w0 En)) as (X & iss & b & _ & I).
  split; [exact X|]. destruct I. split; [exact i_once0|]. split; [|intros h H; now apply i_lent0].
  apply (Permutation_NoDup (Permutation_sym (idle_perm WriteMode p))).
  apply (Permutation_NoDup (Permutation_map pw_conn (all_perm WriteMode p))) in i_conns0. rewrite app_assoc, map_app in i_conns0.
  revert i_conns0. generalize (map pw_conn (queue_of WriteMode p ++ queue_of (other WriteMode) p)). clear.
  intros l' N. induction l' as [|x l' IH]; [constructor|]. cbn in N. inversion N; subst. constructor; [|auto]. intros H. apply H1. apply in_or_app. now left.
Qed.
End Lending.
