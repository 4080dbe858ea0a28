(** A routing pool whose borrowers leave no transactions behind. *)
From Coq Require Import String ZArith List Bool Lia.
From Verif Require Import Bytes GoVal GoErr SpecValues SpecCodec SpecServer Messages Connection Link CallFacts ServeFacts Wire WireFacts SpecSession OpenFacts
  SessionFacts TxFacts SpecShare RestFacts SettingsFacts SpecJourney JourneyFacts CaseFacts HolderFacts SpecHolder SpecManners TouchFacts.
From Verif Require Import Pool.
From Verif Require SpecPool PoolFacts LendFacts WatchPoolFacts RouteShare RouteFacts SteadyFacts PoolCases.
Import SpecPool(kevent(..), watch, fresh, lent, lent_by).
Import ListNotations.
Open Scope Z_scope.

(** Only Begin begins a transaction. *)
Lemma none_begun p P user password l c w o c' w' r : session polite p P user password l (c, w) -> polite c o -> (forall db, o <> CBegin db) ->
  does (wired P) o (c, w) (c', w') r -> c_transaction c = None -> c_transaction c' = None.
Proof.
  intros Hs [Hc _] Hb Hd Hn. destruct (session_tied _ _ _ _ _ _ _ Hs) as (s & L & _ & HP & _).
  destruct (wire_does P (codec p) HP o c w s c' w' r L Hc Hd) as (s' & E & _).
  assert (X : forall k t, c_transaction (fst (fst (a_end (p_judge P) k c s t))) = None).
  { intros k t. unfold a_end. destruct (tx_closed c t) eqn:Et; [exact Hn|]. apply (i_txs _ _ (l_inv _ _ _ _ _ L)) in Et. congruence. }
  destruct o; cbn [astep] in E; try (injection E as <- _ _; exact Hn).
  - now elim (Hb db).
  - specialize (X KCommit t). destruct (a_end (p_judge P) KCommit c s t) as [[? ?] ?]. injection E as <- _ _. exact X.
  - specialize (X KRollback t). destruct (a_end (p_judge P) KRollback c s t) as [[? ?] ?]. injection E as <- _ _. exact X.
  - unfold a_close, a_idle in E. rewrite Hn in E. destruct (c_closed c); injection E as <- _ _; exact Hn.
  - unfold a_idle in E. rewrite Hn in E. injection E as <- _ _. exact Hn.
Qed.
Lemma overview_polite p P user password w0 : conforming p P -> zlen user <= 65535 -> zlen password <= 65535 -> opens (wired P) user password new_wire w0 (Ok tt) ->
  session polite p P user password [] w0 /\ c_transaction (fst w0) = None /\ polite (fst w0) (overview_of (fst w0)).
Proof.
  intros Hc Hu Hp Ho. destruct w0 as [c0 w0]. split.
  { split; [exact Hc|]. split; [exact Hu|]. split; [exact Hp|]. exists (c0, w0). split; [exact Ho|constructor]. }
  destruct Hc as [H1 H2 H3]. destruct (open_does P p user password c0 w0 (Ok tt) H1 H2 H3 Hu Hp Ho) as [-> _]. cbn [fst]. split; [reflexivity|].
  split; [apply overview_clean; exact (open_settings _ _ _ _ _ _ Ho)|]. cbn. destruct p; vm_compute; reflexivity.
Qed.

(** ** What the pool has lent *)
Fixpoint lendings (l : list (pop * presult)) : list (bytes * nat) :=
  match l with [] => [] | (_, RLent id h) :: l' => lendings l' ++ [(id, h)] | _ :: l' => lendings l' end.
Lemma lendings_more l o r : lendings (l ++ [(o, r)]) = match r with RLent id h => (id, h) :: lendings l | _ => lendings l end.
Proof.
  induction l as [|[o1 r1] l IH]; cbn [app lendings]; [destruct r; reflexivity|]. rewrite IH. destruct r1; try reflexivity. now destruct r.
Qed.
Lemma lendings_in l o id h : In (o, RLent id h) l -> In (id, h) (lendings l).
Proof.
  induction l as [|[o1 r1] l IH]; [easy|]. intros [[= -> ->]|H]; [apply in_or_app; right; now left|]. apply IH in H. cbn. destruct r1; try exact H. apply in_or_app. now left.
Qed.
Lemma lent_more l x : lent (l ++ [x]) = lent_by x (lent l).
Proof. unfold lent. now rewrite fold_left_app. Qed.
Section Lent.
Context {W : Type}.
Variables (K : cluster W) (opened : W -> list nat) (named : W -> list bytes).
Hypothesis Fr : fresh K opened named.
Notation WT := (W * list kevent)%type.
Notation Lend := (LendFacts.inv (fun x : WT => opened (fst x)) (fun x : WT => named (fst x))).

(** A connection that is dialled is new. *)
Definition dials_new (a b : WT) : Prop :=
  incl (opened (fst a)) (opened (fst b)) /\ exists new, snd b = new ++ snd a /\ forall s h, In (KDial s (Ok h)) new -> ~ In h (opened (fst a)).
Lemma dials_new_quiet a b e : incl (opened (fst a)) (opened (fst b)) -> snd b = e :: snd a -> (forall s h, e <> KDial s (Ok h)) -> dials_new a b.
Proof. intros H1 H2 H3. split; [exact H1|]. exists [e]. split; [exact H2|]. intros s h [X|[]]. now elim (H3 s h). Qed.
Lemma dials_new_trans a b c : dials_new a b -> dials_new b c -> dials_new a c.
Proof.
  intros (A1 & n1 & A2 & A3) (B1 & n2 & B2 & B3). split; [eapply incl_tran; eassumption|]. exists (n2 ++ n1). split; [now rewrite B2, A2, app_assoc|].
  intros s h H. apply in_app_or in H. destruct H as [H|H]; [|eauto]. intros X. exact (B3 s h H (A1 h X)).
Qed.
Lemma dials_new_dial s x : dials_new x (fst (k_dial (watch K) s x)).
Proof.
  destruct x as [w tr]. cbn. destruct (k_dial K s w) as [w' r] eqn:E. cbn. pose proof (proj1 (SpecPool.f_dial _ _ _ Fr s w)) as I. rewrite E in I.
  split; [exact I|]. exists [KDial s r]. split; [reflexivity|]. intros s' h [[= <- ->]|[]]. exact (proj1 (SpecPool.f_new _ _ _ Fr _ _ _ _ E)).
Qed.
Lemma dials_new_query h x : dials_new x (fst (k_query (watch K) h x)).
Proof.
  destruct x as [w tr]. cbn. destruct (k_query K h w) as [w' [v r]] eqn:E. pose proof (proj1 (SpecPool.f_query _ _ _ Fr h w)) as I. rewrite E in I.
  now apply (dials_new_quiet (w, tr) (w', KQuery h v r :: tr) (KQuery h v r)).
Qed.
Lemma dials_new_pop o q x q' x' r : do_pop (watch K) o q x = (q', x', r) -> dials_new x x'.
Proof.
  apply (RouteShare.pop_R (watch K) dials_new).
  - intros a. split; [apply incl_refl|]. exists []. split; [reflexivity|intros ? ? []].
  - exact dials_new_trans.
  - exact dials_new_dial.
  - intros h [w tr]. cbn. destruct (k_valid K h w) as [w' b] eqn:E. pose proof (proj1 (SpecPool.f_valid _ _ _ Fr h w)) as I. rewrite E in I.
    now apply (dials_new_quiet (w, tr) (w', KValid h b :: tr) (KValid h b)).
  - intros h [w tr]. cbn. destruct (k_close K h w) as [w' b] eqn:E. pose proof (proj1 (SpecPool.f_close _ _ _ Fr h w)) as I. rewrite E in I.
    now apply (dials_new_quiet (w, tr) (w', KClose h b :: tr) (KClose h b)).
  - intros [w tr]. cbn. destruct (k_name K w) as [w' b] eqn:E. pose proof (proj1 (SpecPool.f_name _ _ _ Fr w)) as I. rewrite E in I.
    split; [exact I|]. exists []. split; [reflexivity|intros ? ? []].
  - intros s y y1 h E. apply dials_new_trans with (b := y1); [pose proof (dials_new_dial s y) as X; now rewrite E in X|apply dials_new_query].
Qed.
Lemma lent_alone iss l q w tr o q' w' new r h : Lend iss (lendings l) (lent l) q (w, tr) -> In h (lent l) ->
  match o with OReclaim id d => d <> h /\ exists m, In (OBorrow m, RLent id d) l | _ => True end ->
  do_pop (watch K) o q (w, tr) = (q', (w', new ++ tr), r) -> forall e, In e new -> dealt e <> Some h /\ forall s, e <> KDial s (Ok h).
Proof.
  intros I Hh Ho E e He. destruct (LendFacts.i_lent _ _ _ _ _ _ _ I h Hh) as [H1 H2]. cbn [fst] in H1.
  destruct (dials_new_pop _ _ _ _ _ _ E) as (_ & n & En & Hn). cbn [fst snd] in *. apply app_inv_tail in En. subst n. split; [|intros s ->; exact (Hn s h He H1)].
  intros Hd. destruct (pop_dealt K _ _ _ _ _ _ _ _ E) as (n & En & X). apply app_inv_tail in En. subst n.
  destruct (X e h He Hd) as [Y|[(id & d & -> & Y)|[s Y]]]; [contradiction| |exact (Hn s h Y H1)].
  destruct Ho as [N [m Hm]]. destruct Y as [->|(c & Y & <-)]; [now elim N|].
  apply N, (LendFacts.NoDup_map_fst iss id d (pw_conn c)); [exact (LendFacts.i_ids _ _ _ _ _ _ _ I)|..].
  - apply (LendFacts.i_before _ _ _ _ _ _ _ I). exact (lendings_in _ _ _ _ Hm).
  - apply (LendFacts.i_before _ _ _ _ _ _ _ I). apply (LendFacts.i_out _ _ _ _ _ _ _ I id c). now apply PoolFacts.map_get_in.
Qed.
Lemma courteous_lends auth tls leader n q0 w0 l q w tr : new_routing_pool leader n auth tls = Ok q0 ->
  courteous K (any_use opened named) (fun _ _ => True) q0 w0 l q w tr -> exists iss, Lend iss (lendings l) (lent l) q (w, tr).
Proof.
  intros En. induction 1 as [|l q w tr o q' w' tr' r C [iss IH] Ho E|l q w tr h w' C [iss IH] Hh [U1 U2]].
  - exists []. exact (LendFacts.inv_new _ _ _ _ _ _ _ (w0, []) En).
  - destruct (LendFacts.inv_step (watch K) _ _ (WatchPoolFacts.fresh_watch K opened named Fr) _ _ _ _ _ _ _ _ _ E IH) as (_ & iss' & _ & I).
    + destruct o; try exact Logic.I. destruct Ho as (_ & [m Hm] & _). left. exact (lendings_in _ _ _ _ Hm).
    + exists iss'. rewrite lendings_more, lent_more. exact I.
  - exists iss. apply (LendFacts.inv_grows _ _ _ _ _ _ (w, tr)); [exact IH|]. unfold LendFacts.grows. cbn. rewrite U1, U2. split; apply incl_refl.
Qed.
Theorem left_alone auth tls leader n q0 w0 l q w tr o q' w' new r h : new_routing_pool leader n auth tls = Ok q0 ->
  courteous K (any_use opened named) (fun _ _ => True) q0 w0 l q w tr -> In h (lent l) ->
  match o with OReclaim id d => d <> h /\ exists m, In (OBorrow m, RLent id d) l | _ => True end ->
  do_pop (watch K) o q (w, tr) = (q', (w', new ++ tr), r) -> forall e, In e new -> dealt e <> Some h /\ forall s, e <> KDial s (Ok h).
Proof. intros En C. destruct (courteous_lends _ _ _ _ _ _ _ _ _ _ En C) as [iss I]. now apply (lent_alone iss). Qed.
End Lent.

Section Manners.
Context {W : Type}.
Variables (K : cluster W) (opened : W -> list nat) (named : W -> list bytes) (p : nat -> proto) (P : nat -> peer) (cell : W -> nat -> conn * wire).
Hypothesis Fr : fresh K opened named.
Hypothesis Cl : cluster_sessions K opened p P cell.
Hypothesis Ao : asks_overview K opened P cell.
Notation WT := (W * list kevent)%type.

Definition dialled (x : WT) (h : nat) : Prop := exists s, In (KDial s (Ok h)) (snd x).
Definition proper (x : WT) : Prop := forall h, dialled x h -> In h (opened (fst x)) /\ exists u pw l, session polite (p h) (P h) u pw l (cell (fst x) h).
Definition at_ease (x : WT) (h : nat) : Prop := dialled x h -> c_transaction (fst (cell (fst x) h)) = None.
Definition looked (e : kevent) (x : WT) : Prop := forall h, e = KValid h true -> dialled x h -> c_closed (fst (cell (fst x) h)) = false.
Definition leaves (a b : WT) : Prop := proper a ->
  proper b /\ (forall h, at_ease a h -> at_ease b h)
  /\ ((snd b = snd a /\ forall d, cell (fst b) d = cell (fst a) d) \/ exists e new, snd b = e :: new ++ snd a /\ looked e b).
Lemma leaves_refl a : leaves a a.
Proof. intros H. split; [exact H|]. split; [auto|]. now left. Qed.
Lemma leaves_trans a b c : leaves a b -> leaves b c -> leaves a c.
Proof.
  intros H1 H2 Ha. destruct (H1 Ha) as (P1 & E1 & D1). destruct (H2 P1) as (P2 & E2 & D2). split; [exact P2|]. split; [auto|].
  destruct D2 as [[D2 C2]|(e & new & D2 & C2)].
  - destruct D1 as [[D1 C1]|(e & new & D1 & C1)]; [left; split; [congruence|intros d; now rewrite C2]|].
    right. exists e, new. split; [congruence|]. intros h -> Hd. rewrite C2. apply C1; [reflexivity|]. unfold dialled in *. now rewrite <- D2.
  - right. exists e. destruct D1 as [[D1 _]|(e1 & new1 & D1 & _)]; [exists new; split; [congruence|exact C2]|].
    exists (new ++ e1 :: new1). split; [|exact C2]. rewrite D2, D1. cbn. now rewrite <- app_assoc.
Qed.
(** A call on [h] by the pool, or none. *)
Lemma leaves_call w w' tr e h o : opened w' = opened w -> (forall d, d <> h -> cell w' d = cell w d) -> (forall s d, e <> KDial s (Ok d)) ->
  (dialled (w, tr) h -> cell w' h = cell w h \/ polite (fst (cell w h)) o /\ (forall db, o <> CBegin db) /\ exists r, does (wired (P h)) o (cell w h) (cell w' h) r) ->
  (forall d, e = KValid d true -> proper (w, tr) -> dialled (w, tr) d -> c_closed (fst (cell w' d)) = false) ->
  leaves (w, tr) (w', e :: tr).
Proof.
  intros Eo Eh Ee Hd Hv Hp.
  assert (D : forall d, dialled (w', e :: tr) d -> dialled (w, tr) d).
  { intros d [s [X|X]]; [now elim (Ee _ _ X)|now exists s]. }
  split; [|split].
  - intros d Hdd. apply D in Hdd. destruct (Hp d Hdd) as (Hi & u & pw & l & Hl). cbn [fst] in *. rewrite Eo. split; [exact Hi|].
    destruct (Nat.eq_dec d h) as [->|N]; [|rewrite Eh by exact N; eauto].
    destruct (Hd Hdd) as [->|(Hc & _ & r & Hx)]; [eauto|]. exists u, pw, (l ++ [(o, r)]). exact (session_more _ _ _ _ _ _ _ _ _ _ Hl Hc Hx).
  - intros d Ha Hdd. apply D in Hdd. specialize (Ha Hdd). cbn [fst] in *. destruct (Nat.eq_dec d h) as [->|N]; [|now rewrite Eh].
    destruct (Hd Hdd) as [->|(Hc & Hb & r & Hx)]; [exact Ha|]. destruct (Hp h Hdd) as (_ & u & pw & l & Hl). cbn [fst] in Hl.
    destruct (cell w h) as [c k], (cell w' h) as [c' k']. exact (none_begun _ _ _ _ _ _ _ _ _ _ _ Hl Hc Hb Hx Ha).
  - right. exists e, []. split; [reflexivity|]. intros d -> Hdd. apply D in Hdd. exact (Hv d eq_refl Hp Hdd).
Qed.
Lemma leaves_valid h x : leaves x (fst (k_valid (watch K) h x)).
Proof.
  destruct x as [w tr]. cbn. destruct (k_valid K h w) as [w' b] eqn:E. cbn. destruct (cs_valid _ _ _ _ _ Cl _ _ _ _ E) as (H1 & H2 & H3). intros Hp.
  refine (leaves_call w w' tr (KValid h b) h CValidate H1 H2 ltac:(discriminate) _ _ Hp).
  - intros Hd. right. split; [split; exact Logic.I|]. split; [discriminate|]. exists (Ok (ABool b)). apply H3. exact (proj1 (Hp h Hd)).
  - intros d [= <- ->] _ Hd. destruct (Hp h Hd) as (Hi & u & pw & l & Hl). specialize (H3 Hi). cbn [fst] in *.
    destruct (cell w h) as [c k], (cell w' h) as [c' k'].
    destruct (validate_same _ _ _ _ _ _ _ _ _ _ (session_polite _ _ _ _ _ _ Hl) H3) as [[= -> ->] X]. now apply X.
Qed.
Lemma leaves_close h x : leaves x (fst (k_close (watch K) h x)).
Proof.
  destruct x as [w tr]. cbn. destruct (k_close K h w) as [w' b] eqn:E. cbn. destruct (cs_close _ _ _ _ _ Cl _ _ _ _ E) as (H1 & H2 & H3). intros Hp.
  refine (leaves_call w w' tr (KClose h b) h CClose H1 H2 ltac:(discriminate) _ ltac:(discriminate) Hp).
  intros Hd. destruct (H3 (proj1 (Hp h Hd))) as [X|(r & X & _)]; [now left|right]. split; [split; exact Logic.I|]. split; [discriminate|]. now exists r.
Qed.
Lemma leaves_name x : leaves x (fst (k_name (watch K) x)).
Proof.
  destruct x as [w tr]. cbn. pose proof (cs_name _ _ _ _ _ Cl w) as [H1 H2]. destruct (k_name K w) as [w' n]. cbn in *. intros Hp. split; [|split].
  - intros d Hd. cbn [fst]. rewrite H1, H2. now apply Hp.
  - intros d Ha Hd. cbn [fst]. rewrite H2. now apply Ha.
  - left. split; [reflexivity|exact H2].
Qed.
Lemma leaves_dial s x : leaves x (fst (k_dial (watch K) s x)).
Proof.
  destruct x as [w tr]. cbn. destruct (k_dial K s w) as [w' r] eqn:E. cbn. destruct (cs_dial _ _ _ _ _ Cl _ _ _ _ E) as [H1 H2]. intros Hp.
  assert (D : forall d, dialled (w', KDial s r :: tr) d -> r = Ok d \/ dialled (w, tr) d).
  { intros d [s' [X|X]]; [left; congruence|right; now exists s']. }
  split; [|split].
  - intros d Hd. cbn [fst]. destruct (D d Hd) as [->|Hd'].
    + split; [exact (proj2 (SpecPool.f_new _ _ _ Fr _ _ _ _ E))|]. destruct (H2 d eq_refl) as (u & pw & B1 & B2 & Ho).
      exists u, pw, []. apply (overview_polite _ _ _ _ _ (cs_peers _ _ _ _ _ Cl d) B1 B2 Ho).
    + destruct (Hp d Hd') as (Hi & X). cbn [fst] in *. split; [|now rewrite (H1 d Hi)]. pose proof (proj1 (SpecPool.f_dial _ _ _ Fr s w)) as I. rewrite E in I. now apply I.
  - intros d Ha Hd. cbn [fst]. destruct (D d Hd) as [->|Hd'].
    + destruct (H2 d eq_refl) as (u & pw & B1 & B2 & Ho). apply (overview_polite _ _ _ _ _ (cs_peers _ _ _ _ _ Cl d) B1 B2 Ho).
    + rewrite (H1 d) by exact (proj1 (Hp d Hd')). now apply Ha.
  - right. exists (KDial s r), []. split; [reflexivity|]. intros d X. discriminate X.
Qed.
Lemma leaves_ask s x x1 h : k_dial (watch K) s x = (x1, Ok h) -> leaves x (fst (k_query (watch K) h x1)).
Proof.
  intros Ed. apply leaves_trans with (b := x1); [pose proof (leaves_dial s x) as L; now rewrite Ed in L|].
  destruct x as [w tr]. cbn in Ed. destruct (k_dial K s w) as [w1 r1] eqn:E. injection Ed as <- ->. cbn.
  destruct (k_query K h w1) as [w2 [v r]] eqn:Eq. cbn. destruct (cs_query _ _ _ _ _ Cl _ _ _ _ _ Eq) as (H1 & H2 & _). intros Hp.
  refine (leaves_call w1 w2 (KDial s (Ok h) :: tr) (KQuery h v r) h _ H1 H2 ltac:(discriminate) _ ltac:(discriminate) Hp).
  intros Hd. pose proof (Ao _ _ _ _ _ Eq (proj1 (Hp h Hd))) as X. cbn [fst] in X. destruct X as [X|[r' X]]; [now left|right].
  destruct (proj2 (cs_dial _ _ _ _ _ Cl _ _ _ _ E) h eq_refl) as (u & pw & B1 & B2 & Ho).
  split; [apply (overview_polite _ _ _ _ _ (cs_peers _ _ _ _ _ Cl h) B1 B2 Ho)|]. split; [discriminate|]. now exists r'.
Qed.
Lemma leaves_pop o q x q' x' r : do_pop (watch K) o q x = (q', x', r) -> leaves x x'.
Proof.
  apply (RouteShare.pop_R (watch K) leaves); [exact leaves_refl|exact leaves_trans|exact leaves_dial|exact leaves_valid|exact leaves_close|exact leaves_name|exact leaves_ask].
Qed.

(** Along a history. *)
Variables (auth tls : bytes).
Notation Lend := (LendFacts.inv (fun x : WT => opened (fst x)) (fun x : WT => named (fst x))).
Record in_manners (l : list (pop * presult)) (q : pool) (x : WT) : Prop := mkInManners {
  im_proper : proper x;
  im_lend : exists iss, Lend iss (lendings l) (lent l) q x;
  im_lookup : p_lookup q = [];
  im_marked : p_marked q = [];
  im_routed : RouteFacts.routed auth tls q x;
  im_dialled h : In h (lent l) -> dialled x h;
  im_ease h : ~ In h (lent l) -> at_ease x h
}.
Lemma dialled_more o q x q' x' r h : do_pop (watch K) o q x = (q', x', r) -> dialled x h -> dialled x' h.
Proof. intros E [s H]. exists s. exact (WatchPoolFacts.longer_in _ _ _ (WatchPoolFacts.pop_longer _ _ _ _ _ _ _ E) H). Qed.
Lemma only_borrow o q x q' x' id h : do_pop (watch K) o q x = (q', x', RLent id h) -> exists m, o = OBorrow m.
Proof.
  destruct o as [| |m|i d|]; cbn [do_pop]; [..|eauto| |].
  - destruct (start_pool _ _ _) as [[? ?] []]; discriminate.
  - destruct (stop_pool _ _ _) as [[? ?] []]; discriminate.
  - destruct (reclaim _ _ _ _ _) as [[? ?] []]; discriminate.
  - destruct (refresh_round _ _ _) as [[? ?] []]; discriminate.
Qed.
Lemma in_manners_pop l q x o q' x' r : in_manners l q x ->
  match o with OReclaim id h => In h (lent l) /\ (exists m, In (OBorrow m, RLent id h) l) /\ no_loose_ends (fst (cell (fst x) h)) | _ => True end ->
  do_pop (watch K) o q x = (q', x', r) ->
  in_manners (l ++ [(o, r)]) q' x' /\ match r with RLent _ h => ~ In h (lent l) /\ dialled x' h /\ at_ease x' h | _ => True end.
Proof.
  intros [I1 [iss I2] I3 I4 I5 I6 I7] Ho E.
  assert (Hon : match o with OReclaim id h => In (id, h) (lendings l) \/ ~ In id (map fst (lendings l)) | _ => True end).
  { destruct o; try exact Logic.I. destruct Ho as (_ & [m Hm] & _). left. exact (lendings_in _ _ _ _ Hm). }
  destruct (LendFacts.inv_step (watch K) _ _ (WatchPoolFacts.fresh_watch K opened named Fr) _ _ _ _ _ _ _ _ _ E I2 Hon) as (X & iss' & _ & I2').
  destruct (leaves_pop _ _ _ _ _ _ E I1) as (L1 & L2 & _).
  pose proof (SteadyFacts.steady_step _ _ _ _ _ _ _ E I3 I4) as St. unfold SteadyFacts.steady in St.
  destruct (RouteFacts.routed_step _ _ _ _ _ _ _ _ _ E I3 I4 I5) as [R1 R2].
  assert (Y : match r with RLent id h => dialled x' h /\ exists m, o = OBorrow m | _ => True end).
  { destruct r as [id h| | | |]; try exact Logic.I. destruct (only_borrow _ _ _ _ _ _ _ E) as [m ->]. split; [|now exists m].
    destruct R2 as (tr1 & s & tr0 & _ & _ & _ & R2 & _). exists s. rewrite R2. apply in_or_app. right. now left. }
  assert (Z : forall h, ~ In h (lent_by (o, r) (lent l)) -> at_ease x' h).
  { intros h Hh. apply L2. destruct (in_dec Nat.eq_dec h (lent l)) as [Hi|Hn]; [|now apply I7].
    destruct o as [| |m|id d|]; try (elim Hh; exact Hi); destruct r as [id' h'| | | |]; try (elim Hh; exact Hi); [elim Hh; now right|].
    cbn in Hh. destruct (Nat.eq_dec h d) as [->|N]; [|elim Hh; now apply LendFacts.without_in].
    intros Hd. destruct Ho as (_ & _ & Hf). destruct (I1 d Hd) as (_ & u & pw & ll & Hl).
    destruct (cell (fst x) d) as [c k] eqn:Ec. destruct (session_tied _ _ _ _ _ _ _ Hl) as (s & L & _). exact (no_tx c s (l_inv _ _ _ _ _ L) Hf). }
  split.
  - constructor; try congruence; auto.
    + exists iss'. rewrite lendings_more, lent_more. exact I2'.
    + intros h. rewrite lent_more. intros Hh. assert (D : In h (lent l) \/ exists id, r = RLent id h).
      { destruct o as [| |m|id d|]; try (left; exact Hh); destruct r as [id' h'| | | |]; try (left; exact Hh);
          [destruct Hh as [->|Hh]; [right; now exists id'|left; exact Hh]|left; apply LendFacts.without_in in Hh; apply Hh]. }
      destruct D as [D|[id ->]]; [exact (dialled_more _ _ _ _ _ _ _ E (I6 h D))|apply Y].
    + intros h. rewrite lent_more. apply Z.
  - destruct r as [id h| | | |]; try exact Logic.I. split; [exact X|]. split; [apply Y|]. apply L2. now apply I7.
Qed.
Lemma courteous_manners leader n q0 w0 l q w tr : new_routing_pool leader n auth tls = Ok q0 ->
  courteous K (holder_use opened named P cell) (fun h w => no_loose_ends (fst (cell w h))) q0 w0 l q w tr -> in_manners l q (w, tr).
Proof.
  intros En. induction 1 as [|l q w tr o q' w' tr' r C IH Ho E|l q w tr h w' C IH Hh (U1 & U2 & U3 & o & r & Hc & Hd)].
  - constructor; try easy.
    + intros h [s []].
    + exists []. exact (LendFacts.inv_new _ _ _ _ _ _ _ (w0, []) En).
    + unfold new_routing_pool in En. destruct (bytes_eqb leader []); [discriminate|]. destruct (_ || _); [discriminate|]. now injection En as <-.
    + unfold new_routing_pool in En. destruct (bytes_eqb leader []); [discriminate|]. destruct (_ || _); [discriminate|]. now injection En as <-.
    + eapply RouteFacts.routed_new; eauto.
    + intros h _ [s []].
  - exact (proj1 (in_manners_pop _ _ _ _ _ _ _ IH Ho E)).
  - destruct IH as [I1 [iss I2] I3 I4 I5 I6 I7]. constructor; auto.
    + intros d Hdd. destruct (I1 d Hdd) as (Hi & u & pw & ll & Hl). cbn [fst] in *. rewrite U2. split; [exact Hi|].
      destruct (Nat.eq_dec d h) as [->|N]; [|rewrite U3 by exact N; eauto]. exists u, pw, (ll ++ [(o, r)]). exact (session_more _ _ _ _ _ _ _ _ _ _ Hl Hc Hd).
    + exists iss. apply (LendFacts.inv_grows _ _ _ _ _ _ (w, tr)); [exact I2|]. unfold LendFacts.grows. cbn. rewrite U1, U2. split; apply incl_refl.
    + destruct I5 as [? ? ? ? ? ? ? ? ?]. constructor; assumption.
    + intros d Hn Hdd. cbn [fst]. rewrite U3 by (intros ->; contradiction). now apply I7.
Qed.
Theorem lends_rested leader n q0 w0 l q w tr m q' w' tr' id h : new_routing_pool leader n auth tls = Ok q0 ->
  courteous K (holder_use opened named P cell) (fun h w => no_loose_ends (fst (cell w h))) q0 w0 l q w tr ->
  do_pop (watch K) (OBorrow m) q (w, tr) = (q', (w', tr'), RLent id h) ->
  ~ In h (lent l) /\ c_closed (fst (cell w' h)) = false /\ rested (cell w' h).
Proof.
  intros En C E. pose proof (courteous_manners _ _ _ _ _ _ _ _ En C) as I.
  destruct (in_manners_pop _ _ _ (OBorrow m) _ _ _ I Logic.I E) as (I' & X & Hd & Ha). split; [exact X|].
  assert (Hc : c_closed (fst (cell w' h)) = false).
  { destruct (leaves_pop _ _ _ _ _ _ E (im_proper _ _ _ I)) as (_ & _ & D). cbn [fst snd] in D.
    destruct (PoolCases.borrow_tested _ _ _ _ _ _ _ _ _ E) as (new & -> & [(id' & h' & new' & [= <- <-] & _ & _ & ->)|(e & Y & _)]); [|discriminate Y].
    destruct D as [[D _]|(e & new & D & L)].
    - exfalso. apply (f_equal (@List.length _)) in D. cbn in D. rewrite app_length in D. lia.
    - injection D as <- _. exact (L h eq_refl Hd). }
  split; [exact Hc|]. destruct (im_proper _ _ _ I' h Hd) as (_ & u & pw & ll & Hl). specialize (Ha Hd). cbn [fst] in *.
  destruct (cell w' h) as [c k]. destruct (session_tied _ _ _ _ _ _ _ Hl) as (s & L & _ & _ & T). exact (tied_rested _ _ _ _ _ L T Ha Hc).
Qed.
End Manners.
