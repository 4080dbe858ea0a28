(** Goroutines that borrow and return connections of a routing pool while its refresher works and while it is started and stopped (C103, C105). *)
From Coq Require Import String ZArith List Bool Lia ZifyBool Permutation.
From Verif Require Import Bytes GoVal GoErr Decoder Messages GoStr Routing Pool SpecPool BytesFacts RoutingFacts PoolFacts LendFacts SteadyFacts Concurrency ConcurFacts PoolRace RaceFacts ExcludeFacts.
Import ListNotations.
Open Scope Z_scope.

(** What a goroutine has in its hands: nothing, a connection it took from a queue, one that the pool lists as lent, or what it
    has seen of the queues for reading and for writing. [VStop]: it is stopping the pool; what it has taken is not counted. *)
Inductive grip := VNone | VTaken (c : wrapper) | VLent (c : wrapper) | VSeen (r w : option queue) | VStop.
Definition grasp (s : grip) : list wrapper := match s with VTaken c | VLent c => [c] | _ => [] end.
Definition grips (h : nat) (s : grip) : Prop := exists c, In c (grasp s) /\ pw_conn c = h.
Definition seen_by (mode : Z) (q : queue) (s : grip) : grip :=
  match s with
  | VSeen r w => if mode =? WriteMode then VSeen r (Some q) else VSeen (Some q) w
  | _ => if mode =? WriteMode then VSeen None (Some q) else VSeen (Some q) None
  end.
Definition sees (h : nat) (s : grip) : Prop :=
  match s with VSeen r w => exists q c, (r = Some q \/ w = Some q) /\ In c q /\ pw_conn c = h | _ => False end.
Definition blind (s : grip) : Prop := match s with VNone | VTaken _ | VLent _ => True | _ => False end.
Definition caught (o : option wrapper) : grip := match o with Some c => VTaken c | None => VNone end.

(** A goroutine that only touches what it has in its hands, and gives back the queues as it has seen them. *)
Fixpoint mild (s : grip) (t : gprog) : Prop :=
  match t with
  | GDone _ | GEnd => blind s \/ s = VStop
  | GRLock k | GRUnlock k | GLock k | GUnlock k => blind s /\ mild s k
  | GSetRunning _ k => mild s k
  | GRunning k => forall b, mild s (k b)
  | GSize _ k => forall n, mild s (k n)
  | GDequeue _ k => (s = VStop /\ forall o, mild VStop (k o)) \/ (blind s /\ forall o, mild (caught o) (k o))
  | GEnqueue _ c k => s = VTaken c /\ mild VNone k
  | GMarked h k => (grips h s /\ forall b, mild s (k b)) \/ (sees h s /\ mild s (k false))
  | GValid h k => (grips h s \/ s = VStop) /\ forall b, mild s (k b)
  | GClose h k => (grips h s \/ s = VStop) /\ forall e, mild s (k e)
  | GRead g id k => g = FBorrowed /\ exists c, s = VLent c /\ id = pw_id c /\ mild s (k (Some c))
  | GWrite FHeld _ k => mild s k \/ blind s /\ mild VNone k
  | GWrite FBorrowed g k => (exists c, s = VTaken c /\ g = map_set (pw_id c) c /\ mild (VLent c) k)
                            \/ (exists c, s = VLent c /\ g = map_del (pw_id c) /\ mild (VTaken c) k)
  | GMake _ _ k => blind s /\ (forall c, mild (VTaken c) (k (Ok c))) /\ forall r, (forall c, r <> Ok c) -> mild VNone (k r)
  | GUse c k => s = VLent c /\ mild s k
  | GSeed k => forall r, mild s (k r)
  | GOverview _ k => forall r, mild s (k r)
  | GPart _ k => forall l, mild s (k l)
  | GAuth k => forall a, mild s (k a)
  | GQuit _ k | GSetPart _ _ k | GMark _ k | GSetStrings _ _ k => mild s k
  | GItems mode k => s <> VStop /\ grasp s = [] /\ forall q, mild (seen_by mode q s) (k q)
  | GReplace mode q k => (exists r w, s = VSeen r w /\ (if mode =? WriteMode then w else r) = Some q) /\ (mild s k \/ mild VNone k)
  | GLimits k => forall l, mild s (k l)
  | GStrings _ k => forall l, mild s (k l)
  | GIndex _ k => forall i, mild s (k i)
  | GSetIndex _ _ k | GShare k => mild s k
  end.
Lemma mild_remove c k : mild VNone (k None) -> (forall e, mild (VTaken c) (k (Some e))) -> mild (VTaken c) (g_remove c k).
Proof.
  intros H1 H2. assert (A : grips (pw_conn c) (VTaken c)) by (exists c; cbn; auto).
  cbn. split; [now left|]. intros [|]; cbn; [right; split; [exact I|exact H1]|]. split; [now left|].
  intros [e|]; cbn; [apply H2|]. right. split; [exact I|exact H1].
Qed.
Definition calmly (t : gprog) : Prop := forall s, blind s -> mild s t.
Lemma mild_new mode k : (forall r, calmly (k r)) -> calmly (g_new mode k).
Proof.
  intros H s B. unfold g_new. cbn [mild]. intros l i. destruct (_ && _); [|now apply H]. destruct (nth_error _ _); [|now apply H]. cbn [mild].
  split; [exact B|]. split; [intros c; cbn [mild]; left; split; [reflexivity|now apply H]|]. intros [c|e| |] N; [now destruct (N c)|now apply H..].
Qed.
Lemma mild_add mode k : (forall r, calmly (k r)) -> calmly (g_add mode k).
Proof.
  intros H s B. unfold g_add. cbn [mild]. intros [|a l]; [now apply H|]. cbn [mild]. intros i j l'. destruct (_ =? _); cbn [mild]; now apply mild_new.
Qed.
Lemma mild_times n mode k : (forall r, calmly (k r)) -> calmly (g_times n mode k).
Proof. intros H. induction n as [|n IH]; [apply H|]. cbn [g_times]. apply mild_add. intros [u|e| |]; auto. Qed.
Lemma mild_merge s k : mild s k -> mild s (g_merge k).
Proof. intros H. cbn. auto. Qed.
Lemma mild_refresh s k : (forall r, mild s (k r)) -> mild s (g_refresh k).
Proof.
  intros H. unfold g_refresh. cbn [mild]. intros [h|e| |]; try apply H. cbn [mild].
  assert (M : mild s (g_merge (GQuit h (k (Ok tt))))) by (apply mild_merge; apply H).
  intros [v [rows|e| |]]; cbn [fst snd]; [|exact M|apply H..]. destruct (read_rows _ _ _) as [t|e| |]; exact M.
Qed.
Lemma mild_start : calmly g_start.
Proof.
  assert (R : forall r, calmly (g_result r)) by (intros [| | |] s B; now left).
  intros s B. unfold g_start. cbn [mild]. intros [|]; [now left|]. cbn [mild]. apply mild_refresh. intros [u|e| |]; try now left. cbn [mild]. intros l.
  apply mild_times; [|exact B]. intros [v|e| |]; try apply R. intros s' B'. cbn [mild]. intros l'. now apply mild_times.
Qed.
Lemma mild_internal fuel mode k : (forall s, blind s -> (forall e, mild s (k (Err e))) /\ mild s (k NoFuel)) -> (forall c, mild (VLent c) (k (Ok c))) ->
  forall s, blind s -> mild s (g_internal_borrow fuel mode k).
Proof.
  intros Hk Ho. induction fuel as [|fuel IH]; intros s B; [now apply Hk|]. cbn [g_internal_borrow mild]. right. split; [exact B|].
  intros [c|]; cbn [caught]; [|now apply Hk].
  assert (A : mild (VTaken c) (g_remove c (fun e => match e with Some e => k (Err e) | None => g_internal_borrow fuel mode k end))).
  { apply mild_remove; [now apply IH|]. intros e. now apply Hk. }
  assert (G : grips (pw_conn c) (VTaken c)) by (exists c; cbn; auto).
  cbn [mild]. left. split; [exact G|]. intros [|]; [exact A|]. cbn [mild]. split; [now left|]. intros [|]; cbn [negb]; [|exact A].
  cbn [mild]. left. left. exists c. split; [reflexivity|]. split; [reflexivity|]. apply Ho.
Qed.
Lemma mild_return c k : (forall r, calmly (k r)) -> mild (VLent c) (g_return (pw_id c) (pw_conn c) k).
Proof.
  intros H. assert (Ho : forall r, mild VNone (k r)) by (intros r; now apply H). assert (A : grips (pw_conn c) (VTaken c)) by (exists c; cbn; auto).
  unfold g_return. cbn [mild]. split; [exact I|]. intros [|]; cbn [negb mild]; [|split; [exact I|now apply H]]. split; [reflexivity|]. exists c. split; [reflexivity|]. split; [reflexivity|].
  cbn [mild]. right. exists c. split; [reflexivity|]. split; [reflexivity|]. left. split; [now left|].
  set (m := if pw_mode c =? WriteMode then WriteMode else ReadMode).
  assert (B : mild (VTaken c) (GEnqueue m c (GUnlock (k (Ok c))))) by (cbn; auto).
  intros [|]; [exact B|]. cbn [g_remove mild]. split; [now left|]. intros [|]; [left; exact B|]. cbn [mild]. split; [now left|].
  intros [e|]; [|left; exact B]. apply mild_add; [|exact I]. intros r s Bs. cbn. split; [exact Bs|now apply H].
Qed.
Lemma mild_client fuel modes : forall s, blind s -> mild s (g_client fuel modes).
Proof.
  induction modes as [|m modes IH]; intros s B; [now left|]. cbn [g_client]. unfold g_lend. cbn [mild]. split; [exact B|].
  apply mild_internal; [| |exact B].
  - intros s' B'. cbn [mild]. split; [intros e; split; [exact B'|now apply IH]|]. cbn. auto.
  - intros c. cbn [mild]. split; [exact I|]. split; [reflexivity|]. apply mild_return. intros [u|e| |] s' B'; [now apply IH|now apply IH|now left..].
Qed.
Lemma mild_drain fuel mode k : (forall r, mild VStop (k r)) -> mild VStop (g_drain fuel mode k).
Proof.
  intros Hk. induction fuel as [|fuel IH]; [apply Hk|]. cbn [g_drain mild]. intros n. destruct (n =? 0); [apply Hk|]. cbn [mild]. left. split; [reflexivity|].
  intros [c|]; [|apply Hk]. unfold g_remove. cbn [mild]. split; [now right|]. intros [|]; cbn [mild]; [now left|]. split; [now right|].
  intros [e|]; [apply Hk|]. cbn [mild]. now left.
Qed.
Lemma mild_stop n m : mild VStop (g_stop n m).
Proof.
  assert (R : forall r, mild VStop (g_result r)) by (intros [| | |]; cbn; auto).
  unfold g_stop. cbn [mild]. intros [|]; cbn [negb mild]; [|auto]. apply mild_drain. intros [u|e| |]; try apply R. now apply mild_drain.
Qed.
(** The loops of prune find nothing that is marked. *)
Lemma mild_sift drop s : forall q k, (forall c, In c q -> sees (pw_conn c) s) -> mild s (k q) -> mild s (g_sift drop q k).
Proof.
  induction q as [|c q IH]; intros k Hs Hk; [exact Hk|]. cbn [g_sift mild]. right. split; [apply Hs; now left|]. apply IH; [intros; apply Hs; now right|exact Hk].
Qed.
Lemma mild_while fuel mode bound body k : (forall k, calmly k -> calmly (body k)) -> (forall r, calmly (k r)) -> calmly (g_while fuel mode bound body k).
Proof.
  intros Hb Hk. induction fuel as [|fuel IH]; [apply Hk|]. intros s B. cbn [g_while mild]. intros n. destruct (n =? bound); [apply Hb; auto|now apply Hk].
Qed.
Lemma mild_more mode k : calmly k -> calmly (g_more mode k).
Proof. intros H. apply mild_add. auto. Qed.
Lemma mild_less mode k : calmly k -> calmly (g_less mode k).
Proof.
  intros H s B. cbn [g_less mild]. right. split; [exact B|]. intros [c|]; cbn [caught]; [|now apply H]. apply mild_remove; [now apply H|intros; now apply H].
Qed.
Lemma mild_bounds fuel mode low high k : (forall r, calmly (k r)) -> calmly (g_bounds fuel mode low high k).
Proof.
  intros Hk s B. unfold g_bounds. cbn [mild]. intros n. destruct (n <? low); [apply mild_while; auto using mild_more|].
  cbn [mild]. intros m. destruct (high <? m); [apply mild_while; auto using mild_less|now apply Hk].
Qed.
Lemma mild_balance fuel k : (forall r, calmly (k r)) -> calmly (g_balance fuel k).
Proof.
  intros Hk s B. unfold g_balance. cbn [mild]. intros l. cbv zeta. cbn [mild]. intros n.
  assert (R : calmly (g_bounds fuel WriteMode (lim_min_w l) (lim_max_w l) (fun r => match r with Ok _ => g_bounds fuel ReadMode (lim_min_r l) (lim_max_r l) k | _ => k r end))).
  { apply mild_bounds. intros [u|e| |]; try apply Hk. now apply mild_bounds. }
  destruct (n <? lim_min_r l); [|now apply R]. apply mild_while; auto using mild_more. intros [u|e| |]; auto.
Qed.
Lemma mild_round fuel : mild VNone (g_round fuel).
Proof.
  assert (U : forall r, calmly (GUnlock (g_result r))) by (intros [u|e| |] s B; cbn; auto).
  unfold g_round. cbn [mild]. split; [exact I|]. apply mild_refresh. intros [u|e| |]; try (now apply U).
  unfold g_prune. cbn [mild]. split; [discriminate|]. split; [reflexivity|]. intros rs. change (seen_by ReadMode rs VNone) with (VSeen (Some rs) None).
  apply mild_sift; [intros c H; exists rs, c; auto|]. cbn [mild]. split; [discriminate|]. split; [reflexivity|]. intros ws.
  change (seen_by WriteMode ws _) with (VSeen (Some rs) (Some ws)).
  apply mild_sift; [intros c H; exists ws, c; auto|]. cbn [mild]. split; [eexists _, _; split; reflexivity|]. left.
  cbn [mild]. split; [eexists _, _; split; reflexivity|]. right. now apply mild_balance.
Qed.

(** A goroutine that has seen a queue holds the mutex for writing. *)
Lemma seen_inside tp t : forall r w, mild (VSeen r w) t -> ok tp t -> tp = PWrite.
Proof.
  induction t as [res| |t IH|t IH|t IH|t IH|k IH|b t IH|m k IH|m k IH|m c t IH|h k IH|h k IH|h k IH|f id k IH|f g t IH|m a k IH|c t IH|k IH|h k IH|h t IH|m k IH|m n t IH|k IH|d t IH|m l t IH|m k IH|m q t IH|k IH|m k IH|m k IH|m z t IH|t IH];
    intros r w Hm Ho; cbn in Hm; cbn [ok] in Ho.
  - destruct Hm as [[]|]. discriminate.
  - destruct Hm as [[]|]. discriminate.
  - destruct Hm as [[] _].
  - destruct Hm as [[] _].
  - destruct Hm as [[] _].
  - destruct Hm as [[] _].
  - eapply (IH true); [apply Hm|apply Ho].
  - eapply IH; [apply Hm|apply Ho].
  - eapply (IH 0); [apply Hm|apply Ho].
  - destruct Hm as [[? _]|[[] _]]. discriminate.
  - destruct Hm as [? _]. discriminate.
  - destruct Hm as [[(c & [] & _) _]|[_ Hm]]. eapply (IH false); [apply Hm|apply Ho].
  - destruct Hm as [[(c & [] & _)|?] _]. discriminate.
  - destruct Hm as [[(c & [] & _)|?] _]. discriminate.
  - destruct Hm as (_ & c & ? & _). discriminate.
  - destruct f.
    + destruct Hm as [Hm|[[] _]]. eapply IH; [apply Hm|apply Ho].
    + destruct Hm as [(c & ? & _)|(c & ? & _)]; discriminate.
  - destruct Hm as [[] _].
  - destruct Hm as [? _]. discriminate.
  - apply Ho.
  - apply Ho.
  - apply Ho.
  - apply Ho.
  - apply Ho.
  - apply Ho.
  - apply Ho.
  - apply Ho.
  - apply Ho.
  - apply Ho.
  - apply Ho.
  - apply Ho.
  - apply Ho.
  - apply Ho.
  - contradiction.
Qed.
Lemma seen_locks t : forall r w, mild (VSeen r w) t -> lockless t -> False.
Proof.
  induction t as [res| |t IH|t IH|t IH|t IH|k IH|b t IH|m k IH|m k IH|m c t IH|h k IH|h k IH|h k IH|f id k IH|f g t IH|m a k IH|c t IH|k IH|h k IH|h t IH|m k IH|m n t IH|k IH|d t IH|m l t IH|m k IH|m q t IH|k IH|m k IH|m k IH|m z t IH|t IH];
    intros r w Hm Ho; cbn in Hm; cbn [lockless] in Ho; try contradiction.
  - destruct Hm as [[]|]. discriminate.
  - destruct Hm as [[]|]. discriminate.
  - eapply (IH true); [apply Hm|apply Ho].
  - eapply IH; [apply Hm|apply Ho].
  - eapply (IH 0); [apply Hm|apply Ho].
  - destruct Hm as [[? _]|[[] _]]. discriminate.
  - destruct Hm as [? _]. discriminate.
  - destruct Hm as [[(c & [] & _) _]|[_ Hm]]. eapply (IH false); [apply Hm|apply Ho].
  - destruct Hm as [[(c & [] & _)|?] _]. discriminate.
  - destruct Hm as [[(c & [] & _)|?] _]. discriminate.
  - destruct Hm as (_ & c & ? & _). discriminate.
  - destruct f.
    + destruct Hm as [Hm|[[] _]]. eapply IH; [apply Hm|apply Ho].
    + destruct Hm as [(c & ? & _)|(c & ? & _)]; discriminate.
  - destruct Hm as [? _]. discriminate.
Qed.
Lemma seen_launches t : forall r w, mild (VSeen r w) t -> launches t -> False.
Proof.
  induction t as [res| |t IH|t IH|t IH|t IH|k IH|b t IH|m k IH|m k IH|m c t IH|h k IH|h k IH|h k IH|f id k IH|f g t IH|m a k IH|c t IH|k IH|h k IH|h t IH|m k IH|m n t IH|k IH|d t IH|m l t IH|m k IH|m q t IH|k IH|m k IH|m k IH|m z t IH|t IH];
    intros r w Hm Ho; cbn in Hm; cbn [launches] in Ho; try contradiction.
  - destruct Hm as [[]|]. discriminate.
  - destruct Hm as [[]|]. discriminate.
  - eapply (IH true); [apply Hm|apply Ho].
  - eapply IH; [apply Hm|apply Ho].
  - destruct Hm as [? _]. discriminate.
  - destruct Ho as [-> Ho]. destruct Hm as [Hm|[[] _]]. eapply IH; [apply Hm|apply Ho].
  - destruct Hm as [[] _].
  - eapply (IH Panic); [apply Hm|apply Ho].
  - eapply (IH (0, Panic)); [apply Hm|apply Ho].
  - eapply IH; [apply Hm|apply Ho].
  - eapply (IH []); [apply Hm|apply Ho].
  - eapply IH; [apply Hm|apply Ho].
  - eapply (IH ([], [])); [apply Hm|apply Ho].
  - eapply IH; [apply Hm|apply Ho].
  - eapply IH; [apply Hm|apply Ho].
  - eapply (IH (mkLimits 0 0 0 0)); [apply Hm|apply Ho].
  - eapply (IH []); [apply Hm|apply Ho].
  - eapply (IH 0); [apply Hm|apply Ho].
  - eapply IH; [apply Hm|apply Ho].
  - eapply IH; [apply Hm|apply Ho].
Qed.
(** What takes from a queue, replaces it, or looks at all of it. *)
Definition handles (t : gprog) : Prop := match t with GDequeue _ _ | GItems _ _ | GReplace _ _ _ => True | _ => False end.

Section Rounds.
Context {W : Type}.
Variable K : cluster W.
Variable opened : W -> list nat.
Variable named : W -> list bytes.
Hypothesis F : fresh K opened named.
(** The connections lent before. *)
Variable out : list nat.

Definition grasped (gs : list grip) : list wrapper := flat_map grasp gs.
(** What is not to be given to anybody: the queues, with what Stop has taken from them while the refresher looks, and what is in hands. *)
Definition kept (dr dw : queue) (p : pool) (gs : list grip) : list wrapper := (dr ++ p_rq p) ++ (dw ++ p_wq p) ++ grasped gs.
(** What has been seen of a queue, to which others may have added since. *)
Definition grown (q l : queue) : Prop := exists e, l = q ++ e.
Definition stops (t : task) (s : grip) : Prop := s = VStop <-> exists n m, t = TStop n m.
Record shared (ts : list task) (gs : list grip) (dr dw : queue) (x : gsys (W := W)) : Prop := mkShared {
  s_mild : Forall2 mild gs (g_threads x);
  s_stops : Forall2 stops ts gs;
  s_good : good opened named out (kept dr dw (g_pool x) gs) (g_world x);
  s_lent : forall i c, nth_error gs i = Some (VLent c) -> map_get (p_borrowed (g_pool x)) (pw_id c) = Some c;
  s_seen : forall i r w, nth_error gs i = Some (VSeen r w) -> (forall q, r = Some q -> grown q (dr ++ p_rq (g_pool x))) /\ (forall q, w = Some q -> grown q (dw ++ p_wq (g_pool x)));
  s_marks : p_marked (g_pool x) = [];
  s_lookup : p_lookup (g_pool x) = []
}.
Definition all_shared (ts : list task) (x : gsys (W := W)) : Prop := exists gs dr dw, shared ts gs dr dw x.

(** While a goroutine handles a queue, apart from Stop, no other has seen one. *)
Lemma nobody_sees ts gs dr dw x i j t s r w : shared ts gs dr dw x -> locked_well ts x -> nth_error (g_threads x) i = Some t -> handles t ->
  nth_error gs i = Some s -> s <> VStop -> i <> j -> nth_error gs j = Some (VSeen r w) -> False.
Proof.
  intros [Sm Ss _ _ _ _ _] (tps & Ets & Fs & S1 & S2 & S3) Hi Ht Hs Ns N Hj.
  assert (Hu : exists u, nth_error (g_threads x) j = Some u /\ mild (VSeen r w) u).
  { clear - Sm Hj. revert j Hj. induction Sm as [|a b l l' H Sm IH]; intros [|j] Hj; try discriminate; cbn in *; [injection Hj as ->; eauto|eauto]. }
  destruct Hu as (u & Hu & Mu).
  destruct (Forall2_at _ _ _ _ _ Fs Hi) as ([t0 ph] & Et & Ot). destruct (Forall2_at _ _ _ _ _ Fs Hu) as ([u0 pu] & Eu & Ou).
  assert (Et' : nth_error (map snd tps) i = Some ph) by now rewrite nth_error_map, Et.
  assert (Eu' : nth_error (map snd tps) j = Some pu) by now rewrite nth_error_map, Eu.
  assert (Pu : pu = PWrite).
  { unfold fits in Ou. cbn [fst snd] in Ou. destruct u0; try (eapply seen_inside; [exact Mu|first [exact Ou|apply Ou]]); destruct Ou as [Ou _]; [destruct (seen_locks _ _ _ Mu Ou)|destruct (seen_launches _ _ _ Mu Ou)]. }
  assert (Pt : ph <> PFree).
  { destruct (Forall2_at _ _ _ _ _ Ss Hs) as (t1 & Et1 & St). rewrite <- Ets, nth_error_map, Et in Et1. injection Et1 as <-. cbn [fst] in St.
    assert (O : ok ph t).
    { unfold fits in Ot. cbn [fst snd] in Ot. destruct t0; try exact Ot; try apply Ot; exfalso; [apply Ns; apply St; eauto|]. destruct Ot as [Ot _]. destruct t; destruct Ht; destruct Ot. }
    destruct t; try destruct Ht; cbn in O; try apply O; destruct O as [-> _]; discriminate. }
  subst pu. unfold readers in S1. unfold writers in S2.
  pose proof (count_at (fun ph => match ph with PWrite => true | _ => false end) _ _ _ Eu' eq_refl) as C1.
  destruct (rw_writer (g_lock x)); [|lia]. rewrite S3 in S1 by reflexivity. destruct ph; [congruence| |].
  - pose proof (count_at (fun ph => match ph with PRead => true | _ => false end) _ _ _ Et' eq_refl). lia.
  - pose proof (count_two (fun ph => match ph with PWrite => true | _ => false end) _ _ _ _ _ N Et' Eu' eq_refl eq_refl). lia.
Qed.
Lemma grasped_put gs : forall i s s', nth_error gs i = Some s -> Permutation (grasp s' ++ grasped gs) (grasp s ++ grasped (put_nth i s' gs)).
Proof.
  induction gs as [|x gs IH]; intros [|i] s s'; cbn [nth_error]; try discriminate.
  - intros [= ->]. unfold grasped. cbn [put_nth flat_map]. apply Permutation_app_swap_app.
  - intros H. specialize (IH _ _ s' H). unfold grasped in *. cbn [put_nth flat_map] in *.
    etransitivity; [apply Permutation_app_swap_app|]. etransitivity; [|apply Permutation_app_swap_app]. now apply Permutation_app_head.
Qed.
Lemma kept_put dr dw p gs i s s' : nth_error gs i = Some s -> Permutation (grasp s' ++ kept dr dw p gs) (grasp s ++ kept dr dw p (put_nth i s' gs)).
Proof.
  intros H. unfold kept. rewrite (app_assoc (dr ++ p_rq p)), (app_assoc (dr ++ p_rq p) _ (grasped (put_nth i s' gs))).
  etransitivity; [apply Permutation_app_swap_app|]. etransitivity; [|apply Permutation_app_swap_app]. apply Permutation_app_head. now apply grasped_put.
Qed.
Lemma flat_apart {A} (g : wrapper -> A) gs : NoDup (map g (grasped gs)) -> forall i j s s' c d, i <> j -> nth_error gs i = Some s -> nth_error gs j = Some s' ->
  In c (grasp s) -> In d (grasp s') -> g c <> g d.
Proof.
  assert (B : forall hs j s d, nth_error hs j = Some s -> In d (grasp s) -> In (g d) (map g (flat_map grasp hs))).
  { intros hs0 j s d H Hd. apply in_map. apply in_flat_map. exists s. split; [eapply nth_error_In; eauto|exact Hd]. }
  unfold grasped. induction gs as [|a gs IH]; intros N i j s s' c d Nij Hi Hj Hc Hd; [destruct i; discriminate|].
  cbn [flat_map] in N. rewrite map_app in N.
  destruct i, j; cbn in Hi, Hj; try lia.
  - injection Hi as ->. intros E. apply (in_map g) in Hc. apply in_split in Hc. destruct Hc as (a1 & a2 & Hc). rewrite Hc, <- app_assoc in N. cbn [app] in N.
    apply NoDup_remove_2 in N. apply N. apply in_or_app. right. apply in_or_app. right. rewrite E. eapply B; eauto.
  - injection Hj as ->. intros E. apply (in_map g) in Hd. apply in_split in Hd. destruct Hd as (a1 & a2 & Hd). rewrite Hd, <- app_assoc in N. cbn [app] in N.
    apply NoDup_remove_2 in N. apply N. apply in_or_app. right. apply in_or_app. right. rewrite <- E. eapply B; eauto.
  - apply NoDup_drop in N. eapply (IH N i j); eauto.
Qed.
Lemma kept_apart dr dw p gs w i j s s' c d : good opened named out (kept dr dw p gs) w -> i <> j -> nth_error gs i = Some s -> nth_error gs j = Some s' ->
  In c (grasp s) -> In d (grasp s') -> pw_id c <> pw_id d /\ pw_conn c <> pw_conn d.
Proof.
  intros [N1 N2 _ _] N Hi Hj Hc Hd. unfold kept in N1, N2. rewrite app_assoc, map_app in N1, N2. apply NoDup_drop in N1, N2.
  split; [exact (flat_apart pw_id gs N2 i j s s' c d N Hi Hj Hc Hd)|exact (flat_apart pw_conn gs N1 i j s s' c d N Hi Hj Hc Hd)].
Qed.
Lemma kept_drop dr dw p gs : Permutation (kept dr dw p gs) ((dr ++ dw) ++ kept [] [] p gs).
Proof.
  unfold kept. cbn [app]. rewrite <- !app_assoc. apply Permutation_app_head. rewrite Permutation_app_swap_app. apply Permutation_app_head. reflexivity.
Qed.
Lemma grasp_seen mode q s : grasp (seen_by mode q s) = [].
Proof. unfold seen_by. destruct s; destruct (mode =? WriteMode); reflexivity. Qed.
Lemma grasped_same gs i s s' : nth_error gs i = Some s -> grasp s' = grasp s -> grasped (put_nth i s' gs) = grasped gs.
Proof.
  unfold grasped. revert i. induction gs as [|a gs IH]; intros [|i]; cbn; try discriminate; [intros [= ->] ->; reflexivity|]. intros H E. now rewrite IH.
Qed.
Lemma step_shared ts i x x' : gsys_step K i x = Some x' -> locked_well ts x -> all_shared ts x -> all_shared ts x'.
Proof.
  intros E Lw (gs & dr & dw & Sh). pose proof Sh as [Sm Ss G L Sn Mk Lk]. unfold gsys_step in E. destruct (nth_error (g_threads x) i) as [t|] eqn:Et; [|discriminate].
  destruct (Forall2_at _ _ _ _ _ Sm Et) as (s & Es & Ht).
  set (P := g_pool x) in *.
  assert (Move : forall p w l t' s' dr' dw' d, x' = mkG p w l (put_nth i t' (g_threads x)) -> mild s' t' -> (s' = VStop <-> s = VStop) ->
    Permutation (kept dr dw P gs) (d ++ kept dr' dw' p (put_nth i s' gs)) -> grows opened named (g_world x) w ->
    (forall j c, nth_error (put_nth i s' gs) j = Some (VLent c) -> map_get (p_borrowed p) (pw_id c) = Some c) ->
    (forall j r w, nth_error (put_nth i s' gs) j = Some (VSeen r w) -> (forall q, r = Some q -> grown q (dr' ++ p_rq p)) /\ (forall q, w = Some q -> grown q (dw' ++ p_wq p))) ->
    p_marked p = p_marked P -> p_lookup p = p_lookup P -> all_shared ts x').
  { intros p w l t' s' dr' dw' d -> T St Pm Gr L' Sn' M1 M2. exists (put_nth i s' gs), dr', dw'. constructor; cbn [g_pool g_threads g_world].
    - now apply Forall2_put.
    - destruct (Forall2_at _ _ _ _ _ Ss Es) as (t0 & Et0 & St0). rewrite <- (put_same ts i t0 Et0). apply Forall2_put; [exact Ss|]. unfold stops in *. tauto.
    - eapply good_grows; [exact Gr|]. eapply good_sub; eauto.
    - exact L'.
    - exact Sn'.
    - congruence.
    - congruence. }
  assert (SeenSame : forall p s', p_rq p = p_rq P -> p_wq p = p_wq P -> (forall r w, s' = VSeen r w -> s' = s) ->
    forall j r w, nth_error (put_nth i s' gs) j = Some (VSeen r w) -> (forall q, r = Some q -> grown q (dr ++ p_rq p)) /\ (forall q, w = Some q -> grown q (dw ++ p_wq p))).
  { intros p s' E1 E2 Hs j r w H. rewrite E1, E2. destruct (Nat.eq_dec i j) as [<-|N].
    - rewrite (nth_put_same i s' _ _ Es) in H. injection H as H. apply (Sn i). rewrite <- H, (Hs r w H). exact Es.
    - rewrite nth_put_other in H by exact N. eapply Sn; eauto. }
  assert (SeenAlone : handles t -> s <> VStop -> forall p s' dr' dw', (forall r w, s' = VSeen r w -> (forall q, r = Some q -> grown q (dr' ++ p_rq p)) /\ (forall q, w = Some q -> grown q (dw' ++ p_wq p))) ->
    forall j r w, nth_error (put_nth i s' gs) j = Some (VSeen r w) -> (forall q, r = Some q -> grown q (dr' ++ p_rq p)) /\ (forall q, w = Some q -> grown q (dw' ++ p_wq p))).
  { intros Hh Ns p s' dr' dw' Hs j r w H. destruct (Nat.eq_dec i j) as [<-|N].
    - rewrite (nth_put_same i s' _ _ Es) in H. injection H as H. now apply Hs.
    - rewrite nth_put_other in H by exact N. destruct (nobody_sees ts gs dr dw x i j t s r w Sh Lw Et Hh Es Ns N H). }
  assert (Others : forall p s', p_borrowed p = p_borrowed P -> (forall c, s' = VLent c -> s' = s) ->
    forall j c, nth_error (put_nth i s' gs) j = Some (VLent c) -> map_get (p_borrowed p) (pw_id c) = Some c).
  { intros p s' E1 Hs j c H. rewrite E1. destruct (Nat.eq_dec i j) as [<-|Nij].
    - rewrite (nth_put_same i s' _ _ Es) in H. injection H as H. apply (L i). rewrite <- H, (Hs c H). exact Es.
    - rewrite nth_put_other in H by exact Nij. eapply L; eauto. }
  assert (Keep : forall p w l t', x' = mkG p w l (put_nth i t' (g_threads x)) -> mild s t' ->
    p_wq p = p_wq P -> p_rq p = p_rq P -> p_borrowed p = p_borrowed P -> p_marked p = p_marked P -> p_lookup p = p_lookup P -> grows opened named (g_world x) w -> all_shared ts x').
  { intros p w l t' E' T E1 E2 E3 E4 E5 Gr. apply (Move p w l t' s dr dw []); [exact E'|exact T|tauto| |exact Gr| | |exact E4|exact E5].
    - rewrite (put_same gs i s Es). unfold kept. rewrite E1, E2. reflexivity.
    - apply Others; auto.
    - apply SeenSame; auto. }
  assert (Gr0 : grows opened named (g_world x) (g_world x)) by apply grows_refl.
  assert (Blind : blind s -> forall s', blind s' -> (s' = VStop <-> s = VStop)) by (intros B s' B'; destruct s, s'; cbn in *; split; intros; try discriminate; contradiction).
  destruct t; cbn [gstep] in E; cbn [mild] in Ht.
  - discriminate.
  - discriminate.
  - destruct (rw_writer (g_lock x)); [discriminate|]. injection E as <-. eapply Keep; [reflexivity|apply Ht|auto..].
  - injection E as <-. eapply Keep; [reflexivity|apply Ht|auto..].
  - destruct (rw_writer (g_lock x)); [discriminate|]. destruct (rw_readers (g_lock x)); [|discriminate]. injection E as <-. eapply Keep; [reflexivity|apply Ht|auto..].
  - injection E as <-. eapply Keep; [reflexivity|apply Ht|auto..].
  - injection E as <-. eapply Keep; [reflexivity|apply Ht|auto..].
  - injection E as <-. eapply Keep; [reflexivity|exact Ht|auto..].
  - injection E as <-. eapply Keep; [reflexivity|apply Ht|auto..].
  - destruct (dequeue (queue_of mode P)) as [o q] eqn:Eq. injection E as <-. fold P in Eq.
    destruct Ht as [[-> Ht]|[B Ht]].
    + (* Stop *)
      set (c := match o with Some c => [c] | None => [] end).
      assert (Q : queue_of mode P = c ++ q) by (unfold c; destruct (queue_of mode P); injection Eq as <- <-; reflexivity).
      set (dr' := if mode =? WriteMode then dr else dr ++ c). set (dw' := if mode =? WriteMode then dw ++ c else dw).
      assert (R1 : dr' ++ p_rq (set_queue mode q P) = dr ++ p_rq P).
      { unfold dr', set_queue, queue_of in *. destruct (mode =? WriteMode); cbn [p_rq set_wq set_rq]; [reflexivity|]. now rewrite Q, <- app_assoc. }
      assert (R2 : dw' ++ p_wq (set_queue mode q P) = dw ++ p_wq P).
      { unfold dw', set_queue, queue_of in *. destruct (mode =? WriteMode); cbn [p_wq set_wq set_rq]; [|reflexivity]. now rewrite Q, <- app_assoc. }
      eapply (Move _ _ _ _ VStop dr' dw' []); [reflexivity|apply Ht|tauto| |exact Gr0| | |apply marked_set|apply lookup_set].
      * rewrite (put_same gs i _ Es). unfold kept. rewrite R1, R2. reflexivity.
      * apply Others; [apply borrowed_set|discriminate].
      * intros j r w H. rewrite R1, R2. rewrite (put_same gs i _ Es) in H. eapply Sn; eauto.
    + assert (Nv : s <> VStop) by (intros ->; destruct B).
      eapply (Move _ _ _ _ (caught o) [] [] ((dr ++ dw) ++ grasp s)); [reflexivity|apply Ht|apply Blind; [exact B|destruct o; exact I]| |exact Gr0| | |apply marked_set|apply lookup_set].
      * rewrite kept_drop, <- (app_assoc (dr ++ dw)). apply Permutation_app_head.
        assert (Pq : Permutation (p_rq P ++ p_wq P) (grasp (caught o) ++ p_rq (set_queue mode q P) ++ p_wq (set_queue mode q P))).
        { unfold set_queue, queue_of in *. destruct (mode =? WriteMode); cbn [p_wq p_rq set_wq set_rq].
          - destruct (p_wq P); injection Eq as <- <-; [reflexivity|]. cbn. symmetry. apply Permutation_middle.
          - destruct (p_rq P); injection Eq as <- <-; reflexivity. }
        etransitivity; [|apply kept_put; exact Es]. unfold kept. cbn [app]. rewrite (app_assoc (p_rq P)), Pq, <- !app_assoc. reflexivity.
      * apply Others; [apply borrowed_set|]. destruct o; discriminate.
      * apply SeenAlone; [exact I|exact Nv|]. destruct o; discriminate.
  - destruct Ht as [-> Ht]. injection E as <-.
    eapply (Move _ _ _ _ VNone dr dw []); [reflexivity|exact Ht|apply Blind; exact I| |exact Gr0| | |apply marked_set|apply lookup_set].
    + cbn [app]. etransitivity; [apply (kept_put dr dw P gs i (VTaken c) VNone Es)|].
      cbn [grasp app]. unfold kept, set_queue, enqueue, queue_of. fold P.
      destruct (mode =? WriteMode); cbn [app p_wq p_rq set_wq set_rq].
      * rewrite <- !(app_assoc dw), <- (app_assoc (p_wq P)). cbn [app]. rewrite !(app_assoc dw), !(app_assoc (dr ++ p_rq P)). apply Permutation_middle.
      * rewrite <- !(app_assoc dr), <- (app_assoc (p_rq P)). cbn [app]. rewrite !(app_assoc dr). apply Permutation_middle.
    + apply Others; [apply borrowed_set|discriminate].
    + intros j r w H. destruct (Nat.eq_dec i j) as [<-|N]; [rewrite (nth_put_same i _ _ _ Es) in H; discriminate|].
      rewrite nth_put_other in H by exact N. destruct (Sn _ _ _ H) as [A1 A2]. fold P. unfold set_queue, enqueue, queue_of.
      split; intros q Hq; [destruct (A1 q Hq) as [e Ee]|destruct (A2 q Hq) as [e Ee]]; (destruct (mode =? WriteMode); cbn [p_wq p_rq set_wq set_rq]; [|]);
        first [now exists e | exists (e ++ [c]); now rewrite app_assoc, Ee, app_assoc].
  - injection E as <-. fold P. destruct Ht as [[_ Ht]|[_ Ht]]; (eapply Keep; [reflexivity| |auto..]); [apply Ht|]. rewrite Mk. exact Ht.
  - destruct (k_valid K h (g_world x)) as [w1 b] eqn:Ev. injection E as <-. eapply Keep; [reflexivity|apply Ht|auto..].
    pose proof (grows_valid K opened named F h (g_world x)) as X. now rewrite Ev in X.
  - destruct (k_close K h (g_world x)) as [w1 e] eqn:Ev. injection E as <-. eapply Keep; [reflexivity|apply Ht|auto..].
    pose proof (grows_close K opened named F h (g_world x)) as X. now rewrite Ev in X.
  - destruct Ht as (-> & c & -> & -> & Ht). injection E as <-. eapply Keep; [reflexivity| |auto..]. cbn [field_of]. fold P. rewrite (L i c Es). exact Ht.
  - injection E as <-. destruct f.
    + destruct Ht as [Ht|[Hs Ht]]; [eapply Keep; [reflexivity|exact Ht|auto..]|].
      eapply (Move _ _ _ _ VNone dr dw (grasp s)); [reflexivity|exact Ht|apply Blind; [exact Hs|exact I]| |exact Gr0| | |reflexivity|reflexivity].
      * apply (kept_put dr dw P gs i s VNone Es).
      * apply Others; [reflexivity|discriminate].
      * apply SeenSame; [reflexivity|reflexivity|discriminate].
    + assert (Same : forall s', grasp s' = grasp s -> Permutation (kept dr dw P gs) ([] ++ kept dr dw (set_field FBorrowed (g (field_of FBorrowed P)) P) (put_nth i s' gs))).
      { intros s' Eh. unfold kept. rewrite (grasped_same gs i s s' Es Eh). reflexivity. }
      destruct Ht as [(c & -> & -> & Ht)|(c & -> & -> & Ht)].
      * eapply (Move _ _ _ _ (VLent c) dr dw []); [reflexivity|exact Ht|split; discriminate|now apply Same|exact Gr0| | |reflexivity|reflexivity].
        -- intros j d H. cbn [set_field p_borrowed set_borrowed field_of]. fold P. destruct (Nat.eq_dec i j) as [<-|Nij].
           ++ rewrite (nth_put_same i _ _ _ Es) in H. injection H as <-. apply get_set_same.
           ++ rewrite nth_put_other in H by exact Nij. rewrite get_set_other; [eapply L; eauto|].
              eapply (kept_apart _ _ _ _ _ j i (VLent d) (VTaken c) d c G); cbn; auto.
        -- apply SeenSame; [reflexivity|reflexivity|discriminate].
      * eapply (Move _ _ _ _ (VTaken c) dr dw []); [reflexivity|exact Ht|split; discriminate|now apply Same|exact Gr0| | |reflexivity|reflexivity].
        -- intros j d H. cbn [set_field p_borrowed set_borrowed field_of]. fold P. destruct (Nat.eq_dec i j) as [<-|Nij].
           ++ rewrite (nth_put_same i _ _ _ Es) in H. discriminate.
           ++ rewrite nth_put_other in H by exact Nij. rewrite get_del_other; [eapply L; eauto|].
              eapply (kept_apart _ _ _ _ _ j i (VLent d) (VLent c) d c G); cbn; auto.
        -- apply SeenSame; [reflexivity|reflexivity|discriminate].
  - destruct Ht as (B & Ho & Ht). destruct (make K mode s0 (g_world x)) as [w1 r] eqn:Em. injection E as <-. fold P.
    assert (Pm : Permutation (kept dr dw P gs) (grasp s ++ kept dr dw P (put_nth i VNone gs))) by apply (kept_put dr dw P gs i s VNone Es).
    assert (Nr : (exists n, r = Ok n) \/ forall n, r <> Ok n) by (destruct r; [left; eauto|right; discriminate..]).
    destruct Nr as [[n ->]|Nr].
    + apply make_made in Em. exists (put_nth i (VTaken n) gs), dr, dw.
      assert (P' : Permutation (kept dr dw P (put_nth i (VTaken n) gs)) (n :: kept dr dw P (put_nth i VNone gs))).
      { pose proof (kept_put dr dw P gs i s (VTaken n) Es) as Q. cbn [grasp app] in Q. rewrite Pm in Q.
        rewrite (Permutation_middle (grasp s)) in Q. apply Permutation_app_inv_l in Q. now symmetry. }
      constructor; cbn [g_pool g_threads g_world].
      * apply Forall2_put; [exact Sm|apply Ho].
      * destruct (Forall2_at _ _ _ _ _ Ss Es) as (t0 & Et0 & St0). rewrite <- (put_same ts i t0 Et0). apply Forall2_put; [exact Ss|].
        pose proof (Blind B (VTaken n) I). unfold stops in *. tauto.
      * pose proof (good_sub _ _ _ _ _ _ _ Pm G) as G'. pose proof (good_made K opened named F out _ _ _ _ _ _ Em G') as G2. apply (good_sub _ _ _ [] _ _ _ (Permutation_sym P') G2).
      * apply Others; [reflexivity|discriminate].
      * apply SeenSame; [reflexivity|reflexivity|discriminate].
      * exact Mk.
      * exact Lk.
    + destruct (make_failed K opened named F True (fun _ _ _ => I) _ _ _ _ _ Em Nr) as [Gr _].
      eapply (Move _ _ _ _ VNone dr dw); [reflexivity|apply Ht; exact Nr|now apply Blind|exact Pm|exact Gr| | |reflexivity|reflexivity].
      * apply Others; [reflexivity|discriminate].
      * apply SeenSame; [reflexivity|reflexivity|discriminate].
  - destruct Ht as [-> Ht]. injection E as <-. eapply Keep; [reflexivity|exact Ht|auto..].
  - fold P in E. pose proof (grows_dial K opened named F (p_leader P) (g_world x)) as Gr. destruct (k_dial K (p_leader P) (g_world x)) as [w1 r]. injection E as <-. eapply Keep; [reflexivity|apply Ht|auto..].
  - pose proof (grows_query K opened named F h (g_world x)) as Gr. destruct (k_query K h (g_world x)) as [w1 r]. injection E as <-. eapply Keep; [reflexivity|apply Ht|auto..].
  - pose proof (grows_close K opened named F h (g_world x)) as Gr. destruct (k_close K h (g_world x)) as [w1 r]. injection E as <-. eapply Keep; [reflexivity|apply Ht|auto..].
  - injection E as <-. eapply Keep; [reflexivity|apply Ht|auto..].
  - injection E as <-. eapply Keep; [reflexivity|apply Ht|auto..].
  - injection E as <-. eapply Keep; [reflexivity|apply Ht|auto..].
  - injection E as <-. fold P. assert (M : p_marked (mark_all dead P) = p_marked P) by (unfold mark_all; rewrite Lk; cbn; clear; induction dead as [|a l IH]; [reflexivity|exact IH]).
    eapply Keep; [reflexivity|apply Ht|auto..].
  - injection E as <-. fold P. eapply Keep; [reflexivity|exact Ht|unfold set_strings_for; destruct (mode =? WriteMode); reflexivity..|exact Gr0].
  - destruct Ht as (Nv & Hg & Ht). injection E as <-. fold P. specialize (Ht (queue_of mode P)).
    set (q := queue_of mode P) in *.
    eapply (Move _ _ _ _ (seen_by mode q s) (if mode =? WriteMode then dr else []) (if mode =? WriteMode then [] else dw) (if mode =? WriteMode then dw else dr));
      [reflexivity|exact Ht| | |exact Gr0| | |reflexivity|reflexivity].
    + unfold seen_by. destruct s, (mode =? WriteMode); split; intros; try discriminate; congruence.
    + unfold kept. rewrite (grasped_same gs i s _ Es) by (rewrite grasp_seen; congruence). destruct (mode =? WriteMode); cbn [app].
      * rewrite <- !app_assoc. rewrite (app_assoc dr), (app_assoc dr (p_rq P) (p_wq P ++ _)). apply Permutation_app_swap_app.
      * rewrite <- !app_assoc. reflexivity.
    + apply Others; [reflexivity|]. unfold seen_by. destruct s, (mode =? WriteMode); discriminate.
    + apply SeenAlone; [exact I|exact Nv|]. intros r w H. unfold q, seen_by, queue_of in *. pose proof (fun r w H => Sn i r w H) as Sn'.
      assert (Rf : forall q, grown q ([] ++ q)) by (intros q'; exists []; cbn; now rewrite app_nil_r).
      destruct s; destruct (mode =? WriteMode); injection H as <- <-; try (split; intros q' H'; try discriminate; injection H' as <-; apply Rf).
      * destruct (Sn' _ _ Es) as [A _]. split; [exact A|]. intros q' [= <-]. apply Rf.
      * destruct (Sn' _ _ Es) as [_ A]. split; [|exact A]. intros q' [= <-]. apply Rf.
  - destruct Ht as ((r & w & -> & Hq) & Ht). injection E as <-. fold P. destruct (Sn i r w Es) as [A1 A2].
    set (dr' := if mode =? WriteMode then dr else []). set (dw' := if mode =? WriteMode then [] else dw).
    assert (R : exists er ew, dr ++ p_rq P = (dr' ++ p_rq (set_queue mode q P)) ++ er /\ dw ++ p_wq P = (dw' ++ p_wq (set_queue mode q P)) ++ ew).
    { unfold dr', dw', set_queue in *. destruct (mode =? WriteMode); cbn [p_rq p_wq set_wq set_rq app].
      - destruct (A2 q Hq) as [e Ee]. exists [], e. rewrite app_nil_r. auto.
      - destruct (A1 q Hq) as [e Ee]. exists e, []. rewrite app_nil_r. auto. }
    destruct R as (er & ew & R1 & R2).
    assert (Ht' : exists s', mild s' t /\ (s' = VSeen r w \/ s' = VNone)) by (destruct Ht; eauto). destruct Ht' as (s' & Ht' & Hs').
    eapply (Move _ _ _ _ s' dr' dw' (er ++ ew)); [reflexivity|exact Ht'|destruct Hs' as [->| ->]; split; discriminate| |exact Gr0| | |apply marked_set|apply lookup_set].
    + unfold kept. rewrite R1, R2, (grasped_same gs i _ s' Es) by (destruct Hs' as [->| ->]; reflexivity).
      set (a := dr' ++ _). set (b := dw' ++ _). rewrite <- !app_assoc.
      etransitivity; [apply Permutation_app_swap_app|]. apply Permutation_app_head. rewrite !(app_assoc a). apply Permutation_app_swap_app.
    + apply Others; [apply borrowed_set|]. destruct Hs' as [->| ->]; discriminate.
    + apply SeenAlone; [exact I|discriminate|]. intros r' w' H. destruct Hs' as [->| ->]; [|discriminate]. injection H as <- <-.
      unfold dr', dw', set_queue in *. destruct (mode =? WriteMode); cbn [p_rq p_wq set_wq set_rq app].
      * split; [exact A1|]. intros q' Hq'. rewrite Hq in Hq'. injection Hq' as <-. exists []. now rewrite app_nil_r.
      * split; [|exact A2]. intros q' Hq'. rewrite Hq in Hq'. injection Hq' as <-. exists []. now rewrite app_nil_r.
  - injection E as <-. eapply Keep; [reflexivity|apply Ht|auto..].
  - injection E as <-. eapply Keep; [reflexivity|apply Ht|auto..].
  - injection E as <-. eapply Keep; [reflexivity|apply Ht|auto..].
  - injection E as <-. eapply Keep; [reflexivity|exact Ht|unfold set_index; destruct (mode =? WriteMode); reflexivity..|exact Gr0].
  - injection E as <-. eapply Keep; [reflexivity|exact Ht|auto..].
Qed.
Lemma run_shared ts is : forall x x', gschedule K is x = Some x' -> locked_well ts x -> all_shared ts x -> all_shared ts x'.
Proof.
  induction is as [|i is IH]; intros x x'; cbn [gschedule]; [now intros [= <-]|].
  destruct (gsys_step K i x) as [x1|] eqn:E; [|discriminate]. intros E' Lw L. eapply IH; [exact E'| |eapply step_shared; eauto]. eapply locked_step; eauto.
Qed.
(** Nobody but a Stop touches what a client uses. *)
Theorem only_stop ts x i c k : all_shared ts x -> nth_error (g_threads x) i = Some (GUse c k) ->
  ~ In (pw_conn c) (idle (g_pool x)) /\ ~ In (pw_conn c) out
  /\ forall j t, j <> i -> nth_error (g_threads x) j = Some t -> touches (pw_conn c) t -> exists n m, nth_error ts j = Some (TStop n m).
Proof.
  intros (gs & dr & dw & [Sm Ss G L Sn Mk Lk]) Hi. destruct (Forall2_at _ _ _ _ _ Sm Hi) as (s & Es & -> & _).
  assert (Hin : In c (grasped gs)) by (apply in_flat_map; exists (VLent c); split; [eapply nth_error_In; eauto|now left]).
  assert (Aside : forall d, In d (dr ++ p_rq (g_pool x)) \/ In d (dw ++ p_wq (g_pool x)) -> pw_conn d <> pw_conn c).
  { intros d Hd Ed. destruct G as [N _ _ _]. unfold kept in N. rewrite app_assoc, map_app in N.
    assert (H : In (pw_conn c) (map pw_conn ((dr ++ p_rq (g_pool x)) ++ dw ++ p_wq (g_pool x)))) by (rewrite <- Ed; apply in_map, in_or_app; exact Hd).
    apply in_split in H. destruct H as (a & b & H). rewrite H, <- app_assoc in N. cbn [app] in N. apply NoDup_remove_2 in N. apply N.
    apply in_or_app. right. apply in_or_app. right. now apply in_map. }
  split; [|split].
  - unfold idle. rewrite <- map_app. intros H. apply in_map_iff in H. destruct H as (d & Ed & Hd). apply (Aside d); [|exact Ed].
    apply in_app_or in Hd. destruct Hd; [right|left]; apply in_or_app; now right.
  - apply (g_known _ _ _ _ _ G). unfold kept. apply in_or_app. right. apply in_or_app. now right.
  - intros j t Nji Hj T. destruct (Forall2_at _ _ _ _ _ Sm Hj) as (s & Es' & Ht). destruct (Forall2_at _ _ _ _ _ Ss Es') as (t0 & Et0 & St). rewrite Et0.
    assert (Hs : grips (pw_conn c) s \/ sees (pw_conn c) s \/ s = VStop).
    { destruct t; cbn in T; try contradiction; cbn in Ht; subst.
      - destruct Ht as [-> _]. left. exists c0. cbn. auto.
      - destruct Ht as [[Ht _]|[Ht _]]; auto.
      - destruct Ht as [[Ht|Ht] _]; auto.
      - destruct Ht as [[Ht|Ht] _]; auto.
      - destruct Ht as [-> _]. left. exists c0. cbn. auto. }
    destruct Hs as [(d & Hd & Ed)|[Hs| ->]].
    + destruct (kept_apart _ _ _ _ _ j i s (VLent c) d c G Nji Es' Es Hd (or_introl eq_refl)) as [_ X]. contradiction.
    + destruct s as [| | |r w|]; try destruct Hs. destruct H as (d & Hq & Hd & Ed). destruct (Sn _ _ _ Es') as [A1 A2]. exfalso. apply (Aside d); [|exact Ed].
      destruct Hq as [Hq|Hq]; [left; destruct (A1 _ Hq) as [e ->]|right; destruct (A2 _ Hq) as [e ->]]; apply in_or_app; now left.
    + destruct (proj1 St eq_refl) as (n & m & ->). eauto.
Qed.
Lemma start_shared p w ts : good opened named out (p_wq p ++ p_rq p) w -> p_marked p = [] -> p_lookup p = [] -> Forall uses_pool ts -> all_shared ts (mkG p w (mkRW false 0) (map work ts)).
Proof.
  intros G M Lk U. set (gs := map (fun t => match t with TStop _ _ => VStop | _ => VNone end) ts).
  assert (N : forall i s, nth_error gs i = Some s -> s = VStop \/ s = VNone).
  { intros i s H. unfold gs in H. rewrite nth_error_map in H. destruct (nth_error ts i) as [[]|]; try discriminate; injection H as <-; auto. }
  exists gs, [], []. constructor; cbn [g_pool g_threads g_world].
  - unfold gs. clear - U. induction U as [|t ts Ht U IH]; cbn [map]; constructor; [|exact IH].
    destruct t; try destruct Ht; [apply mild_stop|apply mild_client; exact I|apply mild_round|now apply mild_start].
  - unfold gs. clear. induction ts as [|t ts IH]; cbn [map]; constructor; [|exact IH]. unfold stops.
    destruct t; split; try discriminate; try (intros (? & ? & ?); discriminate); eauto.
  - assert (A : grasped gs = []) by (unfold gs, grasped; clear; induction ts as [|[] ts IH]; [reflexivity|exact IH..]).
    unfold kept. rewrite A. cbn [app]. rewrite app_nil_r. refine (good_sub _ _ _ [] (p_wq p ++ p_rq p) _ _ _ G). cbn [app]. apply Permutation_app_comm.
  - intros i c H. destruct (N _ _ H); discriminate.
  - intros i r w' H. destruct (N _ _ H); discriminate.
  - exact M.
  - exact Lk.
Qed.
End Rounds.

Theorem used_by_one_rounds {W} (K : cluster W) opened named n auth tls w0 l p w ts is x i c k : fresh K opened named -> pool_history K n auth tls w0 l p w -> honest [] l ->
  Forall uses_pool ts -> gschedule K is (mkG p w (mkRW false 0) (map work ts)) = Some x -> nth_error (g_threads x) i = Some (GUse c k) ->
  ~ In (pw_conn c) (idle (g_pool x)) /\ ~ In (pw_conn c) (lent l)
  /\ forall j t, j <> i -> nth_error (g_threads x) j = Some t -> touches (pw_conn c) t -> exists n m, nth_error ts j = Some (TStop n m).
Proof.
  intros F H Ho U Er Hi. assert (G := history_good K opened named n auth tls w0 l p w F H Ho). destruct (never_marked K _ _ _ _ _ _ _ H) as [M Lk].
  eapply (only_stop opened named (lent l)); [|exact Hi]. eapply run_shared; [exact F|exact Er|apply locked_start|]. now apply start_shared.
Qed.

Theorem used_by_one_starts {W} (K : cluster W) opened named n auth tls w0 l p w ts is x i c k : fresh K opened named -> pool_history K n auth tls w0 l p w -> honest [] l ->
  Forall uses_pool ts -> (forall n m, ~ In (TStop n m) ts) -> gschedule K is (mkG p w (mkRW false 0) (map work ts)) = Some x -> nth_error (g_threads x) i = Some (GUse c k) ->
  ~ In (pw_conn c) (idle (g_pool x)) /\ ~ In (pw_conn c) (lent l)
  /\ forall j t, j <> i -> nth_error (g_threads x) j = Some t -> ~ touches (pw_conn c) t.
Proof.
  intros F H Ho U No Er Hi. destruct (used_by_one_rounds K opened named n auth tls w0 l p w ts is x i c k F H Ho U Er Hi) as (A & B & C).
  split; [exact A|]. split; [exact B|]. intros j t N Hj T. destruct (C j t N Hj T) as (a & b & E). exact (No a b (nth_error_In _ _ E)).
Qed.
