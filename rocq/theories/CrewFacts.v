(** However goroutines borrow, give back, stop and refresh a routing pool, its connections do not become more (C140). *)
From Coq Require Import String ZArith List Bool Lia ZifyBool.
From Verif Require Import Bytes GoVal GoErr Decoder Messages GoStr Routing Pool SpecPool BytesFacts RoutingFacts PoolFacts LendFacts Concurrency ConcurFacts PoolRace RaceFacts SpecCrew.
Import ListNotations.
Open Scope Z_scope.

(** What is known of a goroutine: how it has the mutex, how many connections are in its hands, bounds for the sizes of the two queues
    and a key of the map of borrowed connections, which hold as long as it has the mutex for writing. *)
Record pos := mkPos { s_ph : phase; s_hand : nat; s_r : option nat; s_w : option nat; s_key : option bytes }.
Definition bound (mode : Z) (s : pos) : option nat := if mode =? WriteMode then s_w s else s_r s.
Definition now_bound (mode : Z) (n : nat) (s : pos) : pos :=
  match s_ph s with
  | PWrite => if mode =? WriteMode then mkPos PWrite (s_hand s) (s_r s) (Some n) (s_key s) else mkPos PWrite (s_hand s) (Some n) (s_w s) (s_key s)
  | _ => s
  end.
Definition below (o : option nat) (n : nat) : Prop := match o with Some m => (n <= m)%nat | None => True end.
Definition with_hand (h : nat) (s : pos) : pos := mkPos (s_ph s) h (s_r s) (s_w s) (s_key s).
Definition plainly (ph : phase) (h : nat) : pos := mkPos ph h None None None.
Definition in_hand (ph : phase) (o : option wrapper) : nat := match ph, o with PRead, Some _ => 1%nat | _, _ => 0%nat end.

(** What does not change while nobody makes a new pool of it: no lower limits, upper limits of at most [A] and [B]. *)
Definition sized (A B : Z) (p : pool) : Prop :=
  p_min_w p <= 0 /\ p_min_r p <= 0 /\ p_max_w p <= A /\ p_max_r p <= B /\ write_share (p_total p) <= A /\ read_share (p_total p) <= B.
Definition modest (A B : Z) (l : idle_limits) : Prop := lim_min_w l <= 0 /\ lim_min_r l <= 0 /\ lim_max_w l <= A /\ lim_max_r l <= B.

Section Slim.
(** Whether nobody starts the pool; if somebody does, the limits. *)
Variable calm : bool.
Variables A B : Z.
(** Whether borrowed connections are counted in the map or in the hands of their borrowers. *)
Variable mapped : bool.
Definition weight (t : gprog) : nat := if mapped then 0%nat else if holding t then 1%nat else 0%nat.
(** A goroutine that adds a connection to a queue only if it has one in its hands, and makes one only in its place. *)
Fixpoint slim (s : pos) (t : gprog) : Prop :=
  match t with
  | GDone r => (weight (GDone r) <= s_hand s)%nat
  | GEnd => True
  | GRLock k => slim (plainly PRead (s_hand s)) k
  | GRUnlock k => slim (plainly PFree (s_hand s)) k
  | GLock k => slim (plainly PWrite (s_hand s)) k
  | GUnlock k => slim (plainly PFree (s_hand s)) k
  | GRunning k => forall b, slim s (k b)
  | GSetRunning _ k => slim s k
  | GSize mode k => forall n : nat, (calm = true -> below (bound mode s) n) -> slim (now_bound mode n s) (k (Z.of_nat n))
  | GDequeue _ k => forall o, slim (with_hand (in_hand (s_ph s) o) s) (k o)
  | GEnqueue _ _ k => (s_ph s = PWrite \/ calm = false) /\ (1 <= s_hand s)%nat /\ s_r s = None /\ s_w s = None /\ slim (with_hand (pred (s_hand s)) s) k
  | GMarked _ k => forall b, slim s (k b)
  | GValid _ k => forall b, slim s (k b)
  | GClose _ k => forall e, slim s (k e)
  | GRead f id k => f = FBorrowed /\ s_ph s = PWrite
                    /\ forall o, slim (mkPos PWrite (s_hand s) (s_r s) (s_w s) (match o with Some _ => Some id | None => s_key s end)) (k o)
  | GWrite FHeld _ k => slim s k
  | GWrite FBorrowed g k =>
      if mapped then (exists id c, g = map_set id c /\ s_ph s = PRead /\ s_hand s = 1%nat /\ slim (with_hand 0 s) k)
                     \/ (exists id, g = map_del id /\ s_ph s = PWrite /\ s_key s = Some id /\ slim (mkPos PWrite 1 (s_r s) (s_w s) None) k)
      else slim (mkPos (s_ph s) (s_hand s) (s_r s) (s_w s) None) k
  | GMake _ _ k => (1 <= s_hand s)%nat /\ forall r, slim s (k r)
  | GUse c k => (weight (GUse c k) <= s_hand s)%nat /\ slim s k
  | GSeed k => forall r, slim s (k r)
  | GOverview _ k => forall r, slim s (k r)
  | GPart _ k => forall l, slim s (k l)
  | GAuth k => forall a, slim s (k a)
  | GQuit _ k | GSetPart _ _ k | GMark _ k | GSetStrings _ _ k => slim s k
  | GItems mode k => s_ph s = PWrite /\ forall q, slim (now_bound mode (length q) s) (k q)
  | GReplace mode q k => s_ph s = PWrite /\ (exists m, bound mode s = Some m /\ (length q <= m)%nat) /\ slim s k
  | GLimits k => forall l, (calm = false -> modest A B l) -> slim s (k l)
  | GStrings _ k => forall l, slim s (k l)
  | GIndex _ k => forall i, slim s (k i)
  | GSetIndex _ _ k | GShare k => slim s k
  end.

Definition one : nat := if mapped then 0%nat else 1%nat.
Definition anyhow (ph : phase) (t : gprog) : Prop := forall h r w y, slim (mkPos ph h r w y) t.
Lemma slim_remove s c k : (forall e, slim s (k e)) -> slim s (g_remove c k).
Proof. intros H. cbn [g_remove slim]. intros [|]; cbn [slim]; [apply H|]. intros [e|]; cbn [slim]; apply H. Qed.
Lemma slim_new y mode k : (forall h r, slim (mkPos PWrite h None None y) (k r)) -> slim (mkPos PWrite 1 None None y) (g_new mode k).
Proof.
  intros H. unfold g_new. cbn [slim]. intros l i. destruct (_ && _); [|apply H]. destruct (nth_error _ _); [|apply H]. cbn [slim s_hand]. split; [lia|].
  intros [c|e| |]; [|apply H..]. cbn [slim s_ph s_hand s_r s_w with_hand s_key]. split; [now left|]. split; [lia|]. split; [reflexivity|]. split; [reflexivity|]. apply H.
Qed.
Lemma slim_add y mode k : (forall h r, slim (mkPos PWrite h None None y) (k r)) -> slim (mkPos PWrite 1 None None y) (g_add mode k).
Proof.
  intros H. unfold g_add. cbn [slim]. intros [|a l]; [apply H|]. cbn [slim]. intros i j l'. destruct (_ =? _); cbn [slim]; now apply slim_new.
Qed.
Lemma slim_return id h hand k : (mapped = false -> hand = 1%nat) -> (forall h r, slim (plainly PFree h) (k r)) -> slim (plainly PFree hand) (g_return id h k).
Proof.
  intros Hh H. unfold g_return. cbn [slim]. intros [|]; cbn [negb slim]; [|apply H]. split; [reflexivity|]. split; [reflexivity|].
  intros [c|]; cbn [slim]; [|intros e; apply H].
  assert (Bk : slim (mkPos PWrite 1 None None None) (GWrite FHeld (map_set id c) (GValid (pw_conn c) (fun ok =>
            let m := if pw_mode c =? WriteMode then WriteMode else ReadMode in
            let back := GEnqueue m c (GUnlock (k (Ok c))) in
            if ok then back
            else g_remove c (fun e =>
              match e with
              | Some _ => g_add m (fun r => GUnlock (k (match r with Ok _ => Ok c | Err e => Err e | Panic => Panic | NoFuel => NoFuel end)))
              | None => back
              end))))).
  { cbn [slim]. cbv zeta. set (m := if pw_mode c =? WriteMode then WriteMode else ReadMode).
    assert (C : slim (mkPos PWrite 1 None None None) (GEnqueue m c (GUnlock (k (Ok c))))) by (cbn; auto).
    intros [|]; [exact C|]. apply slim_remove. intros [e|]; [|exact C]. apply slim_add. intros h' r. cbn [slim]. apply H. }
  cbn [s_ph s_hand s_r s_w s_key plainly]. destruct mapped.
  - right. exists id. split; [reflexivity|]. split; [reflexivity|]. split; [reflexivity|exact Bk].
  - rewrite (Hh eq_refl). exact Bk.
Qed.
Lemma slim_internal fuel mode k : (forall h e, slim (plainly PRead h) (k (Err e))) -> (forall h, slim (plainly PRead h) (k NoFuel)) -> (forall c, slim (plainly PRead one) (k (Ok c))) ->
  forall h, slim (plainly PRead h) (g_internal_borrow fuel mode k).
Proof.
  intros He Hn Ho. induction fuel as [|fuel IH]; intros h; [apply Hn|]. cbn [g_internal_borrow slim]. intros [c|]; cbn [with_hand plainly s_ph in_hand s_r s_w s_key]; [|apply He].
  assert (Rm : forall h, slim (plainly PRead h) (g_remove c (fun e => match e with Some e => k (Err e) | None => g_internal_borrow fuel mode k end))).
  { intros h'. apply slim_remove. intros [e|]; [apply He|apply IH]. }
  cbn [slim]. intros [|]; [apply Rm|]. cbn [slim]. intros [|]; cbn [negb]; [|apply Rm]. cbn [slim]. unfold one, plainly in Ho. destruct mapped.
  - left. exists (pw_id c), c. repeat split. apply Ho.
  - apply Ho.
Qed.
Lemma slim_lend fuel mode k : (forall h e, slim (plainly PFree h) (k (Err e))) -> (forall h, slim (plainly PFree h) (k NoFuel)) -> (forall c, slim (plainly PFree one) (k (Ok c))) ->
  forall h, slim (plainly PFree h) (g_lend fuel mode k).
Proof. intros He Hn Ho h. unfold g_lend. cbn [slim]. apply slim_internal; intros; cbn [slim]; auto. Qed.
Lemma slim_borrow fuel mode h : slim (plainly PFree h) (g_borrow fuel mode).
Proof.
  apply slim_lend; intros; cbn [slim]; unfold weight, one, holding; cbn; destruct mapped; lia.
Qed.
Lemma slim_client fuel modes : forall h, slim (plainly PFree h) (g_client fuel modes).
Proof.
  induction modes as [|m modes IH]; intros h; [exact I|]. cbn [g_client]. apply slim_lend.
  - intros. apply IH.
  - intros. cbn [slim]. unfold weight, holding. destruct mapped; lia.
  - intros c. cbn [slim]. split; [unfold weight, one, holding; cbn; destruct mapped; lia|]. apply slim_return; [unfold one; now intros ->|].
    intros h' [u|e| |]; try apply IH; cbn [slim]; unfold weight, holding; destruct mapped; lia.
Qed.
Lemma slim_result s r : slim s (g_result r).
Proof. destruct r; cbn; auto; unfold weight, holding; destruct mapped; lia. Qed.
Lemma slim_drain fuel mode k : (forall h r, slim (plainly PFree h) (k r)) -> forall h, slim (plainly PFree h) (g_drain fuel mode k).
Proof.
  intros Hk. induction fuel as [|fuel IH]; intros h; [apply Hk|]. cbn [g_drain slim]. intros n _. cbn [now_bound plainly s_ph]. destruct (_ =? 0); [apply Hk|].
  cbn [slim]. intros [c|]; [|apply Hk]. apply slim_remove. intros [e|]; [apply Hk|apply IH].
Qed.
Lemma slim_stop n m h : slim (plainly PFree h) (g_stop n m).
Proof.
  unfold g_stop. cbn [slim]. intros [|]; cbn [negb slim]; [|unfold weight, holding; destruct mapped; lia]. apply slim_drain.
  intros h' [u|e| |]; try apply slim_result. apply slim_drain. intros. apply slim_result.
Qed.
Lemma slim_merge s k : slim s k -> slim s (g_merge k).
Proof. intros H. cbn. auto. Qed.
Lemma slim_refresh s k : (forall r, slim s (k r)) -> slim s (g_refresh k).
Proof.
  intros H. unfold g_refresh. cbn [slim]. intros [h|e| |]; try apply H. cbn [slim].
  assert (M : slim s (g_merge (GQuit h (k (Ok tt))))) by (apply slim_merge; apply H).
  intros [v [rows|e| |]]; cbn [fst snd]; [|exact M|apply H..]. destruct (read_rows _ _ _) as [t|e| |]; exact M.
Qed.
Lemma slim_sift drop s : (forall c k, slim s k -> slim s (drop c k)) -> forall q k, (forall r, (length r <= length q)%nat -> slim s (k r)) -> slim s (g_sift drop q k).
Proof.
  intros Hd. induction q as [|c q IH]; intros k Hk; [apply Hk; auto|]. cbn [g_sift slim]. intros [|].
  - apply Hd, IH. intros r L. apply Hk. cbn. lia.
  - apply IH. intros r L. apply Hk. cbn. lia.
Qed.
Lemma slim_prune h y k : anyhow PWrite k -> slim (mkPos PWrite h None None y) (g_prune k).
Proof.
  intros H. unfold g_prune. cbn [slim s_ph]. split; [reflexivity|]. intros rs. cbn [now_bound s_ph s_hand s_r s_w s_key]. change (ReadMode =? WriteMode) with false. cbv iota.
  apply slim_sift; [intros c k' Hk; cbn [slim]; auto|]. intros reads L1. cbn [slim s_ph]. split; [reflexivity|]. intros ws. cbn [now_bound s_ph s_hand s_r s_w s_key].
  change (WriteMode =? WriteMode) with true. cbv iota.
  apply slim_sift; [intros c k' Hk; now apply slim_remove|]. intros writes L2. cbn [slim s_ph]. split; [reflexivity|]. split; [exists (length ws); split; [reflexivity|exact L2]|].
  split; [reflexivity|]. split; [exists (length rs); split; [reflexivity|exact L1]|]. apply H.
Qed.
(** The loop of balance that opens connections is never entered. *)
Lemma slim_low fuel mode low k n h r w y : Z.of_nat n < low -> (calm = false -> low <= 0) -> (forall r, anyhow PWrite (k r)) -> bound mode (mkPos PWrite h r w y) = Some n ->
  slim (mkPos PWrite h r w y) (g_while fuel mode low (g_more mode) k).
Proof.
  intros L Lc Hk Bn. destruct fuel as [|fuel]; [apply Hk|]. cbn [g_while slim]. rewrite Bn. intros n' L'. destruct calm; [|specialize (Lc eq_refl); lia]. specialize (L' eq_refl). cbn in L'. replace (Z.of_nat n' =? low) with false by lia.
  cbn [now_bound s_ph]. destruct (mode =? WriteMode); apply Hk.
Qed.
Lemma slim_less fuel mode high k : (forall r, anyhow PWrite (k r)) -> anyhow PWrite (g_while fuel mode high (g_less mode) k).
Proof.
  intros Hk. induction fuel as [|fuel IH]; [apply Hk|]. intros h r w y. cbn [g_while slim]. intros n _. 
  assert (Lo : anyhow PWrite (if Z.of_nat n =? high then g_less mode (g_while fuel mode high (g_less mode) k) else k (Ok tt))).
  { destruct (_ =? _); [|apply Hk]. intros h' r' w' y'. cbn [g_less slim]. intros [c|]; [apply slim_remove; intros e|]; apply IH. }
  cbn [now_bound s_ph]. destruct (mode =? WriteMode); apply Lo.
Qed.
Lemma bound_now mode n h r w y : bound mode (now_bound mode n (mkPos PWrite h r w y)) = Some n.
Proof. unfold bound, now_bound. cbn. destruct (mode =? WriteMode); reflexivity. Qed.
Lemma now_write mode n h r w y : exists r' w', now_bound mode n (mkPos PWrite h r w y) = mkPos PWrite h r' w' y.
Proof. unfold now_bound. cbn. destruct (mode =? WriteMode); eauto. Qed.
Lemma slim_bounds fuel mode low high k : (calm = false -> low <= 0) -> (forall r, anyhow PWrite (k r)) -> anyhow PWrite (g_bounds fuel mode low high k).
Proof.
  intros Lc Hk h r w y. unfold g_bounds. cbn [slim]. intros n _. pose proof (bound_now mode n h r w y) as Bn. destruct (now_write mode n h r w y) as (r' & w' & E). rewrite E in Bn |- *.
  destruct (Z.of_nat n <? low) eqn:L; [apply (slim_low _ _ _ _ n); [lia|exact Lc|exact Hk|exact Bn]|]. cbn [slim]. intros n' _.
  destruct (now_write mode n' h r' w' y) as (r2 & w2 & E'). rewrite E'. destruct (high <? Z.of_nat n'); [now apply slim_less|apply Hk].
Qed.
Lemma slim_balance fuel k : (forall r, anyhow PWrite (k r)) -> anyhow PWrite (g_balance fuel k).
Proof.
  intros Hk h r w y. unfold g_balance. cbn [slim]. intros l Hl. cbv zeta.
  assert (L1 : calm = false -> lim_min_w l <= 0) by (intros X; destruct (Hl X); tauto). assert (L2 : calm = false -> lim_min_r l <= 0) by (intros X; destruct (Hl X); tauto).
  set (rest := g_bounds fuel WriteMode (lim_min_w l) (lim_max_w l) (fun r => match r with Ok _ => g_bounds fuel ReadMode (lim_min_r l) (lim_max_r l) k | _ => k r end)).
  assert (R : anyhow PWrite rest).
  { apply slim_bounds; [exact L1|]. intros [u|e| |]; try apply Hk. now apply slim_bounds. }
  cbn [slim]. intros n _. pose proof (bound_now ReadMode n h r w y) as Bn. destruct (now_write ReadMode n h r w y) as (r' & w' & E). rewrite E in Bn |- *.
  destruct (Z.of_nat n <? lim_min_r l) eqn:L; [|apply R]. apply (slim_low _ _ _ _ n); [lia|exact L2| |exact Bn]. intros [u|e| |]; auto.
Qed.
Lemma slim_round fuel h : slim (plainly PFree h) (g_round fuel).
Proof.
  unfold g_round. cbn [slim]. apply slim_refresh. intros [u|e| |]; try (cbn [slim]; apply slim_result). apply slim_prune. apply slim_balance. intros r h' r' w' y. cbn [slim]. apply slim_result.
Qed.
Lemma slim_reclaim id h hand : mapped = true -> slim (plainly PFree hand) (g_reclaim id h).
Proof.
  intros M. apply slim_return; [rewrite M; discriminate|]. intros h' r. cbn [slim]. unfold weight. rewrite M. lia.
Qed.
(** Start opens as many connections as the limits allow. *)
Lemma slim_fresh h mode k : (forall h' r, (h <= h')%nat -> slim (plainly PFree h') (k r)) -> calm = false -> slim (plainly PFree (S h)) (g_add mode k).
Proof.
  intros H C. unfold g_add. cbn [slim]. intros [|a l]; [apply H; lia|]. cbn [slim]. intros i j l'.
  assert (New : slim (plainly PFree (S h)) (g_new mode k)).
  { unfold g_new. cbn [slim]. intros l2 i2. destruct (_ && _); [|apply H; lia]. destruct (nth_error _ _); [|apply H; lia]. cbn [slim s_hand plainly]. split; [lia|].
    intros [c|e| |]; [|apply H; lia..]. cbn [slim s_ph s_hand s_r s_w with_hand s_key pred]. split; [now right|]. split; [cbn; lia|]. split; [reflexivity|]. split; [reflexivity|]. now apply (H h). }
  destruct (_ =? _); cbn [slim]; exact New.
Qed.
Lemma slim_times n mode k : calm = false -> forall h, (forall h' r, (h <= h')%nat -> slim (plainly PFree h') (k r)) -> slim (plainly PFree (n + h)) (g_times n mode k).
Proof.
  intros C. induction n as [|n IH]; intros h H; [apply H; lia|]. cbn [g_times Nat.add]. apply slim_fresh; [|exact C].
  intros h' [u|e| |] L; [|apply H; lia..]. replace h' with (n + (h' - n))%nat by lia. apply IH. intros h2 r L2. apply H. lia.
Qed.
Lemma slim_start h : calm = false -> (Z.to_nat A + Z.to_nat B <= h)%nat -> slim (plainly PFree h) g_start.
Proof.
  intros C L. unfold g_start. cbn [slim]. intros [|]; cbn [slim]; [unfold weight, holding; destruct mapped; lia|]. apply slim_refresh.
  intros [u|e| |]; try apply slim_result. cbn [slim]. intros l Hl. destruct (Hl C) as (_ & _ & Lw & _).
  replace h with (Z.to_nat (lim_max_w l) + (h - Z.to_nat (lim_max_w l)))%nat by lia. apply slim_times; [exact C|].
  intros h' [v|e| |] L'; try apply slim_result. cbn [slim]. intros l' Hl'. destruct (Hl' C) as (_ & _ & _ & Lr).
  replace h' with (Z.to_nat (lim_max_r l') + (h' - Z.to_nat (lim_max_r l')))%nat by lia. apply slim_times; [exact C|]. intros. apply slim_result.
Qed.
End Slim.

Section Crew.
Context {W : Type}.
Variable K : cluster W.
Variables calm mapped : bool.
Variables A B : Z.
Notation slim := (slim calm A B mapped).
(** What a goroutine knows is so. *)
Record tied (p : pool) (a b : nat) (s : pos) : Prop := mkTied {
  t_free : s_ph s <> PWrite -> s_r s = None /\ s_w s = None /\ s_key s = None;
  t_r : forall m, s_r s = Some m -> (m <= a)%nat /\ (calm = true -> length (p_rq p) <= m)%nat;
  t_w : forall m, s_w s = Some m -> (m <= b)%nat /\ (calm = true -> length (p_wq p) <= m)%nat;
  t_key : mapped = true -> forall id, s_key s = Some id -> map_get (p_borrowed p) id <> None
}.
Definition out_of_pool (p : pool) : nat := if mapped then length (p_borrowed p) else 0%nat.
Definition in_all (ss : list pos) : nat := list_sum (map s_hand ss).
(** [a] and [b]: places in the two queues. *)
Definition crew (N : nat) (x : gsys (W := W)) : Prop :=
  exists tps ss a b, phased tps x /\ map s_ph ss = map snd tps /\ Forall2 slim ss (g_threads x) /\ Forall (tied (g_pool x) a b) ss
  /\ (length (p_rq (g_pool x)) <= a)%nat /\ (length (p_wq (g_pool x)) <= b)%nat /\ (a + b + out_of_pool (g_pool x) + in_all ss <= N)%nat
  /\ (calm = false -> sized A B (g_pool x)).
Lemma list_sum_cons n l : list_sum (n :: l) = (n + list_sum l)%nat.
Proof. reflexivity. Qed.
Lemma in_all_put ss : forall i s s', nth_error ss i = Some s -> (in_all (put_nth i s' ss) + s_hand s = in_all ss + s_hand s')%nat.
Proof.
  induction ss as [|x ss IH]; intros [|i] s s'; cbn [nth_error]; try discriminate.
  - intros [= ->]. unfold in_all. cbn. lia.
  - intros H. specialize (IH _ _ s' H). unfold in_all in *. cbn [put_nth map]. rewrite !list_sum_cons. lia.
Qed.
Lemma alone tps x i j t ph t' ph' : phased (W := W) tps x -> nth_error tps i = Some (t, ph) -> nth_error tps j = Some (t', ph') -> j <> i -> ph <> PFree -> ph' <> PWrite.
Proof.
  intros (_ & S1 & S2 & S3) Hi Hj N Hp ->.
  assert (Ei : nth_error (map snd tps) i = Some ph) by now rewrite nth_error_map, Hi.
  assert (Ej : nth_error (map snd tps) j = Some PWrite) by now rewrite nth_error_map, Hj.
  unfold writers in S2. unfold readers in S1.
  pose proof (count_at (fun ph => match ph with PWrite => true | _ => false end) _ _ _ Ej eq_refl) as C.
  destruct (rw_writer (g_lock x)); [|lia]. specialize (S3 eq_refl). destruct ph; [congruence| |].
  - pose proof (count_at (fun ph => match ph with PRead => true | _ => false end) _ _ _ Ei eq_refl). lia.
  - assert (Nji : i <> j) by congruence. pose proof (count_two (fun ph => match ph with PWrite => true | _ => false end) _ _ _ _ _ Nji Ei Ej eq_refl eq_refl). lia.
Qed.
Lemma Forall_put {T} (P : T -> Prop) l : forall i a, (forall j x, j <> i -> nth_error l j = Some x -> P x) -> P a -> Forall P (put_nth i a l).
Proof.
  induction l as [|x l IH]; intros [|i] a H Ha; cbn; constructor.
  - exact Ha.
  - apply Forall_forall. intros y Hy. apply In_nth_error in Hy. destruct Hy as [j Hj]. apply (H (S j) y); [lia|exact Hj].
  - apply (H 0%nat x); [lia|reflexivity].
  - apply IH; [|exact Ha]. intros j y N Hj. apply (H (S j) y); [lia|exact Hj].
Qed.
Lemma set_len id (c : wrapper) m : (length (map_set id c m) <= S (length m))%nat.
Proof. unfold map_set. cbn. induction m as [|[k v] m IH]; cbn; [lia|]. destruct (bytes_eqb id k); cbn; lia. Qed.
Lemma del_le {T} id (m : list (bytes * T)) : (length (map_del id m) <= length m)%nat.
Proof. induction m as [|[k v] m IH]; cbn; [lia|]. destruct (bytes_eqb id k); cbn; lia. Qed.
Lemma del_len {T} id (m : list (bytes * T)) : map_get m id <> None -> (S (length (map_del id m)) <= length m)%nat.
Proof.
  induction m as [|[k v] m IH]; cbn; [congruence|]. destruct (bytes_eqb id k) eqn:E.
  - intros _. pose proof (del_le id m). lia.
  - intros H. specialize (IH H). cbn. lia.
Qed.
Lemma bounds_now p a b mode s : tied p a b s -> (length (p_rq p) <= a)%nat -> (length (p_wq p) <= b)%nat ->
  (calm = true -> below (bound mode s) (length (queue_of mode p))) /\ tied p a b (now_bound mode (length (queue_of mode p)) s).
Proof.
  intros [T1 T2 T3 T4] La Lb. split.
  - unfold bound, queue_of, below. destruct (mode =? WriteMode).
    + destruct (s_w s) as [m|]; [now apply (T3 m)|auto].
    + destruct (s_r s) as [m|]; [now apply (T2 m)|auto].
  - unfold now_bound, queue_of. destruct (s_ph s) eqn:P; [constructor; rewrite ?P; auto..|]. destruct (mode =? WriteMode); constructor; cbn; try (congruence || assumption).
    + intros m [= <-]. lia.
    + intros m [= <-]. lia.
Qed.
Lemma now_ph mode n s : s_ph (now_bound mode n s) = s_ph s.
Proof. unfold now_bound. destruct (s_ph s) eqn:P; try exact P. destruct (mode =? WriteMode); reflexivity. Qed.
Lemma now_hand mode n s : s_hand (now_bound mode n s) = s_hand s.
Proof. unfold now_bound. destruct (s_ph s); try reflexivity. destruct (mode =? WriteMode); reflexivity. Qed.
Definition settings (p : pool) := (p_min_w p, p_min_r p, p_max_w p, p_max_r p, p_total p).
Lemma settings_sized p q : settings p = settings q -> sized A B q -> sized A B p.
Proof. unfold settings, sized. intros [= -> -> -> -> ->]. auto. Qed.
Lemma settings_queue m q p : settings (set_queue m q p) = settings p.
Proof. unfold set_queue. destruct (m =? WriteMode); reflexivity. Qed.
Lemma crew_step N i x x' : gsys_step K i x = Some x' -> crew N x -> crew N x'.
Proof.
  intros E (tps & ss & a & b & Ph & Es & Fs & Ft & La & Lb & Lsum & Lz).
  destruct (phased_step K tps i x x' E Ph) as (t & t0 & ph & ph' & Et & Ep & Ph' & Sh).
  unfold gsys_step in E. rewrite Et in E. destruct (Forall2_at _ _ _ _ _ Fs Et) as (s & Hs & Ht).
  assert (Hph : s_ph s = ph).
  { assert (X : nth_error (map s_ph ss) i = Some (s_ph s)) by now rewrite nth_error_map, Hs. rewrite Es, nth_error_map, Ep in X. cbn in X. congruence. }
  assert (Ti : tied (g_pool x) a b s) by (apply (proj1 (Forall_forall _ _) Ft); eapply nth_error_In; eauto).
  assert (Tj : forall j s1, nth_error ss j = Some s1 -> tied (g_pool x) a b s1) by (intros j s1 H; apply (proj1 (Forall_forall _ _) Ft); eapply nth_error_In; eauto).
  assert (Other : ph <> PFree -> forall j s1, j <> i -> nth_error ss j = Some s1 -> s_ph s1 <> PWrite).
  { intros Np j s1 N' Hj. assert (X : nth_error (map s_ph ss) j = Some (s_ph s1)) by now rewrite nth_error_map, Hj. rewrite Es, nth_error_map in X.
    destruct (nth_error tps j) as [[t1 ph1]|] eqn:Ej; [|discriminate]. cbn in X. injection X as <-. exact (alone tps x i j t0 ph t1 ph1 Ph Ep Ej N' Np). }
  assert (Move : forall p w l t' s' a' b', x' = mkG p w l (put_nth i t' (g_threads x)) -> slim s' t' -> s_ph s' = ph' -> tied p a' b' s' ->
    (forall j s1, j <> i -> nth_error ss j = Some s1 -> tied p a' b' s1) -> (length (p_rq p) <= a')%nat -> (length (p_wq p) <= b')%nat ->
    (a' + b' + out_of_pool p + s_hand s' <= a + b + out_of_pool (g_pool x) + s_hand s)%nat -> settings p = settings (g_pool x) \/ (calm = false -> sized A B p) -> crew N x').
  { intros p w l t' s' a' b' Ex Hsl Hp' Ht' Ho L1 L2 L3 L4. exists (put_nth i (t0, ph') tps), (put_nth i s' ss), a', b'. split; [exact Ph'|]. subst x'. cbn [g_threads g_pool].
    split; [rewrite !map_put, Es; cbn; now rewrite Hp'|]. split; [now apply Forall2_put|]. split; [now apply Forall_put|].
    split; [exact L1|]. split; [exact L2|]. pose proof (in_all_put ss i s s' Hs). split; [lia|]. destruct L4 as [L4|L4]; [|exact L4]. intros C. eapply settings_sized; [exact L4|auto]. }
  assert (Bare : forall p a' b' s1, s_ph s1 <> PWrite -> tied (g_pool x) a b s1 -> tied p a' b' s1).
  { intros p a' b' s1 N1 [T1 _ _ _]. destruct (T1 N1) as (R1 & R2 & R3). constructor; [auto|rewrite R1; discriminate|rewrite R2; discriminate|rewrite R3; discriminate]. }
  assert (Same : forall p, p_rq p = p_rq (g_pool x) -> p_wq p = p_wq (g_pool x) -> p_borrowed p = p_borrowed (g_pool x) -> forall s1, tied (g_pool x) a b s1 -> tied p a b s1).
  { intros p E1 E2 E3 s1 [T1 T2 T3 T4]. constructor; rewrite ?E1, ?E2, ?E3; auto. }
  assert (Keep : forall p w l t', x' = mkG p w l (put_nth i t' (g_threads x)) -> slim s t' -> ph' = ph ->
    p_rq p = p_rq (g_pool x) -> p_wq p = p_wq (g_pool x) -> p_borrowed p = p_borrowed (g_pool x) ->
    settings p = settings (g_pool x) \/ (calm = false -> sized A B p) -> crew N x').
  { intros p w l t' Ex Hsl -> E1 E2 E3 E4. apply (Move p w l t' s a b); [exact Ex|exact Hsl|exact Hph|now apply Same| | | | |exact E4].
    - intros j s1 _ Hj. eapply Same; eauto.
    - now rewrite E1.
    - now rewrite E2.
    - unfold out_of_pool. rewrite E3. lia. }
  assert (Lock : forall w l t', x' = mkG (g_pool x) w l (put_nth i t' (g_threads x)) -> slim (plainly ph' (s_hand s)) t' -> crew N x').
  { intros w l t' Ex Hsl. apply (Move (g_pool x) w l t' (plainly ph' (s_hand s)) a b); [exact Ex|exact Hsl|reflexivity| |eauto|exact La|exact Lb|cbn; lia|now left].
    constructor; cbn; [auto|discriminate|discriminate|discriminate]. }
  destruct t; cbn [gstep] in E; cbn [CrewFacts.slim] in Ht; cbn [shifts] in Sh.
  - discriminate.
  - discriminate.
  - destruct (rw_writer (g_lock x)); [discriminate|]. injection E as <-. destruct Sh as [_ ->]. eapply Lock; [reflexivity|exact Ht].
  - injection E as <-. destruct Sh as [_ ->]. eapply Lock; [reflexivity|exact Ht].
  - destruct (rw_writer (g_lock x)); [discriminate|]. destruct (rw_readers (g_lock x)); [|discriminate]. injection E as <-. destruct Sh as [_ ->]. eapply Lock; [reflexivity|exact Ht].
  - injection E as <-. destruct Sh as [_ ->]. eapply Lock; [reflexivity|exact Ht].
  - injection E as <-. eapply Keep; [reflexivity|apply Ht|auto..].
  - injection E as <-. eapply Keep; [reflexivity|exact Ht|auto..].
  - injection E as <-. destruct (bounds_now (g_pool x) a b mode s Ti La Lb) as [B1 B2]. eapply (Move _ _ _ _ (now_bound mode (length (queue_of mode (g_pool x))) s) a b); [reflexivity|apply Ht; exact B1|..].
    + rewrite now_ph. congruence.
    + exact B2.
    + intros j s1 _ Hj. eauto.
    + exact La.
    + exact Lb.
    + rewrite now_hand. lia.
    + now left.
  - destruct (dequeue (queue_of mode (g_pool x))) as [o q] eqn:Eq. injection E as <-. subst ph'.
    assert (Q : o = None /\ queue_of mode (g_pool x) = [] /\ q = [] \/ exists c, o = Some c /\ queue_of mode (g_pool x) = c :: q).
    { destruct (queue_of mode (g_pool x)); injection Eq as <- <-; [left; auto|right; eauto]. }
    assert (Lq : (length q <= length (queue_of mode (g_pool x)))%nat) by (destruct Q as [(_ & -> & ->)|(c & _ & ->)]; cbn; lia).
    assert (Sz : (length (p_rq (set_queue mode q (g_pool x))) <= length (p_rq (g_pool x)))%nat /\ (length (p_wq (set_queue mode q (g_pool x))) <= length (p_wq (g_pool x)))%nat).
    { unfold set_queue, queue_of in *. destruct (mode =? WriteMode); cbn; lia. }
    assert (Less : forall s1, tied (g_pool x) a b s1 -> tied (set_queue mode q (g_pool x)) a b s1).
    { intros s1 [T1 T2 T3 T4]. constructor; [exact T1| | |rewrite borrowed_set; exact T4]; intros m Em; [destruct (T2 m Em) as [X Y]|destruct (T3 m Em) as [X Y]]; (split; [exact X|intros C; specialize (Y C); lia]). }
    assert (Hand : forall h s1, tied (set_queue mode q (g_pool x)) a b s1 -> tied (set_queue mode q (g_pool x)) a b (with_hand h s1)) by (intros h s1 [T1 T2 T3 T4]; constructor; auto).
    destruct (in_hand (s_ph s) o) eqn:Ei.
    + eapply (Move _ _ _ _ (with_hand 0 s) a b); [reflexivity|rewrite <- Ei; apply Ht|exact Hph|now apply Hand, Less| |lia|lia| |left; apply settings_queue].
      * intros j s1 _ Hj. apply Less. eauto.
      * unfold out_of_pool. rewrite borrowed_set. cbn. lia.
    + (* a borrower *)
      assert (Pr : s_ph s = PRead) by (destruct (s_ph s); [discriminate|reflexivity|discriminate]). rewrite Pr in Ei. cbn in Ei. destruct Q as [(-> & _)|(c & -> & Ec)]; [discriminate|].
      injection Ei as <-.
      assert (T : tied (set_queue mode q (g_pool x)) (if mode =? WriteMode then a else pred a) (if mode =? WriteMode then pred b else b) (with_hand 1 s)).
      { assert (X : s_ph (with_hand 1 s) <> PWrite) by (cbn; congruence). destruct Ti as [T1 _ _ _]. assert (Y : s_ph s <> PWrite) by congruence. destruct (T1 Y) as (R1 & R2 & R3).
        constructor; cbn; [auto|rewrite R1; discriminate|rewrite R2; discriminate|rewrite R3; discriminate]. }
      specialize (Ht (Some c)). rewrite Pr in Ht. cbn [in_hand] in Ht.
      eapply (Move _ _ _ _ (with_hand 1 s) (if mode =? WriteMode then a else pred a) (if mode =? WriteMode then pred b else b)); [reflexivity|exact Ht|exact Hph|exact T| | | | |left; apply settings_queue].
      * intros j s1 N1 Hj. apply Bare; eauto. apply (Other) with (j := j); auto. congruence.
      * unfold set_queue, queue_of in *. destruct (mode =? WriteMode); cbn; [lia|]. rewrite Ec in La. cbn in La. lia.
      * unfold set_queue, queue_of in *. destruct (mode =? WriteMode); cbn; [|lia]. rewrite Ec in Lb. cbn in Lb. lia.
      * unfold out_of_pool. rewrite borrowed_set. unfold queue_of in Ec. cbn [with_hand s_hand]. destruct (mode =? WriteMode).
        -- rewrite Ec in Lb. cbn in Lb. lia.
        -- rewrite Ec in La. cbn in La. lia.
  - destruct Ht as (P & Hh & N1 & N2 & Ht). injection E as <-. subst ph'.
    eapply (Move _ _ _ _ (with_hand (pred (s_hand s)) s) (if mode =? WriteMode then a else S a) (if mode =? WriteMode then S b else b)); [reflexivity|exact Ht|exact Hph| | | | | |left; apply settings_queue].
    + destruct Ti as [T1 T2 T3 T4]. constructor; cbn; [exact T1|rewrite N1; discriminate|rewrite N2; discriminate|rewrite borrowed_set; exact T4].
    + intros j s1 Nj Hj. destruct P as [P|P].
      * apply Bare; eauto. apply (Other) with (j := j); auto. congruence.
      * destruct (Tj j s1 Hj) as [T1 T2 T3 T4]. constructor; [exact T1| | |rewrite borrowed_set; exact T4]; intros m Em.
        -- destruct (T2 m Em) as [X _]. split; [destruct (mode =? WriteMode); lia|congruence].
        -- destruct (T3 m Em) as [X _]. split; [destruct (mode =? WriteMode); lia|congruence].
    + unfold set_queue, queue_of, enqueue. destruct (mode =? WriteMode); cbn; [lia|]. rewrite app_length. cbn. lia.
    + unfold set_queue, queue_of, enqueue. destruct (mode =? WriteMode); cbn; [|lia]. rewrite app_length. cbn. lia.
    + unfold out_of_pool. rewrite borrowed_set. cbn [with_hand s_hand]. destruct (mode =? WriteMode); lia.
  - injection E as <-. eapply Keep; [reflexivity|apply Ht|auto..].
  - destruct (k_valid K h (g_world x)) as [w1 v]. injection E as <-. eapply Keep; [reflexivity|apply Ht|auto..].
  - destruct (k_close K h (g_world x)) as [w1 v]. injection E as <-. eapply Keep; [reflexivity|apply Ht|auto..].
  - destruct Ht as (-> & P & Ht). injection E as <-. subst ph'. cbn [field_of].
    eapply (Move _ _ _ _ (mkPos PWrite (s_hand s) (s_r s) (s_w s) (match map_get (p_borrowed (g_pool x)) id with Some _ => Some id | None => s_key s end)) a b); [reflexivity|apply Ht|cbn; congruence| | |exact La|exact Lb|cbn; lia|now left].
    + destruct Ti as [T1 T2 T3 T4]. constructor; cbn; [congruence|exact T2|exact T3|]. intros M id'. destruct (map_get (p_borrowed (g_pool x)) id) eqn:Eg; [|now apply T4]. intros [= <-]. congruence.
    + intros j s1 _ Hj. eauto.
  - injection E as <-. subst ph'. destruct f; [eapply Keep; [reflexivity|exact Ht|reflexivity|reflexivity|reflexivity|reflexivity|now left]|]. cbn [set_field field_of]. destruct mapped eqn:M.
    + destruct Ht as [(id & c & -> & P & Hh & Ht)|(id & -> & P & Hk & Ht)].
      * eapply (Move _ _ _ _ (with_hand 0 s) a b); [reflexivity|exact Ht|exact Hph| | |exact La|exact Lb| |now left].
        -- destruct Ti as [T1 _ _ _]. assert (Y : s_ph s <> PWrite) by congruence. destruct (T1 Y) as (R1 & R2 & R3). constructor; cbn; [auto|rewrite R1; discriminate|rewrite R2; discriminate|rewrite R3; discriminate].
        -- intros j s1 Nj Hj. apply Bare; eauto. apply (Other) with (j := j); auto. congruence.
        -- unfold out_of_pool. rewrite ?M. cbn [p_borrowed set_borrowed set_field field_of with_hand s_hand]. pose proof (set_len id c (p_borrowed (g_pool x))). lia.
      * eapply (Move _ _ _ _ (mkPos PWrite 1 (s_r s) (s_w s) None) a b); [reflexivity|exact Ht|cbn; congruence| | |exact La|exact Lb| |now left].
        -- destruct Ti as [T1 T2 T3 T4]. constructor; cbn; [congruence|exact T2|exact T3|discriminate].
        -- intros j s1 Nj Hj. apply Bare; eauto. apply (Other) with (j := j); auto. congruence.
        -- unfold out_of_pool. rewrite ?M. cbn [p_borrowed set_borrowed set_field field_of s_hand]. destruct Ti as [_ _ _ T4]. pose proof (del_len id (p_borrowed (g_pool x)) (T4 M id Hk)). lia.
    + eapply (Move _ _ _ _ (mkPos (s_ph s) (s_hand s) (s_r s) (s_w s) None) a b); [reflexivity|exact Ht|exact Hph| | |exact La|exact Lb| |now left].
      * destruct Ti as [T1 T2 T3 T4]. constructor; cbn; [intros Y; destruct (T1 Y) as (R1 & R2 & R3); auto|exact T2|exact T3|discriminate].
      * intros j s1 Nj Hj. destruct (Tj j s1 Hj) as [T1 T2 T3 T4]. constructor; [exact T1|exact T2|exact T3|congruence].
      * unfold out_of_pool. rewrite ?M. cbn [s_hand]. lia.
  - destruct Ht as [_ Ht]. destruct (make K mode s0 (g_world x)) as [w1 v]. injection E as <-. eapply Keep; [reflexivity|apply Ht|auto..].
  - injection E as <-. eapply Keep; [reflexivity|apply Ht|auto..].
  - destruct (k_dial K _ (g_world x)) as [w1 v]. injection E as <-. eapply Keep; [reflexivity|apply Ht|auto..].
  - destruct (k_query K _ (g_world x)) as [w1 v]. injection E as <-. eapply Keep; [reflexivity|apply Ht|auto..].
  - destruct (k_close K _ (g_world x)) as [w1 v]. injection E as <-. eapply Keep; [reflexivity|apply Ht|auto..].
  - injection E as <-. eapply Keep; [reflexivity|apply Ht|auto..].
  - injection E as <-. eapply Keep; [reflexivity|apply Ht|auto..].
  - injection E as <-. eapply Keep; [reflexivity|apply Ht|auto..].
  - injection E as <-. eapply Keep; [reflexivity|apply Ht|auto..].
  - injection E as <-. eapply Keep; [reflexivity|exact Ht|exact Sh|unfold set_strings_for; destruct (mode =? WriteMode); auto..].
  - destruct Ht as [_ Ht]. injection E as <-. destruct (bounds_now (g_pool x) a b mode s Ti La Lb) as [B1 B2]. eapply (Move _ _ _ _ (now_bound mode (length (queue_of mode (g_pool x))) s) a b); [reflexivity|apply Ht|..].
    + rewrite now_ph. congruence.
    + exact B2.
    + intros j s1 _ Hj. eauto.
    + exact La.
    + exact Lb.
    + rewrite now_hand. lia.
    + now left.
  - destruct Ht as (P & (m & Bm & Lq) & Ht). injection E as <-.
    assert (T : tied (set_queue mode q (g_pool x)) a b s /\ (length (p_rq (set_queue mode q (g_pool x))) <= a)%nat /\ (length (p_wq (set_queue mode q (g_pool x))) <= b)%nat).
    { destruct Ti as [T1 T2 T3 T4]. unfold bound in Bm. unfold set_queue. destruct (mode =? WriteMode); cbn [p_rq p_wq set_rq set_wq].
      - pose proof (T3 _ Bm). split; [|lia]. constructor; [exact T1|exact T2| |exact T4]. cbn. intros m' E'. rewrite Bm in E'. injection E' as <-. split; [lia|auto].
      - pose proof (T2 _ Bm). split; [|lia]. constructor; [exact T1| |exact T3|exact T4]. cbn. intros m' E'. rewrite Bm in E'. injection E' as <-. split; [lia|auto]. }
    destruct T as (T & L1 & L2). eapply (Move _ _ _ _ s a b); [reflexivity|exact Ht|congruence|exact T| |exact L1|exact L2| |left; apply settings_queue].
    + intros j s1 N1 Hj. apply Bare; eauto. apply (Other) with (j := j); auto. congruence.
    + unfold out_of_pool. rewrite borrowed_set. lia.
  - injection E as <-. eapply Keep; [reflexivity|apply Ht; intros C; destruct (Lz C) as (Z1 & Z2 & Z3 & Z4 & _); now repeat split|auto..].
  - injection E as <-. eapply Keep; [reflexivity|apply Ht|auto..].
  - injection E as <-. eapply Keep; [reflexivity|apply Ht|auto..].
  - injection E as <-. eapply Keep; [reflexivity|exact Ht|exact Sh|unfold set_index; destruct (mode =? WriteMode); auto..].
  - injection E as <-. eapply Keep; [reflexivity|apply Ht|auto..]. right. intros C. destruct (Lz C) as (Z1 & Z2 & Z3 & Z4 & Z5 & Z6). now repeat split.
Qed.
Lemma crew_run N is : forall x x', gschedule K is x = Some x' -> crew N x -> crew N x'.
Proof.
  induction is as [|i is IH]; intros x x'; cbn [gschedule]; [now intros [= <-]|].
  destruct (gsys_step K i x) as [x1|] eqn:E; [|discriminate]. intros E' L. eapply IH; [exact E'|]. eapply crew_step; eauto.
Qed.
(** What a goroutine may add to the pool. *)
Definition credit (t : task) : nat := match t with TStart => Z.to_nat A + Z.to_nat B | _ => 0 end.
Lemma crew_start p w ts : (calm = false -> sized A B p) -> (forall t, In t ts -> slim (plainly PFree (credit t)) (work t)) ->
  crew (length (idle p) + out_of_pool p + list_sum (map credit ts)) (mkG p w (mkRW false 0) (map work ts)).
Proof.
  intros Hz H. destruct (locked_start (W := W) p w ts) as (tps & Et & F & S1). exists tps, (map (fun t => plainly PFree (credit t)) ts), (length (p_rq p)), (length (p_wq p)).
  assert (Free : map snd tps = map (fun _ => PFree) ts).
  { subst ts. clear - S1. destruct S1 as (A & B & _). cbn in A, B. unfold readers, writers in *. induction tps as [|[t ph] tps IH]; [reflexivity|]. cbn in A, B |- *. destruct ph; cbn in A, B; try lia. now rewrite IH. }
  split; [split; [exact F|exact S1]|]. split; [rewrite map_map; cbn [s_ph plainly]; now rewrite Free|]. cbn [g_threads g_pool]. split; [|split; [|split; [lia|split; [lia|split; [|exact Hz]]]]].
  - clear - H. induction ts as [|t ts IH]; cbn; constructor; [apply H; now left|apply IH; intros; apply H; now right].
  - apply Forall_forall. intros s Hs. apply in_map_iff in Hs. destruct Hs as (t & <- & _). constructor; cbn; [auto|discriminate|discriminate|discriminate].
  - unfold idle. rewrite app_length, !map_length. unfold in_all. rewrite map_map. cbn [s_hand plainly].
    change (map (fun t => credit t) ts) with (map credit ts). lia.
Qed.
Lemma crew_idle N x : crew N x -> (length (idle (g_pool x)) + out_of_pool (g_pool x) <= N)%nat.
Proof. intros (tps & ss & a & b & _ & _ & _ & _ & La & Lb & L & _). unfold idle. rewrite app_length, !map_length. lia. Qed.
Lemma crew_held N x : mapped = false -> crew N x -> (length (idle (g_pool x)) + holders (g_threads x) <= N)%nat.
Proof.
  intros M (tps & ss & a & b & _ & _ & Fs & _ & La & Lb & L & _). unfold idle. rewrite app_length, !map_length.
  assert (H : (holders (g_threads x) <= in_all ss)%nat); [|lia].
  clear - Fs M. unfold holders, in_all. induction Fs as [|s t ss ts Hs Fs IH]; [cbn; lia|]. cbn [map filter]. rewrite list_sum_cons.
  assert (X : (weight mapped t <= s_hand s)%nat) by (rewrite M in *; destruct t; cbn in Hs |- *; try lia; exact Hs || apply Hs).
  unfold weight in X. rewrite M in X. destruct (holding t); cbn; lia.
Qed.
End Crew.

Lemma slim_tasks calm A B mapped t : (t = TStart -> calm = false) -> (returns t -> mapped = true) -> slim calm A B mapped (plainly PFree (credit A B t)) (work t).
Proof.
  intros Hs Hr. destruct t as [fuel mode|id h|n m|fuel modes|fuel|]; cbn [work credit].
  - apply slim_borrow.
  - apply slim_reclaim. apply Hr. exact I.
  - apply slim_stop.
  - apply slim_client.
  - apply slim_round.
  - apply slim_start; [now apply Hs|lia].
Qed.
Lemma no_credit ts : ~ In TStart ts -> list_sum (map (credit 0 0) ts) = 0%nat.
Proof. induction ts as [|t ts IH]; [reflexivity|]. intros N. cbn [map]. rewrite list_sum_cons, IH by (intros H; apply N; now right). destruct t; reflexivity. Qed.
(** As many as the Starts may open. *)
Lemma all_credit A B ts : list_sum (map (credit A B) ts) = (length (filter starting ts) * (Z.to_nat A + Z.to_nat B))%nat.
Proof. induction ts as [|t ts IH]; [reflexivity|]. cbn [map]. rewrite list_sum_cons, IH. destruct t; cbn [credit starting filter length]; lia. Qed.

Theorem never_more {W} (K : cluster W) p w ts is x : ~ In TStart ts -> gschedule K is (mkG p w (mkRW false 0) (map work ts)) = Some x ->
  (length (idle (g_pool x)) + length (p_borrowed (g_pool x)) <= length (idle p) + length (p_borrowed p))%nat.
Proof.
  intros N E. pose proof (no_credit ts N) as C. apply (crew_run K true true 0 0 (length (idle p) + out_of_pool true p + list_sum (map (credit 0 0) ts))) in E.
  - apply crew_idle in E. unfold out_of_pool in E. lia.
  - apply crew_start; [discriminate|]. intros t H. apply slim_tasks; [intros ->; contradiction|auto].
Qed.
Theorem never_more_held {W} (K : cluster W) p w ts is x : ~ In TStart ts -> (forall t, In t ts -> ~ returns t) -> gschedule K is (mkG p w (mkRW false 0) (map work ts)) = Some x ->
  (length (idle (g_pool x)) + holders (g_threads x) <= length (idle p))%nat.
Proof.
  intros N Nr E. pose proof (no_credit ts N) as C. apply (crew_run K true false 0 0 (length (idle p) + out_of_pool false p + list_sum (map (credit 0 0) ts))) in E.
  - apply crew_held in E; [|reflexivity]. unfold out_of_pool in E. lia.
  - apply crew_start; [discriminate|]. intros t H. apply slim_tasks; [intros ->; contradiction|]. intros X. now destruct (Nr t H).
Qed.
(** And if the pool is started by some of them. *)
Theorem more_by_starts {W} (K : cluster W) A B p w ts is x : sized A B p -> gschedule K is (mkG p w (mkRW false 0) (map work ts)) = Some x ->
  (length (idle (g_pool x)) + length (p_borrowed (g_pool x)) <= length (idle p) + length (p_borrowed p) + length (filter starting ts) * (Z.to_nat A + Z.to_nat B))%nat.
Proof.
  intros Z E. apply (crew_run K false true A B (length (idle p) + out_of_pool true p + list_sum (map (credit A B) ts))) in E.
  - apply crew_idle in E. unfold out_of_pool in E. rewrite all_credit in E. exact E.
  - apply crew_start; [auto|]. intros t H. now apply slim_tasks.
Qed.
Theorem more_by_starts_held {W} (K : cluster W) A B p w ts is x : sized A B p -> (forall t, In t ts -> ~ returns t) -> gschedule K is (mkG p w (mkRW false 0) (map work ts)) = Some x ->
  (length (idle (g_pool x)) + holders (g_threads x) <= length (idle p) + length (filter starting ts) * (Z.to_nat A + Z.to_nat B))%nat.
Proof.
  intros Z Nr E. apply (crew_run K false false A B (length (idle p) + out_of_pool false p + list_sum (map (credit A B) ts))) in E.
  - apply crew_held in E; [|reflexivity]. unfold out_of_pool in E. rewrite all_credit, Nat.add_0_r in E. exact E.
  - apply crew_start; [auto|]. intros t H. apply slim_tasks; [auto|]. intros X. now destruct (Nr t H).
Qed.
