(** However goroutines use a routing pool, its connections for writing and those for reading keep to their shares (C142). *)
From Coq Require Import String ZArith List Bool Lia ZifyBool.
From Verif Require Import Bytes GoVal GoErr Decoder Messages GoStr Routing Pool SpecPool BytesFacts RoutingFacts PoolFacts LendFacts Concurrency ConcurFacts PoolRace RaceFacts SpecCrew SpecLeave SpecKinds CrewFacts LeaveFacts.
Import ListNotations.
Open Scope Z_scope.

(** What is known of a goroutine: how it has the mutex, how many connections of the kind in question it has in its hands, a bound for
    the places in their queue, and a key of the map of borrowed connections with the kind that is there. *)
Record stand := mkStand { l_ph : phase; l_hand : nat; l_q : option nat; l_key : option (bytes * bool) }.
Definition class (mode : Z) : bool := mode =? WriteMode.
Definition palm (h : nat) (s : stand) : stand := mkStand (l_ph s) h (l_q s) (l_key s).
Definition naked (ph : phase) (h : nat) : stand := mkStand ph h None None.

Section Steady.
Variables A B : Z.
Variable md : bool.
Definition mine (b : bool) : bool := Bool.eqb b md.
Definition share : Z := if md then A else B.
Fixpoint stays (s : stand) (t : gprog) : Prop :=
  match t with
  | GDone _ | GEnd => True
  | GRLock k => stays (naked PRead (l_hand s)) k
  | GRUnlock k => stays (naked PFree (l_hand s)) k
  | GLock k => stays (naked PWrite (l_hand s)) k
  | GUnlock k => stays (naked PFree (l_hand s)) k
  | GRunning k => forall b, stays s (k b)
  | GSetRunning _ k => stays s k
  | GSize _ k => forall n : nat, stays s (k (Z.of_nat n))
  | GDequeue mode k => forall o, (forall c, o = Some c -> writing c = class mode) -> stays (if mine (class mode) then palm (in_hand (l_ph s) o) s else s) (k o)
  | GEnqueue mode c k => writing c = class mode /\ (mine (class mode) = true -> (1 <= l_hand s)%nat) /\ stays (if mine (class mode) then palm (pred (l_hand s)) s else s) k
  | GMarked _ k => forall b, stays s (k b)
  | GValid _ k => forall b, stays s (k b)
  | GClose _ k => forall e, stays s (k e)
  | GRead f id k => f = FBorrowed /\ l_ph s = PWrite
                    /\ forall o, stays (mkStand PWrite (l_hand s) (l_q s) (match o with Some c => Some (id, writing c) | None => None end)) (k o)
  | GWrite FHeld _ k => stays s k
  | GWrite FBorrowed g k =>
      (exists id c, g = map_set id c /\ l_ph s = PRead /\ (mine (writing c) = true -> l_hand s = 1%nat) /\ stays (if mine (writing c) then palm 0 s else s) k)
      \/ (exists id b, g = map_del id /\ l_ph s = PWrite /\ l_key s = Some (id, b) /\ stays (mkStand PWrite (if mine b then 1 else l_hand s) (l_q s) None) k)
  | GMake mode _ k => forall r, (forall c, r = Ok c -> writing c = class mode) -> stays s (k r)
  | GUse _ k => stays s k
  | GSeed k => forall r, stays s (k r)
  | GOverview _ k => forall r, stays s (k r)
  | GPart _ k => forall l, stays s (k l)
  | GAuth k => forall a, stays s (k a)
  | GQuit _ k | GSetPart _ _ k | GMark _ k | GSetStrings _ _ k => stays s k
  | GItems mode k => l_ph s = PWrite /\ forall q, (forall c, In c q -> writing c = class mode) ->
      stays (if mine (class mode) then mkStand PWrite (l_hand s) (Some (length q)) (l_key s) else s) (k q)
  | GReplace mode q k => l_ph s = PWrite /\ (forall c, In c q -> writing c = class mode) /\ (mine (class mode) = true -> exists m, l_q s = Some m /\ (length q <= m)%nat) /\ stays s k
  | GLimits k => forall l, modest A B l -> stays s (k l)
  | GStrings _ k => forall l, stays s (k l)
  | GIndex _ k => forall i, stays s (k i)
  | GSetIndex _ _ k | GShare k => stays s k
  end.

Definition anyway (ph : phase) (t : gprog) : Prop := forall h q y, stays (mkStand ph h q y) t.
Lemma stays_remove s c k : (forall e, stays s (k e)) -> stays s (g_remove c k).
Proof. intros H. cbn [g_remove stays]. intros [|]; cbn [stays]; [apply H|]. intros [e|]; cbn [stays]; apply H. Qed.
Lemma class_mode : class WriteMode = true /\ class ReadMode = false.
Proof. now split. Qed.
(** Adding a connection of kind [mode]: one of its hands' if it is of the kind in question. *)
Lemma stays_new ph h q y mode k : (forall h' r, (h <= h')%nat -> stays (mkStand ph h' q y) (k r)) -> stays (mkStand ph (if mine (class mode) then S h else h) q y) (g_new mode k).
Proof.
  intros H. assert (H' : forall r, stays (mkStand ph (if mine (class mode) then S h else h) q y) (k r)) by (intros r; destruct (mine _); apply H; lia).
  unfold g_new. cbn [stays]. intros l i. destruct (_ && _); [|apply H']. destruct (nth_error _ _); [|apply H']. cbn [stays].
  intros [c|e| |] Hc; [|apply H'..]. cbn [stays]. split; [now apply Hc|]. destruct (mine (class mode)); cbn [palm l_ph l_hand l_q l_key pred]; (split; [intros; discriminate || lia|now apply H]).
Qed.
Lemma stays_add ph h q y mode k : (forall h' r, (h <= h')%nat -> stays (mkStand ph h' q y) (k r)) -> stays (mkStand ph (if mine (class mode) then S h else h) q y) (g_add mode k).
Proof.
  intros H. unfold g_add. cbn [stays]. intros [|a l]; [destruct (mine _); apply H; lia|]. cbn [stays]. intros i j l'. destruct (_ =? _); cbn [stays]; now apply stays_new.
Qed.
Lemma stays_return id h k : (forall h r, stays (naked PFree h) (k r)) -> forall hand, stays (naked PFree hand) (g_return id h k).
Proof.
  intros H hand. unfold g_return. cbn [stays]. intros [|]; cbn [negb stays]; [|apply H]. split; [reflexivity|]. split; [reflexivity|].
  intros [c|]; cbn [stays]; [|intros e; apply H]. right. exists id, (writing c). split; [reflexivity|]. split; [reflexivity|]. split; [reflexivity|]. cbv zeta.
  cbn [naked l_hand l_q]. set (m := if pw_mode c =? WriteMode then WriteMode else ReadMode).
  assert (Em : class m = writing c) by (unfold m, writing; destruct (pw_mode c =? WriteMode); reflexivity).
  assert (C : stays (mkStand PWrite (if mine (writing c) then 1 else hand) None None) (GEnqueue m c (GUnlock (k (Ok c))))).
  { cbn [stays]. split; [now rewrite Em|]. rewrite Em. destruct (mine (writing c)); (split; [cbn; intros; discriminate || lia|apply H]). }
  intros [|]; [exact C|]. apply stays_remove. intros [e|]; [|exact C].
  assert (D : stays (mkStand PWrite (if mine (class m) then S 0 else hand) None None) (g_add m (fun r => GUnlock (k match r with Ok _ => Ok c | Err e => Err e | Panic => Panic | NoFuel => NoFuel end)))).
  { destruct (mine (class m)) eqn:Mi.
    - pose proof (stays_add PWrite 0 None None m (fun r => GUnlock (k match r with Ok _ => Ok c | Err e => Err e | Panic => Panic | NoFuel => NoFuel end))) as X. rewrite Mi in X. apply X. intros. cbn [stays]. apply H.
    - pose proof (stays_add PWrite hand None None m (fun r => GUnlock (k match r with Ok _ => Ok c | Err e => Err e | Panic => Panic | NoFuel => NoFuel end))) as X. rewrite Mi in X. apply X. intros. cbn [stays]. apply H. }
  rewrite Em in D. exact D.
Qed.
Lemma stays_internal fuel mode k : (forall h r, stays (naked PRead h) (k r)) -> forall h, stays (naked PRead h) (g_internal_borrow fuel mode k).
Proof.
  intros Hk. induction fuel as [|fuel IH]; intros h; [apply Hk|]. cbn [g_internal_borrow stays]. intros [c|] Hc; [|destruct (mine _); cbn [palm naked l_ph l_hand l_q l_key]; apply Hk].
  specialize (Hc c eq_refl).
  assert (Rm : forall h, stays (naked PRead h) (g_remove c (fun e => match e with Some e => k (Err e) | None => g_internal_borrow fuel mode k end))).
  { intros h'. apply stays_remove. intros [e|]; [apply Hk|apply IH]. }
  assert (X : forall h, (mine (class mode) = true -> h = 1%nat) -> stays (naked PRead h) (GMarked (pw_conn c) (fun marked =>
              if marked then g_remove c (fun e => match e with Some e => k (Err e) | None => g_internal_borrow fuel mode k end)
              else GValid (pw_conn c) (fun ok =>
                if negb ok then g_remove c (fun e => match e with Some e => k (Err e) | None => g_internal_borrow fuel mode k end)
                else GWrite FHeld (map_del (pw_id c)) (GWrite FBorrowed (map_set (pw_id c) c) (k (Ok c))))))).
  { intros h' Hh. cbn [stays]. intros [|]; [apply Rm|]. cbn [stays]. intros [|]; cbn [negb]; [|apply Rm]. cbn [stays]. left. exists (pw_id c), c. rewrite Hc.
    split; [reflexivity|]. split; [reflexivity|]. split; [exact Hh|]. destruct (mine _); apply Hk. }
  destruct (mine (class mode)) eqn:Mi; cbn [palm naked l_ph l_hand l_q l_key in_hand]; apply X; [auto|discriminate].
Qed.
Lemma stays_lend fuel mode k : (forall h r, stays (naked PFree h) (k r)) -> forall h, stays (naked PFree h) (g_lend fuel mode k).
Proof. intros Hk h. unfold g_lend. cbn [stays]. apply stays_internal. intros h' r. cbn [stays]. apply Hk. Qed.
Lemma stays_client fuel modes : forall h, stays (naked PFree h) (g_client fuel modes).
Proof.
  induction modes as [|m modes IH]; intros h; [exact I|]. cbn [g_client]. apply stays_lend. intros h' [c|e| |]; try exact I; [|apply IH].
  cbn [stays]. apply stays_return. intros h2 [u|e| |]; try exact I; apply IH.
Qed.
Lemma stays_result s r : stays s (g_result r).
Proof. destruct r; exact I. Qed.
Lemma stays_drain fuel mode k : (forall h r, stays (naked PFree h) (k r)) -> forall h, stays (naked PFree h) (g_drain fuel mode k).
Proof.
  intros Hk. induction fuel as [|fuel IH]; intros h; [apply Hk|]. cbn [g_drain stays]. intros n. destruct (_ =? 0); [apply Hk|].
  cbn [stays]. intros o _. assert (Y : forall h, stays (naked PFree h) (match o with None => k (Err (ENew (TMsg 222))) | Some c => g_remove c (fun e => match e with Some e => k (Err e) | None => g_drain fuel mode k end) end)).
  { intros h'. destruct o as [c|]; [|apply Hk]. apply stays_remove. intros [e|]; [apply Hk|apply IH]. }
  destruct (mine _); apply Y.
Qed.
Lemma stays_stop n m h : stays (naked PFree h) (g_stop n m).
Proof.
  unfold g_stop. cbn [stays]. intros [|]; cbn [negb stays]; [|exact I]. apply stays_drain.
  intros h' [u|e| |]; try apply stays_result. apply stays_drain. intros. apply stays_result.
Qed.
Lemma stays_merge s k : stays s k -> stays s (g_merge k).
Proof. intros H. cbn. auto. Qed.
Lemma stays_refresh s k : (forall r, stays s (k r)) -> stays s (g_refresh k).
Proof.
  intros H. unfold g_refresh. cbn [stays]. intros [h|e| |]; try apply H. cbn [stays].
  assert (M : stays s (g_merge (GQuit h (k (Ok tt))))) by (apply stays_merge; apply H).
  intros [v [rows|e| |]]; cbn [fst snd]; [|exact M|apply H..]. destruct (read_rows _ _ _) as [t|e| |]; exact M.
Qed.
Lemma stays_sift drop s : (forall c k, stays s k -> stays s (drop c k)) -> forall q k, (forall r, (length r <= length q)%nat -> incl r q -> stays s (k r)) -> stays s (g_sift drop q k).
Proof.
  intros Hd. induction q as [|c q IH]; intros k Hk; [apply Hk; [auto|apply incl_refl]|]. cbn [g_sift stays]. intros [|].
  - apply Hd, IH. intros r L I. apply Hk; [cbn; lia|now apply incl_tl].
  - apply IH. intros r L I. apply Hk; [cbn; lia|]. intros d [<-|Hd']; [now left|right; now apply I].
Qed.
Lemma stays_prune h q y k : anyway PWrite k -> stays (mkStand PWrite h q y) (g_prune k).
Proof.
  intros H. unfold g_prune. cbn [stays l_ph]. split; [reflexivity|]. intros rs Hrs. change (class ReadMode) with false in *.
  set (s1 := if mine false then _ else _). assert (P1 : l_ph s1 = PWrite /\ (mine false = true -> l_q s1 = Some (length rs)) /\ exists h y, forall k, anyway PWrite k -> stays s1 k) by (unfold s1; destruct (mine false); cbn; repeat split; auto; try discriminate; exists h, y; intros k' Hk'; apply Hk').
  destruct P1 as (P1 & Q1 & _).
  apply stays_sift; [intros c k' Hk; cbn [stays]; auto|]. intros reads L1 I1. cbn [stays]. split; [exact P1|]. intros ws Hws. change (class WriteMode) with true in *.
  set (s2 := if mine true then _ else _).
  assert (P2 : l_ph s2 = PWrite /\ (mine true = true -> l_q s2 = Some (length ws)) /\ (mine false = true -> l_q s2 = Some (length rs))).
  { unfold s2. destruct (mine true) eqn:M1; cbn; repeat split; auto; try discriminate. intros M2. unfold mine in *. destruct md; discriminate. }
  destruct P2 as (P2 & Q2 & Q3).
  apply stays_sift; [intros c k' Hk; now apply stays_remove|]. intros writes L2 I2. cbn [stays]. change (class WriteMode) with true. change (class ReadMode) with false.
  split; [exact P2|]. split; [intros c Hc; apply Hws; auto|]. split; [intros M; exists (length ws); auto|].
  split; [exact P2|]. split; [intros c Hc; apply Hrs; auto|]. split; [intros M; exists (length rs); auto|]. destruct s2 as [ph2 h2 q2 y2]. cbn in P2. subst ph2. apply H.
Qed.
Lemma stays_less fuel mode high k : (forall r, anyway PWrite (k r)) -> anyway PWrite (g_while fuel mode high (g_less mode) k).
Proof.
  intros Hk. induction fuel as [|fuel IH]; [apply Hk|]. intros h q y. cbn [g_while stays]. intros n. destruct (_ =? _); [|apply Hk].
  cbn [g_less stays]. intros o _. destruct (mine _); (destruct o as [c|]; [apply stays_remove; intros e|]); apply IH.
Qed.
Lemma stays_bounds fuel mode low high k : low <= 0 -> (forall r, anyway PWrite (k r)) -> anyway PWrite (g_bounds fuel mode low high k).
Proof.
  intros L Hk h q y. unfold g_bounds. cbn [stays]. intros n. replace (Z.of_nat n <? low) with false by lia. cbn [stays]. intros n'. destruct (high <? Z.of_nat n'); [now apply stays_less|apply Hk].
Qed.
Lemma stays_balance fuel k : (forall r, anyway PWrite (k r)) -> anyway PWrite (g_balance fuel k).
Proof.
  intros Hk h q y. unfold g_balance. cbn [stays]. intros l (L1 & L2 & _). cbv zeta. cbn [stays]. intros n. replace (Z.of_nat n <? lim_min_r l) with false by lia.
  apply stays_bounds; [exact L1|]. intros [u|e| |]; try apply Hk. now apply stays_bounds.
Qed.
Lemma stays_round fuel h : stays (naked PFree h) (g_round fuel).
Proof.
  unfold g_round. cbn [stays]. apply stays_refresh. intros [u|e| |]; try (cbn [stays]; apply stays_result). apply stays_prune. apply stays_balance. intros r h' q' y. cbn [stays]. apply stays_result.
Qed.
Lemma stays_times n mode k : forall h, (forall h' r, (h <= h')%nat -> stays (naked PFree h') (k r)) -> stays (naked PFree (if mine (class mode) then n + h else h)) (g_times n mode k).
Proof.
  induction n as [|n IH]; intros h H; [destruct (mine _); apply H; lia|]. cbn [g_times]. unfold naked in *.
  destruct (mine (class mode)) eqn:Mi.
  - cbn [Nat.add]. pose proof (stays_add PFree (n + h) None None mode (fun r => match r with Ok _ => g_times n mode k | _ => k r end)) as X. rewrite Mi in X. apply X.
    intros h' [u|e| |] L; [|apply H; lia..]. replace h' with (n + (h' - n))%nat by lia. apply IH. intros h2 r L2. apply H. lia.
  - pose proof (stays_add PFree h None None mode (fun r => match r with Ok _ => g_times n mode k | _ => k r end)) as X. rewrite Mi in X. apply X.
    intros h' [u|e| |] L; [|apply H; lia..]. apply IH. intros h2 r L2. apply H. lia.
Qed.
Lemma stays_start h : (Z.to_nat share <= h)%nat -> stays (naked PFree h) g_start.
Proof.
  intros L. unfold g_start. cbn [stays]. intros [|]; cbn [stays]; [exact I|]. apply stays_refresh. intros [u|e| |]; try apply stays_result. cbn [stays]. intros l (_ & _ & Lw & Lr).
  unfold share in L. destruct md eqn:M.
  - pose proof (stays_times (Z.to_nat (lim_max_w l)) WriteMode (fun r => match r with Ok _ => GLimits (fun l => g_times (Z.to_nat (lim_max_r l)) ReadMode g_result) | _ => g_result r end) (h - Z.to_nat (lim_max_w l))) as X.
    unfold mine in X. rewrite M in X. change (Bool.eqb (class WriteMode) true) with true in X. cbv iota in X. replace (Z.to_nat (lim_max_w l) + (h - Z.to_nat (lim_max_w l)))%nat with h in X by lia. apply X.
    intros h' [v|e| |] L'; try apply stays_result. cbn [stays]. intros l' _. pose proof (stays_times (Z.to_nat (lim_max_r l')) ReadMode g_result h') as Y.
    unfold mine in Y. rewrite M in Y. apply Y. intros. apply stays_result.
  - pose proof (stays_times (Z.to_nat (lim_max_w l)) WriteMode (fun r => match r with Ok _ => GLimits (fun l => g_times (Z.to_nat (lim_max_r l)) ReadMode g_result) | _ => g_result r end) h) as X.
    unfold mine in X. rewrite M in X. apply X.
    intros h' [v|e| |] L'; try apply stays_result. cbn [stays]. intros l' (_ & _ & _ & Lr'). pose proof (stays_times (Z.to_nat (lim_max_r l')) ReadMode g_result (h' - Z.to_nat (lim_max_r l'))) as Y.
    unfold mine in Y. rewrite M in Y. change (Bool.eqb (class ReadMode) false) with true in Y. cbv iota in Y. replace (Z.to_nat (lim_max_r l') + (h' - Z.to_nat (lim_max_r l')))%nat with h' in Y by lia. apply Y. intros. apply stays_result.
Qed.
Definition allowance (t : task) : nat := match t with TStart => Z.to_nat share | _ => 0 end.
Lemma stays_tasks t : stays (naked PFree (allowance t)) (work t).
Proof.
  destruct t as [fuel mode|id h|n m|fuel modes|fuel|]; cbn [work allowance].
  - apply stays_lend. intros. exact I.
  - apply stays_return. intros. exact I.
  - apply stays_stop.
  - apply stays_client.
  - apply stays_round.
  - now apply stays_start.
Qed.
End Steady.

Section Kinds.
Context {W : Type}.
Variable K : cluster W.
Variables A B : Z.
Variable md : bool.
Notation stays := (stays A B md).
Notation mine := (mine md).
Definition own (p : pool) : queue := if md then p_wq p else p_rq p.
Definition away (p : pool) : nat := length (filter (fun x => mine (writing (snd x))) (p_borrowed p)).
Record fixed (p : pool) (a : nat) (s : stand) : Prop := mkFixed {
  f_free : l_ph s <> PWrite -> l_q s = None /\ l_key s = None;
  f_q : forall m, l_q s = Some m -> (m <= a)%nat;
  f_key : forall id b, l_key s = Some (id, b) -> exists c, map_get (p_borrowed p) id = Some c /\ writing c = b
}.
Definition palms (ss : list stand) : nat := list_sum (map l_hand ss).
Definition guard (N : nat) (x : gsys (W := W)) : Prop :=
  exists tps ss a, phased tps x /\ map l_ph ss = map snd tps /\ Forall2 stays ss (g_threads x) /\ Forall (fixed (g_pool x) a) ss
  /\ (length (own (g_pool x)) <= a)%nat /\ (a + away (g_pool x) + palms ss <= N)%nat /\ sized A B (g_pool x) /\ sorted_out (g_pool x).
Lemma palms_put ss : forall i s s', nth_error ss i = Some s -> (palms (put_nth i s' ss) + l_hand s = palms ss + l_hand s')%nat.
Proof.
  induction ss as [|x ss IH]; intros [|i] s s'; cbn [nth_error]; try discriminate.
  - intros [= ->]. unfold palms. cbn. lia.
  - intros H. specialize (IH _ _ s' H). unfold palms in *. cbn [put_nth map]. rewrite !list_sum_cons. lia.
Qed.
Lemma del_away {T} (f : bytes * T -> bool) id m : (length (filter f (map_del id m)) <= length (filter f m))%nat.
Proof. induction m as [|[k v] m IH]; cbn; [lia|]. destruct (bytes_eqb id k); cbn; destruct (f (k, v)); cbn; lia. Qed.
Lemma set_away id (c : wrapper) m : (length (filter (fun x => mine (writing (snd x))) (map_set id c m)) <= (if mine (writing c) then 1 else 0) + length (filter (fun x => mine (writing (snd x))) m))%nat.
Proof.
  assert (X : forall m', (length (filter (fun x : bytes * wrapper => mine (writing (snd x))) ((id, c) :: m')) <= (if mine (writing c) then 1 else 0) + length (filter (fun x => mine (writing (snd x))) m'))%nat)
    by (intros m'; cbn; destruct (mine (writing c)); cbn; lia).
  unfold map_set. pose proof (del_away (fun x : bytes * wrapper => mine (writing (snd x))) id m). specialize (X (map_del id m)). lia.
Qed.
Lemma del_own id (c : wrapper) m : map_get m id = Some c -> ((if mine (writing c) then 1 else 0) + length (filter (fun x : bytes * wrapper => mine (writing (snd x))) (map_del id m)) <= length (filter (fun x => mine (writing (snd x))) m))%nat.
Proof.
  induction m as [|[k v] m IH]; cbn; [discriminate|]. destruct (bytes_eqb id k) eqn:E.
  - intros [= ->]. pose proof (del_away (fun x : bytes * wrapper => mine (writing (snd x))) id m). destruct (mine (writing c)); cbn; lia.
  - intros H. specialize (IH H). cbn. destruct (mine (writing v)); cbn; lia.
Qed.
Lemma own_other mode q p : mine (class mode) = false -> own (set_queue mode q p) = own p.
Proof. unfold own, set_queue, KindFacts.mine, class. destruct md, (mode =? WriteMode); cbn; congruence. Qed.
Lemma own_same mode q p : mine (class mode) = true -> own (set_queue mode q p) = q /\ queue_of mode p = own p.
Proof. unfold own, set_queue, queue_of, KindFacts.mine, class. destruct md, (mode =? WriteMode); cbn; try discriminate; auto. Qed.
Lemma sorted_queue mode p : sorted_out p -> forall c, In c (queue_of mode p) -> writing c = class mode.
Proof. unfold sorted_out, queue_of, class. intros [S1 S2]. destruct (mode =? WriteMode); auto. Qed.
Lemma sorted_set mode q p : sorted_out p -> (forall c, In c q -> writing c = class mode) -> sorted_out (set_queue mode q p).
Proof. unfold sorted_out, set_queue, class. intros [S1 S2] H. destruct (mode =? WriteMode); cbn; auto. Qed.
Lemma guard_step N i x x' : gsys_step K i x = Some x' -> guard N x -> guard N x'.
Proof.
  intros E (tps & ss & a & Ph & Es & Fs & Ft & La & Lsum & Lz & So).
  destruct (phased_step K tps i x x' E Ph) as (t & t0 & ph & ph' & Et & Ep & Ph' & Sh).
  unfold gsys_step in E. rewrite Et in E. destruct (Forall2_at _ _ _ _ _ Fs Et) as (s & Hs & Ht).
  assert (Hph : l_ph s = ph).
  { assert (X : nth_error (map l_ph ss) i = Some (l_ph s)) by now rewrite nth_error_map, Hs. rewrite Es, nth_error_map, Ep in X. cbn in X. congruence. }
  assert (Ti : fixed (g_pool x) a s) by (apply (proj1 (Forall_forall _ _) Ft); eapply nth_error_In; eauto).
  assert (Tj : forall j s1, nth_error ss j = Some s1 -> fixed (g_pool x) a s1) by (intros j s1 H; apply (proj1 (Forall_forall _ _) Ft); eapply nth_error_In; eauto).
  assert (Other : ph <> PFree -> forall j s1, j <> i -> nth_error ss j = Some s1 -> l_ph s1 <> PWrite).
  { intros Np j s1 N' Hj. assert (X : nth_error (map l_ph ss) j = Some (l_ph s1)) by now rewrite nth_error_map, Hj. rewrite Es, nth_error_map in X.
    destruct (nth_error tps j) as [[t1 ph1]|] eqn:Ej; [|discriminate]. cbn in X. injection X as <-. exact (alone tps x i j t0 ph t1 ph1 Ph Ep Ej N' Np). }
  assert (Move : forall p w l t' s' a', x' = mkG p w l (put_nth i t' (g_threads x)) -> stays s' t' -> l_ph s' = ph' -> fixed p a' s' ->
    (forall j s1, j <> i -> nth_error ss j = Some s1 -> fixed p a' s1) -> (length (own p) <= a')%nat ->
    (a' + away p + l_hand s' <= a + away (g_pool x) + l_hand s)%nat -> sized A B p -> sorted_out p -> guard N x').
  { intros p w l t' s' a' Ex Hsl Hp' Ht' Ho L1 L3 L4 L5. exists (put_nth i (t0, ph') tps), (put_nth i s' ss), a'. split; [exact Ph'|]. subst x'. cbn [g_threads g_pool].
    split; [rewrite !map_put, Es; cbn; now rewrite Hp'|]. split; [now apply Forall2_put|]. split; [now apply Forall_put|].
    split; [exact L1|]. pose proof (palms_put ss i s s' Hs). split; [lia|]. split; [exact L4|exact L5]. }
  assert (Bare : forall p a' s1, l_ph s1 <> PWrite -> fixed (g_pool x) a s1 -> fixed p a' s1).
  { intros p a' s1 N1 [T1 _ _]. destruct (T1 N1) as (R1 & R2). constructor; [auto|rewrite R1; discriminate|rewrite R2; discriminate]. }
  assert (Same : forall p, p_borrowed p = p_borrowed (g_pool x) -> forall s1, fixed (g_pool x) a s1 -> fixed p a s1).
  { intros p E3 s1 [T1 T2 T3]. constructor; rewrite ?E3; auto. }
  assert (Keep : forall p w l t', x' = mkG p w l (put_nth i t' (g_threads x)) -> stays s t' -> ph' = ph ->
    p_rq p = p_rq (g_pool x) -> p_wq p = p_wq (g_pool x) -> p_borrowed p = p_borrowed (g_pool x) -> sized A B p -> guard N x').
  { intros p w l t' Ex Hsl -> E1 E2 E3 E4. apply (Move p w l t' s a); [exact Ex|exact Hsl|exact Hph|now apply Same| | | |exact E4|].
    - intros j s1 _ Hj. eapply Same; eauto.
    - unfold own in *. now rewrite E1, E2.
    - unfold away. rewrite E3. lia.
    - unfold sorted_out in *. now rewrite E1, E2. }
  assert (Lock : forall w l t', x' = mkG (g_pool x) w l (put_nth i t' (g_threads x)) -> stays (naked ph' (l_hand s)) t' -> guard N x').
  { intros w l t' Ex Hsl. apply (Move (g_pool x) w l t' (naked ph' (l_hand s)) a); [exact Ex|exact Hsl|reflexivity| |eauto|exact La|cbn; lia|exact Lz|exact So].
    constructor; cbn; [auto|discriminate|discriminate]. }
  assert (Zq : forall m q, sized A B (set_queue m q (g_pool x))) by (intros m q; eapply settings_sized; [apply settings_queue|exact Lz]).
  assert (Palm : forall p a' h s1, fixed p a' s1 -> fixed p a' (palm h s1)) by (intros p a' h s1 [T1 T2 T3]; constructor; auto).
  destruct t; cbn [gstep] in E; cbn [KindFacts.stays] in Ht; cbn [shifts] in Sh.
  - discriminate.
  - discriminate.
  - destruct (rw_writer (g_lock x)); [discriminate|]. injection E as <-. destruct Sh as [_ ->]. eapply Lock; [reflexivity|exact Ht].
  - injection E as <-. destruct Sh as [_ ->]. eapply Lock; [reflexivity|exact Ht].
  - destruct (rw_writer (g_lock x)); [discriminate|]. destruct (rw_readers (g_lock x)); [|discriminate]. injection E as <-. destruct Sh as [_ ->]. eapply Lock; [reflexivity|exact Ht].
  - injection E as <-. destruct Sh as [_ ->]. eapply Lock; [reflexivity|exact Ht].
  - injection E as <-. eapply Keep; [reflexivity|apply Ht|auto..].
  - injection E as <-. eapply Keep; [reflexivity|exact Ht|auto..].
  - injection E as <-. eapply Keep; [reflexivity|apply Ht|auto..].
  - destruct (dequeue (queue_of mode (g_pool x))) as [o q] eqn:Eq. injection E as <-. subst ph'.
    assert (Q : o = None /\ queue_of mode (g_pool x) = [] /\ q = [] \/ exists c, o = Some c /\ queue_of mode (g_pool x) = c :: q).
    { destruct (queue_of mode (g_pool x)); injection Eq as <- <-; [left; auto|right; eauto]. }
    assert (Hc : forall c, o = Some c -> writing c = class mode).
    { intros c ->. destruct Q as [(X & _)|(c' & [= <-] & Ec)]; [discriminate|]. apply (sorted_queue mode _ So). rewrite Ec. now left. }
    assert (Sq : sorted_out (set_queue mode q (g_pool x))).
    { apply sorted_set; [exact So|]. intros c Hcq. apply (sorted_queue mode _ So). destruct Q as [(_ & _ & ->)|(c' & _ & ->)]; [destruct Hcq|now right]. }
    specialize (Ht o Hc). destruct (mine (class mode)) eqn:Mi.
    + destruct (own_same mode q (g_pool x) Mi) as [O1 O2].
      assert (Lq : (length (own (set_queue mode q (g_pool x))) <= length (own (g_pool x)))%nat) by (rewrite O1, <- O2; destruct Q as [(_ & -> & ->)|(c & _ & ->)]; cbn; lia).
      destruct (in_hand (l_ph s) o) eqn:Ei.
      * eapply (Move _ _ _ _ (palm 0 s) a); [reflexivity|exact Ht|exact Hph|apply Palm, Same; [apply borrowed_set|exact Ti]| |lia| |apply Zq|exact Sq].
        -- intros j s1 _ Hj. apply Same; [apply borrowed_set|eauto].
        -- unfold away. rewrite borrowed_set. cbn. lia.
      * assert (Pr : l_ph s = PRead) by (destruct (l_ph s); [discriminate|reflexivity|discriminate]). rewrite Pr in Ei. cbn in Ei. destruct Q as [(-> & _)|(c & -> & Ec)]; [discriminate|].
        injection Ei as <-. rewrite O2 in Ec. rewrite Ec in La. cbn in La.
        eapply (Move _ _ _ _ (palm 1 s) (pred a)); [reflexivity|exact Ht|exact Hph|apply Palm, Bare; [congruence|exact Ti]| |rewrite O1; lia| |apply Zq|exact Sq].
        -- intros j s1 N1 Hj. apply Bare; [|eauto]. apply (Other) with (j := j); auto. congruence.
        -- unfold away. rewrite borrowed_set. cbn. lia.
    + eapply (Move _ _ _ _ s a); [reflexivity|exact Ht|exact Hph|apply Same; [apply borrowed_set|exact Ti]| |rewrite own_other by exact Mi; exact La| |apply Zq|exact Sq].
      * intros j s1 _ Hj. apply Same; [apply borrowed_set|eauto].
      * unfold away. rewrite borrowed_set. lia.
  - destruct Ht as (Hw & Hh & Ht). injection E as <-. subst ph'.
    assert (Sq : sorted_out (set_queue mode (enqueue c (queue_of mode (g_pool x))) (g_pool x))).
    { apply sorted_set; [exact So|]. unfold enqueue. intros d Hd. apply in_app_iff in Hd. destruct Hd as [Hd|[<-|[]]]; [now apply (sorted_queue mode _ So)|exact Hw]. }
    destruct (mine (class mode)) eqn:Mi.
    + specialize (Hh eq_refl). destruct (own_same mode (enqueue c (queue_of mode (g_pool x))) (g_pool x) Mi) as [O1 O2].
      assert (Up : forall s1, fixed (g_pool x) a s1 -> fixed (set_queue mode (enqueue c (queue_of mode (g_pool x))) (g_pool x)) (S a) s1).
      { intros s1 [T1 T2 T3]. constructor; [exact T1| |rewrite borrowed_set; exact T3]. intros m Em. specialize (T2 m Em). lia. }
      eapply (Move _ _ _ _ (palm (pred (l_hand s)) s) (S a)); [reflexivity|exact Ht|exact Hph|now apply Palm, Up| | | |apply Zq|exact Sq].
      * intros j s1 Nj Hj. apply Up. eauto.
      * rewrite O1, O2. unfold enqueue. rewrite app_length. cbn. lia.
      * unfold away. rewrite borrowed_set. cbn [palm l_hand]. lia.
    + eapply (Move _ _ _ _ s a); [reflexivity|exact Ht|exact Hph|apply Same; [apply borrowed_set|exact Ti]| |rewrite own_other by exact Mi; exact La| |apply Zq|exact Sq].
      * intros j s1 _ Hj. apply Same; [apply borrowed_set|eauto].
      * unfold away. rewrite borrowed_set. lia.
  - injection E as <-. eapply Keep; [reflexivity|apply Ht|auto..].
  - destruct (k_valid K h (g_world x)) as [w1 v]. injection E as <-. eapply Keep; [reflexivity|apply Ht|auto..].
  - destruct (k_close K h (g_world x)) as [w1 v]. injection E as <-. eapply Keep; [reflexivity|apply Ht|auto..].
  - destruct Ht as (-> & P & Ht). injection E as <-. subst ph'. cbn [field_of].
    eapply (Move _ _ _ _ (mkStand PWrite (l_hand s) (l_q s) (match map_get (p_borrowed (g_pool x)) id with Some c => Some (id, writing c) | None => None end)) a); [reflexivity|apply Ht|cbn; congruence| | |exact La|cbn; lia|exact Lz|exact So].
    + destruct Ti as [T1 T2 T3]. constructor; cbn; [congruence|exact T2|]. intros id' b'. destruct (map_get (p_borrowed (g_pool x)) id) eqn:Eg; [|discriminate]. intros [= <- <-]. eauto.
    + intros j s1 _ Hj. eauto.
  - injection E as <-. subst ph'. destruct f; [eapply Keep; [reflexivity|exact Ht|reflexivity|reflexivity|reflexivity|reflexivity|exact Lz]|]. cbn [set_field field_of].
    destruct Ht as [(id & c & -> & P & Hh & Ht)|(id & b & -> & P & Hk & Ht)].
    + pose proof (set_away id c (p_borrowed (g_pool x))) as Sa.
      eapply (Move _ _ _ _ (if mine (writing c) then palm 0 s else s) a); [reflexivity|exact Ht|destruct (mine (writing c)); exact Hph| | |exact La| |exact Lz|exact So].
      * apply Bare; [destruct (mine (writing c)); cbn; congruence|destruct (mine (writing c)); [now apply Palm|exact Ti]].
      * intros j s1 Nj Hj. apply Bare; [|eauto]. apply (Other) with (j := j); auto. congruence.
      * unfold away. cbn [p_borrowed set_borrowed set_field field_of]. destruct (mine (writing c)); cbn [palm l_hand]; [rewrite (Hh eq_refl)|]; lia.
    + destruct Ti as [T1 T2 T3]. destruct (T3 _ _ Hk) as (c & Eg & <-). pose proof (del_own id c (p_borrowed (g_pool x)) Eg) as Do.
      eapply (Move _ _ _ _ (mkStand PWrite (if mine (writing c) then 1 else l_hand s) (l_q s) None) a); [reflexivity|exact Ht|cbn; congruence| | |exact La| |exact Lz|exact So].
      * constructor; cbn; [congruence|exact T2|discriminate].
      * intros j s1 Nj Hj. apply Bare; [|eauto]. apply (Other) with (j := j); auto. congruence.
      * unfold away. cbn [p_borrowed set_borrowed set_field field_of l_hand]. destruct (mine (writing c)); lia.
  - destruct (make K mode s0 (g_world x)) as [w1 v] eqn:Em. injection E as <-. eapply Keep; [reflexivity|apply Ht|auto..].
    intros c ->. unfold make in Em. destruct (k_dial K s0 (g_world x)) as [w2 [h|e| |]]; try discriminate. destruct (k_name K w2) as [w3 name]. injection Em as _ <-. reflexivity.
  - injection E as <-. eapply Keep; [reflexivity|apply Ht|auto..].
  - destruct (k_dial K _ (g_world x)) as [w1 v]. injection E as <-. eapply Keep; [reflexivity|apply Ht|auto..].
  - destruct (k_query K _ (g_world x)) as [w1 v]. injection E as <-. eapply Keep; [reflexivity|apply Ht|auto..].
  - destruct (k_close K _ (g_world x)) as [w1 v]. injection E as <-. eapply Keep; [reflexivity|apply Ht|auto..].
  - injection E as <-. eapply Keep; [reflexivity|apply Ht|auto..].
  - injection E as <-. eapply Keep; [reflexivity|apply Ht|auto..].
  - injection E as <-. eapply Keep; [reflexivity|apply Ht|auto..].
  - injection E as <-. eapply Keep; [reflexivity|apply Ht|auto..].
  - injection E as <-. eapply Keep; [reflexivity|exact Ht|exact Sh|unfold set_strings_for; destruct (mode =? WriteMode); auto..].
  - destruct Ht as [P Ht]. injection E as <-. specialize (Ht _ (sorted_queue mode _ So)). subst ph'. destruct (mine (class mode)) eqn:Mi.
    + destruct (own_same mode [] (g_pool x) Mi) as [_ O2]. eapply (Move _ _ _ _ _ a); [reflexivity|exact Ht|cbn; congruence| |intros j s1 _ Hj; eauto|exact La|cbn; lia|exact Lz|exact So].
      destruct Ti as [T1 T2 T3]. constructor; cbn; [congruence| |exact T3]. intros m [= <-]. now rewrite O2.
    + eapply (Move _ _ _ _ s a); [reflexivity|exact Ht|exact Hph|exact Ti|intros j s1 _ Hj; eauto|exact La|lia|exact Lz|exact So].
  - destruct Ht as (P & Hq & Hm & Ht). injection E as <-. subst ph'.
    eapply (Move _ _ _ _ s a); [reflexivity|exact Ht|exact Hph|apply Same; [apply borrowed_set|exact Ti]| | | |apply Zq|now apply sorted_set].
    + intros j s1 _ Hj. apply Same; [apply borrowed_set|eauto].
    + destruct (mine (class mode)) eqn:Mi; [|rewrite own_other by exact Mi; exact La]. destruct (own_same mode q (g_pool x) Mi) as [-> _]. destruct (Hm eq_refl) as (m & Em & Lm).
      destruct Ti as [_ T2 _]. specialize (T2 m Em). lia.
    + unfold away. rewrite borrowed_set. lia.
  - injection E as <-. eapply Keep; [reflexivity|apply Ht; destruct Lz as (Z1 & Z2 & Z3 & Z4 & _); now repeat split|auto..].
  - injection E as <-. eapply Keep; [reflexivity|apply Ht|auto..].
  - injection E as <-. eapply Keep; [reflexivity|apply Ht|auto..].
  - injection E as <-. eapply Keep; [reflexivity|exact Ht|exact Sh|unfold set_index; destruct (mode =? WriteMode); auto..].
  - injection E as <-. eapply Keep; [reflexivity|apply Ht|auto..]. destruct Lz as (Z1 & Z2 & Z3 & Z4 & Z5 & Z6). now repeat split.
Qed.
Lemma guard_run N is : forall x x', gschedule K is x = Some x' -> guard N x -> guard N x'.
Proof.
  induction is as [|i is IH]; intros x x'; cbn [gschedule]; [now intros [= <-]|].
  destruct (gsys_step K i x) as [x1|] eqn:E; [|discriminate]. intros E' L. eapply IH; [exact E'|]. eapply guard_step; eauto.
Qed.
(** A pool that nobody uses at the moment. *)
Definition parted (N : nat) (p : pool) : Prop := (length (own p) + away p <= N)%nat /\ sized A B p /\ sorted_out p.
Lemma guard_start N p w ts : parted N p -> guard (N + list_sum (map (allowance A B md) ts)) (mkG p w (mkRW false 0) (map work ts)).
Proof.
  intros (L & Hz & So). destruct (locked_start (W := W) p w ts) as (tps & Et & F & S1). exists tps, (map (fun t => naked PFree (allowance A B md t)) ts), (length (own p)).
  assert (Free : map snd tps = map (fun _ => PFree) ts).
  { subst ts. clear - S1. destruct S1 as (A & B & _). cbn in A, B. unfold readers, writers in *. induction tps as [|[t ph] tps IH]; [reflexivity|]. cbn in A, B |- *. destruct ph; cbn in A, B; try lia. now rewrite IH. }
  split; [split; [exact F|exact S1]|]. split; [rewrite map_map; cbn [l_ph naked]; now rewrite Free|]. cbn [g_threads g_pool]. split; [|split; [|split; [lia|split; [|split; [exact Hz|exact So]]]]].
  - clear. induction ts as [|t ts IH]; cbn; constructor; [apply stays_tasks|exact IH].
  - apply Forall_forall. intros s Hs. apply in_map_iff in Hs. destruct Hs as (t & <- & _). constructor; cbn; [auto|discriminate|discriminate].
  - unfold palms. rewrite map_map. cbn [l_hand naked]. change (map (fun t => allowance A B md t) ts) with (map (allowance A B md) ts). lia.
Qed.
Lemma guard_parted N x : guard N x -> parted N (g_pool x).
Proof. intros (tps & ss & a & _ & _ & _ & _ & La & L & Hz & So). split; [lia|]. split; assumption. Qed.
Lemma allowed ts : list_sum (map (allowance A B md) ts) = (length (filter starting ts) * Z.to_nat (share A B md))%nat.
Proof. induction ts as [|t ts IH]; [reflexivity|]. cbn [map]. rewrite list_sum_cons, IH. destruct t; cbn [allowance starting filter length]; lia. Qed.
End Kinds.
