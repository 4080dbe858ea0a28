(** However goroutines use a routing pool, how many connections it leaves open (C141). *)
From Coq Require Import String ZArith List Bool Lia ZifyBool Permutation.
From Verif Require Import Bytes GoVal GoErr Decoder Messages GoStr Routing Pool SpecPool SpecBooks SpecThrong BytesFacts RoutingFacts PoolFacts LendFacts Concurrency ConcurFacts PoolRace RaceFacts SpecCrew SpecLeave CrewFacts.
Import ListNotations.
Open Scope Z_scope.

(** What is known of a goroutine: how it has the mutex; how many connections it may open; the one in its hands, and whether it has been
    told to close; the queues and the entry of the map of borrowed connections as it has seen them; the connection over which
    it asks for the members, and whether it is one that starts the pool. *)
Record berth := mkBerth { b_ph : phase; b_tok : nat; b_hand : option wrapper; b_shut : bool; b_r : option queue; b_w : option queue; b_key : option (bytes * wrapper);
  b_seed : option nat; b_starts : bool }.
Definition hold (o : option wrapper) (s : berth) : berth := mkBerth (b_ph s) (b_tok s) o false (b_r s) (b_w s) (b_key s) (b_seed s) (b_starts s).
Definition spend (o : option wrapper) (s : berth) : berth := mkBerth (b_ph s) (pred (b_tok s)) o false (b_r s) (b_w s) (b_key s) (b_seed s) (b_starts s).
Definition bare (ph : phase) (s : berth) : berth := mkBerth ph (b_tok s) None false None None None (b_seed s) (b_starts s).
Definition seed (o : option nat) (s : berth) : berth := mkBerth (b_ph s) (b_tok s) (b_hand s) (b_shut s) (b_r s) (b_w s) (b_key s) o (b_starts s).
Definition keyed (o : option (bytes * wrapper)) (s : berth) : berth := mkBerth (b_ph s) (b_tok s) (b_hand s) (b_shut s) (b_r s) (b_w s) o (b_seed s) (b_starts s).
Definition looked (mode : Z) (o : option queue) (s : berth) : berth :=
  if mode =? WriteMode then mkBerth (b_ph s) (b_tok s) (b_hand s) (b_shut s) (b_r s) o (b_key s) (b_seed s) (b_starts s)
  else mkBerth (b_ph s) (b_tok s) (b_hand s) (b_shut s) o (b_w s) (b_key s) (b_seed s) (b_starts s).
Definition looked_at (mode : Z) (s : berth) : option queue := if mode =? WriteMode then b_w s else b_r s.
Definition grabs (s : berth) : list wrapper := match b_hand s with Some c => [c] | None => [] end.
Definition struck (h : nat) (s : berth) : berth :=
  mkBerth (b_ph s) (b_tok s) (b_hand s) (b_shut s || existsb (fun c => Nat.eqb (pw_conn c) h) (grabs s)) (b_r s) (b_w s) (b_key s) (b_seed s) (b_starts s).
Definition picks (ph : phase) (o : option wrapper) (s : berth) : berth := match ph with PRead => hold o s | _ => s end.

Section Frugal.
Variables A B : Z.
(** A goroutine that puts into the pool only what is in its hands, and opens a connection only if it may or in place of one that was told to close. *)
Fixpoint frugal (s : berth) (t : gprog) : Prop :=
  match t with
  | GDone _ | GEnd => b_seed s = None
  | GRLock k => b_seed s = None /\ frugal (bare PRead s) k
  | GRUnlock k => b_seed s = None /\ frugal (bare PFree s) k
  | GLock k => b_seed s = None /\ frugal (bare PWrite s) k
  | GUnlock k => b_seed s = None /\ frugal (bare PFree s) k
  | GRunning k => forall b, frugal s (k b)
  | GSetRunning _ k => frugal s k
  | GSize _ k => forall n : nat, frugal s (k (Z.of_nat n))
  | GDequeue _ k => forall o, frugal (picks (b_ph s) o s) (k o)
  | GEnqueue _ c k => b_hand s = Some c /\ frugal (hold None s) k
  | GMarked _ k => forall b, frugal s (k b)
  | GValid _ k => forall b, frugal s (k b)
  | GClose h k => forall e, frugal (struck h s) (k e)
  | GRead f id k => f = FBorrowed /\ b_ph s = PWrite /\ forall o, frugal (keyed (option_map (pair id) o) s) (k o)
  | GWrite FHeld _ k => frugal s k
  | GWrite FBorrowed g k =>
      (exists id c, g = map_set id c /\ b_ph s = PRead /\ b_hand s = Some c /\ frugal (hold None s) k)
      \/ (exists id c, g = map_del id /\ b_ph s = PWrite /\ b_key s = Some (id, c) /\ frugal (keyed None (hold (Some c) s)) k)
  | GMake _ _ k => ((1 <= b_tok s)%nat /\ (forall c, frugal (spend (Some c) s) (k (Ok c)))
                    \/ exists c0, b_hand s = Some c0 /\ b_shut s = true /\ forall c, frugal (hold (Some c) s) (k (Ok c)))
                   /\ forall r, (forall c, r <> Ok c) -> frugal s (k r)
  | GUse _ k => frugal s k
  | GSeed k => b_seed s = None /\ (b_ph s = PWrite \/ b_starts s = true) /\ (forall h, frugal (seed (Some h) s) (k (Ok h))) /\ forall r, (forall h, r <> Ok h) -> frugal s (k r)
  | GOverview _ k => forall r, frugal s (k r)
  | GQuit h k => b_seed s = Some h /\ frugal (seed None s) k
  | GPart _ k => forall l, frugal s (k l)
  | GAuth k => forall a, frugal s (k a)
  | GSetPart _ _ k | GMark _ k | GSetStrings _ _ k => frugal s k
  | GItems mode k => b_ph s = PWrite /\ forall q, frugal (looked mode (Some q) s) (k q)
  | GReplace mode q k => b_ph s = PWrite /\ (exists q0 d, looked_at mode s = Some q0 /\ Permutation q0 (q ++ d)) /\ frugal (looked mode None s) k
  | GLimits k => forall l, modest A B l -> frugal s (k l)
  | GStrings _ k => forall l, frugal s (k l)
  | GIndex _ k => forall i, frugal s (k i)
  | GSetIndex _ _ k | GShare k => frugal s k
  end.

(** Goroutines of which only the phase and what they may open matters. *)
Definition easily (ph : phase) (n : nat) (b : bool) (t : gprog) : Prop := forall s, b_ph s = ph -> b_seed s = None -> (n <= b_tok s)%nat -> b_starts s = b -> frugal s t.
Lemma frugal_remove s c k : frugal s (k None) -> (forall e, frugal (struck (pw_conn c) s) (k e)) -> frugal s (g_remove c k).
Proof. intros H1 H2. cbn [g_remove frugal]. intros [|]; cbn [frugal]; [exact H1|]. intros [e|]; cbn [frugal]; apply H2. Qed.
Lemma easily_remove ph n b c k : (forall e, easily ph n b (k e)) -> easily ph n b (g_remove c k).
Proof. intros H s H1 H2 H3 H4. apply frugal_remove; intros; apply H; auto. Qed.
Lemma frugal_new s mode k : ((1 <= b_tok s)%nat /\ frugal (spend None s) (k (Ok tt)) \/ (exists c0, b_hand s = Some c0 /\ b_shut s = true /\ frugal (hold None s) (k (Ok tt)))) ->
  (forall r, (forall u, r <> Ok u) -> frugal s (k r)) -> frugal s (g_new mode k).
Proof.
  intros H1 H2. unfold g_new. cbn [frugal]. intros l i. destruct (_ && _); [|apply H2; discriminate]. destruct (nth_error _ _); [|apply H2; discriminate]. cbn [frugal]. split.
  - destruct H1 as [[L H]|(c0 & E & Sh & H)]; [left|right].
    + split; [exact L|]. intros c. cbn [frugal]. split; [reflexivity|exact H].
    + exists c0. split; [exact E|]. split; [exact Sh|]. intros c. cbn [frugal]. split; [reflexivity|exact H].
  - intros [c|e| |] N; [destruct (N c eq_refl)|apply H2; discriminate..].
Qed.
Lemma frugal_add s mode k : ((1 <= b_tok s)%nat /\ frugal (spend None s) (k (Ok tt)) \/ (exists c0, b_hand s = Some c0 /\ b_shut s = true /\ frugal (hold None s) (k (Ok tt)))) ->
  (forall r, (forall u, r <> Ok u) -> frugal s (k r)) -> frugal s (g_add mode k).
Proof.
  intros H1 H2. unfold g_add. cbn [frugal]. intros [|a l]; [apply H2; discriminate|]. cbn [frugal]. intros i j l'. destruct (_ =? _); cbn [frugal]; now apply frugal_new.
Qed.
Lemma easily_return id h n b k : (forall r, easily PFree n b (k r)) -> easily PFree n b (g_return id h k).
Proof.
  intros H s Hp Hs Ht Hb. unfold g_return. cbn [frugal]. split; [exact Hs|].
  assert (Out : forall s' r, b_seed s' = None -> (n <= b_tok s')%nat -> b_starts s' = b -> frugal s' (GUnlock (k r))) by (intros s' r X Y Z; cbn [frugal]; split; [exact X|]; apply H; auto).
  intros [|]; cbn [negb]; [|now apply Out]. cbn [frugal]. split; [reflexivity|]. split; [reflexivity|]. intros [c|]; cbn [frugal option_map]; [|intros e; now apply Out].
  right. exists id, c. split; [reflexivity|]. split; [reflexivity|]. split; [reflexivity|]. cbv zeta.
  set (m := if pw_mode c =? WriteMode then WriteMode else ReadMode).
  assert (Back : forall s', b_hand s' = Some c -> b_seed s' = None -> (n <= b_tok s')%nat -> b_starts s' = b -> frugal s' (GEnqueue m c (GUnlock (k (Ok c))))).
  { intros s' X Y Z V. cbn [frugal]. split; [exact X|]. split; [exact Y|]. now apply H. }
  set (s1 := keyed None (hold (Some c) _)). assert (X : b_hand s1 = Some c /\ b_seed s1 = None /\ (n <= b_tok s1)%nat /\ b_starts s1 = b) by auto. clearbody s1. destruct X as (X1 & X2 & X3 & X4).
  intros [|]; [now apply Back|]. apply frugal_remove; [now apply Back|]. intros [e|]; [|now apply Back]. apply frugal_add.
  - right. exists c. split; [exact X1|]. split; [unfold struck, grabs; cbn; rewrite X1; cbn; rewrite Nat.eqb_refl; now rewrite orb_true_r|]. now apply Out.
  - intros r _. now apply Out.
Qed.
Lemma easily_internal fuel mode n b k : (forall r, easily PRead n b (k r)) -> easily PRead n b (g_internal_borrow fuel mode k).
Proof.
  intros H. induction fuel as [|fuel IH]; [apply H|]. intros s Hp Hs Ht Hb. cbn [g_internal_borrow frugal]. intros o. rewrite Hp. cbn [picks].
  set (s1 := hold o s). assert (X : b_ph s1 = PRead /\ b_seed s1 = None /\ (n <= b_tok s1)%nat /\ b_starts s1 = b /\ b_hand s1 = o) by auto. clearbody s1. destruct X as (X1 & X2 & X3 & X4 & X5).
  destruct o as [c|]; [|now apply H].
  assert (Rm : frugal s1 (g_remove c (fun e => match e with Some e => k (Err e) | None => g_internal_borrow fuel mode k end))).
  { apply (easily_remove PRead n b); auto. intros [e|]; [apply H|apply IH]. }
  cbn [frugal]. intros [|]; [exact Rm|]. cbn [frugal]. intros [|]; cbn [negb]; [|exact Rm]. cbn [frugal]. left. exists (pw_id c), c. split; [reflexivity|]. split; [exact X1|]. split; [exact X5|]. now apply H.
Qed.
Lemma easily_lend fuel mode n b k : (forall r, easily PFree n b (k r)) -> easily PFree n b (g_lend fuel mode k).
Proof.
  intros H s Hp Hs Ht Hb. unfold g_lend. cbn [frugal]. split; [exact Hs|]. apply (easily_internal fuel mode n b); auto.
  intros r s' P1 P2 P3 P4. cbn [frugal]. split; [exact P2|]. now apply H.
Qed.
Lemma easily_done ph n b r : easily ph n b (GDone r).
Proof. intros s _ H _ _. exact H. Qed.
Lemma easily_client fuel n b modes : easily PFree n b (g_client fuel modes).
Proof.
  induction modes as [|m modes IH]; [intros s _ H _ _; exact H|]. cbn [g_client]. apply easily_lend. intros [c|e| |]; [|apply IH|apply easily_done..].
  assert (R : easily PFree n b (g_return (pw_id c) (pw_conn c) (fun r => match r with Panic => GDone Panic | NoFuel => GDone NoFuel | _ => g_client fuel modes end))).
  { apply easily_return. intros [u|e| |]; [apply IH|apply IH|apply easily_done..]. }
  exact R.
Qed.
Lemma easily_result ph n b r : easily ph n b (g_result r).
Proof. intros s _ H _ _. destruct r; exact H. Qed.
Lemma easily_drain fuel mode n b k : (forall r, easily PFree n b (k r)) -> easily PFree n b (g_drain fuel mode k).
Proof.
  intros Hk. induction fuel as [|fuel IH]; [apply Hk|]. intros s Hp Hs Ht Hb. cbn [g_drain frugal]. intros z. destruct (_ =? 0); [now apply Hk|].
  cbn [frugal]. rewrite Hp. cbn [picks]. intros [c|]; [|now apply Hk]. apply (easily_remove PFree n b); auto. intros [e|]; [apply Hk|apply IH].
Qed.
Lemma easily_stop n m k b : easily PFree k b (g_stop n m).
Proof.
  intros s Hp Hs Ht Hb. unfold g_stop. cbn [frugal]. intros [|]; cbn [negb frugal]; [|exact Hs]. apply (easily_drain n ReadMode k b); auto.
  intros [u|e| |]; try apply easily_result. apply easily_drain. intros. apply easily_result.
Qed.
Lemma frugal_merge s k : frugal s k -> frugal s (g_merge k).
Proof. intros H. cbn. auto. Qed.
Lemma easily_refresh ph n b k : ph = PWrite \/ b = true -> (forall r, easily ph n b (k r)) -> easily ph n b (g_refresh k).
Proof.
  intros Ha H s Hp Hs Ht Hb. unfold g_refresh. cbn [frugal]. split; [exact Hs|]. split; [destruct Ha; [left; congruence|right; congruence]|]. split.
  - intros h.
    assert (Q : forall r, frugal (seed (Some h) s) (GQuit h (k r))) by (intros r; cbn [frugal]; split; [reflexivity|]; apply H; auto).
    assert (M : frugal (seed (Some h) s) (g_merge (GQuit h (k (Ok tt))))) by (apply frugal_merge, Q).
    cbn [frugal]. intros [v [rows|e| |]]; cbn [fst snd]; [|exact M|apply Q..]. destruct (read_rows _ _ _) as [t|e| |]; exact M.
  - intros [h|e| |] N; [destruct (N h eq_refl)|apply H; auto..].
Qed.
Lemma frugal_sift drop s0 : (forall s c k, (forall s', b_ph s' = b_ph s -> b_seed s' = b_seed s -> b_tok s' = b_tok s -> b_starts s' = b_starts s -> b_r s' = b_r s -> b_w s' = b_w s -> frugal s' k) -> frugal s (drop c k)) ->
  forall q k, (forall r d s', Permutation q (r ++ d) -> b_ph s' = b_ph s0 -> b_seed s' = b_seed s0 -> b_tok s' = b_tok s0 -> b_starts s' = b_starts s0 -> b_r s' = b_r s0 -> b_w s' = b_w s0 -> frugal s' (k r)) ->
  forall s, b_ph s = b_ph s0 -> b_seed s = b_seed s0 -> b_tok s = b_tok s0 -> b_starts s = b_starts s0 -> b_r s = b_r s0 -> b_w s = b_w s0 -> frugal s (g_sift drop q k).
Proof.
  intros Hd. induction q as [|c q IH]; intros k Hk s E1 E2 E3 E4 E5 E6; [apply (Hk [] []); auto|]. cbn [g_sift frugal]. intros [|].
  - apply Hd. intros s' F1 F2 F3 F4 F5 F6. apply IH; try congruence. intros r d s2 P. apply (Hk r (c :: d)). rewrite P. apply Permutation_middle.
  - apply IH; try assumption. intros r d s2 P. apply (Hk (c :: r) d). cbn. now rewrite P.
Qed.
Lemma easily_prune n b k : easily PWrite n b k -> easily PWrite n b (g_prune k).
Proof.
  intros H s Hp Hs Ht Hb. unfold g_prune. cbn [frugal]. split; [exact Hp|]. intros rs. eapply (frugal_sift _ (looked ReadMode (Some rs) s)); try reflexivity.
  - intros s1 c k' Hk. cbn [frugal]. intros e. apply Hk; reflexivity.
  - intros reads d s1 P E1 E2 E3 E4 E5 E6. cbn [looked b_ph b_seed b_tok b_starts b_r b_w] in *. change (ReadMode =? WriteMode) with false in *. cbv iota in *. cbn in E1, E2, E3, E4, E5, E6.
    cbn [frugal]. split; [congruence|]. intros ws. eapply (frugal_sift _ (looked WriteMode (Some ws) s1)); try reflexivity.
    + intros s2 c k' Hk. apply frugal_remove; [apply Hk; reflexivity|]. intros e. apply Hk; reflexivity.
    + intros writes d' s2 P' F1 F2 F3 F4 F5 F6. unfold looked in F1, F2, F3, F4, F5, F6. change (WriteMode =? WriteMode) with true in *. cbv iota in *. cbn in F1, F2, F3, F4, F5, F6.
      cbn [frugal]. split; [congruence|]. split; [exists ws, d'; split; [exact F6|exact P']|]. split; [unfold looked; cbn; congruence|].
      split; [exists rs, d; split; [|exact P]|].
      * unfold looked_at, looked. change (ReadMode =? WriteMode) with false. change (WriteMode =? WriteMode) with true. cbv iota. cbn. congruence.
      * apply H; unfold looked; change (ReadMode =? WriteMode) with false; change (WriteMode =? WriteMode) with true; cbv iota; cbn; congruence || lia.
Qed.
Lemma easily_less fuel mode high n b k : (forall r, easily PWrite n b (k r)) -> easily PWrite n b (g_while fuel mode high (g_less mode) k).
Proof.
  intros Hk. induction fuel as [|fuel IH]; [apply Hk|]. intros s Hp Hs Ht Hb. cbn [g_while frugal]. intros z. destruct (_ =? _); [|now apply Hk].
  cbn [g_less frugal]. rewrite Hp. cbn [picks]. intros [c|]; [|now apply IH]. apply (easily_remove PWrite n b); auto.
Qed.
Lemma easily_bounds fuel mode low high n b k : low <= 0 -> (forall r, easily PWrite n b (k r)) -> easily PWrite n b (g_bounds fuel mode low high k).
Proof.
  intros L Hk s Hp Hs Ht Hb. unfold g_bounds. cbn [frugal]. intros z. replace (Z.of_nat z <? low) with false by lia. cbn [frugal]. intros z'.
  destruct (high <? Z.of_nat z'); [now apply (easily_less fuel mode high n b)|now apply Hk].
Qed.
Lemma easily_balance fuel n b k : (forall r, easily PWrite n b (k r)) -> easily PWrite n b (g_balance fuel k).
Proof.
  intros Hk s Hp Hs Ht Hb. unfold g_balance. cbn [frugal]. intros l (L1 & L2 & _ & _). cbn [frugal]. intros z. replace (Z.of_nat z <? lim_min_r l) with false by lia.
  apply (easily_bounds fuel WriteMode _ _ n b); auto. intros [u|e| |]; try apply Hk. now apply easily_bounds.
Qed.
Lemma easily_round fuel n b : easily PFree n b (g_round fuel).
Proof.
  intros s Hp Hs Ht Hb. unfold g_round. cbn [frugal]. split; [exact Hs|].
  assert (U : forall r, easily PWrite n b (GUnlock (g_result r))) by (intros r s' P1 P2 P3 P4; cbn [frugal]; split; [exact P2|]; now apply (easily_result PFree n b)).
  apply (easily_refresh PWrite n b); auto. intros [u|e| |]; try apply U. apply easily_prune, easily_balance. exact U.
Qed.
(** Start opens as many connections as the limits allow. *)
Lemma easily_times mode n m k : (forall r, easily PFree m true (k r)) -> easily PFree (n + m) true (g_times n mode k).
Proof.
  intros H. induction n as [|n IH]; [apply H|]. intros s Hp Hs Ht Hb. cbn [g_times]. cbn [Nat.add] in Ht. apply frugal_add.
  - left. split; [lia|]. apply IH; auto. cbn. lia.
  - intros [u|e| |] N; [destruct (N u eq_refl)|apply H; auto; lia..].
Qed.
Lemma easily_more ph n m b t : (n <= m)%nat -> easily ph n b t -> easily ph m b t.
Proof. intros L H s Hp Hs Ht Hb. apply H; auto. lia. Qed.
Lemma easily_start : easily PFree (Z.to_nat A + Z.to_nat B) true g_start.
Proof.
  intros s Hp Hs Ht Hb. unfold g_start. cbn [frugal]. intros [|]; cbn [frugal]; [exact Hs|].
  apply (easily_refresh PFree (Z.to_nat A + Z.to_nat B) true); auto. intros [u|e| |]; try apply easily_result.
  intros s1 P1 P2 P3 P4. cbn [frugal]. intros l (_ & _ & Lw & _). 
  assert (T : easily PFree (Z.to_nat (lim_max_w l) + Z.to_nat B) true (g_times (Z.to_nat (lim_max_w l)) WriteMode (fun r =>
          match r with Ok _ => GLimits (fun l => g_times (Z.to_nat (lim_max_r l)) ReadMode g_result) | _ => g_result r end))).
  { apply easily_times. intros [v|e| |]; try apply easily_result. intros s2 Q1 Q2 Q3 Q4. cbn [frugal]. intros l' (_ & _ & _ & Lr).
    assert (T : easily PFree (Z.to_nat (lim_max_r l') + 0) true (g_times (Z.to_nat (lim_max_r l')) ReadMode g_result)) by (apply easily_times; intros; apply easily_result).
    apply T; auto. lia. }
  apply T; auto. lia.
Qed.
End Frugal.

Lemma del_parts (id : bytes) (m : list (bytes * wrapper)) : exists gone, Permutation m (map_del id m ++ gone).
Proof.
  induction m as [|[k v] m [g IH]]; cbn; [now exists []|]. destruct (bytes_eqb id k).
  - exists ((k, v) :: g). rewrite <- Permutation_middle. now apply perm_skip.
  - exists g. cbn. now apply perm_skip.
Qed.
Lemma del_one (id : bytes) (m : list (bytes * wrapper)) c : map_get m id = Some c -> exists gone, Permutation m ((id, c) :: map_del id m ++ gone).
Proof.
  induction m as [|[k v] m IH]; cbn; [discriminate|]. destruct (bytes_eqb id k) eqn:E.
  - intros [= ->]. apply bytes_eqb_eq in E. subst k. destruct (del_parts id m) as [g P]. exists g. now apply perm_skip.
  - intros H. destruct (IH H) as [g P]. exists g. cbn. rewrite perm_swap. now apply perm_skip.
Qed.

Section Leaves.
Context {W : Type}.
Variable K : cluster W.
Variables A B : Z.
Notation frugal := (frugal A B).
Notation sys := (gsys (W := W * list kevent)).
(** What has been seen of a queue, to which others may have added since. *)
Definition outgrown (q l : queue) : Prop := exists e, l = q ++ e.
(** What a goroutine knows is so. [dr] and [dw]: what was taken from the queues since somebody looked. *)
Record moored (p : pool) (tr : list kevent) (dr dw : queue) (s : berth) : Prop := mkMoored {
  m_free : b_ph s <> PWrite -> b_r s = None /\ b_w s = None /\ b_key s = None;
  m_r : forall q, b_r s = Some q -> outgrown q (dr ++ p_rq p);
  m_w : forall q, b_w s = Some q -> outgrown q (dw ++ p_wq p);
  m_key : forall id c, b_key s = Some (id, c) -> map_get (p_borrowed p) id = Some c;
  m_shut : b_shut s = true -> forall c, b_hand s = Some c -> told_to_close tr (pw_conn c);
  m_seed : b_seed s <> None -> b_ph s = PWrite \/ b_starts s = true
}.
Definition grabbed (ss : list berth) : list wrapper := flat_map grabs ss.
Definition seeds (ss : list berth) : list nat := flat_map (fun s => match b_seed s with Some h => [h] | None => [] end) ss.
Definition tokens (ss : list berth) : nat := list_sum (map b_tok ss).
(** Where connections are, apart from those in hands; [rest] has those that are nowhere. *)
Definition stands (dr dw : queue) (p : pool) (rest : list nat) : list nat := map pw_conn (dr ++ p_rq p) ++ map pw_conn (dw ++ p_wq p) ++ map (fun e => pw_conn (snd e)) (p_borrowed p) ++ rest.
Definition made (tr : list kevent) (h : nat) : Prop := exists s, In (KDial s (Ok h)) tr.
Record harbour (N : nat) (tps : list (task * phase)) (ss : list berth) (dr dw : queue) (rest : list nat) (x : sys) : Prop := mkHarbour {
  h_phased : phased tps x;
  h_phases : map b_ph ss = map snd tps;
  h_frugal : Forall2 frugal ss (g_threads x);
  h_moored : Forall (moored (g_pool x) (snd (g_world x)) dr dw) ss;
  h_all : forall h, made (snd (g_world x)) h -> told_to_close (snd (g_world x)) h \/ In h (stands dr dw (g_pool x) rest) \/ In h (map pw_conn (grabbed ss)) \/ In h (seeds ss);
  h_size : (length (stands dr dw (g_pool x) rest) + length (grabbed ss) + tokens ss <= N)%nat;
  h_sized : sized A B (g_pool x)
}.
Definition harboured (N : nat) (starts : list bool) (x : sys) : Prop := exists tps ss dr dw rest, harbour N tps ss dr dw rest x /\ map b_starts ss = starts.

Lemma flat_put {T} (f : berth -> list T) ss : forall i s s', nth_error ss i = Some s -> Permutation (f s' ++ flat_map f ss) (f s ++ flat_map f (put_nth i s' ss)).
Proof.
  induction ss as [|x ss IH]; intros [|i] s s'; cbn [nth_error]; try discriminate.
  - intros [= ->]. cbn. rewrite !app_assoc. apply Permutation_app_tail, Permutation_app_comm.
  - intros H. cbn [put_nth flat_map]. specialize (IH i s s' H). rewrite (Permutation_app_comm (f x)), app_assoc, IH, <- app_assoc. apply Permutation_app_head, Permutation_app_comm.
Qed.
Lemma tokens_put ss : forall i s s', nth_error ss i = Some s -> (tokens (put_nth i s' ss) + b_tok s = tokens ss + b_tok s')%nat.
Proof.
  induction ss as [|x ss IH]; intros [|i] s s'; cbn [nth_error]; try discriminate.
  - intros [= ->]. unfold tokens. cbn. lia.
  - intros H. specialize (IH _ _ s' H). unfold tokens in *. cbn [put_nth map]. rewrite !list_sum_cons. lia.
Qed.
Lemma told_more tr tr' h : incl tr tr' -> told_to_close tr h -> told_to_close tr' h.
Proof. intros H [e E]. exists e. auto. Qed.

Definition local (dr dw : queue) (p : pool) (rest : list nat) (s : berth) : list nat := stands dr dw p rest ++ map pw_conn (grabs s).
Ltac sort H := repeat match type of H with _ \/ _ => destruct H as [H|H] end; tauto.
Lemma harbour_step N starts i x x' : gsys_step (watch K) i x = Some x' -> harboured N starts x -> harboured N starts x'.
Proof.
  intros E (tps & ss & dr & dw & rest & [Ph Es Fs Fm Ha Hn Hz] & Est).
  destruct (phased_step (watch K) tps i x x' E Ph) as (t & t0 & ph & ph' & Et & Ep & Ph' & Sh).
  unfold gsys_step in E. rewrite Et in E. destruct (Forall2_at _ _ _ _ _ Fs Et) as (s & Hs & Ht).
  assert (Hph : b_ph s = ph).
  { assert (X : nth_error (map b_ph ss) i = Some (b_ph s)) by now rewrite nth_error_map, Hs. rewrite Es, nth_error_map, Ep in X. cbn in X. congruence. }
  assert (Ti : moored (g_pool x) (snd (g_world x)) dr dw s) by (apply (proj1 (Forall_forall _ _) Fm); eapply nth_error_In; eauto).
  assert (Tj : forall j s1, nth_error ss j = Some s1 -> moored (g_pool x) (snd (g_world x)) dr dw s1) by (intros j s1 H; apply (proj1 (Forall_forall _ _) Fm); eapply nth_error_In; eauto).
  assert (Other : ph <> PFree -> forall j s1, j <> i -> nth_error ss j = Some s1 -> b_ph s1 <> PWrite).
  { intros Np j s1 N' Hj. assert (X : nth_error (map b_ph ss) j = Some (b_ph s1)) by now rewrite nth_error_map, Hj. rewrite Es, nth_error_map in X.
    destruct (nth_error tps j) as [[t1 ph1]|] eqn:Ej; [|discriminate]. cbn in X. injection X as <-. exact (alone tps x i j t0 ph t1 ph1 Ph Ep Ej N' Np). }
  assert (Move : forall p w l t' s' dr' dw' rest', x' = mkG p w l (put_nth i t' (g_threads x)) -> frugal s' t' -> b_ph s' = ph' -> b_starts s' = b_starts s -> incl (snd (g_world x)) (snd w) ->
    moored p (snd w) dr' dw' s' -> (forall j s1, j <> i -> nth_error ss j = Some s1 -> moored p (snd w) dr' dw' s1) ->
    (forall h, made (snd w) h -> made (snd (g_world x)) h \/ In h (local dr' dw' p rest' s') \/ b_seed s' = Some h) ->
    (forall h, In h (local dr dw (g_pool x) rest s) -> told_to_close (snd w) h \/ In h (local dr' dw' p rest' s')) ->
    (forall h, b_seed s = Some h -> told_to_close (snd w) h \/ b_seed s' = Some h) ->
    (length (local dr' dw' p rest' s') + b_tok s' <= length (local dr dw (g_pool x) rest s) + b_tok s)%nat -> settings p = settings (g_pool x) \/ sized A B p -> harboured N starts x').
  { intros p w l t' s' dr' dw' rest' Ex Hf Hp' Hst Hw Hm Ho Hd Hl Hsd Hlen Hset. exists (put_nth i (t0, ph') tps), (put_nth i s' ss), dr', dw', rest'.
    pose proof (flat_put grabs ss i s s' Hs) as P1. pose proof (flat_put (fun s => match b_seed s with Some h => [h] | None => [] end) ss i s s' Hs) as P2. pose proof (tokens_put ss i s s' Hs) as P3.
    assert (G1 : forall h, In h (map pw_conn (grabs s')) -> In h (map pw_conn (grabbed (put_nth i s' ss)))).
    { intros h H. apply in_map_iff in H. destruct H as (c & <- & H). apply in_map. unfold grabbed. apply in_flat_map. exists s'. split; [|exact H].
      exact (nth_error_In _ i (nth_put_same i s' s ss Hs)). }
    assert (S1 : forall h, b_seed s' = Some h -> In h (seeds (put_nth i s' ss))).
    { intros h H. unfold seeds. apply in_flat_map. exists s'. split; [exact (nth_error_In _ i (nth_put_same i s' s ss Hs))|]. rewrite H. now left. }
    assert (G2 : forall h, In h (map pw_conn (grabbed ss)) -> In h (map pw_conn (grabs s)) \/ In h (map pw_conn (grabbed (put_nth i s' ss)))).
    { intros h H. apply in_map_iff in H. destruct H as (c & <- & H). assert (X : In c (grabs s ++ flat_map grabs (put_nth i s' ss))) by (rewrite <- P1; apply in_or_app; now right).
      apply in_app_or in X. destruct X as [X|X]; [left|right]; now apply in_map. }
    assert (S2 : forall h, In h (seeds ss) -> b_seed s = Some h \/ In h (seeds (put_nth i s' ss))).
    { intros h H. assert (X : In h ((match b_seed s with Some h => [h] | None => [] end) ++ seeds (put_nth i s' ss))) by (unfold seeds; rewrite <- P2; apply in_or_app; now right).
      apply in_app_or in X. destruct X as [X|X]; [left|now right]. destruct (b_seed s); [destruct X as [->|[]]; reflexivity|destruct X]. }
    assert (Loc : forall h, In h (local dr' dw' p rest' s') -> In h (stands dr' dw' p rest') \/ In h (map pw_conn (grabbed (put_nth i s' ss)))) by (intros h H; apply in_app_or in H; destruct H; auto).
    apply Permutation_length in P1. rewrite !app_length in P1. unfold local in Hlen. rewrite !app_length, !map_length in Hlen. fold (grabbed ss) in P1. fold (grabbed (put_nth i s' ss)) in P1.
    split; [|rewrite map_put, Hst, put_same by (now rewrite nth_error_map, Hs); exact Est]. subst x'. constructor; cbn [g_threads g_pool g_world].
    - exact Ph'.
    - rewrite !map_put, Es. cbn. now rewrite Hp'.
    - now apply Forall2_put.
    - now apply Forall_put.
    - intros h H. apply Hd in H. destruct H as [H|[H|H]].
      + apply Ha in H. destruct H as [H|[H|[H|H]]].
        * left. eapply told_more; eauto.
        * assert (X : In h (local dr dw (g_pool x) rest s)) by (apply in_or_app; now left). apply Hl in X. destruct X as [X|X]; [now left|right]. apply Loc in X. tauto.
        * apply G2 in H. destruct H as [H|H]; [|tauto]. assert (X : In h (local dr dw (g_pool x) rest s)) by (apply in_or_app; now right). apply Hl in X. destruct X as [X|X]; [now left|right]. apply Loc in X. tauto.
        * apply S2 in H. destruct H as [H|H]; [|tauto]. apply Hsd in H. destruct H as [H|H]; [now left|]. apply S1 in H. tauto.
      + apply Loc in H. tauto.
      + apply S1 in H. tauto.
    - lia.
    - destruct Hset as [Hset|Hset]; [|exact Hset]. eapply settings_sized; eauto. }
  assert (Bare : forall p tr' dr' dw' s1, b_ph s1 <> PWrite -> incl (snd (g_world x)) tr' -> moored (g_pool x) (snd (g_world x)) dr dw s1 -> moored p tr' dr' dw' s1).
  { intros p tr' dr' dw' s1 N1 Hi [T1 _ _ _ T5 T6]. destruct (T1 N1) as (R1 & R2 & R3). constructor; [auto|rewrite R1; discriminate|rewrite R2; discriminate|rewrite R3; discriminate| |exact T6].
    intros X c Y. eapply told_more; eauto. }
  assert (Same : forall p tr', p_rq p = p_rq (g_pool x) -> p_wq p = p_wq (g_pool x) -> p_borrowed p = p_borrowed (g_pool x) -> incl (snd (g_world x)) tr' ->
    forall s1, moored (g_pool x) (snd (g_world x)) dr dw s1 -> moored p tr' dr dw s1).
  { intros p tr' E1 E2 E3 Hi s1 [T1 T2 T3 T4 T5 T6]. constructor; rewrite ?E1, ?E2, ?E3; auto. intros X c Y. eapply told_more; eauto. }
  assert (Stay : forall p rest', p_rq p = p_rq (g_pool x) -> p_wq p = p_wq (g_pool x) -> p_borrowed p = p_borrowed (g_pool x) -> stands dr dw p rest' = stands dr dw (g_pool x) rest').
  { intros p rest' E1 E2 E3. unfold stands. now rewrite E1, E2, E3. }
  assert (Keep : forall p w l t' s', x' = mkG p w l (put_nth i t' (g_threads x)) -> frugal s' t' -> ph' = ph ->
    p_rq p = p_rq (g_pool x) -> p_wq p = p_wq (g_pool x) -> p_borrowed p = p_borrowed (g_pool x) -> incl (snd (g_world x)) (snd w) -> (forall h, made (snd w) h -> made (snd (g_world x)) h) ->
    b_ph s' = b_ph s -> b_starts s' = b_starts s -> b_tok s' = b_tok s -> b_hand s' = b_hand s -> (forall h, b_seed s = Some h -> told_to_close (snd w) h \/ b_seed s' = Some h) -> moored (g_pool x) (snd w) dr dw s' ->
    settings p = settings (g_pool x) \/ sized A B p -> harboured N starts x').
  { intros p w l t' s' Ex Hf -> E1 E2 E3 Hi Hd S1 S2 S3 S4 S5 Hm Hset.
    assert (Lo : local dr dw p rest s' = local dr dw (g_pool x) rest s) by (unfold local, grabs; now rewrite S4, Stay).
    apply (Move p w l t' s' dr dw rest); [exact Ex|exact Hf|congruence|exact S2|exact Hi| | | | |exact S5| |exact Hset].
    - destruct Hm as [T1 T2 T3 T4 T5 T6]. constructor; rewrite ?E1, ?E2, ?E3; auto.
    - intros j s1 _ Hj. apply Same; eauto.
    - intros h H. left. auto.
    - intros h H. right. now rewrite Lo.
    - rewrite Lo, S3. lia. }
  assert (Easy : forall p w l t', x' = mkG p w l (put_nth i t' (g_threads x)) -> frugal s t' -> ph' = ph ->
    p_rq p = p_rq (g_pool x) -> p_wq p = p_wq (g_pool x) -> p_borrowed p = p_borrowed (g_pool x) -> incl (snd (g_world x)) (snd w) -> (forall h, made (snd w) h -> made (snd (g_world x)) h) ->
    settings p = settings (g_pool x) \/ sized A B p -> harboured N starts x').
  { intros p w l t' Ex Hf Hp E1 E2 E3 Hi Hd Hset. apply (Keep p w l t' s); auto. }
  assert (Lock : forall l t', x' = mkG (g_pool x) (g_world x) l (put_nth i t' (g_threads x)) -> b_seed s = None -> frugal (bare ph' s) t' -> harboured N starts x').
  { intros l t' Ex Hse Hf. apply (Move (g_pool x) (g_world x) l t' (bare ph' s) dr dw (rest ++ map pw_conn (grabs s))); [exact Ex|exact Hf|reflexivity|reflexivity|apply incl_refl| | | | | | |now left].
    - constructor; cbn; [auto|discriminate|discriminate|discriminate|discriminate|rewrite Hse; congruence].
    - intros j s1 _ Hj. eauto.
    - intros h H. now left.
    - intros h H. right. unfold local, stands in *. rewrite !in_app_iff in H. rewrite !in_app_iff. clear - H. sort H.
    - rewrite Hse. discriminate.
    - unfold local, stands. cbn [bare b_hand grabs b_tok map]. rewrite !app_length. cbn [length]. lia. }
  assert (Seen : forall e, (forall s1 h, e <> KDial s1 (Ok h)) -> forall h, made (e :: snd (g_world x)) h -> made (snd (g_world x)) h).
  { intros e Ne h [s1 [H|H]]; [destruct (Ne s1 h H)|exists s1; exact H]. }
  assert (Tail : forall e, incl (snd (g_world x)) (e :: snd (g_world x))) by (intros e y H; now right).
  destruct t; cbn [gstep] in E; cbn [LeaveFacts.frugal] in Ht; cbn [shifts] in Sh.
  - discriminate.
  - discriminate.
  - destruct (rw_writer (g_lock x)); [discriminate|]. injection E as <-. destruct Sh as [_ ->]. eapply Lock; [reflexivity|apply Ht..].
  - injection E as <-. destruct Sh as [_ ->]. eapply Lock; [reflexivity|apply Ht..].
  - destruct (rw_writer (g_lock x)); [discriminate|]. destruct (rw_readers (g_lock x)); [|discriminate]. injection E as <-. destruct Sh as [_ ->]. eapply Lock; [reflexivity|apply Ht..].
  - injection E as <-. destruct Sh as [_ ->]. eapply Lock; [reflexivity|apply Ht..].
  - injection E as <-. eapply Easy; [reflexivity|apply Ht|auto using incl_refl..].
  - injection E as <-. eapply Easy; [reflexivity|apply Ht|auto using incl_refl..].
  - injection E as <-. eapply Easy; [reflexivity|apply Ht|auto using incl_refl..].
  - (* GDequeue *)
    destruct (dequeue (queue_of mode (g_pool x))) as [o q] eqn:Eq. injection E as <-. subst ph'.
    assert (Q : o = None /\ queue_of mode (g_pool x) = [] /\ q = [] \/ exists c, o = Some c /\ queue_of mode (g_pool x) = c :: q).
    { destruct (queue_of mode (g_pool x)); injection Eq as <- <-; [left; auto|right; eauto]. }
    specialize (Ht o). destruct Q as [(-> & Eq1 & ->)|(c & -> & Eq1)].
    + assert (Ep0 : p_rq (set_queue mode [] (g_pool x)) = p_rq (g_pool x) /\ p_wq (set_queue mode [] (g_pool x)) = p_wq (g_pool x)).
      { unfold set_queue, queue_of in *. destruct (mode =? WriteMode); cbn; auto. }
      destruct Ep0 as [E1 E2]. pose proof (borrowed_set mode [] (g_pool x)) as E3. unfold picks in Ht. destruct (b_ph s) eqn:Hbp.
      * eapply Easy; [reflexivity|exact Ht|congruence|exact E1|exact E2|exact E3|apply incl_refl|auto|left; apply settings_queue].
      * (* nothing in the hands now *)
        eapply (Move _ _ _ _ (hold None s) dr dw (rest ++ map pw_conn (grabs s))); [reflexivity|exact Ht|cbn; congruence|reflexivity|apply incl_refl| | | | | | |left; apply settings_queue].
        -- destruct Ti as [T1 T2 T3 T4 T5 T6]. constructor; cbn; rewrite ?E1, ?E2, ?E3; auto. discriminate.
        -- intros j s1 _ Hj. apply Same; eauto using incl_refl.
        -- intros h H. now left.
        -- intros h H. right. unfold local in *. rewrite Stay by assumption. unfold stands in *. rewrite !in_app_iff in H. rewrite !in_app_iff. clear - H. sort H.
        -- intros h H. now right.
        -- unfold local. rewrite Stay by assumption. unfold stands. change (grabs (hold None s)) with (@nil wrapper). change (b_tok (hold None s)) with (b_tok s). rewrite !app_length. cbn [map length]. lia.
      * eapply Easy; [reflexivity|exact Ht|congruence|exact E1|exact E2|exact E3|apply incl_refl|auto|left; apply settings_queue].
    + assert (Shift : forall l : queue, (l ++ [c]) ++ q = l ++ c :: q) by (intros l; now rewrite <- app_assoc).
      destruct (b_ph s) eqn:Hbp; cbn [picks] in Ht.
      * (* Stop *)
        eapply (Move _ _ _ _ s (if mode =? WriteMode then dr else dr ++ [c]) (if mode =? WriteMode then dw ++ [c] else dw) rest); [reflexivity|exact Ht|congruence|reflexivity|apply incl_refl| | | | | | |left; apply settings_queue].
        -- clear - Ti Eq1. destruct Ti as [T1 T2 T3 T4 T5 T6]. unfold set_queue, queue_of in *. destruct (mode =? WriteMode); constructor; cbn; auto; intros q0 H; rewrite <- app_assoc; cbn; rewrite <- Eq1; auto.
        -- intros j s1 _ Hj. apply Tj in Hj. clear - Hj Eq1. destruct Hj as [T1 T2 T3 T4 T5 T6]. unfold set_queue, queue_of in *. destruct (mode =? WriteMode); constructor; cbn; auto; intros q0 H; rewrite <- app_assoc; cbn; rewrite <- Eq1; auto.
        -- intros h H. now left.
        -- intros h H. right. unfold local, stands in *. rewrite borrowed_set. unfold set_queue, queue_of in *. destruct (mode =? WriteMode); cbn [p_rq p_wq set_rq set_wq]; rewrite ?(Shift dr), ?(Shift dw), <- Eq1; exact H.
        -- intros h H. now right.
        -- unfold local, stands. rewrite borrowed_set. unfold set_queue, queue_of in *. destruct (mode =? WriteMode); cbn [p_rq p_wq set_rq set_wq]; rewrite ?(Shift dr), ?(Shift dw), <- Eq1; lia.
      * (* a borrower *)
        eapply (Move _ _ _ _ (hold (Some c) s) dr dw (rest ++ map pw_conn (grabs s))); [reflexivity|exact Ht|cbn; congruence|reflexivity|apply incl_refl| | | | | | |left; apply settings_queue].
        -- destruct Ti as [T1 T2 T3 T4 T5 T6]. assert (Y : b_ph s <> PWrite) by congruence. destruct (T1 Y) as (R1 & R2 & R3).
           constructor; cbn; [auto|rewrite R1; discriminate|rewrite R2; discriminate|rewrite R3; discriminate|discriminate|exact T6].
        -- intros j s1 Nj Hj. apply Bare; [apply (Other) with (j := j); auto; congruence|apply incl_refl|eauto].
        -- intros h H. now left.
        -- intros h H. right. unfold local, stands in *. rewrite borrowed_set. unfold set_queue, queue_of in *. cbn [grabs hold b_hand].
           destruct (mode =? WriteMode); cbn [p_rq p_wq set_rq set_wq]; rewrite Eq1 in H; rewrite !map_app, !in_app_iff in H; rewrite !map_app, !in_app_iff; cbn [map In] in H |- *; clear - H; sort H.
        -- intros h H. now right.
        -- unfold local, stands. rewrite borrowed_set. unfold set_queue, queue_of in *. cbn [grabs hold b_hand b_tok].
           destruct (mode =? WriteMode); cbn [p_rq p_wq set_rq set_wq]; rewrite Eq1; rewrite !map_app, !app_length; cbn [map length]; lia.
      * (* the refresher *)
        eapply (Move _ _ _ _ s (if mode =? WriteMode then dr else dr ++ [c]) (if mode =? WriteMode then dw ++ [c] else dw) rest); [reflexivity|exact Ht|congruence|reflexivity|apply incl_refl| | | | | | |left; apply settings_queue].
        -- clear - Ti Eq1. destruct Ti as [T1 T2 T3 T4 T5 T6]. unfold set_queue, queue_of in *. destruct (mode =? WriteMode); constructor; cbn; auto; intros q0 H; rewrite <- app_assoc; cbn; rewrite <- Eq1; auto.
        -- intros j s1 _ Hj. apply Tj in Hj. clear - Hj Eq1. destruct Hj as [T1 T2 T3 T4 T5 T6]. unfold set_queue, queue_of in *. destruct (mode =? WriteMode); constructor; cbn; auto; intros q0 H; rewrite <- app_assoc; cbn; rewrite <- Eq1; auto.
        -- intros h H. now left.
        -- intros h H. right. unfold local, stands in *. rewrite borrowed_set. unfold set_queue, queue_of in *. destruct (mode =? WriteMode); cbn [p_rq p_wq set_rq set_wq]; rewrite ?(Shift dr), ?(Shift dw), <- Eq1; exact H.
        -- intros h H. now right.
        -- unfold local, stands. rewrite borrowed_set. unfold set_queue, queue_of in *. destruct (mode =? WriteMode); cbn [p_rq p_wq set_rq set_wq]; rewrite ?(Shift dr), ?(Shift dw), <- Eq1; lia.
  - (* GEnqueue *)
    destruct Ht as (Hh & Ht). injection E as <-. subst ph'.
    assert (Add : forall s1, moored (g_pool x) (snd (g_world x)) dr dw s1 -> moored (set_queue mode (enqueue c (queue_of mode (g_pool x))) (g_pool x)) (snd (g_world x)) dr dw s1).
    { intros s1 [T1 T2 T3 T4 T5 T6]. constructor; auto; [| |rewrite borrowed_set; exact T4]; unfold set_queue, queue_of, enqueue; destruct (mode =? WriteMode); cbn [p_rq p_wq set_rq set_wq]; auto; intros q0 H.
      - destruct (T2 _ H) as [e X]. exists (e ++ [c]). now rewrite app_assoc, X, <- app_assoc.
      - destruct (T3 _ H) as [e X]. exists (e ++ [c]). now rewrite app_assoc, X, <- app_assoc. }
    eapply (Move _ _ _ _ (hold None s) dr dw rest); [reflexivity|exact Ht|exact Hph|reflexivity|apply incl_refl| | | | | | |left; apply settings_queue].
    + apply Add in Ti. destruct Ti as [T1 T2 T3 T4 T5 T6]. constructor; cbn; auto. discriminate.
    + intros j s1 _ Hj. eauto.
    + intros h H. now left.
    + intros h H. right. unfold local, stands in *. rewrite borrowed_set. unfold set_queue, queue_of, enqueue in *. unfold grabs in *. rewrite Hh in H. cbn [hold b_hand].
      destruct (mode =? WriteMode); cbn [p_rq p_wq set_rq set_wq]; rewrite !map_app, !in_app_iff in H; rewrite !map_app, !in_app_iff; cbn [map In] in H |- *; clear - H; sort H.
    + intros h H. now right.
    + unfold local, stands. rewrite borrowed_set. unfold set_queue, queue_of, enqueue. unfold grabs. rewrite Hh. cbn [hold b_hand b_tok].
      destruct (mode =? WriteMode); cbn [p_rq p_wq set_rq set_wq]; rewrite !map_app, !app_length; cbn [map length]; lia.
  - injection E as <-. eapply Easy; [reflexivity|apply Ht|auto using incl_refl..].
  - cbn [watch k_valid] in E. destruct (k_valid K h (fst (g_world x))) as [w1 v]. injection E as <-. eapply Easy; [reflexivity|apply Ht|auto..]; [apply Tail|apply Seen; discriminate].
  - (* GClose *)
    cbn [watch k_close] in E. destruct (k_close K h (fst (g_world x))) as [w1 v]. injection E as <-. eapply (Keep _ _ _ _ (struck h s)); [reflexivity|apply Ht|auto..]; [apply Tail|apply Seen; discriminate|].
    destruct Ti as [T1 T2 T3 T4 T5 T6]. constructor; cbn [struck b_ph b_r b_w b_key b_shut b_hand b_seed b_starts]; auto. intros X c Y. apply orb_prop in X. destruct X as [X|X].
    + eapply told_more; [apply Tail|auto].
    + unfold grabs in X. rewrite Y in X. cbn in X. rewrite orb_false_r in X. apply Nat.eqb_eq in X. exists v. left. now rewrite X.
  - (* GRead *)
    destruct Ht as (-> & P & Ht). injection E as <-. cbn [field_of].
    eapply (Keep _ _ _ _ (keyed (option_map (pair id) (map_get (p_borrowed (g_pool x)) id)) s)); [reflexivity|apply Ht|auto using incl_refl..].
    destruct Ti as [T1 T2 T3 T4 T5 T6]. constructor; cbn [keyed b_ph b_r b_w b_key b_shut b_hand b_seed b_starts]; auto; [congruence|].
    intros id' c'. destruct (map_get (p_borrowed (g_pool x)) id) eqn:Eg; [|discriminate]. cbn. intros [= <- <-]. exact Eg.
  - (* GWrite *)
    injection E as <-. subst ph'. destruct f; [eapply Easy; [reflexivity|exact Ht|reflexivity|reflexivity|reflexivity|reflexivity|apply incl_refl|auto|now left]|]. cbn [set_field field_of].
    destruct Ht as [(id & c & -> & P & Hh & Ht)|(id & c & -> & P & Hk & Ht)].
    + assert (Dp := del_parts id (p_borrowed (g_pool x))). destruct Dp as (gone & Dp).
      eapply (Move _ _ _ _ (hold None s) dr dw (rest ++ map (fun e => pw_conn (snd e)) gone)); [reflexivity|exact Ht|exact Hph|reflexivity|apply incl_refl| | | | | | |now left].
      * destruct Ti as [T1 T2 T3 T4 T5 T6]. assert (Y : b_ph s <> PWrite) by congruence. destruct (T1 Y) as (R1 & R2 & R3). constructor; cbn; [auto|rewrite R1; discriminate|rewrite R2; discriminate|rewrite R3; discriminate|discriminate|exact T6].
      * intros j s1 Nj Hj. apply Bare; [apply (Other) with (j := j); auto; congruence|apply incl_refl|eauto].
      * intros h H. now left.
      * intros h H. right. unfold local, stands in *. unfold grabs in *. rewrite Hh in H. cbn [hold b_hand set_field field_of p_rq p_wq p_borrowed set_borrowed]. unfold map_set. cbn [map snd].
        assert (X : In h (map (fun e => pw_conn (snd e)) (p_borrowed (g_pool x))) -> In h (map (fun e => pw_conn (snd e)) (map_del id (p_borrowed (g_pool x)))) \/ In h (map (fun e => pw_conn (snd e)) gone)).
        { intros X. apply in_app_or. rewrite <- map_app. eapply Permutation_in; [apply Permutation_map, Dp|exact X]. }
        rewrite !in_app_iff in H. rewrite !in_app_iff. cbn [map In] in H |- *. clear - H X. sort H.
      * intros h H. now right.
      * unfold local, stands. unfold grabs. rewrite Hh. cbn [hold b_hand b_tok set_field field_of p_rq p_wq p_borrowed set_borrowed]. unfold map_set. apply Permutation_length in Dp. rewrite app_length in Dp.
        rewrite !app_length, !map_length. cbn [map length]. lia.
    + destruct Ti as [T1 T2 T3 T4 T5 T6]. assert (Dp := del_one id (p_borrowed (g_pool x)) c (T4 _ _ Hk)). destruct Dp as (gone & Dp).
      eapply (Move _ _ _ _ (keyed None (hold (Some c) s)) dr dw (rest ++ map (fun e => pw_conn (snd e)) gone ++ map pw_conn (grabs s))); [reflexivity|exact Ht|exact Hph|reflexivity|apply incl_refl| | | | | | |now left].
      * constructor; cbn; [congruence|exact T2|exact T3|discriminate|discriminate|exact T6].
      * intros j s1 Nj Hj. apply Bare; [apply (Other) with (j := j); auto; congruence|apply incl_refl|eauto].
      * intros h H. now left.
      * intros h H. right. unfold local, stands in *. change (grabs (keyed None (hold (Some c) s))) with [c]. cbn [set_field field_of p_rq p_wq p_borrowed set_borrowed].
        assert (X : In h (map (fun e => pw_conn (snd e)) (p_borrowed (g_pool x))) -> pw_conn c = h \/ In h (map (fun e => pw_conn (snd e)) (map_del id (p_borrowed (g_pool x)))) \/ In h (map (fun e => pw_conn (snd e)) gone)).
        { intros X. apply (Permutation_in _ (Permutation_map (fun e => pw_conn (snd e)) Dp)) in X. cbn in X. rewrite map_app in X. destruct X as [X|X]; [now left|right]. now apply in_app_or. }
        rewrite !in_app_iff in H. rewrite !in_app_iff. cbn [map In] in H |- *. clear - H X. sort H.
      * intros h H. now right.
      * unfold local, stands. change (grabs (keyed None (hold (Some c) s))) with [c]. cbn [keyed hold b_tok set_field field_of p_rq p_wq p_borrowed set_borrowed]. apply Permutation_length in Dp. cbn in Dp. rewrite app_length in Dp.
        rewrite !app_length, !map_length. cbn [map length]. lia.
  - (* GMake *)
    destruct Ht as [Ht Hr]. unfold make in E. cbn [watch k_dial k_name] in E. destruct (k_dial K s0 (fst (g_world x))) as [w1 [hd|e| |]] eqn:Ed.
    + destruct (k_name K (fst (w1, KDial s0 (Ok hd) :: snd (g_world x)))) as [w2 nm]. injection E as <-. subst ph'. set (c := mkWrap hd (make_conn_id mode nm) s0 mode).
      assert (New : forall h, made (KDial s0 (Ok hd) :: snd (g_world x)) h -> made (snd (g_world x)) h \/ h = hd) by (intros h [s1 [H|H]]; [injection H as _ <-; now right|left; exists s1; exact H]).
      destruct Ht as [[Lt Ht]|(c0 & Hh & Hsh & Ht)].
      * eapply (Move _ _ _ _ (spend (Some c) s) dr dw (rest ++ map pw_conn (grabs s))); [reflexivity|apply Ht|exact Hph|reflexivity|apply Tail| | | | | | |now left]; cbn [snd].
        -- destruct Ti as [T1 T2 T3 T4 T5 T6]. constructor; cbn; auto. discriminate.
        -- intros j s1 _ Hj. apply Same; eauto.
        -- intros h H. apply New in H. destruct H as [H|H]; [now left|]. right. left. unfold local. apply in_or_app. right. cbn. auto.
        -- intros h H. right. unfold local, stands in *. rewrite !in_app_iff in H. rewrite !in_app_iff. clear - H. sort H.
        -- intros h H. now right.
        -- unfold local, stands. cbn [spend b_hand b_tok grabs map]. rewrite !app_length. cbn [length]. lia.
      * eapply (Move _ _ _ _ (hold (Some c) s) dr dw rest); [reflexivity|apply Ht|exact Hph|reflexivity|apply Tail| | | | | | |now left]; cbn [snd].
        -- destruct Ti as [T1 T2 T3 T4 T5 T6]. constructor; cbn; auto. discriminate.
        -- intros j s1 _ Hj. apply Same; eauto.
        -- intros h H. apply New in H. destruct H as [H|H]; [now left|]. right. left. unfold local. apply in_or_app. right. cbn. auto.
        -- intros h H. unfold local in *. rewrite in_app_iff in *. unfold grabs in H. rewrite Hh in H. destruct H as [H|[H|[]]]; [tauto|]. subst h. left. eapply told_more; [apply Tail|]. destruct Ti as [_ _ _ _ T5 _]. auto.
        -- intros h H. now right.
        -- unfold local, stands. unfold grabs. rewrite Hh. cbn [hold b_hand b_tok map]. rewrite !app_length. cbn [length]. lia.
    + injection E as <-. eapply Easy; [reflexivity|apply Hr; discriminate|auto..]; [apply Tail|apply Seen; discriminate].
    + injection E as <-. eapply Easy; [reflexivity|apply Hr; discriminate|auto..]; [apply Tail|apply Seen; discriminate].
    + injection E as <-. eapply Easy; [reflexivity|apply Hr; discriminate|auto..]; [apply Tail|apply Seen; discriminate].
  - injection E as <-. eapply Easy; [reflexivity|apply Ht|auto using incl_refl..].
  - (* GSeed *)
    destruct Ht as (Hn0 & Hps & Hok & Hr). cbn [watch k_dial] in E. destruct (k_dial K _ (fst (g_world x))) as [w1 [hd|e| |]] eqn:Ed; injection E as <-.
    + subst ph'. eapply (Move _ _ _ _ (seed (Some hd) s) dr dw rest); [reflexivity|apply Hok|exact Hph|reflexivity|apply Tail| | | | | | |now left]; cbn [snd].
      * destruct Ti as [T1 T2 T3 T4 T5 T6]. constructor; cbn; auto. intros X c Y. eapply told_more; [apply Tail|auto].
      * intros j s1 _ Hj. apply Same; eauto.
      * intros h [s1 [H|H]]; [injection H as _ <-; right; now right|left; exists s1; exact H].
      * intros h H. now right.
      * rewrite Hn0. discriminate.
      * cbn. unfold local, grabs. cbn. lia.
    + eapply Easy; [reflexivity|apply Hr; discriminate|auto..]; [apply Tail|apply Seen; discriminate].
    + eapply Easy; [reflexivity|apply Hr; discriminate|auto..]; [apply Tail|apply Seen; discriminate].
    + eapply Easy; [reflexivity|apply Hr; discriminate|auto..]; [apply Tail|apply Seen; discriminate].
  - cbn [watch k_query] in E. destruct (k_query K _ (fst (g_world x))) as [w1 [v r]]. injection E as <-. eapply Easy; [reflexivity|apply Ht|auto..]; [apply Tail|apply Seen; discriminate].
  - (* GQuit *)
    destruct Ht as [Hse Ht]. cbn [watch k_close] in E. destruct (k_close K h (fst (g_world x))) as [w1 v]. injection E as <-. eapply (Keep _ _ _ _ (seed None s)); [reflexivity|apply Ht|auto..]; [apply Tail|apply Seen; discriminate| |].
    + intros h' H. left. rewrite Hse in H. injection H as <-. exists v. now left.
    + destruct Ti as [T1 T2 T3 T4 T5 T6]. constructor; cbn; auto. intros X c Y. eapply told_more; [apply Tail|auto].
  - injection E as <-. eapply Easy; [reflexivity|apply Ht|auto using incl_refl..].
  - injection E as <-. eapply Easy; [reflexivity|apply Ht|auto using incl_refl..].
  - injection E as <-. eapply Easy; [reflexivity|apply Ht|auto using incl_refl..].
  - injection E as <-. eapply Easy; [reflexivity|apply Ht|auto using incl_refl..].
  - injection E as <-. eapply Easy; [reflexivity|exact Ht|exact Sh|unfold set_strings_for; destruct (mode =? WriteMode); auto using incl_refl..].
  - (* GItems *)
    destruct Ht as [P Ht]. injection E as <-. subst ph'.
    eapply (Move _ _ _ _ (looked mode (Some (queue_of mode (g_pool x))) s) (if mode =? WriteMode then dr else []) (if mode =? WriteMode then [] else dw) (rest ++ map pw_conn (if mode =? WriteMode then dw else dr)));
      [reflexivity|apply Ht|unfold looked; destruct (mode =? WriteMode); exact Hph|unfold looked; destruct (mode =? WriteMode); reflexivity|apply incl_refl| | | | | | |now left].
    + destruct Ti as [T1 T2 T3 T4 T5 T6]. unfold looked, queue_of. destruct (mode =? WriteMode); constructor; cbn; auto; try congruence; intros q [= <-]; exists []; now rewrite app_nil_r.
    + intros j s1 Nj Hj. apply Bare; [apply (Other) with (j := j); auto; congruence|apply incl_refl|eauto].
    + intros h H. now left.
    + intros h H. right. unfold local, stands in *. assert (X : grabs (looked mode (Some (queue_of mode (g_pool x))) s) = grabs s) by (unfold looked; destruct (mode =? WriteMode); reflexivity). rewrite X.
      destruct (mode =? WriteMode); rewrite ?map_app, ?in_app_iff in H; rewrite ?map_app, ?in_app_iff; cbn [map In] in H |- *; clear - H; sort H.
    + intros h H. right. unfold looked; destruct (mode =? WriteMode); exact H.
    + unfold local, stands. assert (X : grabs (looked mode (Some (queue_of mode (g_pool x))) s) = grabs s /\ b_tok (looked mode (Some (queue_of mode (g_pool x))) s) = b_tok s) by (unfold looked; destruct (mode =? WriteMode); auto). destruct X as [-> ->].
      destruct (mode =? WriteMode); rewrite ?map_app, ?app_length; cbn [map length]; lia.
  - (* GReplace *)
    destruct Ht as (P & (q0 & d & Lq & Pq) & Ht). injection E as <-. subst ph'.
    assert (X : exists e, (if mode =? WriteMode then dw ++ p_wq (g_pool x) else dr ++ p_rq (g_pool x)) = q0 ++ e).
    { destruct Ti as [T1 T2 T3 T4 T5 T6]. unfold looked_at in Lq. destruct (mode =? WriteMode); [exact (T3 _ Lq)|exact (T2 _ Lq)]. }
    destruct X as [e X].
    assert (Y : Permutation (if mode =? WriteMode then dw ++ p_wq (g_pool x) else dr ++ p_rq (g_pool x)) (q ++ d ++ e)) by (rewrite X, Pq, <- app_assoc; reflexivity).
    assert (Gr : grabs (looked mode None s) = grabs s /\ b_tok (looked mode None s) = b_tok s /\ b_seed (looked mode None s) = b_seed s /\ b_ph (looked mode None s) = b_ph s /\ b_starts (looked mode None s) = b_starts s) by (unfold looked; destruct (mode =? WriteMode); auto).
    destruct Gr as (G1 & G2 & G3 & G4 & G5).
    eapply (Move _ _ _ _ (looked mode None s) (if mode =? WriteMode then dr else []) (if mode =? WriteMode then [] else dw) (rest ++ map pw_conn (d ++ e))); [reflexivity|exact Ht|congruence|exact G5|apply incl_refl| | | | | | |left; apply settings_queue].
    + destruct Ti as [T1 T2 T3 T4 T5 T6]. unfold looked, set_queue. destruct (mode =? WriteMode); constructor; cbn; auto; try congruence.
    + intros j s1 Nj Hj. apply Bare; [apply (Other) with (j := j); auto; congruence|apply incl_refl|eauto].
    + intros h H. now left.
    + intros h H. right. unfold local in *. rewrite G1. unfold stands in *. rewrite borrowed_set. apply (Permutation_map pw_conn) in Y. rewrite !map_app in Y.
      assert (Z : In h (map pw_conn (if mode =? WriteMode then dw ++ p_wq (g_pool x) else dr ++ p_rq (g_pool x))) -> In h (map pw_conn q) \/ In h (map pw_conn d) \/ In h (map pw_conn e)).
      { intros Z. apply (Permutation_in _ Y) in Z. rewrite !in_app_iff in Z. exact Z. }
      clear Y. unfold set_queue. destruct (mode =? WriteMode); cbn [p_rq p_wq set_rq set_wq app]; rewrite ?map_app, ?in_app_iff in H; rewrite ?map_app, ?in_app_iff in Z; rewrite ?map_app, ?in_app_iff; clear - H Z; sort H.
    + intros h H. right. congruence.
    + unfold local. rewrite G1, G2. unfold stands. rewrite borrowed_set. apply Permutation_length in Y. rewrite !app_length in Y. unfold set_queue.
      destruct (mode =? WriteMode); cbn [p_rq p_wq set_rq set_wq app]; rewrite ?app_length, ?map_length, ?app_length in *; lia.
  - injection E as <-. eapply Easy; [reflexivity|apply Ht; destruct Hz as (Z1 & Z2 & Z3 & Z4 & _); now repeat split|auto using incl_refl..].
  - injection E as <-. eapply Easy; [reflexivity|apply Ht|auto using incl_refl..].
  - injection E as <-. eapply Easy; [reflexivity|apply Ht|auto using incl_refl..].
  - injection E as <-. eapply Easy; [reflexivity|exact Ht|exact Sh|unfold set_index; destruct (mode =? WriteMode); auto using incl_refl..].
  - injection E as <-. eapply Easy; [reflexivity|apply Ht|auto using incl_refl..]. right. destruct Hz as (Z1 & Z2 & Z3 & Z4 & Z5 & Z6). now repeat split.
Qed.
Lemma harbour_run N starts is : forall x x', gschedule (watch K) is x = Some x' -> harboured N starts x -> harboured N starts x'.
Proof.
  induction is as [|i is IH]; intros x x'; cbn [gschedule]; [now intros [= <-]|].
  destruct (gsys_step (watch K) i x) as [x1|] eqn:E; [|discriminate]. intros E' L. eapply IH; [exact E'|]. eapply harbour_step; eauto.
Qed.
(** A pool that nobody uses: its connections are idle, lent or among at most as many others as make [N]. *)
Definition docked (N : nat) (p : pool) (tr : list kevent) : Prop :=
  sized A B p /\ exists rest, (forall h, made tr h -> told_to_close tr h \/ In h (stands [] [] p rest)) /\ (length (stands [] [] p rest) <= N)%nat.
Definition at_first (t : task) : berth := mkBerth PFree (credit A B t) None false None None None None (starting t).
Lemma frugal_tasks t : frugal (at_first t) (work t).
Proof.
  destruct t as [fuel mode|id h|n m|fuel modes|fuel|]; cbn [work].
  - apply (easily_lend A B fuel mode 0 false); auto. intros r. apply easily_done.
  - apply (easily_return A B id h 0 false); auto. intros r. apply easily_done.
  - now apply (easily_stop A B n m 0 false).
  - now apply (easily_client A B fuel 0 false).
  - now apply (easily_round A B fuel 0 false).
  - now apply (easily_start A B).
Qed.
Lemma harbour_start N p w ts : docked N p (snd w) -> harboured (N + list_sum (map (credit A B) ts)) (map starting ts) (mkG p w (mkRW false 0) (map work ts)).
Proof.
  intros (Hz & rest & Ha & Hn). destruct (locked_start (W := W * list kevent) p w ts) as (tps & Et & F & S1). exists tps, (map at_first ts), [], [], rest.
  assert (Free : map snd tps = map (fun _ => PFree) ts).
  { subst ts. clear - S1. destruct S1 as (A & B & _). cbn in A, B. unfold readers, writers in *. induction tps as [|[t ph] tps IH]; [reflexivity|]. cbn in A, B |- *. destruct ph; cbn in A, B; try lia. now rewrite IH. }
  assert (G : grabbed (map at_first ts) = []) by (clear; induction ts; [reflexivity|exact IHts]).
  split; [|rewrite map_map; reflexivity]. constructor; cbn [g_threads g_pool g_world].
  - split; [exact F|exact S1].
  - rewrite map_map. cbn [at_first b_ph]. now rewrite Free.
  - clear. induction ts as [|t ts IH]; cbn; constructor; [apply frugal_tasks|exact IH].
  - apply Forall_forall. intros s Hs. apply in_map_iff in Hs. destruct Hs as (t & <- & _). constructor; cbn; [auto|discriminate|discriminate|discriminate|discriminate|congruence].
  - intros h H. destruct (Ha h H); auto.
  - rewrite G. unfold tokens. rewrite map_map. cbn [at_first b_tok length]. change (map (fun t => credit A B t) ts) with (map (credit A B) ts). lia.
  - exact Hz.
Qed.
Lemma few_seeds tps ss (x : sys) dr dw : phased tps x -> map b_ph ss = map snd tps -> Forall (moored (g_pool x) (snd (g_world x)) dr dw) ss -> (length (seeds ss) <= 1 + length (filter (fun b => b) (map b_starts ss)))%nat.
Proof.
  intros (_ & S1 & S2 & S3) Es Fm. assert (Lw : (writers (map b_ph ss) <= 1)%nat) by (rewrite Es, S2; destruct (rw_writer (g_lock x)); lia).
  assert (H : (length (seeds ss) <= writers (map b_ph ss) + length (filter (fun b => b) (map b_starts ss)))%nat); [|lia].
  clear - Fm. unfold writers. induction Fm as [|s ss Hm Fm IH]; [cbn; lia|]. unfold seeds in *. cbn [flat_map map filter]. rewrite app_length. destruct Hm as [_ _ _ _ _ T6].
  destruct (b_seed s) as [h|]; [|destruct (b_ph s), (b_starts s); cbn in *; lia]. assert (X : b_ph s = PWrite \/ b_starts s = true) by (apply T6; discriminate).
  destruct X as [-> | ->]; [destruct (b_starts s)|destruct (b_ph s)]; cbn in *; lia.
Qed.
Lemma harbour_open N starts x L : harboured N starts x -> NoDup L -> (forall h, In h L -> left_open (snd (g_world x)) h) -> (length L <= N + 1 + length (filter (fun b => b) starts))%nat.
Proof.
  intros (tps & ss & dr & dw & rest & [Ph Es Fs Fm Ha Hn Hz] & <-) Nd HL. pose proof (few_seeds tps ss x dr dw Ph Es Fm) as Fe.
  assert (I : incl L (stands dr dw (g_pool x) rest ++ map pw_conn (grabbed ss) ++ seeds ss)).
  { intros h H. destruct (HL h H) as [Hm Hc]. rewrite !in_app_iff. destruct (Ha h Hm) as [X|X]; [now elim Hc|exact X]. }
  apply (NoDup_incl_length Nd) in I. rewrite !app_length, map_length in I. lia.
Qed.
Lemma harbour_end N starts x : harboured N starts x -> Forall over (g_threads x) -> docked N (g_pool x) (snd (g_world x)).
Proof.
  intros (tps & ss & dr & dw & rest & [Ph Es Fs Fm Ha Hn Hz] & _) Fo. split; [exact Hz|]. exists (rest ++ map pw_conn dr ++ map pw_conn dw ++ map pw_conn (grabbed ss)).
  assert (Sd : seeds ss = []).
  { clear - Fs Fo. induction Fs as [|s t ss ts Ht Fs IH]; [reflexivity|]. inversion Fo as [|? ? O Fo']; subst. unfold seeds in *. cbn [flat_map]. rewrite (IH Fo').
    assert (X : b_seed s = None) by (destruct t; try destruct O; exact Ht). now rewrite X. }
  split.
  - intros h H. destruct (Ha h H) as [X|[X|[X|X]]]; [now left|right|right|rewrite Sd in X; destruct X]; unfold stands in *; cbn [app]; rewrite ?map_app, ?in_app_iff in X; rewrite ?map_app, ?in_app_iff; tauto.
  - unfold stands in *. cbn [app]. rewrite ?map_app, ?app_length, ?map_length in *. lia.
Qed.
Lemma docked_open N p tr L : docked N p tr -> NoDup L -> (forall h, In h L -> left_open tr h) -> (length L <= N)%nat.
Proof.
  intros (_ & rest & Ha & Hn) Nd HL. assert (I : incl L (stands [] [] p rest)) by (intros h H; destruct (HL h H) as [Hm Hc]; destruct (Ha h Hm) as [X|X]; [now elim Hc|exact X]).
  apply (NoDup_incl_length Nd) in I. lia.
Qed.
Lemma docked_more N M p tr : (N <= M)%nat -> docked N p tr -> docked M p tr.
Proof. intros L (Hz & rest & Ha & Hn). split; [exact Hz|]. exists rest. split; [exact Ha|lia]. Qed.
End Leaves.

(** A goroutine alone makes its steps one after the other. *)
Lemma solo_schedule {W} (K : cluster W) t : forall p w l p' w' l' t', solo K t p w l = Some (p', w', l', t') -> over t' /\ exists is, gschedule K is (mkG p w l [t]) = Some (mkG p' w' l' [t']).
Proof.
  assert (One : forall t p w l p1 w1 l1 t1 p' w' l' t', gstep K t p w l = Some (p1, w1, l1, t1) -> (over t' /\ exists is, gschedule K is (mkG p1 w1 l1 [t1]) = Some (mkG p' w' l' [t'])) ->
    over t' /\ exists is, gschedule K is (mkG p w l [t]) = Some (mkG p' w' l' [t'])).
  { clear t. intros t p w l p1 w1 l1 t1 p' w' l' t' E [O [is H]]. split; [exact O|]. exists (0%nat :: is). cbn [gschedule gsys_step nth_error g_threads g_pool g_world g_lock]. unfold gsys_step. cbn [nth_error g_threads g_pool g_world g_lock]. rewrite E. exact H. }
  induction t as [res| |t IH|t IH|t IH|t IH|k IH|b t IH|m k IH|m k IH|m c t IH|h k IH|h k IH|h k IH|f id k IH|f g t IH|m a k IH|c t IH|k IH|h k IH|h t IH|m k IH|m n t IH|k IH|d t IH|m q t IH|m k IH|m q t IH|k IH|m k IH|m k IH|m z t IH|t IH];
    intros p w l p' w' l' t' E; cbn [solo] in E; try (eapply One; [reflexivity|eapply IH; exact E]).
  - injection E as <- <- <- <-. split; [exact I|]. now exists [].
  - injection E as <- <- <- <-. split; [exact I|]. now exists [].
  - destruct (rw_writer l) eqn:El; [discriminate|]. eapply One; [cbn [gstep]; rewrite El; reflexivity|eapply IH; exact E].
  - destruct (rw_writer l) eqn:El; [discriminate|]. destruct (rw_readers l) eqn:Er; [|discriminate]. eapply One; [cbn [gstep]; rewrite El, Er; reflexivity|eapply IH; exact E].
  - destruct (dequeue (queue_of m p)) as [o q] eqn:Eq. eapply One; [cbn [gstep]; rewrite Eq; reflexivity|eapply IH; exact E].
  - destruct (k_valid K h w) as [w1 v] eqn:Eq. eapply One; [cbn [gstep]; rewrite Eq; reflexivity|eapply IH; exact E].
  - destruct (k_close K h w) as [w1 v] eqn:Eq. eapply One; [cbn [gstep]; rewrite Eq; reflexivity|eapply IH; exact E].
  - destruct (make K m a w) as [w1 v] eqn:Eq. eapply One; [cbn [gstep]; rewrite Eq; reflexivity|eapply IH; exact E].
  - destruct (k_dial K (p_leader p) w) as [w1 v] eqn:Eq. eapply One; [cbn [gstep]; rewrite Eq; reflexivity|eapply IH; exact E].
  - destruct (k_query K h w) as [w1 v] eqn:Eq. eapply One; [cbn [gstep]; rewrite Eq; reflexivity|eapply IH; exact E].
  - destruct (k_close K h w) as [w1 v] eqn:Eq. eapply One; [cbn [gstep]; rewrite Eq; reflexivity|eapply IH; exact E].
Qed.
