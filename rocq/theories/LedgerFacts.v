(** What becomes of the connections a routing pool opens while goroutines use it (C143). *)
From Coq Require Import String ZArith List Bool Lia ZifyBool Permutation.
From Verif Require Import Bytes GoVal GoErr Decoder Messages GoStr Routing Pool SpecPool SpecBooks SpecThrong BytesFacts RoutingFacts PoolFacts LendFacts Concurrency ConcurFacts PoolRace RaceFacts SpecCrew SpecLeave SpecLedger CrewFacts.
Import ListNotations.
Open Scope Z_scope.

(** What is known of the connection in the hands of a goroutine: nothing, that ValidateOpen has called it closed, or that it may be forgotten. *)
Inductive doubt := DNone | DClosed | DGone.
(** What is known of a goroutine: how it has the mutex; the connection in its hands; the queues and the entry of the map of borrowed
    connections as it has seen them; the connection over which it asks for the members. *)
Record desk := mkDesk { d_ph : phase; d_hand : option wrapper; d_doubt : doubt; d_r : option queue; d_w : option queue; d_key : option (bytes * wrapper); d_seed : option nat }.
Definition grip (o : option wrapper) (s : desk) : desk := mkDesk (d_ph s) o DNone (d_r s) (d_w s) (d_key s) (d_seed s).
Definition blank (ph : phase) (s : desk) : desk := mkDesk ph None DNone None None None (d_seed s).
Definition unread (s : desk) : desk := mkDesk (d_ph s) (d_hand s) (d_doubt s) None None (d_key s) (d_seed s).
Definition asking (o : option nat) (s : desk) : desk := mkDesk (d_ph s) None DNone (d_r s) (d_w s) (d_key s) o.
Definition entry (o : option (bytes * wrapper)) (s : desk) : desk := mkDesk (d_ph s) (d_hand s) (d_doubt s) (d_r s) (d_w s) o (d_seed s).
Definition note (mode : Z) (o : option queue) (s : desk) : desk :=
  if mode =? WriteMode then mkDesk (d_ph s) (d_hand s) (d_doubt s) (d_r s) o (d_key s) (d_seed s) else mkDesk (d_ph s) (d_hand s) (d_doubt s) o (d_w s) (d_key s) (d_seed s).
Definition noted (mode : Z) (s : desk) : option queue := if mode =? WriteMode then d_w s else d_r s.
Definition grips (s : desk) : list wrapper := match d_hand s with Some c => [c] | None => [] end.
Definition mine (h : nat) (s : desk) : bool := existsb (fun c => Nat.eqb (pw_conn c) h) (grips s).
Definition doubts (d : doubt) (s : desk) : desk := mkDesk (d_ph s) (d_hand s) d (d_r s) (d_w s) (d_key s) (d_seed s).
Definition heard (h : nat) (b : bool) (s : desk) : desk :=
  if mine h s then doubts (match d_doubt s, b with DNone, false => DClosed | DClosed, true => DGone | d, _ => d end) s else s.
Definition ended_by (h : nat) (s : desk) : desk := if mine h s then doubts DGone s else s.
Definition free_hands (s : desk) : Prop := d_hand s = None \/ d_doubt s = DGone.

Fixpoint careful (s : desk) (t : gprog) : Prop :=
  match t with
  | GDone _ | GEnd => free_hands s /\ d_seed s = None
  | GRLock k => free_hands s /\ careful (blank PRead s) k
  | GRUnlock k => free_hands s /\ careful (blank PFree s) k
  | GLock k => free_hands s /\ careful (blank PWrite s) k
  | GUnlock k => free_hands s /\ careful (blank PFree s) k
  | GRunning k => forall b, careful s (k b)
  | GSetRunning _ k => False
  | GSize mode k => d_ph s = PWrite /\ forall q, (forall q0, noted mode s = Some q0 -> q = q0) -> careful (note mode (Some q) s) (k (size q))
  | GDequeue _ k => d_ph s = PRead /\ d_seed s = None /\ free_hands s /\ forall o, careful (grip o s) (k o)
  | GEnqueue _ c k => d_ph s <> PFree /\ d_hand s = Some c /\ careful (unread (grip None s)) k
  | GMarked _ k => careful s (k false)
  | GValid h k => forall b, careful (heard h b s) (k b)
  | GClose h k => forall e, careful (ended_by h s) (k e)
  | GRead f id k => f = FBorrowed /\ d_ph s = PWrite /\ forall o, careful (entry (option_map (pair id) o) s) (k o)
  | GWrite FHeld _ k => careful s k
  | GWrite FBorrowed g k =>
      (exists c, g = map_set (pw_id c) c /\ d_ph s = PRead /\ d_hand s = Some c /\ careful (grip None s) k)
      \/ (exists id c, g = map_del id /\ d_ph s = PWrite /\ d_key s = Some (id, c) /\ d_seed s = None /\ free_hands s /\ careful (entry None (grip (Some c) s)) k)
  | GMake _ _ k => d_seed s = None /\ free_hands s /\ (forall c, careful (grip (Some c) s) (k (Ok c))) /\ forall r, (forall c, r <> Ok c) -> careful s (k r)
  | GUse _ k => careful s k
  | GSeed k => d_seed s = None /\ free_hands s /\ (forall h, careful (asking (Some h) s) (k (Ok h))) /\ forall r, (forall h, r <> Ok h) -> careful s (k r)
  | GOverview _ k => forall r, careful s (k r)
  | GQuit h k => d_seed s = Some h /\ careful (asking None s) k
  | GPart _ k => forall l, careful s (k l)
  | GAuth k => forall a, careful s (k a)
  | GSetPart _ _ k | GMark _ k | GSetStrings _ _ k => careful s k
  | GItems mode k => d_ph s = PWrite /\ forall q, (forall q0, noted mode s = Some q0 -> q = q0) -> careful (note mode (Some q) s) (k q)
  | GReplace mode q k => d_ph s = PWrite /\ noted mode s = Some q /\ careful s k
  | GLimits k => forall l, careful s (k l)
  | GStrings _ k => forall l, careful s (k l)
  | GIndex _ k => forall i, careful s (k i)
  | GSetIndex _ _ k => careful s k
  | GShare k => False
  end.
(** Goroutines of which only the phase matters. *)
Definition heedful (ph : phase) (t : gprog) : Prop := forall s, d_ph s = ph -> d_seed s = None -> free_hands s -> careful s t.
Lemma free_heard h b s : free_hands s -> free_hands (heard h b s).
Proof. intros [H|H]; unfold heard, mine, grips; [rewrite H; now left|]. destruct (existsb _ _); right; [|exact H]. cbn. now rewrite H. Qed.
Lemma free_ended h s : free_hands s -> free_hands (ended_by h s).
Proof. intros [H|H]; unfold ended_by, mine, grips; [rewrite H; now left|]. destruct (existsb _ _); right; [reflexivity|exact H]. Qed.
Lemma same_heard h b s : d_ph (heard h b s) = d_ph s /\ d_seed (heard h b s) = d_seed s /\ d_hand (heard h b s) = d_hand s.
Proof. unfold heard. destruct (mine h s); auto. Qed.
Lemma same_ended h s : d_ph (ended_by h s) = d_ph s /\ d_seed (ended_by h s) = d_seed s /\ d_hand (ended_by h s) = d_hand s.
Proof. unfold ended_by. destruct (mine h s); auto. Qed.
Lemma mine_hand c s : d_hand s = Some c -> mine (pw_conn c) s = true.
Proof. intros H. unfold mine, grips. rewrite H. cbn. now rewrite Nat.eqb_refl. Qed.
Lemma careful_new s mode k : d_seed s = None -> free_hands s -> careful (unread (grip None s)) (k (Ok tt)) -> d_ph s <> PFree -> (forall r, (forall u, r <> Ok u) -> careful s (k r)) -> careful s (g_new mode k).
Proof.
  intros H0 H1 H2 H3 H4. unfold g_new. cbn [careful]. intros l i. destruct (_ && _); [|apply H4; discriminate]. destruct (nth_error _ _); [|apply H4; discriminate]. cbn [careful]. split; [exact H0|]. split; [exact H1|]. split.
  - intros c. cbn [careful]. split; [exact H3|]. split; [reflexivity|exact H2].
  - intros [c|e| |] N; [destruct (N c eq_refl)|apply H4; discriminate..].
Qed.
Lemma careful_add s mode k : d_seed s = None -> free_hands s -> careful (unread (grip None s)) (k (Ok tt)) -> d_ph s <> PFree -> (forall r, (forall u, r <> Ok u) -> careful s (k r)) -> careful s (g_add mode k).
Proof.
  intros H0 H1 H2 H3 H4. unfold g_add. cbn [careful]. intros [|a l]; [apply H4; discriminate|]. cbn [careful]. intros i j l'. destruct (_ =? _); cbn [careful]; now apply careful_new.
Qed.
Lemma heedful_return id h k : (forall r, heedful PFree (k r)) -> heedful PFree (g_return id h k).
Proof.
  intros H s Hp Hs Hf. unfold g_return. cbn [careful]. split; [exact Hf|].
  assert (Out : forall s' r, d_seed s' = None -> free_hands s' -> careful s' (GUnlock (k r))) by (intros s' r X Y; cbn [careful]; split; [exact Y|]; apply H; auto; now left).
  intros [|]; cbn [negb]; [|apply Out; [exact Hs|now left]]. cbn [careful]. split; [reflexivity|]. split; [reflexivity|].
  intros [c|]; cbn [careful option_map]; [|intros e; apply Out; [destruct (same_ended h (entry None (blank PWrite s))) as (_ & -> & _); exact Hs|apply free_ended; now left]].
  right. exists id, c. split; [reflexivity|]. split; [reflexivity|]. split; [reflexivity|]. split; [exact Hs|]. split; [now left|]. cbv zeta.
  set (m := if pw_mode c =? WriteMode then WriteMode else ReadMode).
  assert (Back : forall s', d_hand s' = Some c -> d_seed s' = None -> d_ph s' = PWrite -> careful s' (GEnqueue m c (GUnlock (k (Ok c))))).
  { intros s' X Y Z. cbn [careful]. split; [congruence|]. split; [exact X|]. split; [now left|]. apply H; [reflexivity|exact Y|now left]. }
  set (s1 := entry None (grip (Some c) _)). assert (X : d_hand s1 = Some c /\ d_seed s1 = None /\ d_ph s1 = PWrite) by auto. clearbody s1. destruct X as (X1 & X2 & X3).
  intros [|].
  - destruct (same_heard (pw_conn c) true s1) as (E1 & E2 & E3). apply Back; congruence.
  - destruct (same_heard (pw_conn c) false s1) as (E1 & E2 & E3). set (s2 := heard (pw_conn c) false s1) in *. clearbody s2. cbn [g_remove careful]. intros [|]; cbn [careful].
    + destruct (same_heard (pw_conn c) true s2) as (F1 & F2 & F3). apply Back; congruence.
    + destruct (same_heard (pw_conn c) false s2) as (F1 & F2 & F3). set (s3 := heard (pw_conn c) false s2) in *. clearbody s3.
      destruct (same_ended (pw_conn c) s3) as (G1 & G2 & G3). assert (Fr : free_hands (ended_by (pw_conn c) s3)) by (right; unfold ended_by; rewrite (mine_hand c) by congruence; reflexivity).
      set (s4 := ended_by (pw_conn c) s3) in *. clearbody s4. intros [e|]; cbn [careful]; [|apply Back; congruence]. apply careful_add; [congruence|exact Fr| | |].
      * apply Out; [cbn; congruence|now left].
      * congruence.
      * intros r _. apply Out; [congruence|exact Fr].
Qed.
Lemma heedful_internal fuel mode k : (forall r, heedful PRead (k r)) -> (forall c, heedful PRead (k (Ok c))) -> heedful PRead (g_internal_borrow fuel mode k).
Proof.
  intros H Hc. induction fuel as [|fuel IH]; [apply H|]. intros s Hp Hs Hf. cbn [g_internal_borrow careful]. split; [exact Hp|]. split; [exact Hs|]. split; [exact Hf|]. intros o.
  destruct o as [c|]; [|apply H; [exact Hp|exact Hs|now left]]. cbn [careful].
  set (s1 := grip (Some c) s). assert (X : d_ph s1 = PRead /\ d_seed s1 = None /\ d_hand s1 = Some c /\ d_doubt s1 = DNone) by auto. clearbody s1. destruct X as (X1 & X2 & X3 & X4).
  intros [|]; cbn [negb].
  - destruct (same_heard (pw_conn c) true s1) as (E1 & E2 & E3). cbn [careful]. left. exists c. split; [reflexivity|]. split; [congruence|]. split; [congruence|]. apply H; [cbn; congruence|cbn; congruence|now left].
  - destruct (same_heard (pw_conn c) false s1) as (E1 & E2 & E3). assert (Ed : d_doubt (heard (pw_conn c) false s1) = DClosed) by (unfold heard; rewrite (mine_hand c) by exact X3; cbn; now rewrite X4).
    set (s2 := heard (pw_conn c) false s1) in *. clearbody s2. cbn [g_remove careful]. intros [|]; cbn [careful].
    + destruct (same_heard (pw_conn c) true s2) as (F1 & F2 & F3). apply IH; [congruence|congruence|]. right. unfold heard. rewrite (mine_hand c) by congruence. cbn. now rewrite Ed.
    + destruct (same_heard (pw_conn c) false s2) as (F1 & F2 & F3). set (s3 := heard (pw_conn c) false s2) in *. clearbody s3.
      destruct (same_ended (pw_conn c) s3) as (G1 & G2 & G3). assert (Fr : free_hands (ended_by (pw_conn c) s3)) by (right; unfold ended_by; rewrite (mine_hand c) by congruence; reflexivity).
      set (s4 := ended_by (pw_conn c) s3) in *. clearbody s4. intros [e|]; cbn [careful]; [apply H|apply IH]; congruence || exact Fr.
Qed.
Lemma heedful_lend fuel mode k : (forall r, heedful PFree (k r)) -> heedful PFree (g_lend fuel mode k).
Proof.
  intros H s Hp Hs Hf. unfold g_lend. cbn [careful]. split; [exact Hf|].
  assert (X : forall r, heedful PRead (GRUnlock (k r))) by (intros r s' P1 P2 P3; cbn [careful]; split; [exact P3|]; apply H; [reflexivity|exact P2|now left]).
  apply heedful_internal; auto. now left.
Qed.
Lemma heedful_done ph r : heedful ph (GDone r).
Proof. intros s _ H1 H2. now split. Qed.
Lemma heedful_result ph r : heedful ph (g_result r).
Proof. intros s _ H1 H2. destruct r; now split. Qed.
Lemma heedful_client fuel modes : heedful PFree (g_client fuel modes).
Proof.
  induction modes as [|m modes IH]; [intros s _ H1 H2; now split|]. cbn [g_client]. apply heedful_lend. intros [c|e| |]; [|apply IH|apply heedful_done..].
  assert (R : heedful PFree (g_return (pw_id c) (pw_conn c) (fun r => match r with Panic => GDone Panic | NoFuel => GDone NoFuel | _ => g_client fuel modes end))).
  { apply heedful_return. intros [u|e| |]; [apply IH|apply IH|apply heedful_done..]. }
  exact R.
Qed.
Lemma heedful_refresh k : (forall r, heedful PWrite (k r)) -> heedful PWrite (g_refresh k).
Proof.
  intros H s Hp Hs Hf. unfold g_refresh. cbn [careful]. split; [exact Hs|]. split; [exact Hf|]. split.
  - intros h.
    assert (Q : forall r, careful (asking (Some h) s) (GQuit h (k r))) by (intros r; cbn [careful]; split; [reflexivity|]; apply H; auto; now left).
    assert (M : careful (asking (Some h) s) (g_merge (GQuit h (k (Ok tt))))) by (unfold g_merge; cbn [careful]; intros; exact (Q (Ok tt))).
    cbn [careful]. intros [v [rows|e| |]]; cbn [fst snd]; [|exact M|apply Q..]. destruct (read_rows _ _ _) as [t|e| |]; exact M.
  - intros [h|e| |] N; [destruct (N h eq_refl)|apply H; auto..].
Qed.
Lemma careful_sift drop q : forall s k, careful s (k q) -> careful s (g_sift drop q k).
Proof. induction q as [|c q IH]; intros s k H; [exact H|]. cbn [g_sift careful]. apply IH. exact H. Qed.
(** A queue that has been looked at is not looked at in vain. *)
Definition knows (s : desk) : Prop := d_ph s = PWrite /\ d_seed s = None /\ free_hands s.
Lemma knows_note mode o s : knows s -> knows (note mode o s).
Proof. intros (H1 & H2 & H3). unfold knows, note, free_hands in *. destruct (mode =? WriteMode); auto. Qed.
Lemma noted_note mode o s : noted mode (note mode o s) = o.
Proof. unfold noted, note. destruct (mode =? WriteMode); reflexivity. Qed.
Lemma heedful_prune k : heedful PWrite k -> heedful PWrite (g_prune k).
Proof.
  intros H s Hp Hs Hf. unfold g_prune. cbn [careful]. split; [exact Hp|]. intros rs _. apply careful_sift. cbn [careful]. split; [exact Hp|]. intros ws _. apply careful_sift. cbn [careful].
  split; [exact Hp|]. split; [reflexivity|]. split; [exact Hp|]. split; [reflexivity|]. apply H; auto.
Qed.
Lemma heedful_while fuel mode bound body q k s : noted mode s = Some q -> size q <> bound -> knows s -> (forall r, heedful PWrite (k r)) -> careful s (g_while fuel mode bound body k).
Proof.
  intros Hn Hq (Hp & Hs & Hf) Hk. destruct fuel as [|fuel]; [now apply Hk|]. cbn [g_while careful]. split; [exact Hp|]. intros q' Hq'. specialize (Hq' _ Hn). subst q'.
  replace (size q =? bound) with false by lia. pose proof (knows_note mode (Some q) s (conj Hp (conj Hs Hf))) as (X1 & X2 & X3). now apply Hk.
Qed.
Lemma heedful_bounds fuel mode low high k : (forall r, heedful PWrite (k r)) -> heedful PWrite (g_bounds fuel mode low high k).
Proof.
  intros Hk s Hp Hs Hf. unfold g_bounds. cbn [careful]. split; [exact Hp|]. intros q _. pose proof (knows_note mode (Some q) s (conj Hp (conj Hs Hf))) as X.
  pose proof (noted_note mode (Some q) s) as Y. set (s1 := note mode (Some q) s) in *. clearbody s1. destruct (size q <? low) eqn:E1.
  - apply (heedful_while fuel mode low _ q); auto. lia.
  - cbn [careful]. split; [apply X|]. intros q' Hq'. specialize (Hq' _ Y). subst q'. pose proof (knows_note mode (Some q) s1 X) as X'. pose proof (noted_note mode (Some q) s1) as Y'.
    destruct (high <? size q) eqn:E2; [apply (heedful_while fuel mode high _ q); auto; lia|]. destruct X' as (A1 & A2 & A3). now apply Hk.
Qed.
Lemma heedful_balance fuel k : (forall r, heedful PWrite (k r)) -> heedful PWrite (g_balance fuel k).
Proof.
  intros Hk s Hp Hs Hf. unfold g_balance. cbn [careful]. intros l. split; [exact Hp|]. intros q _. pose proof (knows_note ReadMode (Some q) s (conj Hp (conj Hs Hf))) as X.
  pose proof (noted_note ReadMode (Some q) s) as Y. set (s1 := note ReadMode (Some q) s) in *. clearbody s1.
  assert (R : heedful PWrite (g_bounds fuel WriteMode (lim_min_w l) (lim_max_w l) (fun r => match r with Ok _ => g_bounds fuel ReadMode (lim_min_r l) (lim_max_r l) k | _ => k r end))).
  { apply heedful_bounds. intros [u|e| |]; try apply Hk. now apply heedful_bounds. }
  destruct (size q <? lim_min_r l) eqn:E1; [|destruct X as (A1 & A2 & A3); now apply R].
  apply (heedful_while fuel ReadMode (lim_min_r l) _ q); auto; [lia|]. intros [u|e| |]; try apply Hk. exact R.
Qed.
Lemma heedful_round fuel : heedful PFree (g_round fuel).
Proof.
  intros s Hp Hs Hf. unfold g_round. cbn [careful]. split; [exact Hf|].
  assert (U : forall r, heedful PWrite (GUnlock (g_result r))) by (intros r s' P1 P2 P3; cbn [careful]; split; [exact P3|]; apply (heedful_result PFree); [reflexivity|exact P2|now left]).
  apply heedful_refresh; [|reflexivity|exact Hs|now left]. intros [u|e| |]; try apply U. apply heedful_prune, heedful_balance. exact U.
Qed.
Definition at_rest : desk := mkDesk PFree None DNone None None None None.
Lemma careful_tasks t : shares t -> careful at_rest (work t).
Proof.
  intros H. assert (X : heedful PFree (work t)).
  { destruct t; cbn [work shares] in *; try contradiction; [unfold g_borrow; apply heedful_lend; intros; apply heedful_done|unfold g_reclaim; apply heedful_return; intros; apply heedful_done|apply heedful_client|apply heedful_round]. }
  apply X; [reflexivity|reflexivity|now left].
Qed.
