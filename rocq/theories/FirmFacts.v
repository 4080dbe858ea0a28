(** If what is closed stays closed, no connection is forgotten while it is open (C143). *)
From Coq Require Import String ZArith List Bool Lia.
From Verif Require Import Bytes GoVal GoErr Decoder Messages Pool SpecPool SpecManners SpecBooks PoolRace RaceFacts SpecCrew SpecLeave SpecLedger LeaveFacts LedgerRun DemoPool.
Import ListNotations.
Open Scope Z_scope.

Section Firm.
Context {W : Type} (K : cluster W) (opened : W -> list nat) (named : W -> list bytes) (gone : W -> nat -> Prop) (Fm : firm K gone).

Definition settled (x : W * list kevent) : Prop := (forall h, In (KValid h false) (snd x) -> gone (fst x) h) /\ forall h, ~ rose (snd x) h.
Lemma rose_cons e tr h : rose (e :: tr) h -> rose tr h \/ (e = KValid h true /\ In (KValid h false) tr).
Proof.
  intros ([|a later] & b & c & E); cbn in E; injection E as -> ->.
  - right. split; [reflexivity|]. apply in_or_app. right. now left.
  - left. now exists later, b, c.
Qed.
Lemma settled_other e x w' : (forall h b, e <> KValid h b) -> (forall h, gone (fst x) h -> gone w' h) -> settled x -> settled (w', e :: snd x).
Proof.
  intros N G [A B]. split; cbn [fst snd].
  - intros h [X|X]; [destruct (N _ _ X)|auto].
  - intros h X. apply rose_cons in X. destruct X as [X|[X _]]; [exact (B h X)|exact (N _ _ X)].
Qed.
Lemma settled_dial s x : settled x -> settled (fst (k_dial (watch K) s x)).
Proof.
  intros S. cbn [watch k_dial]. pose proof (m_dial _ _ Fm s (fst x)) as G. destruct (k_dial K s (fst x)) as [w' r]. cbn [fst] in G |- *.
  apply settled_other; [discriminate|exact G|exact S].
Qed.
Lemma settled_close d x : settled x -> settled (fst (k_close (watch K) d x)).
Proof.
  intros S. cbn [watch k_close]. pose proof (m_close _ _ Fm d (fst x)) as G. destruct (k_close K d (fst x)) as [w' r]. cbn [fst] in G |- *.
  apply settled_other; [discriminate|exact G|exact S].
Qed.
Lemma settled_query d x : settled x -> settled (fst (k_query (watch K) d x)).
Proof.
  intros S. cbn [watch k_query]. pose proof (m_query _ _ Fm d (fst x)) as G. destruct (k_query K d (fst x)) as [w' [v r]]. cbn [fst] in G |- *.
  apply settled_other; [discriminate|exact G|exact S].
Qed.
Lemma settled_name x : settled x -> settled (fst (k_name (watch K) x)).
Proof.
  intros [A B]. cbn [watch k_name]. pose proof (m_name _ _ Fm (fst x)) as G. destruct (k_name K (fst x)) as [w' n]. cbn [fst] in G |- *.
  split; cbn [fst snd]; auto.
Qed.
Lemma settled_valid d x : settled x -> settled (fst (k_valid (watch K) d x)).
Proof.
  intros [A B]. cbn [watch k_valid]. pose proof (m_valid _ _ Fm d (fst x)) as G. pose proof (m_said _ _ Fm d (fst x)) as Sd. pose proof (m_stays _ _ Fm d (fst x)) as St.
  destruct (k_valid K d (fst x)) as [w' b]. cbn [fst snd] in G, St |- *. split; cbn [fst snd].
  - intros h [X|X]; [|auto]. injection X as -> ->. now apply Sd.
  - intros h X. apply rose_cons in X. destruct X as [X|[X Y]]; [exact (B h X)|]. injection X as -> ->. apply A, St in Y. discriminate.
Qed.
Lemma settled_make mode s x : settled x -> settled (fst (make (watch K) mode s x)).
Proof.
  intros S. unfold make. pose proof (settled_dial s x S) as S1. destruct (k_dial (watch K) s x) as [x1 [h|e| |]]; try exact S1.
  cbn [fst] in S1. pose proof (settled_name x1 S1) as S2. destruct (k_name (watch K) x1) as [x2 n]. exact S2.
Qed.
Lemma settled_step i x x' : gsys_step (watch K) i x = Some x' -> settled (g_world x) -> settled (g_world x').
Proof.
  unfold gsys_step. destruct (nth_error (g_threads x) i) as [t|]; [|discriminate]. destruct (gstep (watch K) t (g_pool x) (g_world x) (g_lock x)) as [[[[p w] l] t']|] eqn:E; [|discriminate].
  intros [= <-] S. cbn [g_world]. destruct t; cbn [gstep] in E; try discriminate; try (injection E as <- <- <- <-; exact S).
  - destruct (rw_writer _); [discriminate|]. injection E as <- <- <- <-; exact S.
  - destruct (rw_writer _); [discriminate|]. destruct (rw_readers _); [|discriminate]. injection E as <- <- <- <-; exact S.
  - destruct (dequeue _) as [o q]. injection E as <- <- <- <-; exact S.
  - pose proof (settled_valid h _ S) as S1. destruct (k_valid (watch K) h (g_world x)) as [w1 b]. injection E as <- <- <- <-; exact S1.
  - pose proof (settled_close h _ S) as S1. destruct (k_close (watch K) h (g_world x)) as [w1 b]. injection E as <- <- <- <-; exact S1.
  - pose proof (settled_make mode s _ S) as S1. destruct (make (watch K) mode s (g_world x)) as [w1 b]. injection E as <- <- <- <-; exact S1.
  - pose proof (settled_dial (p_leader (g_pool x)) _ S) as S1. destruct (k_dial (watch K) (p_leader (g_pool x)) (g_world x)) as [w1 b]. injection E as <- <- <- <-; exact S1.
  - pose proof (settled_query h _ S) as S1. destruct (k_query (watch K) h (g_world x)) as [w1 b]. injection E as <- <- <- <-; exact S1.
  - pose proof (settled_close h _ S) as S1. destruct (k_close (watch K) h (g_world x)) as [w1 b]. injection E as <- <- <- <-; exact S1.
Qed.
Lemma settled_run is : forall x x', gschedule (watch K) is x = Some x' -> settled (g_world x) -> settled (g_world x').
Proof.
  induction is as [|i is IH]; intros x x'; cbn [gschedule]; [now intros [= <-]|].
  destruct (gsys_step (watch K) i x) as [x1|] eqn:E; [|discriminate]. intros E' S. eapply IH; [exact E'|]. eapply settled_step; eauto.
Qed.
Lemma settled_solo t p x l p' x' l' t' : solo (watch K) t p x l = Some (p', x', l', t') -> settled x -> settled x'.
Proof. intros E S. destruct (solo_schedule _ _ _ _ _ _ _ _ _ E) as [_ [is H]]. exact (settled_run _ _ _ H S). Qed.
Lemma settled_pop o p x p' x' r : do_pop (watch K) o p x = (p', x', r) -> settled x -> settled x'.
Proof.
  destruct o as [| |m|id h|]; cbn [do_pop]; intros E S.
  - pose proof (solo_start (watch K) p x (mkRW false 0)) as S1. destruct (start_pool (watch K) p x) as [[p1 x1] r1]. injection E as <- <- _. exact (settled_solo _ _ _ _ _ _ _ _ S1 S).
  - pose proof (solo_stop (watch K) p x (mkRW false 0)) as S1. destruct (stop_pool (watch K) p x) as [[p1 x1] r1]. injection E as <- <- _. exact (settled_solo _ _ _ _ _ _ _ _ S1 S).
  - destruct (borrow (watch K) _ p x) as [[p1 x1] r1] eqn:Es. injection E as <- <- _. unfold borrow, get in Es.
    match type of Es with internal_borrow _ ?f ?m _ _ = _ => pose proof (solo_borrow (watch K) f m p x 0) as S1; rewrite Es in S1; exact (settled_solo _ _ _ _ _ _ _ _ S1 S) end.
  - destruct (reclaim (watch K) id h p x) as [[p1 x1] r1] eqn:Es. injection E as <- <- _. destruct (solo_reclaim (watch K) id h p x) as [c S1]. rewrite Es in S1. exact (settled_solo _ _ _ _ _ _ _ _ S1 S).
  - pose proof (solo_round (watch K) p x) as S1. destruct (refresh_round (watch K) p x) as [[p1 x1] r1]. injection E as <- <- _. exact (settled_solo _ _ _ _ _ _ _ _ S1 S).
Qed.
Lemma settled_booked p0 w0 l st p w tr : booked K (firm_use opened named gone) p0 w0 l st p w tr -> settled (w, tr) /\ booked K (any_use opened named) p0 w0 l st p w tr.
Proof.
  induction 1 as [|l st p w tr o p' w' tr' r B [S IH] Ho E|l st p w tr h w' B [S IH] Hh (U1 & U2 & U3)].
  - split; [|constructor]. split; cbn; [tauto|]. intros h ([|] & b & c & E); discriminate E.
  - split; [exact (settled_pop _ _ _ _ _ _ E S)|]. econstructor; eauto.
  - split; [destruct S as [A C]; split; cbn in *; auto|]. eapply bk_use; [exact IH|exact Hh|now split].
Qed.
Theorem firm_balanced auth tls leader n q0 w0 l st q w tr ts is x h : fresh K opened named -> new_routing_pool leader n auth tls = Ok q0 -> booked K (firm_use opened named gone) q0 w0 l st q w tr ->
  Forall shares ts -> gschedule (watch K) is (mkG q (w, tr) (mkRW false 0) (map work ts)) = Some x -> Forall over (g_threads x) -> (exists s, In (KDial s (Ok h)) (snd (g_world x))) ->
  told_to_close (snd (g_world x)) h \/ In h (idle (g_pool x)) \/ In h (lent_out (g_pool x)) \/ In h st.
Proof.
  intros Fr En B Hs E O H. destruct (settled_booked _ _ _ _ _ _ _ B) as [S B']. pose proof (settled_run _ _ _ E S) as [_ Nr].
  destruct (ledger_balanced K opened named Fr auth tls leader n q0 w0 l st q w tr ts is x h En B' Hs E O H) as [X|[X|[X|[X|X]]]]; auto. destruct (Nr h X).
Qed.
End Firm.

(** The demonstration cluster in which a connection dies, or none. *)
Lemma demo_firm h0 t0 stuck view reach : firm (demo_cluster (dies h0 t0) stuck view reach) (fun w h => listed h (d_closed w) = true \/ (h = h0 /\ (t0 <= d_time w)%nat)).
Proof.
  constructor; cbn [demo_cluster k_dial k_valid k_close k_query k_name fst snd].
  - intros s w h H. destruct (reach s); cbn; (destruct H as [H|[H1 H2]]; [now left|right; split; [exact H1|lia]]).
  - intros d w h [H|[H1 H2]]; cbn; [now left|right; split; [exact H1|lia]].
  - intros d w h H. destruct (stuck d); cbn; (destruct H as [H|[H1 H2]]; [left|right; split; [exact H1|lia]]); [exact H|]. unfold listed in *. cbn. rewrite H. apply orb_true_r.
  - intros d w h [H|[H1 H2]]; cbn; [now left|right; split; [exact H1|lia]].
  - intros w h [H|[H1 H2]]; cbn; [now left|right; split; [exact H1|lia]].
  - intros h w w' E. injection E as <- E. unfold dies in E. destruct (listed h (d_closed w)) eqn:El; [left; exact El|]. rewrite andb_true_r in E. apply orb_false_iff in E. destruct E as [E1 E2].
    right. apply negb_false_iff, Nat.eqb_eq in E1. apply Nat.ltb_ge in E2. split; [exact E1|cbn; lia].
  - intros h w [H|[-> H]]; [rewrite H; apply andb_false_r|]. unfold dies. rewrite Nat.eqb_refl. apply Nat.ltb_ge in H. rewrite H. reflexivity.
Qed.
