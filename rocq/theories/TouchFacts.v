(** Which connections an operation of the routing pool deals with, and what it leaves of the others. *)
From Coq Require Import String ZArith List Bool Lia.
From Verif Require Import Bytes GoVal GoErr Decoder Messages GoStr Routing Pool SpecPool PoolFacts LendFacts WatchPoolFacts SpecManners.
Import ListNotations.
Open Scope Z_scope.

Section Touch.
Context {W : Type}.
Variable K : cluster W.
Notation WT := (W * list kevent)%type.
Variables (T : nat -> Prop) (tr0 : list kevent).

Definition mine (new : list kevent) (h : nat) : Prop := T h \/ exists s, In (KDial s (Ok h)) new.
Lemma mine_more new new' h : mine new h -> mine (new' ++ new) h.
Proof. intros [H|[s H]]; [now left|right; exists s; apply in_or_app; now right]. Qed.
(** Everything dealt with so far, and everything that is idle, is ours. *)
Record stays (p : pool) (x : WT) (new : list kevent) : Prop := mkStays {
  st_new : snd x = new ++ tr0;
  st_dealt e h : In e new -> dealt e = Some h -> mine new h;
  st_idle h : In h (idle p) -> mine new h
}.
Definition in_hand (p : pool) (x : WT) : Prop := exists new, stays p x new.
Definition ours (x : WT) (h : nat) : Prop := forall new, snd x = new ++ tr0 -> mine new h.
Lemma in_hand_idle p x h : in_hand p x -> In h (idle p) -> ours x h.
Proof. intros [new [E _ Hi]] Hh new' E'. rewrite E in E'. apply app_inv_tail in E'. subst new'. now apply Hi. Qed.
Lemma in_hand_less p p' x : in_hand p x -> incl (idle p') (idle p) -> in_hand p' x.
Proof. intros [new [E Hd Hi]] Hl. exists new. constructor; auto. Qed.
Lemma ours_more x x' e h : snd x' = e :: snd x -> (exists new, snd x = new ++ tr0) -> ours x h -> ours x' h.
Proof.
  intros E [new En] H new' E'. rewrite E, En in E'. assert (X : new' = e :: new) by (apply (app_inv_tail tr0); now rewrite <- E').
  subst new'. apply (mine_more new [e]), H, En.
Qed.
Lemma in_hand_event p x x' e : in_hand p x -> snd x' = e :: snd x -> (forall h, dealt e = Some h -> ours x h) -> in_hand p x'.
Proof.
  intros [new [E Hd Hi]] E' He. exists (e :: new). constructor.
  - now rewrite E', E.
  - intros f h [->|Hf] Ef; [apply (mine_more new [f]); now apply He|apply (mine_more new [e]); eauto].
  - intros h Hh. apply (mine_more new [e]). now apply Hi.
Qed.
Lemma in_hand_same p x x' : in_hand p x -> snd x' = snd x -> in_hand p x'.
Proof. intros [new [E Hd Hi]] E'. exists new. constructor; auto. congruence. Qed.
Lemma in_hand_tail p x : in_hand p x -> exists new, snd x = new ++ tr0.
Proof. intros [new [E _ _]]. eauto. Qed.

(** The dealings. *)
Lemma hand_valid h p x : in_hand p x -> ours x h -> in_hand p (fst (k_valid (watch K) h x)) /\ forall d, ours x d -> ours (fst (k_valid (watch K) h x)) d.
Proof.
  intros H Ho. cbn. destruct (k_valid K h (fst x)) as [w' b]. cbn. split.
  - apply (in_hand_event p x _ (KValid h b)); [exact H|reflexivity|]. now intros d [= <-].
  - intros d Hd. apply (ours_more x _ (KValid h b)); [reflexivity|now apply in_hand_tail with p|exact Hd].
Qed.
Lemma hand_close h p x : in_hand p x -> ours x h -> in_hand p (fst (k_close (watch K) h x)) /\ forall d, ours x d -> ours (fst (k_close (watch K) h x)) d.
Proof.
  intros H Ho. cbn. destruct (k_close K h (fst x)) as [w' b]. cbn. split.
  - apply (in_hand_event p x _ (KClose h b)); [exact H|reflexivity|]. now intros d [= <-].
  - intros d Hd. apply (ours_more x _ (KClose h b)); [reflexivity|now apply in_hand_tail with p|exact Hd].
Qed.
Lemma hand_query h p x : in_hand p x -> ours x h -> in_hand p (fst (k_query (watch K) h x)) /\ forall d, ours x d -> ours (fst (k_query (watch K) h x)) d.
Proof.
  intros H Ho. cbn. destruct (k_query K h (fst x)) as [w' [v r]]. cbn. split.
  - apply (in_hand_event p x _ (KQuery h v r)); [exact H|reflexivity|]. now intros d [= <-].
  - intros d Hd. apply (ours_more x _ (KQuery h v r)); [reflexivity|now apply in_hand_tail with p|exact Hd].
Qed.
Lemma hand_dial s p x x' r : in_hand p x -> k_dial (watch K) s x = (x', r) -> in_hand p x' /\ (forall d, ours x d -> ours x' d) /\ forall h, r = Ok h -> ours x' h.
Proof.
  intros H. cbn. destruct (k_dial K s (fst x)) as [w' r1]. intros [= <- <-]. split; [|split].
  - apply (in_hand_event p x _ (KDial s r1)); [exact H|reflexivity|]. intros h X. discriminate X.
  - intros d Hd. apply (ours_more x _ (KDial s r1)); [reflexivity|now apply in_hand_tail with p|exact Hd].
  - intros h -> new E. destruct (in_hand_tail _ _ H) as [n En]. cbn in E. rewrite En in E.
    assert (X : new = KDial s (Ok h) :: n) by (apply (app_inv_tail tr0); now rewrite <- E). subst new. right. exists s. now left.
Qed.
Lemma hand_name p x x' n : in_hand p x -> k_name (watch K) x = (x', n) -> in_hand p x' /\ forall d, ours x d -> ours x' d.
Proof.
  intros H. cbn. destruct (k_name K (fst x)) as [w' r1]. intros [= <- <-]. split; [exact (in_hand_same p x (w', snd x) H eq_refl)|]. intros d Hd. exact Hd.
Qed.

(** An operation that is handed [L] deals with what is ours only, and returns [Q]. *)
Definition tame {A} (L : nat -> Prop) (m : @M WT A) (Q : A -> nat -> Prop) : Prop :=
  forall p x p' x' r, in_hand p x -> (forall h, L h -> ours x h) -> m p x = (p', x', r) ->
  in_hand p' x' /\ (forall d, ours x d -> ours x' d) /\ forall a h, r = Ok a -> Q a h -> ours x' h.
Implicit Type L : nat -> Prop.
Definition none {A} (a : A) (h : nat) : Prop := False.
Lemma tame_weak {A} (L L' : nat -> Prop) (m : @M WT A) (Q Q' : A -> nat -> Prop) :
  tame L m Q -> (forall h, L h -> L' h) -> (forall a h, Q' a h -> Q a h \/ L' h) -> tame L' m Q'.
Proof.
  intros H HL HQ p x p' x' r Hi Hl E. destruct (H p x p' x' r Hi (fun h X => Hl h (HL h X)) E) as (H1 & H2 & H3).
  split; [exact H1|]. split; [exact H2|]. intros a h Er Hq. destruct (HQ a h Hq); eauto.
Qed.
Lemma tame_ret {A} L (a : A) (Q : A -> nat -> Prop) : (forall h, Q a h -> L h) -> tame L (ret a) Q.
Proof. intros H p x p' x' r Hi Hl [= <- <- <-]. split; [exact Hi|]. split; [auto|]. intros b h [= <-] Hq. auto. Qed.
Lemma tame_stop {A} L (r0 : res A) (Q : A -> nat -> Prop) : (forall a, r0 <> Ok a) -> tame L (fun p x => (p, x, r0)) Q.
Proof. intros H p x p' x' r Hi Hl [= <- <- <-]. split; [exact Hi|]. split; [auto|]. intros b h X. now elim (H b). Qed.
Lemma tame_mbind {A B} L (m : @M WT A) (Q : A -> nat -> Prop) (f : res A -> @M WT B) (R : B -> nat -> Prop) : tame L m Q ->
  (forall r, tame (fun h => L h \/ exists a, r = Ok a /\ Q a h) (f r) R) -> tame L (mbind m f) R.
Proof.
  intros Hm Hf p x p' x' r Hi Hl. unfold mbind. destruct (m p x) as [[p1 x1] r1] eqn:E. intros E2.
  destruct (Hm _ _ _ _ _ Hi Hl E) as (H1 & H2 & H3).
  destruct (Hf r1 p1 x1 p' x' r H1) as (K1 & K2 & K3); [intros h [X|(a & Ea & X)]; eauto|exact E2|]. split; [exact K1|]. split; [auto|exact K3].
Qed.
Lemma tame_bind {A B} L (m : @M WT A) (Q : A -> nat -> Prop) (f : A -> @M WT B) (R : B -> nat -> Prop) : tame L m Q -> (forall a, tame (fun h => L h \/ Q a h) (f a) R) -> tame L (bind m f) R.
Proof.
  intros Hm Hf. eapply tame_mbind; [exact Hm|]. intros [a|e| |]; try (apply tame_stop; discriminate).
  eapply tame_weak; [apply (Hf a)| |]; [intros h [X|X]; [now left|right; eauto]|auto].
Qed.
Lemma tame_get {A} L (f : pool -> @M WT A) (Q : A -> nat -> Prop) : (forall p, tame (fun h => L h \/ In h (idle p)) (f p) Q) -> tame L (get f) Q.
Proof.
  intros H p x p' x' r Hi Hl E. apply (H p p x p' x' r Hi); [|exact E]. intros h [X|X]; [auto|]. exact (in_hand_idle p x h Hi X).
Qed.
Lemma tame_upd L f : (forall p h, In h (idle (f p)) -> L h \/ In h (idle p)) -> tame L (upd f) none.
Proof.
  intros H p x p' x' r Hi Hl [= <- <- <-]. split; [|split; [auto|intros ? ? _ []]].
  pose proof Hi as [new [E Hd Hn]]. exists new. constructor; [exact E|exact Hd|]. intros h Hh. destruct (H p h Hh) as [X|X]; [exact (Hl h X new E)|now apply Hn].
Qed.
Lemma tame_valid L h : L h -> tame L (valid (watch K) h) none.
Proof.
  intros Hh p x p' x' r Hi Hl. unfold valid. destruct (k_valid (watch K) h x) as [x1 b] eqn:E. intros [= <- <- <-].
  destruct (hand_valid h p x Hi (Hl h Hh)) as [H1 H2]. rewrite E in *. split; [exact H1|]. split; [exact H2|intros ? ? _ []].
Qed.
Lemma tame_close L h : L h -> tame L (close_conn (watch K) h) none.
Proof.
  intros Hh p x p' x' r Hi Hl. unfold close_conn. destruct (k_close (watch K) h x) as [x1 b] eqn:E. intros [= <- <- <-].
  destruct (hand_close h p x Hi (Hl h Hh)) as [H1 H2]. rewrite E in *. split; [exact H1|]. split; [exact H2|intros ? ? _ []].
Qed.
Lemma tame_dial L s : tame L (dial (watch K) s) eq.
Proof.
  intros p x p' x' r Hi Hl. unfold dial. destruct (k_dial (watch K) s x) as [x1 b] eqn:E. intros [= <- <- <-].
  destruct (hand_dial s p x x1 b Hi E) as (H1 & H2 & H3). split; [exact H1|]. split; [exact H2|]. intros a h -> <-. now apply H3.
Qed.
Lemma tame_remove L c : L (pw_conn c) -> tame L (remove_conn (watch K) (Some c)) none.
Proof.
  intros H. cbn [remove_conn]. eapply tame_bind; [now apply tame_valid|]. intros ok. eapply tame_bind.
  - destruct ok; [apply tame_ret with (Q := none); intros ? []|apply tame_close; now left].
  - intros []. apply tame_upd. intros p h X. now right.
Qed.
Lemma tame_new L m s : tame L (new_connection (watch K) m s) (fun c h => h = pw_conn c).
Proof.
  unfold new_connection. eapply tame_bind; [apply tame_dial|]. intros h p x p' x' r Hi Hl. destruct (k_name (watch K) x) as [x1 n] eqn:E. intros [= <- <- <-].
  destruct (hand_name p x x1 n Hi E) as [H1 H2]. split; [apply (in_hand_less p _ x1 H1); apply incl_refl|]. split; [exact H2|].
  intros a d [= <-] ->. cbn. apply H2, Hl. now right.
Qed.
Lemma idle_set m q p h : In h (idle (set_queue m q p)) -> In h (map pw_conn q) \/ In h (idle p).
Proof. unfold idle, set_queue. destruct (m =? WriteMode); cbn; rewrite !in_app_iff; tauto. Qed.
Lemma queue_idle m p c : In c (queue_of m p) -> In (pw_conn c) (idle p).
Proof. unfold idle, queue_of. intros H. apply in_or_app. destruct (m =? WriteMode); [left|right]; now apply in_map. Qed.
Lemma tame_put L m c : L (pw_conn c) -> tame L (upd (fun p => set_queue m (enqueue c (queue_of m p)) p)) none.
Proof.
  intros H. apply tame_upd. intros p h X. apply idle_set in X. destruct X as [X|X]; [|now right]. unfold enqueue in X. rewrite map_app in X.
  apply in_app_or in X. destruct X as [X|[<-|[]]]; [right|now left]. apply in_map_iff in X. destruct X as (d & <- & X). now apply queue_idle in X.
Qed.
Lemma tame_add L m : tame L (add_conn (watch K) m) none.
Proof.
  unfold add_conn. apply tame_get. intros p. destruct (strings_for m p) as [|s0 ss]; [apply tame_stop; discriminate|].
  eapply tame_bind; [apply tame_upd; intros q h X; right; unfold set_index in X; destruct (m =? WriteMode); exact X|]. intros [].
  destruct (_ && _); [|apply tame_stop; discriminate]. destruct (nth_error _ _) as [s|]; [|apply tame_stop; discriminate].
  eapply tame_bind; [apply tame_new|]. intros c. apply tame_put. now right.
Qed.
Lemma tame_times L n m : tame L m none -> tame L (times n m) none.
Proof.
  intros H. induction n as [|n IH]; cbn [times]; [apply tame_ret; intros ? []|]. eapply tame_bind; [exact H|]. intros [].
  eapply tame_weak; [exact IH|now left|auto].
Qed.
Lemma tame_refresh L : tame L (refresh_connections (watch K)) none.
Proof.
  unfold refresh_connections. apply tame_mbind with (Q := eq); [apply tame_get; intros p; eapply tame_weak; [apply (tame_dial L)|now left|auto]|].
  intros [h|e| |]; try (apply tame_stop; discriminate); [|apply tame_ret; intros ? []].
  apply tame_mbind with (Q := none).
  - intros p x p' x' r Hi Hl. destruct (hand_query h p x Hi) as [H1 H2]; [apply Hl; right; eauto|].
    destruct (k_query (watch K) h x) as [x1 [v rows]]. cbn [fst] in *. intros E.
    assert (X : x' = x1 /\ idle p' = idle p /\ True).
    { destruct rows; try (destruct (refresh_cluster_info _ _ _) as [hd e'] eqn:Er); injection E as <- <- _; auto. }
    destruct X as (-> & Ei & _). split; [apply (in_hand_less p p' x1 H1); rewrite Ei; apply incl_refl|]. split; [exact H2|intros ? ? _ []].
  - intros r'. apply tame_mbind with (Q := none); [apply tame_close; left; right; eauto|]. intros r2 p x p' x' r Hi Hl [= <- <- _].
    split; [exact Hi|]. split; [auto|intros ? ? _ []].
Qed.
Lemma tame_prune_queue L remove q : (forall c L, L (pw_conn c) -> tame L (remove c) none) -> (forall c, In c q -> L (pw_conn c)) ->
  tame L (prune_queue remove q) (fun l h => In h (map pw_conn l)).
Proof.
  intros Hr. revert L. induction q as [|c q IH]; intros L Hq; cbn [prune_queue]; [apply tame_ret; intros h []|].
  apply tame_get. intros p. destruct (listed _ _).
  - eapply tame_mbind; [apply Hr; left; apply Hq; now left|]. intros r. apply IH. intros d Hd. left. left. apply Hq. now right.
  - eapply tame_bind; [apply IH; intros d Hd; left; apply Hq; now right|]. intros l. apply tame_ret. intros h [<-|X]; [left; left; apply Hq; now left|right; exact X].
Qed.
Lemma tame_prune L : tame L (prune (watch K)) none.
Proof.
  unfold prune. eapply tame_bind.
  { apply tame_get. intros p. apply tame_prune_queue; [intros c L' H; now apply tame_close|]. intros c H. right. now apply (queue_idle ReadMode) in H. }
  intros reads. eapply tame_bind.
  { apply tame_get. intros p. apply tame_prune_queue; [intros c L' H; now apply tame_remove|]. intros c H. right. now apply (queue_idle WriteMode) in H. }
  intros writes. apply tame_upd. intros p h. unfold idle. cbn. rewrite in_app_iff. intros [X|X]; left; [now right|left; now right].
Qed.
Lemma tame_take L m : tame L (take_out (watch K) m) none.
Proof.
  unfold take_out. apply tame_get. intros p. destruct (queue_of m p) as [|c q] eqn:Eq; cbn [dequeue].
  - eapply tame_bind; [apply tame_upd; intros p1 h X; apply idle_set in X; destruct X as [[]|X]; now right|]. intros []. cbn. apply tame_stop. discriminate.
  - assert (Hq : forall d, In d (c :: q) -> In (pw_conn d) (idle p)) by (intros d Hd; apply (queue_idle m); now rewrite Eq).
    eapply tame_bind; [apply tame_upd; intros p1 h X; apply idle_set in X; destruct X as [X|X]; [left; right|now right]|].
    + apply in_map_iff in X. destruct X as (d & <- & X). apply Hq. now right.
    + intros []. apply tame_remove. left. right. apply Hq. now left.
Qed.
Lemma tame_while L fuel m b body : tame L body none -> tame L (while_size fuel m b body) none.
Proof.
  intros H. revert L H. induction fuel as [|fuel IH]; intros L H; cbn [while_size]; [apply tame_stop; discriminate|]. apply tame_get. intros p. destruct (_ =? _); [|apply tame_ret; intros ? []].
  apply tame_mbind with (Q := none); [eapply tame_weak; [exact H|now left|auto]|]. intros r. apply IH. eapply tame_weak; [exact H|intros h X; left; now left|auto].
Qed.
Lemma tame_balance L fuel : tame L (balance (watch K) fuel) none.
Proof.
  unfold balance. eapply tame_bind; [apply tame_get; intros p; destruct (_ <? _); [apply tame_while, tame_add|apply tame_ret; intros ? []]|]. intros [].
  eapply tame_bind; [apply tame_get; intros p; destruct (_ <? _); [apply tame_while, tame_add|destruct (_ <? _); [apply tame_while, tame_take|apply tame_ret; intros ? []]]|].
  intros []. apply tame_get. intros p. destruct (_ <? _); [apply tame_while, tame_add|destruct (_ <? _); [apply tame_while, tame_take|apply tame_ret; intros ? []]].
Qed.
Lemma tame_drain L fuel m : tame L (drain (watch K) fuel m) none.
Proof.
  revert L. induction fuel as [|fuel IH]; intros L; cbn [drain]; [apply tame_stop; discriminate|]. apply tame_get. intros p.
  destruct (_ =? _); [apply tame_ret; intros ? []|]. eapply tame_bind; [apply tame_take|]. intros []. apply IH.
Qed.
Lemma tame_borrow L fuel m : tame L (internal_borrow (watch K) fuel m) none.
Proof.
  revert L. induction fuel as [|fuel IH]; intros L; cbn [internal_borrow]; [apply tame_stop; discriminate|]. apply tame_get. intros p.
  destruct (queue_of m p) as [|c q] eqn:Eq; cbn [dequeue].
  - eapply tame_bind; [apply tame_upd; intros p1 h X; apply idle_set in X; destruct X as [[]|X]; now right|]. intros []. apply tame_stop. discriminate.
  - assert (Hq : forall d, In d (c :: q) -> In (pw_conn d) (idle p)) by (intros d Hd; apply (queue_idle m); now rewrite Eq).
    eapply tame_bind; [apply tame_upd; intros p1 h X; apply idle_set in X; destruct X as [X|X]; [left; right|now right]|].
    + apply in_map_iff in X. destruct X as (d & <- & X). apply Hq. now right.
    + intros []. destruct (listed _ _).
      * eapply tame_bind; [apply tame_remove; left; right; apply Hq; now left|]. intros []. apply IH.
      * eapply tame_bind; [apply tame_valid; left; right; apply Hq; now left|]. intros ok. destruct (negb ok).
        -- eapply tame_bind; [apply tame_remove; left; left; right; apply Hq; now left|]. intros []. apply IH.
        -- eapply tame_bind; [apply tame_upd; intros p1 h X; now right|]. intros []. apply tame_ret. intros h [].
Qed.
Lemma hand_reclaim L id h p x p' x' r : L h -> (forall c, map_get (p_borrowed p) id = Some c -> L (pw_conn c)) ->
  in_hand p x -> (forall h, L h -> ours x h) -> reclaim (watch K) id h p x = (p', x', r) ->
  in_hand p' x' /\ (forall d, ours x d -> ours x' d) /\ forall a h, r = Ok a -> none a h -> ours x' h.
Proof.
  intros Hh Hc Hi Hl. unfold reclaim, get. destruct (negb (p_running p)); [now apply (tame_stop L (Err (ENew (TMsg 227))) none ltac:(discriminate))|].
  destruct (map_get (p_borrowed p) id) as [c|] eqn:Eg.
  - assert (Lc := Hc c eq_refl). clear Eg Hc. revert Hi Hl. generalize p x p' x' r. change (tame L (bind (upd (fun p0 => set_held (map_set id c (p_held p0)) (set_borrowed (map_del id (p_borrowed p0)) p0))) (fun _ =>
        bind (valid (watch K) (pw_conn c)) (fun ok =>
        let back := upd (fun p => let m := if pw_mode c =? WriteMode then WriteMode else ReadMode in
                                  set_queue m (enqueue c (queue_of m p)) p) in
        if ok then back
        else mbind (remove_conn (watch K) (Some c)) (fun r =>
          match r with
          | Err _ => if pw_mode c =? WriteMode then add_conn (watch K) WriteMode else add_conn (watch K) ReadMode
          | Ok _ => back
          | Panic => crash
          | NoFuel => fun p w => (p, w, NoFuel)
          end)))) none).
    eapply tame_bind; [apply tame_upd; intros p1 h1 X; now right|]. intros []. eapply tame_bind; [apply tame_valid; now left|]. intros ok. cbv zeta.
    destruct ok; [apply tame_put; left; now left|]. eapply tame_mbind; [apply tame_remove; left; now left|].
    intros [[]|e| |]; try (apply tame_stop; discriminate); [apply tame_put; left; left; now left|]. destruct (_ =? _); apply tame_add.
  - clear Eg Hc. revert Hi Hl. generalize p x p' x' r. change (tame L (mbind (close_conn (watch K) h) (fun r =>
        match r with
        | Err e => fail (EFmt (Some e) (TMsg 228))
        | _ => fail (EFmt None (TMsg 229))
        end)) (@none unit)).
    eapply tame_mbind; [now apply tame_close|]. intros [|e| |]; apply tame_stop; discriminate.
Qed.
End Touch.

(** What an operation deals with. *)
Definition given_back (o : pop) (p : pool) (h : nat) : Prop :=
  exists id d, o = OReclaim id d /\ (h = d \/ exists c, map_get (p_borrowed p) id = Some c /\ pw_conn c = h).
Theorem pop_dealt {W} (K : cluster W) o p w tr p' w' tr' r : do_pop (watch K) o p (w, tr) = (p', (w', tr'), r) ->
  exists new, tr' = new ++ tr
  /\ forall e h, In e new -> dealt e = Some h -> In h (idle p) \/ given_back o p h \/ exists s, In (KDial s (Ok h)) new.
Proof.
  set (T := fun h => In h (idle p) \/ given_back o p h). intros E.
  assert (Hi : in_hand T tr p (w, tr)).
  { exists []. constructor; [reflexivity|intros e h []|]. intros h Hh. left. now left. }
  assert (Hl : forall h, T h -> ours T tr (w, tr) h) by (intros h Hh new _; now left).
  assert (X : in_hand T tr p' (w', tr')).
  { destruct o as [| |m|id d|]; cbn [do_pop] in E.
    - destruct (start_pool _ _ _) as [[p1 x1] r1] eqn:Es. injection E as -> -> _. refine (proj1 ((_ : tame T tr T (start_pool (watch K)) none) _ _ _ _ _ Hi Hl Es)).
      unfold start_pool. apply tame_get. intros q. destruct (p_running q); [apply tame_stop; discriminate|].
      eapply tame_bind; [apply tame_upd; intros q1 h Y; right; exact Y|]. intros []. eapply tame_bind; [apply tame_refresh|]. intros [].
      eapply tame_bind; [apply tame_get; intros q1; apply tame_times, tame_add|]. intros []. apply tame_get. intros q1. apply tame_times, tame_add.
    - destruct (stop_pool _ _ _) as [[p1 x1] r1] eqn:Es. injection E as -> -> _. refine (proj1 ((_ : tame T tr T (stop_pool (watch K)) none) _ _ _ _ _ Hi Hl Es)).
      unfold stop_pool. apply tame_get. intros q. destruct (negb (p_running q)); [apply tame_stop; discriminate|].
      eapply tame_bind; [apply tame_upd; intros q1 h Y; right; exact Y|]. intros []. eapply tame_bind; [apply tame_drain|]. intros []. apply tame_drain.
    - destruct (borrow _ _ _ _) as [[p1 x1] r1] eqn:Es. injection E as -> -> _. unfold borrow, get in Es. exact (proj1 (tame_borrow K T tr T _ _ _ _ _ _ _ Hi Hl Es)).
    - destruct (reclaim _ _ _ _ _) as [[p1 x1] r1] eqn:Es. injection E as -> -> _. refine (proj1 (hand_reclaim K T tr T _ _ _ _ _ _ _ _ _ Hi Hl Es)).
      + right. exists id, d. auto.
      + intros c Hc. right. exists id, d. split; [reflexivity|]. right. eauto.
    - destruct (refresh_round _ _ _) as [[p1 x1] r1] eqn:Es. injection E as -> -> _. refine (proj1 ((_ : tame T tr T (refresh_round (watch K)) none) _ _ _ _ _ Hi Hl Es)).
      unfold refresh_round. eapply tame_bind; [apply tame_refresh|]. intros []. eapply tame_bind; [apply tame_prune|]. intros []. apply tame_balance. }
  destruct X as [new [En Hd _]]. exists new. split; [exact En|]. intros e h He Hh. destruct (Hd e h He Hh) as [[Y|Y]|Y]; auto.
Qed.
