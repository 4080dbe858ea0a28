(** The settings of connections: C132. *)
From Coq Require Import String ZArith List Bool Lia.
From Verif Require Import Bytes GoVal GoErr Messages Connection Link ExecFacts Settings SpecSettings.
From Verif Require DriverPool SpecDriver PrepFacts ShareFacts SpecShare Pool SpecPool RouteShare.
Import ListNotations.
Open Scope Z_scope.

(** ** Nothing but SetChunkSize changes the chunk size *)
Definition sized {A} (p : prog A) : Prop := forall St (N : net St) c s, c_chunk (fst (fst (exec N p c s))) = c_chunk c.
Lemma sized_ret {A} (r : res A) : sized (Ret r). Proof. intros St N c s. reflexivity. Qed.
Lemma sized_bindr {A B} (p : prog A) (f : res A -> prog B) : sized p -> (forall r, sized (f r)) -> sized (bindr p f).
Proof.
  intros Hp Hf St N c s. rewrite exec_bindr. specialize (Hp St N c s). destruct (exec N p c s) as [[c1 s1] r]. cbn in Hp. rewrite <- Hp. apply Hf.
Qed.
Lemma sized_bind {A B} (p : prog A) (f : A -> prog B) : sized p -> (forall a, sized (f a)) -> sized (bind p f).
Proof. intros Hp Hf. apply sized_bindr; [exact Hp|]. intros []; auto using sized_ret. Qed.
Lemma sized_get {A} (k : conn -> prog A) : (forall c, sized (k c)) -> sized (Get k).
Proof. intros H St N c s. cbn [exec]. apply H. Qed.
Lemma sized_upd {A} f (k : prog A) : (forall c, c_chunk (f c) = c_chunk c) -> sized k -> sized (Upd f k).
Proof. intros Hf H St N c s. cbn [exec]. now rewrite H. Qed.
Lemma sized_send {A} v cs m (k : option gerr -> prog A) : (forall e, sized (k e)) -> sized (Send v cs m k).
Proof. intros H St N c s. cbn [exec]. destruct (n_send N v cs m s). apply H. Qed.
Lemma sized_recv {A} v (k : res gval -> prog A) : (forall e, sized (k e)) -> sized (Recv v k).
Proof. intros H St N c s. cbn [exec]. destruct (n_recv N v s). apply H. Qed.
Lemma sized_hang {A} (k : option gerr -> prog A) : (forall e, sized (k e)) -> sized (Hang k).
Proof. intros H St N c s. cbn [exec]. destruct (n_hang N s). apply H. Qed.
Lemma sized_dial {A} (k : option gerr -> prog A) : (forall e, sized (k e)) -> sized (Dial k).
Proof. intros H St N c s. cbn [exec]. destruct (n_dial N s). apply H. Qed.
Lemma sized_write {A} b (k : Z * option gerr -> prog A) : (forall e, sized (k e)) -> sized (RawWrite b k).
Proof. intros H St N c s. cbn [exec]. destruct (n_write N b s). apply H. Qed.
Lemma sized_read {A} b (k : bytes * option gerr -> prog A) : (forall e, sized (k e)) -> sized (RawRead b k).
Proof. intros H St N c s. cbn [exec]. destruct (n_read N b s). apply H. Qed.
Lemma sized_probe {A} (k : option gerr -> prog A) : (forall e, sized (k e)) -> sized (Probe k).
Proof. intros H St N c s. cbn [exec]. destruct (n_probe N s). apply H. Qed.
Lemma sized_lock {A} (p : prog A) : sized p -> sized (Lock p). Proof. intros H St N c s. apply H. Qed.
Lemma sized_unlock {A} (p : prog A) : sized p -> sized (Unlock p). Proof. intros H St N c s. apply H. Qed.
Lemma sized_send_message m : sized (send_message m).
Proof. apply sized_get. intro c. apply sized_send. intros []; apply sized_ret. Qed.
Lemma sized_recv_message : sized recv_message.
Proof. apply sized_get. intro c. apply sized_recv. intro. apply sized_ret. Qed.
Lemma sized_pwrap {A} m (p : prog A) : sized p -> sized (pwrap m p).
Proof. intro H. apply sized_bindr; [exact H|]. intro. apply sized_ret. Qed.
Lemma sized_tx_end cons t sel : sized cons -> sized (tx_end cons t sel).
Proof.
  intros H. unfold tx_end. apply sized_get. intro c. destruct (tx_closed c t); [apply sized_ret|]. destruct (sel (c_proto c)) as [m nat].
  apply sized_bind; [apply sized_send_message|intros _]. apply sized_bind; [destruct nat; [apply sized_ret|apply sized_send_message]|intros _].
  apply sized_bind; [exact H|intro a]. apply sized_bind; [destruct nat; [apply sized_ret|exact H]|intro b].
  destruct (negb (is_success a)); [apply sized_ret|]. destruct (negb nat && _); [apply sized_ret|]. apply sized_upd; [reflexivity|apply sized_ret].
Qed.
Lemma sized_close_with rb : (forall t, sized (rb t)) -> sized (close_with rb).
Proof.
  intro H. apply sized_get. intro c. destruct (c_closed c); [apply sized_ret|].
  apply sized_bind; [destruct (c_transaction c); [apply H|apply sized_ret]|intros _].
  apply sized_bind; [destruct (get_close_message _); [apply sized_send_message|apply sized_ret]|intros _].
  apply sized_hang. intros e. apply sized_upd; [reflexivity|destruct e; apply sized_ret].
Qed.
Lemma sized_core n : sized (consume n) /\ sized (reset n) /\ sized (reset_loop n) /\ sized (close n) /\ (forall t, sized (rollback n t)).
Proof.
  induction n as [|n (IHc & IHr & IHl & IHcl & IHrb)].
  { refine (conj _ (conj _ (conj _ (conj _ _)))); intros; apply sized_ret. }
  refine (conj _ (conj _ (conj _ (conj _ _)))).
  - cbn [consume]. apply sized_bind; [apply sized_recv_message|]. intro m. destruct m; try apply sized_ret.
    apply sized_bindr; [exact IHr|]. intros []; apply sized_ret.
  - cbn [reset]. apply sized_bind; [apply sized_pwrap, sized_send_message|intros _; exact IHl].
  - cbn [reset_loop]. apply sized_bind; [apply sized_pwrap, sized_recv_message|]. intro m.
    destruct m; try apply sized_ret; try exact IHl; (apply sized_bindr; [exact IHcl|intros []; apply sized_ret]).
  - cbn [close]. apply sized_close_with, IHrb.
  - intro t. cbn [rollback]. apply sized_tx_end, IHc.
Qed.
Lemma sized_fetch n k : forall acc, sized (fetch n k acc).
Proof.
  induction k as [|k IH]; intro acc; [apply sized_ret|]. cbn [fetch]. apply sized_bind; [apply sized_core|]. intro m.
  destruct m; try apply sized_ret. apply IH.
Qed.
Lemma sized_query_db n q ps db t : sized (query_db n q ps db t).
Proof.
  apply sized_get. intro c. destruct (negb _ && _); [apply sized_ret|]. apply sized_lock, sized_bindr; [|intros; apply sized_unlock, sized_ret].
  apply sized_get. intro c1. destruct (c_closed c1); [apply sized_ret|].
  apply sized_bind; [apply sized_send_message|intros _]. apply sized_bind; [apply sized_send_message|intros _].
  apply sized_bind; [apply sized_core|]. intro m. destruct (is_success m); [apply sized_fetch|apply sized_ret].
Qed.
Lemma sized_begin n db : sized (begin_db n db).
Proof.
  apply sized_get. intro c. destruct (c_transaction c); [apply sized_ret|]. destruct (c_closed c); [apply sized_ret|].
  destruct (get_begin_message (c_proto c) db (c_mode c)) as [m nat].
  apply sized_bind; [apply sized_send_message|intros _]. apply sized_bind; [destruct nat; [apply sized_ret|apply sized_send_message]|intros _].
  apply sized_bind; [apply sized_core|intro a]. apply sized_bind; [destruct nat; [apply sized_ret|apply sized_core]|intro b].
  destruct (negb (is_success a)); [apply sized_ret|]. destruct (negb nat && _); [apply sized_ret|]. apply sized_get. intro. apply sized_upd; [reflexivity|apply sized_ret].
Qed.
Lemma sized_pmap {A B} (f : A -> B) p : sized p -> sized (pmap f p).
Proof. intro H. apply sized_bind; [exact H|]. intro. apply sized_ret. Qed.
Lemma call_sized n o : match o with CSetChunk _ => True | _ => sized (do_call n o) end.
Proof.
  destruct o; cbn [do_call]; try exact Logic.I; apply sized_pmap.
  - apply sized_query_db.
  - apply sized_bind; [apply sized_query_db|intro; apply sized_ret].
  - apply sized_begin.
  - apply sized_query_db.
  - apply sized_bind; [apply sized_query_db|intro; apply sized_ret].
  - apply sized_bind; [apply sized_query_db|intro; apply sized_ret].
  - apply sized_tx_end, sized_core.
  - apply sized_core.
  - apply sized_core.
  - apply sized_get. intro c. destruct (c_transaction c); [apply sized_core|apply sized_ret].
  - apply sized_get. intro c. destruct (c_closed c); [apply sized_ret|]. apply sized_probe. intro. apply sized_ret.
Qed.
Lemma call_settings {St} (Net : Z -> net St) o x x' r : tuned_does Net o x x' r -> settings x' = set_by (settings x) o.
Proof.
  intros (n & E & _). destruct x as [t [c s]], o as [o|t']; [|injection E as <- _; reflexivity]. cbn [tuned_exec fst snd] in E. pose proof (call_sized n o) as H.
  destruct (exec (Net t) (do_call n o) c s) as [[c' s'] r'] eqn:Ee. injection E as <- _. unfold settings. cbn [fst snd set_by].
  assert (G : sized (do_call n o) -> (t, c_chunk c') = (t, c_chunk c)) by (intros S; specialize (S St (Net t) c s); rewrite Ee in S; cbn in S; now rewrite S).
  destruct o; try exact (G H). cbn in Ee. injection Ee as <- _ _. reflexivity.
Qed.
Lemma open_sized n : sized (create_bolt_conn n).
Proof.
  unfold create_bolt_conn, initialize. apply sized_dial. intros [e|]; [apply sized_ret|]. apply sized_bindr.
  - unfold handshake. apply sized_write. intros [k [e|]]; [apply sized_ret|]. destruct (negb (k =? 20)); [apply sized_ret|].
    apply sized_read. intros [b [e|]]; [apply sized_ret|]. destruct (negb (zlen b =? 4)); [apply sized_ret|]. destruct (bytes_eqb b no_version_supported); apply sized_ret.
  - intros [vb| | |]; try apply sized_ret. destruct (get_protocol (Some vb)) as [[[p|] z] oe]; [|destruct oe; apply sized_ret].
    apply sized_upd; [reflexivity|]. apply sized_get. intro c. unfold send_init. apply sized_bind; [apply sized_send_message|intros _]. apply sized_bind; [apply sized_core|].
    intro m. destruct m; try apply sized_ret; apply sized_core.
Qed.
Lemma open_settings {St} (N : net St) user password s w r : opens N user password s w r -> c_chunk (fst w) = 65535.
Proof. intros (n & E & _). pose proof (open_sized n St N (fresh_conn user password) s) as H. rewrite E in H. exact H. Qed.
Theorem life_settings {St} (Net : Z -> net St) t0 user password l x : tuned_life Net t0 user password l x -> settings x = after_calls (t0, 65535) (map fst l).
Proof.
  induction 1 as [s w H|l x o x' r H IH E]; [unfold settings; cbn; now rewrite (open_settings _ _ _ _ _ _ H)|].
  rewrite (call_settings _ _ _ _ _ E), IH, map_app. unfold after_calls. now rewrite fold_left_app.
Qed.

(** ** In a driver pool *)
Section InPool.
Import DriverPool SpecDriver PrepFacts ShareFacts SpecShare.
Context {W St : Type}.
Variables (N : DriverPool.net W) (made : W -> list nat) (Net : nat -> Z -> Connection.net St) (t0 : Z) (user password : bytes) (cell : W -> nat -> tuned St).
Variables (max : Z) (w0 : W).
Hypothesis HF : fresh_net N made.
Hypothesis HO : over_tuned N made Net t0 user password cell.
Hypothesis H0 : made w0 = [].
Notation CN := (with_calls N).
Lemma calls_fresh : fresh_net CN (fun w => made (fst w)).
Proof.
  constructor.
  - intros [w l]. cbn. pose proof (fn_make _ _ HF w) as H. destruct (n_make N w). exact H.
  - intros [w l] w' c. cbn. pose proof (fn_new _ _ HF w) as H. destruct (n_make N w) as [w1 r1]. intros [= <- ->]. now apply H.
  - intros c [w l]. cbn. pose proof (fn_valid _ _ HF c w) as H. destruct (n_valid N c w). exact H.
  - intros c [w l]. cbn. pose proof (fn_close _ _ HF c w) as H. destruct (n_close N c w). exact H.
  - intros c [w l]. cbn. pose proof (fn_idle _ _ HF c w) as H. destruct (n_idle N c w). exact H.
Qed.
Definition as_set (w : W * list (nat * tcall)) : Prop := (forall c o, In (c, o) (snd w) -> In c (made (fst w)))
  /\ forall c, In c (made (fst w)) -> settings (cell (fst w) c) = after_calls (t0, 65535) (calls_on c (snd w)).
Lemma calls_on_none c l : (forall o, ~ In (c, o) l) -> calls_on c l = [].
Proof.
  induction l as [|[d o] l IH]; intros H; [reflexivity|]. unfold calls_on in *. cbn [filter fst]. destruct (Nat.eqb_spec d c) as [->|_].
  - elim (H o). now left.
  - apply IH. intros o' Ho. apply (H o'). now right.
Qed.
Lemma calls_on_snoc c l d o : calls_on c (l ++ [(d, o)]) = calls_on c l ++ (if Nat.eqb d c then [o] else []).
Proof. unfold calls_on. rewrite filter_app, map_app. cbn [filter fst]. now destruct (Nat.eqb d c). Qed.
Lemma as_set_call c o w w' l : as_set (w, l) -> only_call made Net cell c o w w' -> (forall cs, o <> CSetChunk cs) -> as_set (w', l).
Proof.
  intros [A B] (M & K & X) Ho. cbn [fst snd] in *. split; cbn [fst snd]; rewrite M; [exact A|]. intros d Hd. destruct (Nat.eq_dec d c) as [->|Hne]; [|rewrite (K d Hne); now apply B].
  rewrite <- (B c Hd). destruct X as [-> |(r & X)]; [reflexivity|]. rewrite (call_settings _ _ _ _ _ X). destruct o; try reflexivity. now elim (Ho cs).
Qed.
Lemma calls_tend : tends CN (fun w => made (fst w)) as_set (fun _ _ => True).
Proof.
  constructor.
  - intros [w l] w' r [A B]. cbn. pose proof (fn_make _ _ HF w) as Hi. pose proof (fn_new _ _ HF w) as Hn. destruct (n_make N w) as [w1 r1] eqn:E. intros [= <- <-].
    destruct (ot_make _ _ _ _ _ _ _ HO _ _ _ E) as (M1 & M2 & M3). split; [|auto]. cbn [fst snd] in *. split; cbn [fst snd]; [intros c o Ho; apply Hi, (A c o Ho)|].
    intros c Hc. destruct (in_dec Nat.eq_dec c (made w)) as [Hin|Hni].
    + rewrite (M2 c Hin). now apply B.
    + destruct (M1 c Hc) as [Hin|Hr]; [now elim Hni|]. destruct (M3 c Hr) as (s & x & Hx & ->). rewrite calls_on_none; [|intros o Ho; exact (Hni (A c o Ho))].
      unfold settings. cbn. now rewrite (open_settings _ _ _ _ _ _ Hx).
  - intros c [w l] w' b G Hc. cbn. destruct (n_valid N c w) as [w1 r1] eqn:E. intros [= <- <-]. split; [|auto].
    apply (as_set_call c CValidate w); [exact G|exact (ot_valid _ _ _ _ _ _ _ HO _ _ _ _ Hc E)|discriminate].
  - intros c [w l] w' b G Hc. cbn. destruct (n_close N c w) as [w1 r1] eqn:E. intros [= <- <-]. split; [|auto].
    apply (as_set_call c CClose w); [exact G|exact (ot_close _ _ _ _ _ _ _ HO _ _ _ _ Hc E)|discriminate].
  - intros c [w l] w' b G Hc. cbn. destruct (n_idle N c w) as [w1 r1] eqn:E. intros [= <- <-]. split; [|auto].
    apply (as_set_call c CMakeIdle w); [exact G|exact (ot_idle _ _ _ _ _ _ _ HO _ _ _ _ Hc E)|discriminate].
Qed.
Lemma use_as_set c w w' : as_set w -> In c (made (fst w)) -> tuned_use made Net cell c w w' ->
  as_set w' /\ incl (made (fst w)) (made (fst w')) /\ forall x : nat, x <> c -> True -> True.
Proof.
  intros [A B] Hc (M & K & o & r & D & L). split; [|split; [rewrite M; apply incl_refl|auto]]. destruct w as [w l], w' as [w' l']. cbn [fst snd] in *. subst l'.
  split; cbn [fst snd]; rewrite M.
  - intros d o' Ho. apply in_app_or in Ho as [Ho|[[= <- <-]|[]]]; [exact (A d o' Ho)|exact Hc].
  - intros d Hd. rewrite calls_on_snoc. unfold after_calls. rewrite fold_left_app. destruct (Nat.eqb_spec c d) as [<-|Hne].
    + cbn [fold_left]. rewrite (call_settings _ _ _ _ _ D). f_equal. now apply B.
    + cbn [fold_left]. rewrite (K d) by congruence. now apply B.
Qed.
Theorem pool_settings l d w c : shared CN (tuned_use made Net cell) max (w0, []) l d w -> In c (made (fst w)) ->
  settings (cell (fst w) c) = after_calls (t0, 65535) (calls_on c (snd w)).
Proof.
  intros H. destruct (shared_inv CN (fun w => made (fst w)) (tuned_use made Net cell) max (w0, []) as_set (fun _ _ => True) calls_fresh calls_tend) with (3 := H) as (tr & _ & F).
  - intros x wa wb Ga Hx Hu. exact (use_as_set x wa wb Ga Hx Hu).
  - split; cbn [fst snd]; [intros ? ? []|]. rewrite H0. intros ? [].
  - destruct F as [[_ B] _]. exact (B c).
Qed.
Theorem lent_settings l d w e d' w' c : shared CN (tuned_use made Net cell) max (w0, []) l d w ->
  match e with EvReclaim (Some c) => In c (held l) | _ => True end -> do_event CN e d w = (d', w', DLent c) ->
  settings (cell (fst w') c) = after_calls (t0, 65535) (calls_on c (snd w')).
Proof.
  intros H Hf E. refine (pool_settings _ d' w' c (sh_event _ _ _ _ _ _ _ _ _ _ _ H Hf E) _).
  destruct (shared_lends CN (fun w => made (fst w)) (tuned_use made Net cell) max (w0, []) as_set (fun _ _ => True) calls_fresh calls_tend) with (3 := H) (4 := Hf) (5 := E)
    as (_ & w1 & M1 & _ & _ & V1).
  - intros x wa wb Ga Hx Hu. exact (use_as_set x wa wb Ga Hx Hu).
  - split; cbn [fst snd]; [intros ? ? []|]. rewrite H0. intros ? [].
  - pose proof (fn_valid _ _ calls_fresh c w1 c M1) as X. now rewrite V1 in X.
Qed.
Lemma after_unset s l : (forall o, In o l -> (forall t, o <> TSetTimeout t) /\ forall cs, o <> TCall (CSetChunk cs)) -> after_calls s l = s.
Proof.
  revert s. induction l as [|o l IH]; intros s H; [reflexivity|]. unfold after_calls in *. cbn [fold_left]. rewrite IH by (intros; apply H; now right).
  destruct (H o (or_introl eq_refl)) as [A B]. destruct o as [o|t]; [|now elim (A t)]. destruct o; try reflexivity. now elim (B cs).
Qed.
Theorem unset_settings l d w e d' w' c : shared CN (tuned_use made Net cell) max (w0, []) l d w ->
  match e with EvReclaim (Some c) => In c (held l) | _ => True end -> do_event CN e d w = (d', w', DLent c) ->
  (forall o, In (c, o) (snd w') -> (forall t, o <> TSetTimeout t) /\ forall cs, o <> TCall (CSetChunk cs)) -> settings (cell (fst w') c) = (t0, 65535).
Proof.
  intros H Hf E Hn. rewrite (lent_settings _ _ _ _ _ _ _ H Hf E). apply after_unset. intros o Ho. apply Hn. unfold calls_on in Ho.
  apply in_map_iff in Ho as ([c1 o1] & <- & Ho). apply filter_In in Ho as [Ho Hc]. cbn [fst snd] in *. apply Nat.eqb_eq in Hc. now subst c1.
Qed.
End InPool.

(** ** In a routing pool *)
Section InRouting.
Import Pool SpecPool RouteShare.
Context {W St : Type}.
Variables (K : cluster W) (opened : W -> list nat) (named : W -> list bytes) (Net : nat -> Z -> Connection.net St) (cell : W -> nat -> tuned St) (h : nat).
Hypothesis Fr : fresh K opened named.
Hypothesis HC : cluster_tuned K opened Net cell.
Definition same_settings (a b : W) : Prop := In h (opened a) -> In h (opened b) /\ settings (cell b h) = settings (cell a h).
Lemma same_trans a b c : same_settings a b -> same_settings b c -> same_settings a c.
Proof. intros X Y Ha. destruct (X Ha) as [Hb Eb]. destruct (Y Hb) as [Hc Ec]. split; [exact Hc|congruence]. Qed.
Lemma same_call d o a b : only_call opened Net cell d o a b -> (forall cs, o <> CSetChunk cs) -> same_settings a b.
Proof.
  intros (M & X & Y) Ho Ha. split; [now rewrite M|]. destruct (Nat.eq_dec h d) as [<-|Hne]; [|now rewrite (X h Hne)].
  destruct Y as [-> |(r & Y)]; [reflexivity|]. rewrite (call_settings _ _ _ _ _ Y). destruct o; try reflexivity. now elim (Ho cs).
Qed.
Theorem routing_settings os p w p' w' l : run_pool K os p w = (p', w', l) -> In h (opened w) -> settings (cell w' h) = settings (cell w h).
Proof.
  intros E Hh. enough (S : same_settings w w') by now apply S. revert E. apply (run_R K same_settings).
  - intros a Ha. auto.
  - exact same_trans.
  - intros s a Ha. split; [now apply (f_dial _ _ _ Fr s a)|]. now rewrite (ct_dial _ _ _ _ HC s a h Ha).
  - intros x a. apply (same_call x CValidate); [exact (ct_valid _ _ _ _ HC x a)|discriminate].
  - intros x a. apply (same_call x CClose); [exact (ct_close _ _ _ _ HC x a)|discriminate].
  - intros a Ha. destruct (ct_name _ _ _ _ HC a) as [M X]. split; [now rewrite M|now rewrite X].
  - intros s a b x E. apply same_trans with b.
    + intros Ha. pose proof (f_dial _ _ _ Fr s a) as [F _]. pose proof (ct_dial _ _ _ _ HC s a h Ha) as X. rewrite E in F, X. cbn [fst] in F, X. split; [now apply F|now rewrite X].
    + destruct (ct_query _ _ _ _ HC x b) as (q & db & Q). apply (same_call x (CQuery q [] db)); [exact Q|discriminate].
Qed.
End InRouting.
