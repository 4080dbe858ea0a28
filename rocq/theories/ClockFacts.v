(** How long calls take: C108. *)
From Coq Require Import String ZArith List Bool Lia.
From Coq Require Import ZifyBool.
From Verif Require Import Bytes BytesFacts GoVal GoErr Encoder Decoder SpecPack SpecValues SpecCodec ReadFacts DecodeFacts ValueFacts LinkFacts Messages Connection Link
  ExecFacts Wire WireFacts SpecSession WatchFacts SpecStop GiveUpFacts Timing SpecTime DeadlineFacts SendFacts Clock.
Import ListNotations.
Open Scope Z_scope.

(** ** One operation *)

(** Bytes were received and perhaps an error. *)
Definition drew (T now : Z) (ps : schedule) (t : Z) (ps' : schedule) (x : Z) : Prop :=
  exists b, sent_bytes ps = b ++ sent_bytes ps' /\ now <= t <= now + T * (zlen b + x) /\ solid ps'.
Lemma drew_then T now ps t ps' t2 ps2 x : drew T now ps t ps' 0 -> drew T t ps' t2 ps2 x -> drew T now ps t2 ps2 x.
Proof.
  intros (b & A & B & _) (b' & A' & B' & C). exists (b ++ b'). rewrite A, A', app_assoc, zlen_app. split; [reflexivity|]. split; [nia|exact C].
Qed.
Lemma drew_none T now ps : solid ps -> drew T now ps now ps 0.
Proof. intros So. exists []. split; [reflexivity|]. split; [cbn; lia|exact So]. Qed.
Lemma returns_facts T now a t : 0 < T -> returns_at T now a = Some t -> now <= t <= now + T.
Proof. intros HT. unfold returns_at. destruct (T <=? 0) eqn:?; [discriminate|]. destruct (Z.leb_spec a (now + T)); [|discriminate]. intros [= <-]. lia. Qed.
Lemma read_error_facts T now ps c e t : 0 < T -> read_error T now ps c = (e, t) -> now <= t <= now + T.
Proof.
  intros HT. unfold read_error, gives_up_at. destruct ps as [|p ps]; [|intros [= <- <-]; lia]. destruct c as [c|]; [|intros [= <- <-]; lia].
  destruct (returns_at T now c) as [t'|] eqn:E; [|intros [= <- <-]; lia]. intros [= <- <-]. exact (returns_facts _ _ _ _ HT E).
Qed.
Lemma drew_error T now ps e t c : 0 < T -> solid ps -> read_error T now ps c = (e, t) -> drew T now ps t ps 1.
Proof. intros HT So E. exists []. split; [reflexivity|]. apply read_error_facts in E; [|exact HT]. split; [cbn; lia|exact So]. Qed.
Lemma drew_piece T now a f ps t : solid ((a, f) :: ps) -> 0 < T -> returns_at T now a = Some t -> drew T now ((a, f) :: ps) t ps 0.
Proof.
  intros So HT E. inversion So as [|? ? N Sl]; subst. exists f. rewrite sent_cons. split; [reflexivity|]. split; [|exact Sl].
  apply returns_facts in E; [|exact HT]. cbn in N. destruct f; [now destruct N|]. unfold zlen. cbn [length]. nia.
Qed.
Lemma drew_part T now a f ps t n : solid ((a, f) :: ps) -> 0 < T -> returns_at T now a = Some t -> (0 < n < length f)%nat ->
  drew T now ((a, f) :: ps) t ((a, skipn n f) :: ps) 0.
Proof.
  intros So HT E Hn. inversion So as [|? ? N Sl]; subst. exists (firstn n f). rewrite !sent_cons, app_assoc, firstn_skipn. split; [reflexivity|].
  apply returns_facts in E; [|exact HT]. unfold zlen. rewrite firstn_length. split; [nia|]. constructor; [|exact Sl].
  cbn. intros X. apply (f_equal (@length byte)) in X. rewrite skipn_length in X. cbn in X. lia.
Qed.
Lemma full_draws T c : 0 < T -> forall ps n now got r t ps', solid ps -> timed_full T n now ps c got = (r, t, ps') ->
  drew T now ps t ps' (match r with inl _ => 0 | inr _ => 1 end).
Proof.
  intros HT. induction ps as [|[a f] ps IH]; intros n now got r t ps' So; cbn [timed_full].
  - destruct n as [|n]; [intros [= <- <- <-]; now apply drew_none|]. destruct (read_error T now [] c) as [e t'] eqn:E. intros [= <- <- <-]. exact (drew_error _ _ _ _ _ _ HT So E).
  - destruct n as [|n]; [intros [= <- <- <-]; now apply drew_none|].
    destruct (returns_at T now a) as [t1|] eqn:E.
    + destruct (Nat.leb_spec (length f) (S n)) as [L|L].
      * intros X. apply (drew_then _ _ _ _ _ _ _ _ (drew_piece _ _ _ _ _ _ So HT E)). inversion So; subst. exact (IH _ _ _ _ _ _ ltac:(assumption) X).
      * intros [= <- <- <-]. apply (drew_part T now a f ps t1 (S n)); auto. lia.
    + destruct (read_error T now ((a, f) :: ps) c) as [e t'] eqn:E'. intros [= <- <- <-]. exact (drew_error _ _ _ _ _ _ HT So E').
Qed.
Lemma data_draws T c : 0 < T -> forall ps n now got r t ps', solid ps -> timed_data T n now ps c got = (r, t, ps') ->
  drew T now ps t ps' (match r with inl _ => 0 | inr _ => 1 end).
Proof.
  intros HT. induction ps as [|[a f] ps IH]; intros n now got r t ps' So; cbn [timed_data].
  - destruct n as [|n]; [intros [= <- <- <-]; now apply drew_none|]. destruct (read_error T now [] c) as [e t'] eqn:E. intros [= <- <- <-]. exact (drew_error _ _ _ _ _ _ HT So E).
  - destruct n as [|n]; [intros [= <- <- <-]; now apply drew_none|].
    destruct (returns_at T now a) as [t1|] eqn:E.
    + destruct f as [|x f]; [inversion So as [|? ? N _]; now destruct N|]. destruct (Nat.leb_spec (length (x :: f)) (S n)) as [L|L].
      * intros X. apply (drew_then _ _ _ _ _ _ _ _ (drew_piece _ _ _ _ _ _ So HT E)). inversion So; subst. exact (IH _ _ _ _ _ _ ltac:(assumption) X).
      * intros [= <- <- <-]. apply (drew_part T now a (x :: f) ps t1 (S n)); auto. lia.
    + destruct (read_error T now ((a, f) :: ps) c) as [e t'] eqn:E'. intros [= <- <- <-]. exact (drew_error _ _ _ _ _ _ HT So E').
Qed.
Lemma drew_solid T now ps t ps' x : drew T now ps t ps' x -> solid ps'.
Proof. now intros (b & _ & _ & H). Qed.
Lemma loop_draws T c fuel : 0 < T -> forall ps now out r t ps', solid ps -> timed_loop fuel T now ps c out = (r, t, ps') ->
  drew T now ps t ps' (match r with Ok _ => 0 | _ => 1 end).
Proof.
  intros HT. induction fuel as [|fuel IH]; intros ps now out r t ps' So; cbn [timed_loop].
  - intros [= <- <- <-]. exists []. split; [reflexivity|]. split; [cbn; lia|exact So].
  - destruct (timed_full T 2 now ps c []) as [[[hd|e] t1] ps1] eqn:E1; apply full_draws in E1; auto; [|now intros [= <- <- <-]].
    destruct (unbe hd =? 0); [now intros [= <- <- <-]|].
    destruct (timed_data T (Z.to_nat (unbe hd)) t1 ps1 c []) as [[[d|e] t2] ps2] eqn:E2; (apply data_draws in E2; [|exact HT|exact (drew_solid _ _ _ _ _ _ E1)]).
    + intros X. apply (drew_then _ _ _ _ _ _ _ _ E1), (drew_then _ _ _ _ _ _ _ _ E2). exact (IH _ _ _ _ _ _ (drew_solid _ _ _ _ _ _ E2) X).
    + intros [= <- <- <-]. exact (drew_then _ _ _ _ _ _ _ _ E1 E2).
Qed.
Lemma read_draws T now i r t i' : 0 < T -> solid (i_pieces i) -> timed_read T now i = (r, t, i') ->
  drew T now (i_pieces i) t (i_pieces i') (match r with Ok _ => 0 | _ => 1 end).
Proof.
  intros HT So. unfold timed_read. destruct (timed_loop _ T now _ _ []) as [[r1 t1] ps] eqn:E. intros [= <- <- <-]. cbn [i_pieces]. exact (loop_draws _ _ _ HT _ _ _ _ _ _ So E).
Qed.
Lemma once_draws T n now i b e t i' : 0 < T -> (0 < n)%nat -> solid (i_pieces i) -> timed_once T n now i = (b, e, t, i') ->
  drew T now (i_pieces i) t (i_pieces i') (match e with None => 0 | Some _ => 1 end).
Proof.
  intros HT Hn So. unfold timed_once. destruct (i_pieces i) as [|[a f] ps] eqn:Ei.
  - destruct (read_error T now [] (i_close i)) as [x t'] eqn:E. intros [= <- <- <- <-]. rewrite Ei. exact (drew_error _ _ _ _ _ _ HT So E).
  - destruct (returns_at T now a) as [t1|] eqn:E.
    + intros [= <- <- <- <-]. cbn [i_pieces]. destruct (Nat.leb_spec (length f) n) as [L|L].
      * rewrite skipn_all2 by exact L. now apply drew_piece.
      * destruct (skipn n f) as [|x l] eqn:Es; [apply (f_equal (@length byte)) in Es; rewrite skipn_length in Es; cbn in Es; lia|].
        rewrite <- Es. apply drew_part; auto.
    + destruct (read_error T now ((a, f) :: ps) (i_close i)) as [x t'] eqn:E'. intros [= <- <- <- <-]. rewrite Ei. exact (drew_error _ _ _ _ _ _ HT So E').
Qed.

(** ** Programs *)

(** The bytes sent and received between [k] and [k'] (specification: [carried]), and errors among the events. *)
Definition passed (T : Z) (k k' : clock) (x : Z) : Prop :=
  solid (i_pieces (k_in k')) /\ exists q b, t_out (k_send k') = t_out (k_send k) ++ q /\ sent_bytes (i_pieces (k_in k)) = b ++ sent_bytes (i_pieces (k_in k'))
  /\ k_now k <= k_now k' <= k_now k + T * (zlen q + zlen b + x).
Lemma passed_then T k k1 k2 x y : 0 < T -> passed T k k1 x -> passed T k1 k2 y -> passed T k k2 (x + y).
Proof.
  intros HT (_ & q & b & A & B & C) (So & q' & b' & A' & B' & C'). split; [exact So|]. exists (q ++ q'), (b ++ b').
  rewrite A', A, B, B', !app_assoc, !zlen_app. split; [reflexivity|]. split; [reflexivity|]. nia.
Qed.
Lemma passed_none T k : solid (i_pieces (k_in k)) -> passed T k k 0.
Proof. intros So. split; [exact So|]. exists [], []. rewrite app_nil_r. cbn. repeat split; lia. Qed.
Definition errs (v : event) : Z := if failed v then 1 else 0.
Fixpoint faults (tr : list event) : Z := match tr with [] => 0 | v :: tr' => errs v + faults tr' end.
Lemma faults_none tr : (forall v, In v tr -> failed v = false) -> faults tr = 0.
Proof. induction tr as [|v tr IH]; intros H; [reflexivity|]. cbn. unfold errs. rewrite (H v (or_introl eq_refl)), IH; [reflexivity|]. intros u Hu. apply H. now right. Qed.
Lemma faults_app a b : faults (a ++ b) = faults a + faults b.
Proof. induction a as [|v a IH]; cbn [app faults]; [lia|]. rewrite IH. lia. Qed.

(** Every Read is for at least one byte. *)
Fixpoint thirsty {A} (p : prog A) : Prop :=
  match p with
  | Ret _ => True
  | Get k => forall c, thirsty (k c)
  | Upd _ k | Lock k | Unlock k => thirsty k
  | Send _ _ _ k => forall e, thirsty (k e)
  | Recv _ k => forall r, thirsty (k r)
  | Hang k | Dial k | Probe k => forall e, thirsty (k e)
  | RawWrite _ k => forall r, thirsty (k r)
  | RawRead n k => 0 < n /\ forall r, thirsty (k r)
  end.
Lemma exec_passes {A} T tz (p : prog A) : 0 < T -> forall c k l c' k' tr r, thirsty p -> solid (i_pieces (k_in k)) ->
  exec (watched (timed T tz)) p c (k, l) = (c', (k', tr), r) -> exists new, tr = l ++ new /\ passed T k k' (faults new).
Proof.
  intros HT. induction p as [r|g IH|f g IH|v cs m g IH|v g IH|g IH|g IH|b g IH|n g IH|g IH|g IH|g IH]; intros c k l c' k' tr r0 Th So;
    cbn [exec watched timed n_send n_recv n_hang n_dial n_write n_read n_probe fst snd thirsty] in *.
  - intros [= <- <- <- <-]. exists []. rewrite app_nil_r. split; [reflexivity|now apply passed_none].
  - now apply IH.
  - now apply IH.
  - destruct (timed_encode T v cs (k_send k) m) as [s1 r1] eqn:E. intros X.
    apply IH in X; auto. destruct X as (new & -> & P). rewrite <- app_assoc. exists ([VSend m r1] ++ new). split; [reflexivity|]. cbn [app faults].
    refine (passed_then _ _ _ _ _ _ HT _ P). split; [exact So|]. destruct (send_bound _ _ _ _ _ _ _ HT E) as (q & Q1 & Q2 & _). exists q, [].
    cbn [k_in k_send k_now app]. split; [exact Q1|]. split; [reflexivity|]. unfold k_now. cbn [k_send]. unfold errs, failed. destruct r1; cbn [zlen length]; unfold zlen in *; cbn in *; nia.
  - destruct (timed_read T (k_now k) (k_in k)) as [[r1 t1] i1] eqn:E. pose proof (read_draws _ _ _ _ _ _ HT So E) as (b & Q1 & Q2 & Q3). intros X.
    apply IH in X; auto. destruct X as (new & -> & P). rewrite <- app_assoc. eexists. split; [reflexivity|]. cbn [app faults].
    refine (passed_then _ _ _ _ _ _ HT _ P). split; [exact Q3|]. exists [], b. cbn [k_in k_send at_time t_out]. rewrite app_nil_r. split; [reflexivity|]. split; [exact Q1|].
    unfold k_now in *. cbn [k_send at_time t_now]. unfold errs, failed. change (zlen (@nil byte)) with 0. destruct r1 as [d|x| |]; [destruct (decode v tz d) as [[? ?]| | |]|..]; nia.
  - intros X. apply IH in X; auto. destruct X as (new & -> & P). rewrite <- app_assoc. eexists. split; [reflexivity|]. cbn [app faults]. exact (passed_then _ _ _ _ _ _ HT (passed_none _ _ So) P).
  - intros X. apply IH in X; auto. destruct X as (new & -> & P). rewrite <- app_assoc. eexists. split; [reflexivity|]. cbn [app faults]. exact (passed_then _ _ _ _ _ _ HT (passed_none _ _ So) P).
  - destruct (timed_write T (k_send k) b) as [s1 r1] eqn:E. intros X.
    apply IH in X; auto. destruct X as (new & -> & P). rewrite <- app_assoc. eexists. split; [reflexivity|]. cbn [app faults].
    refine (passed_then _ _ _ _ _ _ HT _ P). split; [exact So|]. destruct (write_facts _ _ _ _ _ HT E) as (q & (Q1 & Q2 & _) & _). exists q, [].
    cbn [k_in k_send app]. split; [exact Q1|]. split; [reflexivity|]. unfold k_now. cbn [k_send]. unfold errs, failed. change (zlen (@nil byte)) with 0. destruct r1; cbn [went] in Q2; nia.
  - destruct (timed_once T (Z.to_nat n) (k_now k) (k_in k)) as [[[b1 e1] t1] i1] eqn:E. destruct Th as [Hn Th].
    pose proof (once_draws T (Z.to_nat n) _ _ _ _ _ _ HT ltac:(lia) So E) as (b & Q1 & Q2 & Q3). intros X.
    apply IH in X; auto. destruct X as (new & -> & P). rewrite <- app_assoc. eexists. split; [reflexivity|]. cbn [app faults].
    refine (passed_then _ _ _ _ _ _ HT _ P). split; [exact Q3|]. exists [], b. cbn [k_in k_send at_time t_out]. rewrite app_nil_r. split; [reflexivity|]. split; [exact Q1|].
    unfold k_now in *. cbn [k_send at_time t_now]. unfold errs, failed. change (zlen (@nil byte)) with 0. destruct e1; nia.
  - intros X. apply IH in X; auto. destruct X as (new & -> & P). rewrite <- app_assoc. eexists. split; [reflexivity|]. cbn [app faults]. exact (passed_then _ _ _ _ _ _ HT (passed_none _ _ So) P).
  - now apply IH.
  - now apply IH.
Qed.
Lemma th_bindr {A B} (p : prog A) (f : res A -> prog B) : thirsty p -> (forall r, thirsty (f r)) -> thirsty (bindr p f).
Proof. intros Hp Hf. induction p; cbn [bindr thirsty] in *; auto. destruct Hp. split; auto. Qed.
Lemma th_bind {A B} (p : prog A) (f : A -> prog B) : thirsty p -> (forall r, thirsty (f r)) -> thirsty (bind p f).
Proof. intros Hp Hf. apply th_bindr; auto. intros [a| | |]; cbn; auto. Qed.
Lemma th_send m : thirsty (send_message m).
Proof. intros c e. destruct e; exact I. Qed.
Lemma th_recv : thirsty recv_message.
Proof. intros c r. exact I. Qed.
Lemma th_tx_end cons t sel : thirsty cons -> thirsty (tx_end cons t sel).
Proof.
  intros H c. destruct (tx_closed c t); [exact I|]. destruct (sel (c_proto c)) as [m nat].
  apply th_bind; [apply th_send|intros _]. apply th_bind; [destruct nat; [exact I|apply th_send]|intros _].
  apply th_bind; [exact H|intro a]. apply th_bind; [destruct nat; [exact I|exact H]|intro b].
  destruct (negb (is_success a)); [exact I|]. destruct (negb nat && _); exact I.
Qed.
Lemma th_core n : thirsty (consume n) /\ thirsty (reset n) /\ thirsty (reset_loop n) /\ thirsty (close n) /\ forall t, thirsty (rollback n t).
Proof.
  induction n as [|n (I1 & I2 & I3 & I4 & I5)]; [repeat split|]. split; [|split; [|split; [|split]]].
  - cbn [consume]. apply th_bind; [apply th_recv|]. intros m. destruct m; try exact I. apply th_bindr; [exact I2|]. intros [a| | |]; exact I.
  - cbn [reset]. apply th_bind; [apply th_bindr; [apply th_send|intros r; exact I]|]. intros _. exact I3.
  - cbn [reset_loop]. apply th_bind; [apply th_bindr; [apply th_recv|intros r; exact I]|].
    intros m. destruct m; try exact I; try exact I3; (apply th_bindr; [exact I4|intros [a| | |]; exact I]).
  - cbn [close]. intros c. destruct (c_closed c); [exact I|]. apply th_bind; [destruct (c_transaction c); [apply I5|exact I]|intros _].
    apply th_bind; [destruct (get_close_message _); [apply th_send|exact I]|intros _]. intros e. destruct e; exact I.
  - intros t. cbn [rollback]. now apply th_tx_end.
Qed.
Lemma th_consume n : thirsty (consume n). Proof. apply th_core. Qed.
Lemma th_fetch n k : forall acc, thirsty (fetch n k acc).
Proof. induction k as [|k IH]; intros acc; [exact I|]. cbn [fetch]. apply th_bind; [apply th_consume|]. intros m. destruct m; try exact I. apply IH. Qed.
Lemma th_query n q ps db t : thirsty (query_db n q ps db t).
Proof.
  intros c. destruct (negb _ && _); [exact I|]. unfold run_query. cbn [thirsty]. apply th_bindr; [|intros r; exact I]. intros c2. destruct (c_closed c2); [exact I|].
  apply th_bind; [apply th_send|intros _]. apply th_bind; [apply th_send|intros _]. apply th_bind; [apply th_consume|].
  intro m. destruct (is_success m); [apply th_fetch|exact I].
Qed.
Lemma th_call n o : thirsty (do_call n o).
Proof.
  assert (M : forall A B (f : A -> B) p, thirsty p -> thirsty (pmap f p)).
  { intros A B f p H. apply th_bind; [exact H|intro; exact I]. }
  assert (X : forall k q ps db t, thirsty (exec_db k q ps db t)).
  { intros. apply th_bind; [apply th_query|intro; exact I]. }
  destruct o; cbn [do_call]; try apply M; try apply X; try apply th_query; try apply th_core.
  - intros c. destruct (c_transaction c); [exact I|]. destruct (c_closed c); [exact I|].
    destruct (get_begin_message _ _ _) as [m nat].
    apply th_bind; [apply th_send|intros _]. apply th_bind; [destruct nat; [exact I|apply th_send]|intros _].
    apply th_bind; [apply th_consume|intro a]. apply th_bind; [destruct nat; [exact I|apply th_consume]|intro b].
    destruct (negb (is_success a)); [exact I|]. destruct (negb nat && _); [exact I|]. intros c'. exact I.
  - apply th_tx_end, th_consume.
  - intros c. destruct (c_transaction c); [apply th_core|exact I].
  - intros c. destruct (c_closed c); [exact I|]. intros e. exact I.
  - exact I.
Qed.
Lemma th_create n : thirsty (create_bolt_conn n).
Proof.
  intros e. destruct e; [exact I|]. apply th_bindr.
  - intros [w [e|]]; [exact I|]. destruct (negb (w =? 20)); [exact I|]. split; [lia|]. intros [b [e|]]; [exact I|].
    destruct (negb _); [exact I|]. destruct (bytes_eqb _ _); exact I.
  - intros [vb| | |]; try exact I. destruct (get_protocol (Some vb)) as [[[p|] x] e]; [|destruct e; exact I]. cbn [thirsty]. intros c.
    unfold send_init. apply th_bind; [apply th_send|intros _]. apply th_bind; [apply th_consume|]. intros m. destruct m; try apply th_core. exact I.
Qed.

(** A program that stops at the first error takes at most one timeout per byte, and one for the error. *)
Lemma exec_time {A} T tz (p : prog A) c k c' k' r : 0 < T -> stops p -> thirsty p -> solid (i_pieces (k_in k)) ->
  exec (timed T tz) p c k = (c', k', r) -> passed T k k' (match r with Ok _ => 0 | _ => 1 end).
Proof.
  intros HT Sp Th So E. rewrite (watched_same _ p c k []) in E. destruct (exec (watched (timed T tz)) p c (k, [])) as [[c1 [k1 tr]] r1] eqn:E1.
  cbn in E. injection E as <- <- <-. pose proof (Sp _ _ _ _ _ _ _ _ E1) as G. destruct (exec_passes T tz p HT _ _ _ _ _ _ _ Th So E1) as (new & Et & P).
  cbn in Et. subst new.
  assert (F : faults tr <= match r1 with Ok _ => 0 | _ => 1 end).
  { destruct G as [G|(b & v & -> & Hv & Hb & Hr)]; [rewrite (faults_none _ G); destruct r1; lia|].
    rewrite faults_app, (faults_none _ Hb). cbn. unfold errs. rewrite Hv. destruct r1 as [a| | |]; [now destruct (Hr a)|..]; lia. }
  destruct P as (P1 & q & b & P2 & P3 & P4). split; [exact P1|]. exists q, b. split; [exact P2|]. split; [exact P3|]. nia.
Qed.

Lemma call_time T tz o c k c' k' r : 0 < T -> solid (i_pieces (k_in k)) -> does (timed T tz) o (c, k) (c', k') r ->
  exists sent received, t_out (k_send k') = t_out (k_send k) ++ sent /\ sent_bytes (i_pieces (k_in k)) = received ++ sent_bytes (i_pieces (k_in k'))
  /\ k_now k <= k_now k' <= k_now k + T * (zlen sent + zlen received + match r with Ok _ => 0 | _ => 1 end).
Proof. intros HT So (n & E & _). destruct (exec_time _ _ _ _ _ _ _ _ HT (st_call n o) (th_call n o) So E) as (_ & P). exact P. Qed.
Lemma open_time T tz user password k c' k' r : 0 < T -> solid (i_pieces (k_in k)) -> opens (timed T tz) user password k (c', k') r ->
  exists sent received, t_out (k_send k') = t_out (k_send k) ++ sent /\ sent_bytes (i_pieces (k_in k)) = received ++ sent_bytes (i_pieces (k_in k'))
  /\ k_now k <= k_now k' <= k_now k + T * (zlen sent + zlen received + match r with Ok _ => 0 | _ => 1 end).
Proof. intros HT So (n & E & _). destruct (exec_time _ _ _ _ _ _ _ _ HT (st_create n) (th_create n) So E) as (_ & P). exact P. Qed.

(** ** A call lasts until its answer has come *)

Lemma comes_all T l : solid l -> forall now t, comes T now l (length (sent_bytes l)) t -> ends T None now l (length (sent_bytes l)) (t + T) EBadConn.
Proof.
  induction l as [|[a b] l IH]; intros So now t H.
  - inversion H; subst. now constructor.
  - inversion So as [|? ? N Sl]; subst. rewrite sent_cons, app_length in *. cbn in N. inversion H as [? ? E1 E2 E3 E4|? ? ? ? ? Ha Hk|? ? ? ? k ? Ha Hr]; subst.
    + destruct b; [now destruct N|discriminate].
    + lia.
    + assert (k = length (sent_bytes l)) as -> by lia. constructor; [exact Ha|]. now apply IH.
Qed.
Lemma ends_all T l : 0 < T -> forall now t, ends T None now l (length (sent_bytes l)) (t + T) EBadConn -> comes T now l (length (sent_bytes l)) t.
Proof.
  intros HT. induction l as [|[a b] l IH]; intros now t H.
  - inversion H; subst; try discriminate. assert (now = t) as <- by lia. constructor.
  - rewrite sent_cons, app_length in *. inversion H as [| | |? ? ? ? Ha E1 E2 E3|? ? ? ? k ? ? Ha Hr]; subst.
    + match goal with |- comes _ _ _ ?n _ => replace n with O by lia end. assert (now = t) as <- by lia. constructor.
    + assert (k = length (sent_bytes l)) as -> by lia. constructor; [exact Ha|]. now apply IH.
Qed.
Lemma read_next T now l t p w rest : 0 < T -> solid l -> comes T now l (length (sent_bytes l)) t -> frames p w -> sent_bytes l = w ++ rest ->
  exists t1 l1, timed_read T now (mkIncoming l None) = (Ok p, t1, mkIncoming l1 None) /\ solid l1 /\ sent_bytes l1 = rest
  /\ comes T t1 l1 (length (sent_bytes l1)) t.
Proof.
  intros HT So C F E. apply comes_all in C; [|exact So].
  pose proof (loop_ends T None HT (S (length (sent_bytes l))) _ _ _ _ _ [] So C) as L. rewrite firstn_all in L.
  change (flat_loop (S (length (sent_bytes l))) (sent_bytes l) EBadConn []) with (flat_read (sent_bytes l) EBadConn) in L.
  assert (R : flat_read (sent_bytes l) EBadConn = Ok (p, rest)) by (rewrite E; exact (frames_flat_read _ p w rest F)). rewrite R in L. destruct L as (n & t1 & l1 & E1 & Hn & Hr & A & B & C1 & D).
  assert (n = length w) as ->.
  { apply (f_equal (@length byte)) in Hr. rewrite firstn_length, skipn_length, E, app_length in Hr. rewrite E, app_length in Hn. lia. }
  assert (A' : sent_bytes l1 = rest) by (rewrite A, E, skipn_app, skipn_all, Nat.sub_diag; reflexivity).
  exists t1, l1. unfold timed_read. cbn [i_pieces i_close]. change (timed_bytes l) with (sent_bytes l). rewrite E1. split; [reflexivity|]. split; [exact B|]. split; [exact A'|].
  apply ends_all; [exact HT|]. replace (length (sent_bytes l1)) with (length (sent_bytes l) - length w)%nat; [exact C1|]. rewrite A', E, app_length. lia.
Qed.

(** The messages [ms] are on their way, the last byte comes at [t]. *)
Definition ahead (T : Z) (v : ver) (k : clock) (ms : list gval) (t : Z) : Prop :=
  i_close (k_in k) = None /\ solid (i_pieces (k_in k)) /\ spoken v ms (sent_bytes (i_pieces (k_in k)))
  /\ comes T (k_now k) (i_pieces (k_in k)) (length (sent_bytes (i_pieces (k_in k)))) t.
Lemma recv_ahead T tz v k m ms t : 0 < T -> ahead T v k (m :: ms) t -> exists k', n_recv (timed T tz) v k = (k', Ok m) /\ ahead T v k' ms t.
Proof.
  intros HT (A & B & C & D). inversion C as [|g l wb b (p & body & M & P & F) Hs E1 E2]; subst.
  destruct k as [s [ps cl]]. cbn [k_in i_pieces i_close k_now k_send] in *. subst cl. unfold k_now in D. cbn [k_send] in D.
  destruct (read_next _ _ _ _ _ _ _ HT B D F (eq_sym E2)) as (t1 & l1 & R1 & R2 & R3 & R4).
  eexists. cbn [timed n_recv k_in]. unfold k_now. cbn [k_send]. rewrite R1.
  rewrite <- (app_nil_r body), (decode_packs_top v tz p body _ [] P M). split; [reflexivity|]. split; [reflexivity|]. split; [exact R2|]. split; [cbn [k_in i_pieces]; rewrite R3; exact Hs|exact R4].
Qed.
Lemma ahead_nothing T v k t : ahead T v k [] t -> k_now k = t.
Proof.
  intros (_ & B & C & D). assert (E : sent_bytes (i_pieces (k_in k)) = []) by (inversion C; reflexivity).
  rewrite E in D. exact (eq_sym (comes_zero _ _ _ _ B D)).
Qed.
Lemma consume_ahead T tz n c k m ms t : 0 < T -> (forall md, m <> GFailure md) -> ahead T (codec (c_proto c)) k (m :: ms) t ->
  exists k', exec (timed T tz) (consume (S n)) c k = (c, k', Ok m) /\ ahead T (codec (c_proto c)) k' ms t.
Proof.
  intros HT Hm H. destruct (recv_ahead T tz _ _ _ _ _ HT H) as (k' & E & H'). exists k'. split; [|exact H'].
  cbn [consume]. rewrite exec_bind. unfold recv_message. cbn [exec]. rewrite E. destruct m; try reflexivity. now destruct (Hm md).
Qed.
Lemma fetch_ahead T tz n c t md : 0 < T -> forall rows k m acc, (length rows < m)%nat ->
  ahead T (codec (c_proto c)) k (map GRecord rows ++ [GSuccess md]) t ->
  exists k', exec (timed T tz) (fetch (S n) m acc) c k = (c, k', Ok (acc ++ rows, md)) /\ k_now k' = t.
Proof.
  intros HT. induction rows as [|r rows IH]; intros k m acc Hm H; (destruct m as [|m]; [cbn in Hm; lia|]); cbn [map app] in H.
  - destruct (consume_ahead T tz n c k (GSuccess md) _ t HT ltac:(discriminate) H) as (k1 & E & H1). cbn [fetch]. rewrite exec_bind, E. exists k1. rewrite app_nil_r. split; [reflexivity|]. exact (ahead_nothing _ _ _ _ H1).
  - destruct (consume_ahead T tz n c k (GRecord r) _ t HT ltac:(discriminate) H) as (k1 & E & H1). cbn [fetch]. rewrite exec_bind, E. destruct (IH k1 m (acc ++ [r]) ltac:(cbn in Hm; lia) H1) as (k2 & E2 & N2). exists k2. rewrite E2, <- app_assoc. now split.
Qed.
(** A query lasts until the last byte of its answer has come. *)
Lemma query_lasts T tz c s i q ps db s1 s2 md0 rows md t : 0 < T -> c_closed c = false -> multi_database (c_proto c) = true \/ db = [] ->
  timed_encode T (codec (c_proto c)) (c_chunk c) s (run_msg c q ps db false) = (s1, None) ->
  timed_encode T (codec (c_proto c)) (c_chunk c) s1 (get_pull_all_message (c_proto c)) = (s2, None) ->
  i_close i = None -> solid (i_pieces i) ->
  spoken (codec (c_proto c)) ([GSuccess md0] ++ map GRecord rows ++ [GSuccess md]) (sent_bytes (i_pieces i)) ->
  comes T (t_now s2) (i_pieces i) (length (sent_bytes (i_pieces i))) t ->
  exists k', does (timed T tz) (CQuery q ps db) (c, mkClock s i) (c, k') (Ok (ARows rows md)) /\ k_now k' = t.
Proof.
  intros HT Ho Hdb E1 E2 Hi So Sp Co.
  assert (A : ahead T (codec (c_proto c)) (mkClock s2 i) ([GSuccess md0] ++ map GRecord rows ++ [GSuccess md]) t) by (now repeat split).
  set (n := S (length rows)). cbn [app] in A.
  destruct (consume_ahead T tz (length rows) c _ (GSuccess md0) _ t HT ltac:(discriminate) A) as (k1 & X1 & A1).
  destruct (fetch_ahead T tz (length rows) c t md HT rows k1 n [] ltac:(unfold n; lia) A1) as (k2 & X2 & N2). exists k2. split; [|exact N2].
  exists n. split; [|discriminate]. cbn [fst snd do_call]. unfold pmap. rewrite exec_bind. unfold query_db. rewrite exec_get.
  assert (negb (multi_database (c_proto c)) && negb (bytes_eqb db []) = false) as ->.
  { destruct Hdb as [-> | ->]; [reflexivity|]. now rewrite andb_false_r. }
  unfold run_query. cbn [exec]. rewrite exec_bindr, exec_get, Ho.
  rewrite exec_bind. unfold send_message at 1. cbn [exec timed n_send k_send k_in]. fold (run_msg c q ps db false). rewrite E1. cbn [exec ok_unit].
  rewrite exec_bind. unfold send_message at 1. cbn [exec timed n_send k_send k_in]. rewrite E2. cbn [exec ok_unit].
  rewrite exec_bind. change (mkNet clock _ _ _ _ _ _ _) with (timed T tz). unfold n at 1. rewrite X1. cbn [is_success]. unfold n at 1. rewrite X2. reflexivity.
Qed.
