(** What the record of network events says about a call: C40, C43. *)
From Coq Require Import String ZArith List Bool Lia.
From Verif Require Import Bytes BytesFacts GoVal GoErr Encoder Decoder SpecPack SpecValues SpecCodec SpecServer
  Messages Connection Errors Link ExecFacts Wire SpecSession.
Import ListNotations.
Open Scope Z_scope.

(** ** Watching changes nothing *)

Lemma watched_prefix {St A} (N : net St) (p : prog A) : forall c s l,
  exec (watched N) p c (s, l)
  = let '(c', x, r) := exec (watched N) p c (s, []) in (c', (fst x, l ++ snd x), r).
Proof.
  induction p as [r|k IH|f k IH|v cs m k IH|v k IH|k IH|k IH|b k IH|n k IH|k IH|k IH|k IH]; intros c s l;
    cbn [exec watched n_send n_recv n_hang n_dial n_write n_read n_probe fst snd].
  - now rewrite app_nil_r.
  - apply IH.
  - apply IH.
  - destruct (n_send N v cs m s) as [s' r]. rewrite (IH r c s' (l ++ _)), (IH r c s' ([] ++ _)).
    destruct (exec (watched N) (k r) c (s', [])) as [[c' x] r']. cbn [fst snd]. now rewrite <- app_assoc.
  - destruct (n_recv N v s) as [s' r]. rewrite (IH r c s' (l ++ _)), (IH r c s' ([] ++ _)).
    destruct (exec (watched N) (k r) c (s', [])) as [[c' x] r']. cbn [fst snd]. now rewrite <- app_assoc.
  - destruct (n_hang N s) as [s' r]. rewrite (IH r c s' (l ++ _)), (IH r c s' ([] ++ _)).
    destruct (exec (watched N) (k r) c (s', [])) as [[c' x] r']. cbn [fst snd]. now rewrite <- app_assoc.
  - destruct (n_dial N s) as [s' r]. rewrite (IH r c s' (l ++ _)), (IH r c s' ([] ++ _)).
    destruct (exec (watched N) (k r) c (s', [])) as [[c' x] r']. cbn [fst snd]. now rewrite <- app_assoc.
  - destruct (n_write N b s) as [s' r]. rewrite (IH r c s' (l ++ _)), (IH r c s' ([] ++ _)).
    destruct (exec (watched N) (k r) c (s', [])) as [[c' x] r']. cbn [fst snd]. now rewrite <- app_assoc.
  - destruct (n_read N n s) as [s' r]. rewrite (IH r c s' (l ++ _)), (IH r c s' ([] ++ _)).
    destruct (exec (watched N) (k r) c (s', [])) as [[c' x] r']. cbn [fst snd]. now rewrite <- app_assoc.
  - destruct (n_probe N s) as [s' r]. rewrite (IH r c s' (l ++ _)), (IH r c s' ([] ++ _)).
    destruct (exec (watched N) (k r) c (s', [])) as [[c' x] r']. cbn [fst snd]. now rewrite <- app_assoc.
  - apply IH.
  - apply IH.
Qed.

Lemma watched_same {St A} (N : net St) (p : prog A) : forall c s l,
  exec N p c s = let '(c', x, r) := exec (watched N) p c (s, l) in (c', fst x, r).
Proof.
  induction p as [r|k IH|f k IH|v cs m k IH|v k IH|k IH|k IH|b k IH|n k IH|k IH|k IH|k IH]; intros c s l;
    cbn [exec watched n_send n_recv n_hang n_dial n_write n_read n_probe fst snd]; auto.
  - destruct (n_send N v cs m s) as [s' r]. apply IH.
  - destruct (n_recv N v s) as [s' r]. apply IH.
  - destruct (n_hang N s) as [s' r]. apply IH.
  - destruct (n_dial N s) as [s' r]. apply IH.
  - destruct (n_write N b s) as [s' r]. apply IH.
  - destruct (n_read N n s) as [s' r]. apply IH.
  - destruct (n_probe N s) as [s' r]. apply IH.
Qed.

(** ** C43: the first transport error is what the caller gets *)

Definition silent (tr : list event) : Prop := Forall (fun v => transport_error v = None) tr.
Definition ends_badly {A} (tr : list event) (r : res A) : Prop :=
  exists tr0 v e e', tr = tr0 ++ [v] /\ silent tr0 /\ transport_error v = Some e /\ r = Err e' /\ inner_most e' = inner_most e.
Definition faithful {A} (p : prog A) : Prop :=
  forall St (N : net St) c s c' s' tr r, exec (watched N) p c (s, []) = (c', (s', tr), r) ->
  forallb (fun v => negb (is_failure v)) tr = true -> silent tr \/ ends_badly tr r.

Lemma fa_ret {A} (r : res A) : faithful (Ret r).
Proof. intros St N c s c' s' tr r' E _. injection E as _ _ <- _. left. constructor. Qed.
Lemma fa_get {A} (k : conn -> prog A) : (forall c, faithful (k c)) -> faithful (Get k).
Proof. intros H St N c s c' s' tr r E. exact (H c St N c s c' s' tr r E). Qed.
Lemma fa_upd {A} f (k : prog A) : faithful k -> faithful (Upd f k).
Proof. intros H St N c s c' s' tr r E. exact (H St N (f c) s c' s' tr r E). Qed.
Lemma fa_bind {A B} (p : prog A) (f : A -> prog B) : faithful p -> (forall a, faithful (f a)) -> faithful (bind p f).
Proof.
  intros Hp Hf St N c s c' s' tr r E Hn. rewrite exec_bind in E.
  destruct (exec (watched N) p c (s, [])) as [[c1 [s1 tr1]] r1] eqn:E1.
  assert (Stop : forall (r0 : res B), (forall a, r1 <> Ok a) ->
     (forall e, r1 = Err e -> r0 = Err e) -> tr = tr1 -> r = r0 -> silent tr \/ ends_badly tr r).
  { intros r0 H1 H2 -> ->. destruct (Hp _ _ _ _ _ _ _ _ E1 Hn) as [H|(tr0 & v & e & e' & H & H3 & H4 & H5 & H6)]; [now left|right].
    exists tr0, v, e, e'. auto 10. }
  destruct r1 as [a|e| |].
  - rewrite watched_prefix in E. destruct (exec (watched N) (f a) c1 (s1, [])) as [[c2 [s2 tr2]] r2] eqn:E2.
    cbn [fst snd] in E. injection E as <- <- <- <-. rewrite forallb_app in Hn. apply andb_true_iff in Hn as [Hn1 Hn2].
    destruct (Hp _ _ _ _ _ _ _ _ E1 Hn1) as [H1|(tr0 & v & e & e' & _ & _ & _ & H & _)]; [|discriminate].
    destruct (Hf a _ _ _ _ _ _ _ _ E2 Hn2) as [H2|(tr0 & v & e & e' & -> & H2 & H3 & H4 & H5)].
    + left. apply Forall_app. auto.
    + right. exists (tr1 ++ tr0), v, e, e'. rewrite app_assoc. repeat split; auto. apply Forall_app. auto.
  - injection E as _ _ <- <-. apply (Stop (Err e)); auto; congruence.
  - injection E as _ _ <- <-. apply (Stop Panic); auto; congruence.
  - injection E as _ _ <- <-. apply (Stop NoFuel); auto; congruence.
Qed.
Lemma fa_send m : faithful (send_message m).
Proof.
  intros St N c s c' s' tr r E _. unfold send_message in E. cbn [exec watched n_send] in E. cbn [fst snd] in E.
  destruct (n_send N _ _ m s) as [s1 [e|]]; cbn in E; injection E as _ _ <- <-.
  - right. exists [], (VSend m (Some e)), e, e. repeat split. constructor.
  - left. repeat constructor.
Qed.
Lemma fa_recv : faithful recv_message.
Proof.
  intros St N c s c' s' tr r E _. unfold recv_message in E. cbn [exec watched n_recv] in E. cbn [fst snd] in E.
  destruct (n_recv N _ s) as [s1 [a|e| |]]; cbn in E; injection E as _ _ <- <-; try (left; repeat constructor; fail).
  right. exists [], (VRecv (Err e)), e, e. repeat split. constructor.
Qed.
Lemma fa_hang : faithful (Hang (fun e => Upd set_closed (match e with Some e => fail e | None => ok_unit end))).
Proof.
  intros St N c s c' s' tr r E _. cbn [exec watched n_hang] in E. cbn [fst snd] in E.
  destruct (n_hang N s) as [s1 [e|]]; cbn in E; injection E as _ _ <- <-.
  - right. exists [], (VHang (Some e)), e, e. repeat split. constructor.
  - left. repeat constructor.
Qed.
Lemma fa_consume n : faithful (consume n).
Proof.
  destruct n as [|n]; [apply fa_ret|]. intros St N c s c' s' tr r E Hn. cbn [consume] in E. rewrite exec_bind in E.
  destruct (exec (watched N) recv_message c (s, [])) as [[c1 [s1 tr1]] r1] eqn:E1.
  destruct r1 as [m|e| |].
  - assert (Et : tr1 = [VRecv (Ok m)]).
    { unfold recv_message in E1. cbn [exec watched n_recv] in E1. cbn [fst snd] in E1.
      destruct (n_recv N _ s) as [s2 r2]. injection E1 as _ _ <- ->. reflexivity. }
    subst tr1. destruct m; try (injection E as _ _ <- _; left; repeat constructor).
    exfalso. rewrite watched_prefix in E. destruct (exec (watched N) _ c1 (s1, [])) as [[c2 [s2 tr2]] r2].
    cbn [fst snd] in E. injection E as _ _ <- _. discriminate.
  - injection E as _ _ <- <-. exact (fa_recv _ _ _ _ _ _ _ _ E1 Hn).
  - injection E as _ _ <- <-. exact (fa_recv _ _ _ _ _ _ _ _ E1 Hn) || (destruct (fa_recv _ _ _ _ _ _ _ _ E1 Hn) as [H|(? & ? & ? & ? & _ & _ & _ & H & _)]; [now left|discriminate]).
  - injection E as _ _ <- <-. exact (fa_recv _ _ _ _ _ _ _ _ E1 Hn) || (destruct (fa_recv _ _ _ _ _ _ _ _ E1 Hn) as [H|(? & ? & ? & ? & _ & _ & _ & H & _)]; [now left|discriminate]).
Qed.
Lemma fa_tx_end cons t sel : faithful cons -> faithful (tx_end cons t sel).
Proof.
  intro H. apply fa_get. intro c. destruct (tx_closed c t); [apply fa_ret|]. destruct (sel (c_proto c)) as [m nat].
  apply fa_bind; [apply fa_send|intros _]. apply fa_bind; [destruct nat; [apply fa_ret|apply fa_send]|intros _].
  apply fa_bind; [exact H|intro a]. apply fa_bind; [destruct nat; [apply fa_ret|exact H]|intro b].
  destruct (negb (is_success a)); [apply fa_ret|]. destruct (negb nat && _); [apply fa_ret|]. apply fa_upd, fa_ret.
Qed.
Lemma fa_rollback n t : faithful (rollback n t).
Proof. destruct n as [|n]; [apply fa_ret|]. cbn [rollback]. apply fa_tx_end, fa_consume. Qed.
Lemma fa_close n : faithful (close n).
Proof.
  destruct n as [|n]; [apply fa_ret|]. cbn [close]. apply fa_get. intro c. destruct (c_closed c); [apply fa_ret|].
  apply fa_bind; [destruct (c_transaction c); [apply fa_rollback|apply fa_ret]|intros _].
  apply fa_bind; [destruct (get_close_message _); [apply fa_send|apply fa_ret]|intros _]. apply fa_hang.
Qed.
Lemma fa_fetch n k : forall acc, faithful (fetch n k acc).
Proof.
  induction k as [|k IH]; intro acc; [apply fa_ret|]. cbn [fetch]. apply fa_bind; [apply fa_consume|]. intro m.
  destruct m; try apply fa_ret. apply IH.
Qed.
Lemma fa_query n q ps db t : faithful (query_db n q ps db t).
Proof.
  apply fa_get. intro c. destruct (negb _ && _); [apply fa_ret|]. unfold run_query.
  intros St N c1 s c' s' tr r E. change (exec (watched N) (Lock ?p) c1 (s, [])) with (exec (watched N) p c1 (s, [])) in E.
  rewrite exec_bindr in E.
  match type of E with context [exec _ ?p c1 (s, [])] =>
    assert (F : faithful p); [|destruct (exec (watched N) p c1 (s, [])) as [[c2 [s2 tr2]] r2] eqn:E1] end.
  - apply fa_get. intro c2. destruct (c_closed c2); [apply fa_ret|].
    apply fa_bind; [apply fa_send|intros _]. apply fa_bind; [apply fa_send|intros _]. apply fa_bind; [apply fa_consume|].
    intro m. destruct (is_success m); [apply fa_fetch|apply fa_ret].
  - cbn in E. injection E as <- <- <- <-. intro Hn. exact (F _ _ _ _ _ _ _ _ E1 Hn).
Qed.
Lemma fa_call n o : faithful (do_call n o).
Proof.
  assert (M : forall A B (f : A -> B) p, faithful p -> faithful (pmap f p)).
  { intros A B f p H. apply fa_bind; [exact H|intro; apply fa_ret]. }
  assert (X : forall k q ps db t, faithful (exec_db k q ps db t)).
  { intros. apply fa_bind; [apply fa_query|intro; apply fa_ret]. }
  destruct o; cbn [do_call]; try apply M; try apply X; try apply fa_query; try apply fa_rollback; try apply fa_close.
  - apply fa_get. intro c. destruct (c_transaction c); [apply fa_ret|]. destruct (c_closed c); [apply fa_ret|].
    destruct (get_begin_message _ _ _) as [m nat].
    apply fa_bind; [apply fa_send|intros _]. apply fa_bind; [destruct nat; [apply fa_ret|apply fa_send]|intros _].
    apply fa_bind; [apply fa_consume|intro a]. apply fa_bind; [destruct nat; [apply fa_ret|apply fa_consume]|intro b].
    destruct (negb (is_success a)); [apply fa_ret|]. destruct (negb nat && _); [apply fa_ret|].
    apply fa_get. intro c'. apply fa_upd, fa_ret.
  - apply fa_tx_end, fa_consume.
  - apply fa_get. intro c. destruct (c_transaction c); [apply fa_rollback|apply fa_ret].
  - apply fa_get. intro c. destruct (c_closed c); [apply fa_ret|].
    intros St N c1 s c' s' tr r E _. cbn [exec watched n_probe] in E. cbn [fst snd] in E.
    destruct (n_probe N s) as [s1 e]. injection E as _ _ <- _. left. repeat constructor.
  - apply fa_upd, fa_ret.
Qed.

Lemma lost_link {St} (N : net St) o c s c' s' tr r v e :
  does (watched N) o (c, (s, [])) (c', (s', tr)) r ->
  forallb (fun v => negb (is_failure v)) tr = true -> In v tr -> transport_error v = Some e ->
  exists e', r = Err e' /\ inner_most e' = inner_most e.
Proof.
  intros (n & E & _) Hn Hin Hv. cbn [fst snd] in E.
  destruct (fa_call n o St N c s c' s' tr r E Hn) as [H|(tr0 & v' & e0 & e' & -> & H1 & H2 & H3 & H4)].
  - unfold silent in H. rewrite Forall_forall in H. rewrite (H v Hin) in Hv. discriminate.
  - exists e'. split; [exact H3|]. apply in_app_or in Hin as [Hin|[->|[]]]; [|congruence].
    unfold silent in H1. rewrite Forall_forall in H1. rewrite (H1 v Hin) in Hv. discriminate.
Qed.

(** What the transport reports: a write to a broken link and a read that gets nothing more. *)
Lemma w_write_bad w p w' e : w_write w p = (w', Some e) -> e = EBadConn.
Proof.
  unfold w_write. destruct (w_left w) as [k|]; [|discriminate]. destruct (Nat.leb (length p) k); [discriminate|].
  intro E. now injection E.
Qed.
Lemma enc_write_bad e p e' err : enc_write e p = (e', Some err) -> inner_most err = EBadConn.
Proof.
  unfold enc_write. destruct (_ >=? _); [|discriminate].
  destruct (w_write (e_w e) _) as [w1 [x|]] eqn:E1; [apply w_write_bad in E1; subst; intro E; now injection E as _ <-|].
  destruct (w_write w1 _) as [w2 [x|]] eqn:E2; [apply w_write_bad in E2; subst; intro E; now injection E as _ <-|discriminate].
Qed.
Lemma flush_bad e e' err : flush e = (e', Some err) -> inner_most err = EBadConn.
Proof.
  unfold flush.
  assert (F : forall w buf, (let '(w', r) := w_write w EndMessage in
      match r with Some err => (mkEncoder w' buf (e_chunk e), Some (EWrap (Some err) 5)) | None => (mkEncoder w' [] (e_chunk e), None) end)
      = (e', Some err) -> inner_most err = EBadConn).
  { intros w buf. destruct (w_write w EndMessage) as [w1 [x|]] eqn:E1; [|discriminate].
    apply w_write_bad in E1. subst. intro E. now injection E as _ <-. }
  destruct (_ >? 0); [|apply F].
  destruct (w_write (e_w e) _) as [w1 [x|]] eqn:E1; [apply w_write_bad in E1; subst; intro E; now injection E as _ <-|].
  destruct (w_write w1 _) as [w2 [x|]] eqn:E2; [apply w_write_bad in E2; subst; intro E; now injection E as _ <-|apply F].
Qed.
Lemma broken_write v e x e' err : snd (encode v x) = None -> encoder_encode v e x = (e', Some err) -> inner_most err = EBadConn.
Proof.
  unfold encoder_encode. destruct (encode v x) as [ws fin]. cbn [snd]. intros ->.
  destruct (run_writes e ws) as [e1 [y|]] eqn:E; [|apply flush_bad].
  intro H. injection H as _ <-. revert e e1 E. induction ws as [|p ws IH]; intros e e1; cbn [run_writes]; [discriminate|].
  destruct (enc_write e p) as [e2 [z|]] eqn:E2; [|apply IH]. apply enc_write_bad in E2. intro H. now injection H as _ <-.
Qed.
Lemma broken_read r e : r_end r = EBadConn -> nonempty (r_frags r) -> read_message r = Err e -> inner_most e = EBadConn.
Proof.
  unfold read_message. intros -> Hn. generalize (S (length (r_bytes r))) as f. generalize (@nil Byte.byte) as out.
  assert (RF : forall n fs got x, read_full n fs got EBadConn = inr x -> x = EBadConn).
  { intros n fs. revert n. induction fs as [|f fs IH]; intros n got x; destruct n; cbn [read_full]; try discriminate.
    - intro H. injection H as <-. now destruct got.
    - destruct (Nat.leb (length f) (S n)); [apply IH|discriminate]. }
  assert (RFN : forall n fs got x y, nonempty fs -> read_full n fs got EBadConn = inl (x, y) -> nonempty y).
  { intros n fs. revert n. induction fs as [|f fs IH]; intros n got x y Hne; destruct n; cbn [read_full].
    - intro H. now injection H as _ <-.
    - discriminate.
    - intro H. now injection H as _ <-.
    - inversion Hne as [|? ? Hf Hfs]; subst. destruct (Nat.leb (length f) (S n)) eqn:El; [now apply IH|].
      intro H. injection H as _ <-. apply Nat.leb_gt in El. constructor; [|exact Hfs].
      intro X. pose proof (skipn_length (S n) f) as HL. cbn [skipn] in HL. rewrite X in HL. cbn [length] in HL. lia. }
  assert (RD : forall n fs got x, nonempty fs -> read_data n fs got EBadConn = inr x -> inner_most x = EBadConn).
  { intros n fs. revert n. induction fs as [|f fs IH]; intros n got x Hne; destruct n; cbn [read_data]; try discriminate.
    - intro H. now injection H as <-.
    - inversion Hne as [|? ? Hf Hfs]; subst. destruct f as [|b f]; [now elim Hf|].
      destruct (Nat.leb (length (b :: f)) (S n)); [now apply IH|discriminate]. }
  assert (RDN : forall n fs got x y, nonempty fs -> read_data n fs got EBadConn = inl (x, y) -> nonempty y).
  { intros n fs. revert n. induction fs as [|f fs IH]; intros n got x y Hne; destruct n; cbn [read_data].
    - intro H. now injection H as _ <-.
    - discriminate.
    - intro H. now injection H as _ <-.
    - inversion Hne as [|? ? Hf Hfs]; subst. destruct f as [|b f]; [now elim Hf|].
      destruct (Nat.leb (length (b :: f)) (S n)) eqn:El; [now apply IH|].
      intro H. injection H as _ <-. apply Nat.leb_gt in El. constructor; [|exact Hfs].
      intro X. pose proof (skipn_length (S n) (b :: f)) as HL. cbn [skipn] in HL. rewrite X in HL. cbn [length] in *. lia. }
  intros out f. revert out Hn. generalize (r_frags r) as fs. induction f as [|f IH]; intros fs out Hn; cbn [read_loop]; [discriminate|].
  destruct (read_full 2 fs [] EBadConn) as [[hd fs1]|x] eqn:E1.
  - destruct (unbe hd =? 0); [discriminate|].
    destruct (read_data (Z.to_nat (unbe hd)) fs1 [] EBadConn) as [[data fs2]|x] eqn:E2.
    + apply IH. eapply RDN; [|exact E2]. eapply RFN; eassumption.
    + intro H. injection H as <-. apply RD in E2; [|eapply RFN; eassumption]. cbn. destruct x; exact E2.
  - intro H. injection H as <-. apply RF in E1. subst x. reflexivity.
Qed.

(** ** C40 *)

Lemma open_events {St} (N : net St) user password s c s' tr :
  opens (watched N) user password (s, []) (c, (s', tr)) (Ok tt) ->
  exists vb p, get_protocol (Some vb) = (Some p, proto_number p, None) /\ c_proto c = p
  /\ (let start := [VDial None; VWrite handshake_bytes (20, None); VRead (vb, None);
                    VSend (get_init_message p client_id (auth_basic user password)) None] in
      (exists md, tr = start ++ [VRecv (Ok (GSuccess md))] /\ c_closed c = false)
      \/ (exists m tr', tr = start ++ VRecv (Ok m) :: tr' /\ (forall md, m <> GSuccess md) /\ (forall md, m <> GFailure md)
          /\ c_closed c = true)).
Proof.
  intros (n & E & _). cbn [fst snd] in E. unfold create_bolt_conn, initialize in E.
  cbn [exec watched n_dial fst snd] in E. destruct (n_dial N s) as [s1 [e|]]; [discriminate|]. cbn [app] in E.
  rewrite exec_bindr in E. unfold handshake in E at 1. cbn [exec watched n_write fst snd] in E.
  destruct (n_write N handshake_bytes s1) as [s2 [k [e|]]]; [discriminate|].
  destruct (k =? 20) eqn:Ek; [|discriminate]. apply Z.eqb_eq in Ek. subst k. cbn [negb exec watched n_read fst snd app] in E.
  destruct (n_read N 4 s2) as [s3 [vb [e|]]]; [discriminate|].
  destruct (zlen vb =? 4); [|discriminate]. cbn [negb] in E. destruct (bytes_eqb vb no_version_supported); [discriminate|].
  cbn [exec app] in E. destruct (get_protocol (Some vb)) as [[[p|] z] oe] eqn:Ep; [|destruct oe; discriminate].
  assert (Hz : z = proto_number p /\ oe = None).
  { unfold get_protocol in Ep. repeat (match type of Ep with context [if ?b then _ else _] => destruct b end);
      try discriminate; injection Ep as <- <- <-; auto. }
  destruct Hz as [-> ->]. cbn [exec] in E. set (c0 := set_proto p (fresh_conn user password)) in *.
  change (c_user c0) with user in E. change (c_password c0) with password in E.
  assert (K1 : c_closed c0 = false) by reflexivity. assert (K2 : c_transaction c0 = None) by reflexivity.
  assert (K3 : c_proto c0 = p) by reflexivity. clearbody c0.
  exists vb, p. split; [exact Ep|]. unfold send_init in E. rewrite exec_bind in E.
  unfold send_message in E at 1. cbn [exec watched n_send fst snd] in E.
  destruct (n_send N _ _ _ s3) as [s4 [e|]]; [discriminate|]. cbn [exec app ok_unit] in E.
  rewrite exec_bind in E. destruct n as [|n]; [discriminate|]. cbn [consume] in E. rewrite exec_bind in E.
  unfold recv_message in E at 1. cbn [exec watched n_recv fst snd] in E.
  destruct (n_recv N _ s4) as [s5 [m| | |]]; try discriminate. cbn [exec app] in E.
  assert (Close : forall q, exec (watched N) (close (S n)) c0 (s5, q) = (c, (s', tr), Ok tt) ->
     c_closed c = true /\ c_proto c = p /\ exists tr', tr = q ++ tr').
  { intros q Ec. rewrite watched_prefix in Ec. 
    destruct (exec (watched N) (close (S n)) c0 (s5, [])) as [[c1 [s6 tr1]] r1] eqn:E1. cbn [fst snd] in Ec.
    injection Ec as -> -> <- ->. cbn [close] in E1. unfold close_with in E1. rewrite exec_get, K1, K2, K3 in E1.
    rewrite exec_bind in E1. cbn [ok_unit exec] in E1. rewrite exec_bind in E1.
    assert (X : exists s7 tr7, exec (watched N) (match get_close_message p with Some m0 => send_message m0 | None => ok_unit end) c0 (s5, []) = (c0, (s7, tr7), Ok tt)
        \/ exists r, exec (watched N) (match get_close_message p with Some m0 => send_message m0 | None => ok_unit end) c0 (s5, []) = (c0, (s7, tr7), r) /\ forall a, r <> Ok a).
    { destruct (get_close_message p) as [m0|].
      - unfold send_message. cbn [exec watched n_send fst snd]. destruct (n_send N _ _ m0 s5) as [s7 [e|]]; cbn; exists s7; eexists.
        + right. eexists. split; [reflexivity|]. discriminate.
        + left. reflexivity.
      - exists s5, []. left. reflexivity. }
    destruct X as (s7 & tr7 & [X|(r & X & Hr)]).
    - rewrite X in E1. cbn [exec watched n_hang fst snd] in E1.
      destruct (n_hang N s7) as [s8 [e|]]; cbn in E1; [discriminate|]. injection E1 as <- _ _. repeat split; eauto.
    - rewrite X in E1. destruct r as [[]| | |]; try discriminate. now elim (Hr tt). }
  destruct m; cbn [exec] in E;
    try (match type of E with exec _ (close _) _ (_, ?q) = _ => apply Close in E as (H1 & H2 & tr' & ->) end;
         split; [exact H2|]; right; eexists; exists tr'; rewrite <- ?app_assoc; (split; [reflexivity|]);
         (split; [discriminate|]); (split; [discriminate|exact H1])).
  - injection E as <- _ <-. split; [exact K3|]. left. eexists. split; [reflexivity|exact K1].
  - exfalso. rewrite exec_bindr in E. destruct (exec (watched N) (reset n) c0 _) as [[? ?] []]; discriminate.
Qed.
