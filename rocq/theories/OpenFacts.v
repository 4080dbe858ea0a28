(** Opening a connection to a conforming server, and transfer of call histories from the byte level
    to the message level. *)
From Coq Require Import String ZArith List Bool Lia.
From Coq Require Import ZifyBool.
From Verif Require Import Bytes BytesFacts GoVal GoErr Encoder Decoder SpecPack SpecValues SpecCodec SpecParse ParseFacts
  PackFacts ValueFacts SpecServer Messages Connection Link ExecFacts ServeFacts CallFacts Wire WireFacts SpecSession.
Import ListNotations.
Open Scope Z_scope.

(** ** Calls at the byte level *)

Section Calls.
Variable P : peer.
Variable v : ver.
Hypothesis HP : sound v P.
Notation J := (p_judge P).
Notation A := (astep (p_judge P) (p_looks P)).
Notation W := (wired P).

(** A connection and its session between calls. *)
Record linked (c : conn) (w : wire) (s : srv) : Prop := mkLinked {
  l_inv : inv c s;
  l_mirrors : mirrors P v w s;
  l_codec : codec (c_proto c) = v
}.

Lemma inv_clear c s : inv c s -> s_mode s <> Garbled.
Proof.
  intros Hi. destruct (c_closed c) eqn:Hc.
  - destruct (i_closed _ _ Hi Hc) as (_ & _ & ->). discriminate.
  - destruct (i_open _ _ Hi Hc) as (_ & _ & (_ & _ & _ & [->|[-> _]])); discriminate.
Qed.

Lemma a_end_proto k c s t : c_proto (fst (fst (a_end J k c s t))) = c_proto c.
Proof.
  unfold a_end. destruct (tx_closed c t); [reflexivity|]. destruct (s_mode s); try reflexivity. cbv zeta.
  now destruct (control_error _ _ _ _).
Qed.
Lemma a_idle_proto c s : c_proto (fst (fst (a_idle J c s))) = c_proto c.
Proof. unfold a_idle. destruct (c_transaction c); [apply a_end_proto|reflexivity]. Qed.
Lemma astep_proto o c s : c_proto (fst (fst (A o c s))) = c_proto c.
Proof.
  destruct o; cbn [astep]; unfold on_query, put; try reflexivity.
  - unfold a_begin. destruct (c_transaction c); [reflexivity|]. destruct (c_closed c); [reflexivity|].
    destruct (snd (encode _ _)); [reflexivity|]. destruct (s_mode s); try reflexivity. cbv zeta.
    now destruct (control_error _ _ _ _).
  - pose proof (a_end_proto KCommit c s t). now destruct (a_end J KCommit c s t) as [[? ?] ?].
  - pose proof (a_end_proto KRollback c s t). now destruct (a_end J KRollback c s t) as [[? ?] ?].
  - unfold a_close. destruct (c_closed c); [reflexivity|]. pose proof (a_idle_proto c s) as H.
    destruct (a_idle J c s) as [[? ?] []]; exact H.
  - pose proof (a_idle_proto c s). now destruct (a_idle J c s) as [[? ?] ?].
Qed.

Lemma wire_call o c w s : linked c w s -> clean_call c o ->
  exists N w', (forall n, (N <= n)%nat -> exec W (do_call n o) c w = (fst (fst (A o c s)), w', snd (A o c s)))
  /\ linked (fst (fst (A o c s))) w' (snd (fst (A o c s))).
Proof.
  intros [Hi M Hv] Hcl. destruct (exec_call J (p_looks P) o c s Hi Hcl) as [N HN].
  destruct (A o c s) as [[c' s'] r] eqn:E. cbn [fst snd].
  assert (Hi' : inv c' s') by (eapply astep_inv; eassumption).
  assert (Hp : c_proto c' = c_proto c) by (pose proof (astep_proto o c s) as H; now rewrite E in H).
  destruct (simulation P v HP (do_call N o) c w s Hv (well_call N o c) M) as (w' & E' & M').
  { rewrite HN by lia. cbn. now apply (inv_clear c'). }
  rewrite HN in E', M' by lia. cbn [fst snd] in E', M'.
  exists N, w'. split; [|now constructor; [| |rewrite Hp]].
  intros n Hn. rewrite <- E'. apply less_do_call; [exact Hn|]. rewrite E'. cbn.
  pose proof (astep_returned J (p_looks P) o c s) as H. rewrite E in H. intros ->. exact H.
Qed.

Lemma wire_does o c w s c' w' r : linked c w s -> clean_call c o -> does W o (c, w) (c', w') r ->
  exists s', A o c s = (c', s', r) /\ linked c' w' s'.
Proof.
  intros L Hcl (n & E & Hr). cbn [fst snd] in E. destruct (wire_call o c w s L Hcl) as (N & w1 & HN & L').
  assert (E' : exec W (do_call (Nat.max n N) o) c w = (c', w', r)).
  { rewrite <- E. apply less_do_call; [lia|]. now rewrite E. }
  rewrite HN in E' by lia. destruct (A o c s) as [[c1 s1] r1]. cbn [fst snd] in *. injection E' as <- <- <-. eauto.
Qed.
Lemma wire_returns o c w s : linked c w s -> clean_call c o ->
  exists c' w' r, does W o (c, w) (c', w') r.
Proof.
  intros L Hcl. destruct (wire_call o c w s L Hcl) as (N & w1 & HN & L').
  exists (fst (fst (A o c s))), w1, (snd (A o c s)). exists N. cbn [fst snd]. split; [apply HN; lia|].
  pose proof (astep_returned J (p_looks P) o c s) as H. destruct (snd (A o c s)); auto; discriminate.
Qed.

(** A history at message level. *)
Inductive steps : conn * srv -> list (call * res answer) -> conn * srv -> Prop :=
| st_nil x : steps x [] x
| st_snoc x l c s o c' s' r : steps x l (c, s) -> clean_call c o -> A o c s = (c', s', r) -> steps x (l ++ [(o, r)]) (c', s').

Lemma wire_history c w s l c' w' : linked c w s -> history W clean_call (c, w) l (c', w') ->
  exists s', steps (c, s) l (c', s') /\ linked c' w' s'.
Proof.
  intros L H. remember (c, w) as x eqn:Ex. remember (c', w') as y eqn:Ey. revert c w s L c' w' Ex Ey.
  induction H as [x|x l [c1 w1] o r y H IH Hcl Hd]; intros c w s L c' w' Ex Ey; subst.
  - injection Ey as <- <-. exists s. split; [constructor|exact L].
  - destruct (IH c w s L c1 w1 eq_refl eq_refl) as (s1 & S1 & L1). cbn [fst] in Hcl.
    destruct (wire_does o c1 w1 s1 c' w' r L1 Hcl Hd) as (s' & E & L'). exists s'. split; [|exact L'].
    econstructor; eassumption.
Qed.
End Calls.

(** ** Opening *)

Lemma speaks_small J n : 1 <= n <= 4 -> speaks J (version_bytes n) = if speaks_version J n then Some n else None.
Proof.
  intro Hn. unfold speaks, speaks_version. induction (j_versions J) as [|m l IH]; [reflexivity|]. cbn [find existsb].
  destruct (n =? m) eqn:E.
  - assert (m = n) by lia. subst m. replace ((1 <=? n) && (n <=? 255)) with true by lia. cbn [andb orb].
    assert (X : bytes_eqb (version_bytes n) (version_bytes n) = true) by (apply bytes_eqb_eq; reflexivity).
    now rewrite X.
  - cbn [orb]. destruct ((1 <=? m) && (m <=? 255) && bytes_eqb (version_bytes n) (version_bytes m)) eqn:X; [|exact IH].
    exfalso. apply andb_true_iff in X as [X1 X2]. apply andb_true_iff in X1 as [X0 X1]. apply bytes_eqb_eq in X2. unfold version_bytes in X2.
    assert (X3 : zb n = zb m) by congruence.
    assert (Z.of_N (Byte.to_N (zb n)) = Z.of_N (Byte.to_N (zb m))) by now rewrite X3.
    rewrite !to_N_zb in H by lia. lia.
Qed.

Lemma choose_best J : choose J (chunks4 4 (skipn 4 handshake_bytes))
  = match negotiated J with Some p => proto_number p | None => 0 end.
Proof.
  change (chunks4 4 (skipn 4 handshake_bytes)) with [version_bytes 4; version_bytes 3; version_bytes 2; version_bytes 1].
  cbn [choose]. rewrite !speaks_small by lia. unfold negotiated.
  destruct (speaks_version J 4), (speaks_version J 3), (speaks_version J 2), (speaks_version J 1); reflexivity.
Qed.

Lemma size_ok_small n : 0 <= n <= 65535 -> size_ok format_limits n = true.
Proof. intro H. apply size_ok_format. lia. Qed.

Lemma sendable_init p user password : zlen user <= 65535 -> zlen password <= 65535 ->
  sendable (codec p) 65535 (get_init_message p client_id (auth_basic user password)) = true.
Proof.
  intros Hu Hp. pose proof (zlen_nonneg user). pose proof (zlen_nonneg password).
  assert (T : go_typed (get_init_message p client_id (auth_basic user password)) = true).
  { destruct p; reflexivity. }
  assert (E : snd (encode (codec p) (get_init_message p client_id (auth_basic user password))) = None).
  { apply (encode_accepts (codec p) _ T). split; [destruct p; reflexivity|]. split; [|destruct p; reflexivity].
    apply forallb_forall. intros n Hn. apply size_ok_small.
    destruct p; cbn in Hn; repeat (destruct Hn as [<-|Hn]; [lia|]); elim Hn. }
  unfold sendable. rewrite T, E. cbn [andb]. unfold fits.
  replace (8 <=? 65535) with true by lia. replace (65535 <=? 65535) with true by lia. cbn [andb].
  apply orb_true_iff. left. apply forallb_forall. intros n Hn.
  destruct p; cbn in Hn; repeat (destruct Hn as [<-|Hn]; [lia|]); elim Hn.
Qed.

(** The session after the handshake. *)
Definition greeted (p : proto) : srv := mkSrv (proto_number p) Fresh 0 None None [] [] [] [] false.

Section Login.
Variable J : judge.
Variable looks : bool.
Notation I := (ideal J looks).

Definition after_login (p : proto) : srv := mkSrv (proto_number p) Ready 1 None None [] [] [] [] false.
Definition after_refusal (p : proto) : srv := mkSrv (proto_number p) Gone 1 None None [] [] [] [] false.

Lemma read_init p user password :
  exists md, read_request (proto_number p) (lower (codec p) (get_init_message p client_id (auth_basic user password))) = QLogin md.
Proof. destruct p; eexists; reflexivity. Qed.

Lemma exec_login p user password : zlen user <= 65535 -> zlen password <= 65535 ->
  let c := set_proto p (fresh_conn user password) in
  exists N, forall n, (N <= n)%nat ->
  exec I (send_init n (get_init_message p client_id (auth_basic user password))) c (greeted p)
  = match j_outcome J 0 with
    | Refused md => (c, after_refusal p, Err (said_bye md))
    | _ => (c, after_login p, Ok tt)
    end.
Proof.
  intros Hu Hp c. exists 3%nat. intros n Hn. unfold send_init. rewrite exec_bind, send_ok; [|reflexivity|now apply sendable_init].
  change (s_version (greeted p)) with (proto_number p). change (c_proto c) with p.
  destruct (read_init p user password) as [md ->].
  unfold serve. cbn [greeted s_mode s_next]. rewrite exec_bind.
  assert (Hok : chunk_ok c) by (unfold chunk_ok; cbn; unfold MaxUint16; lia).
  destruct (j_outcome J 0) as [fm|rm l fm|rm l fm].
  - rewrite (consume_hung_up J looks n fm); [reflexivity|exact Hok|reflexivity..|exact Hn].
  - destruct n as [|n]; [lia|]. rewrite (consume_some J looks n (GSuccess rm) []); [reflexivity|discriminate|reflexivity|exact Logic.I].
  - destruct n as [|n]; [lia|]. rewrite (consume_some J looks n (GSuccess rm) []); [reflexivity|discriminate|reflexivity|exact Logic.I].
Qed.
End Login.

Lemma login_inv p user password : inv (set_proto p (fresh_conn user password)) (after_login p).
Proof.
  constructor; cbn.
  - reflexivity.
  - intro t. unfold tx_closed. cbn. destruct t; split; discriminate.
  - intros _. split; [reflexivity|]. split; [unfold chunk_ok; cbn; unfold MaxUint16; lia|]. repeat split. now left.
  - discriminate.
Qed.

Lemma well_send_init n m c : well (send_init n m) c.
Proof.
  unfold send_init. apply well_bind; [apply well_send|intros _ c1]. apply well_bind; [apply well_core|intros r c2].
  destruct r; try exact Logic.I; apply well_core.
Qed.

Section Open.
Variable P : peer.
Notation J := (p_judge P).
Notation W := (wired P).

(** The first two operations: the client ends up knowing the negotiated version. *)
Lemma exec_handshake c : greets_whole P -> (forall n, p_left P n = None) -> (forall n, p_late P n = None) ->
  exec W handshake c new_wire
  = match negotiated J with
    | Some p => (c, mkWire (greeted p) [] [] 0 2 false, Ok (proto_bytes p))
    | None => (c, mkWire (mkSrv 0 Gone 0 None None [] [] [] [] false) [] [] 0 2 false, Err (ENew (TMsg 14)))
    end.
Proof.
  intros Hg Hl Ht. unfold handshake. cbn [exec wired n_write]. unfold budget. cbn [new_wire w_srv new_session s_hung w_dead orb].
  rewrite Hl. unfold w_write. cbn [w_left w_out].
  assert (E : serve_handshake J handshake_bytes new_session
              = let n := match negotiated J with Some p => proto_number p | None => 0 end in
                mkSrv n (if n =? 0 then Gone else Fresh) 0 None None [] [] [] (version_bytes n) false).
  { unfold serve_handshake. rewrite choose_best. reflexivity. }
  rewrite E. clear E. cbv zeta. set (n := match negotiated J with Some p => proto_number p | None => 0 end).
  change (zlen handshake_bytes) with 20. cbn [Z.eqb Pos.eqb negb].
  cbn [exec wired n_read]. unfold speak, tick, spent, seen, unseen. cbn [w_left orb w_ops w_down s_raw s_out utter app w_said length Nat.add w_dead].
  rewrite Ht. change (p_cut P (S (w_ops new_wire)) (w_down new_wire ++ version_bytes n ++ [])) with (p_cut P 1 (version_bytes n)).
  rewrite (Hg (version_bytes n)) by reflexivity.
  unfold n. destruct (negotiated J) as [[]|]; reflexivity.
Qed.

Lemma open_none user password : negotiated J = None -> greets_whole P ->
  (forall n, p_left P n = None) -> (forall n, p_late P n = None) ->
  opens W user password new_wire (fresh_conn user password, mkWire (mkSrv 0 Gone 0 None None [] [] [] [] false) [] [] 0 2 false)
    (Err (EFmt (Some (ENew (TMsg 14))) (TMsg 15))).
Proof.
  intros Hn Hg Hl Ht. exists 0%nat. split; [|discriminate]. unfold create_bolt_conn, initialize. cbn [exec wired n_dial].
  rewrite exec_bindr, exec_handshake, Hn by assumption. reflexivity.
Qed.

Lemma open_runs p user password : negotiated J = Some p -> sound (codec p) P -> greets_whole P ->
  zlen user <= 65535 -> zlen password <= 65535 ->
  exists N w', (forall n, (N <= n)%nat ->
    exec W (create_bolt_conn n) (fresh_conn user password) new_wire
    = (set_proto p (fresh_conn user password), w',
       match j_outcome J 0 with Refused md => Err (said_bye md) | _ => Ok tt end))
  /\ mirrors P (codec p) w' (match j_outcome J 0 with Refused _ => after_refusal p | _ => after_login p end).
Proof.
  intros Hn Hs Hg Hu Hp. destruct (exec_login J (p_looks P) p user password Hu Hp) as [N HN].
  set (c := set_proto p (fresh_conn user password)) in *.
  set (m := get_init_message p client_id (auth_basic user password)) in *.
  assert (M : mirrors P (codec p) (mkWire (greeted p) [] [] 0 2 false) (greeted p)).
  { constructor; try reflexivity; [discriminate|constructor]. }
  destruct (simulation P (codec p) Hs (send_init N m) c _ _ eq_refl (well_send_init N m c) M) as (w' & E & M').
  { rewrite HN by lia. destruct (j_outcome J 0); discriminate. }
  rewrite HN in E, M' by lia.
  exists N, w'. split.
  - intros n Hle. assert (Hless : exec W (create_bolt_conn N) (fresh_conn user password) new_wire
        = (c, w', match j_outcome J 0 with Refused md => Err (said_bye md) | _ => Ok tt end)).
    { unfold create_bolt_conn, initialize. cbn [exec wired n_dial]. rewrite exec_bindr, exec_handshake;
        [|assumption|apply Hs|apply Hs]. rewrite Hn.
      replace (get_protocol (Some (proto_bytes p))) with (Some p, proto_number p, @None gerr) by now destruct p.
      cbn [exec]. fold c. change (c_user c) with user. change (c_password c) with password. fold m. rewrite E.
      destruct (j_outcome J 0); reflexivity. }
    rewrite <- Hless. apply less_create; [exact Hle|]. rewrite Hless. cbn. destruct (j_outcome J 0); discriminate.
  - destruct (j_outcome J 0); exact M'.
Qed.

Lemma open_does p user password c w r : negotiated J = Some p -> sound (codec p) P -> greets_whole P ->
  zlen user <= 65535 -> zlen password <= 65535 ->
  opens W user password new_wire (c, w) r ->
  c = set_proto p (fresh_conn user password)
  /\ match j_outcome J 0 with
     | Refused md => r = Err (said_bye md) /\ mirrors P (codec p) w (after_refusal p)
     | _ => r = Ok tt /\ linked P (codec p) c w (after_login p)
     end.
Proof.
  intros Hn Hs Hg Hu Hp (n & E & Hr). cbn [fst snd] in E.
  destruct (open_runs p user password Hn Hs Hg Hu Hp) as (N & w' & HN & M).
  assert (E' : exec W (create_bolt_conn (Nat.max n N)) (fresh_conn user password) new_wire = (c, w, r)).
  { rewrite <- E. apply less_create; [lia|]. now rewrite E. }
  rewrite HN in E' by lia.
  destruct (j_outcome J 0); injection E' as <- <- <-; (split; [reflexivity|]); (split; [reflexivity|]); try exact M;
    constructor; try exact M; try reflexivity; apply login_inv.
Qed.
End Open.
