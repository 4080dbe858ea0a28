(** Requests as the server reads them: C26-C30. *)
From Coq Require Import String ZArith List Bool Lia.
From Coq Require Import ZifyBool.
From Verif Require Import Bytes BytesFacts GoVal GoErr Encoder Decoder SpecPack SpecValues SpecCodec SpecParse SpecServer
  PackFacts ValueFacts LinkFacts ParseFacts Messages Connection Link Wire ExecFacts ServeFacts CallFacts WireFacts SpecSession OpenFacts
  AnyNetFacts SessionFacts TxFacts WatchFacts ShapeFacts.
Import ListNotations.
Open Scope Z_scope.

(** ** C26 *)

Lemma version_exact b p : (exists z e, get_protocol (Some b) = (Some p, z, e)) <-> b = version_bytes (proto_number p).
Proof.
  split.
  - intros (z & e & H). unfold get_protocol in H. destruct (zlen b =? 0); [discriminate|].
    destruct (bytes_eqb b (proto_bytes P1)) eqn:E; [apply bytes_eqb_eq in E; injection H as <- _ _; now subst|].
    destruct (bytes_eqb b (proto_bytes P2)) eqn:E2; [apply bytes_eqb_eq in E2; injection H as <- _ _; now subst|].
    destruct (bytes_eqb b (proto_bytes P3)) eqn:E3; [apply bytes_eqb_eq in E3; injection H as <- _ _; now subst|].
    destruct (bytes_eqb b (proto_bytes P4)) eqn:E4; [apply bytes_eqb_eq in E4; injection H as <- _ _; now subst|discriminate].
  - intros ->. destruct p; do 2 eexists; reflexivity.
Qed.
Lemma version_number b p z e : get_protocol b = (Some p, z, e) -> z = proto_number p /\ e = None.
Proof.
  destruct b as [b|]; [|discriminate]. unfold get_protocol. destruct (zlen b =? 0); [discriminate|].
  repeat (match goal with |- context [if ?x then _ else _] => destruct x end); intro H; try discriminate; injection H as <- <- <-; auto.
Qed.
Lemma version_error b : (forall p, b <> Some (version_bytes (proto_number p))) -> exists z e, get_protocol b = (None, z, Some e).
Proof.
  intro H. destruct b as [b|]; [|do 2 eexists; reflexivity]. destruct (get_protocol (Some b)) as [[[p|] z] e] eqn:E.
  - elim (H p). f_equal. apply version_exact. eauto.
  - unfold get_protocol in E. destruct (zlen b =? 0); [injection E as <- <-; eauto|].
    repeat (match type of E with context [if ?x then _ else _] => destruct x end); try discriminate; injection E as <- <-; eauto.
Qed.
Lemma session_version p P user password l c w : session clean_call p P user password l (c, w) -> c_proto c = p.
Proof. intro H. destruct (session_linked _ _ _ _ _ _ _ H) as (s & _ & _ & Hp & _). exact Hp. Qed.

(** Opening on any network: what was written, and what a version answer makes of it. *)
Lemma open_negotiates {St} (N : net St) user password s c s' tr :
  opens (watched N) user password (s, []) (c, (s', tr)) (Ok tt) ->
  exists tr', tr = VDial None :: VWrite (([x60; x60; xb0; x17] ++ version_bytes 4 ++ version_bytes 3 ++ version_bytes 2 ++ version_bytes 1)) (20, None)
              :: VRead (version_bytes (proto_number (c_proto c)), None) :: tr'.
Proof.
  intro H. apply open_events in H as (vb & p & Hv & Hc & H).
  assert (E : vb = version_bytes (proto_number p)) by (apply version_exact; eauto). subst vb p.
  destruct H as [(md & -> & _)|(m & tr' & -> & _)]; eexists; reflexivity.
Qed.

(** ** C29 *)

Lemma sendable_arrives v cs m o rest : sendable v cs m = true ->
  exists w, encoder_encode v (encoder_on o None cs) m = (encoder_on (o ++ w) None cs, None)
  /\ parse_message (w ++ rest) = Some (Some (lower v m), rest).
Proof.
  intro H. pose proof (sendable_encodes _ _ _ H) as He. pose proof (sendable_typed _ _ _ H) as Ht.
  unfold sendable in H. apply andb_true_iff in H as [_ H].
  assert (Hm : modest v cs m).
  { unfold fits in H. apply orb_true_iff in H as [H|H].
    - left. apply andb_true_iff in H as [H1 H2]. split; [lia|]. apply Forall_forall. intros n Hn.
      rewrite forallb_forall in H2. apply H2 in Hn. lia.
    - right. lia. }
  destruct (encode_frames v cs m o Hm He) as (w & E & Hf). exists w. split; [exact E|].
  eapply parse_message_ok; [|exact Hf]. now apply encode_valid.
Qed.

(** The encoder puts the message on the link and the server reads a request that [Q] holds of. *)
Definition arrives (p : proto) (cs : Z) (m : gval) (Q : request -> Prop) : Prop :=
  forall o rest, exists w x, encoder_encode (codec p) (encoder_on o None cs) m = (encoder_on (o ++ w) None cs, None)
  /\ parse_message (w ++ rest) = Some (Some x, rest) /\ Q (read_request (proto_number p) x).

Lemma arrives_ok p cs m (Q : request -> Prop) : sendable (codec p) cs m = true ->
  Q (read_request (proto_number p) (lower (codec p) m)) -> arrives p cs m Q.
Proof. intros H HQ o rest. destruct (sendable_arrives _ _ _ o rest H) as (w & E & Hp). eauto 6. Qed.

Lemma run_arrives p cs q ps db mode ac : sendable (codec p) cs (get_run_message p q ps db mode ac) = true ->
  arrives p cs (get_run_message p q ps db mode ac)
    (fun r => exists ps' md, r = QRun q ps' md /\ conveys (codec p) ps ps'
              /\ db_of md = match p with P1 | P2 => None | _ => if ac then name_of db else None end).
Proof.
  intro H. apply arrives_ok; [exact H|]. rewrite read_run. do 2 eexists. split; [reflexivity|]. split.
  - apply conveys_lower. apply sendable_typed in H. revert H.
    destruct p, ac; cbn [get_run_message run_message autocommit_run unmanaged_run run_with_metadata go_typed forallb]; intro H;
      apply andb_true_iff in H as [_ H]; apply andb_true_iff in H as [_ H]; apply andb_true_iff in H as [H _];
      now apply andb_true_iff in H as [_ H].
  - destruct p; try reflexivity; (destruct ac; [|reflexivity]); unfold run_extra, build_tx_metadata_db;
      destruct (mode =? ReadMode), db; reflexivity.
Qed.
Lemma begin_arrives p cs db mode : sendable (codec p) cs (fst (get_begin_message p db mode)) = true ->
  arrives p cs (fst (get_begin_message p db mode))
    (fun r => match p with
              | P1 | P2 => r = QRun (str "BEGIN") [] []
              | _ => exists md, r = QBegin md /\ db_of md = name_of db
              end).
Proof.
  intro H. apply arrives_ok; [exact H|]. rewrite read_begin. destruct p; cbn [native]; try reflexivity;
    (eexists; split; [reflexivity|]); unfold build_tx_metadata_db; destruct (mode =? ReadMode), db; reflexivity.
Qed.
(** The requests without arguments. *)
Lemma fixed_arrive p cs : 1 <= cs <= 65535 ->
  arrives p cs (fst (get_commit_message p)) (eq match p with P1 | P2 => QRun (str "COMMIT") [] [] | _ => QCommit end)
  /\ arrives p cs (fst (get_rollback_message p)) (eq match p with P1 | P2 => QRun (str "ROLLBACK") [] [] | _ => QRollback end)
  /\ arrives p cs (get_pull_all_message p) (eq QPull)
  /\ arrives p cs reset_message (eq QReset)
  /\ (forall m, get_close_message p = Some m -> arrives p cs m (eq QGoodbye)).
Proof.
  intro Hcs. repeat split.
  - apply arrives_ok; [now apply sendable_commit|]. rewrite read_commit. now destruct p.
  - apply arrives_ok; [now apply sendable_rollback|]. rewrite read_rollback. now destruct p.
  - apply arrives_ok; [now apply sendable_pull|]. now rewrite read_pull.
  - apply arrives_ok; [now apply sendable_reset|]. now rewrite read_reset.
  - intros m Hm. apply arrives_ok; [eapply sendable_goodbye; eassumption|]. now rewrite (read_goodbye p m Hm).
Qed.
Lemma login_arrives p user password : zlen user <= 65535 -> zlen password <= 65535 ->
  arrives p 65535 (get_init_message p client_id (auth_basic user password))
    (fun r => exists md, r = QLogin md /\ look (str "scheme") md = Some (PStr (str "basic"))
       /\ look (str "principal") md = Some (PStr user) /\ look (str "credentials") md = Some (PStr password)
       /\ look (str "user_agent") md = Some (PStr (str "GoBolt/0.1"))).
Proof.
  intros Hu Hp. apply arrives_ok; [now apply sendable_init|]. destruct p; (eexists; split; [reflexivity|]; repeat split).
Qed.

(** PULL with any stream limit and query id (pull.go). *)
Lemma pull_payload v n id : is_int64 n = true -> is_int64 id = true -> zlen (payload v (pull_message n id)) <= 65535.
Proof.
  intros Hn Hi. apply is_int64_iff in Hn, Hi.
  assert (L : forall z, -9223372036854775808 <= z < 9223372036854775808 -> exists ws, enc_int (int64 z) = (ws, None) /\ zlen (concat ws) <= 9).
  { intros z Hz. rewrite int64_small by exact Hz. pose proof (enc_int_ok z) as E. unfold MinInt64, MaxInt64 in E. specialize (E ltac:(lia)).
    destruct (enc_int z) as [ws f] eqn:Ez. cbn in E. subst f. exists ws. split; [reflexivity|]. revert Ez. unfold enc_int.
    repeat (match goal with |- context [if ?b then _ else _] => destruct b end); intro E; try discriminate;
      injection E as <-; cbn [concat app]; rewrite ?zlen_app; cbn; lia. }
  destruct (L n Hn) as (w1 & E1 & L1). destruct (L id Hi) as (w2 & E2 & L2).
  pose (F := fun l : bytes => zlen l <= 65535). change (F (payload v (pull_message n id))).
  assert (HF : forall l, F l = (zlen l <= 65535)) by reflexivity. clearbody F.
  unfold payload, encode, pull_message. destruct (negb (id =? AbsentQueryId)); cbn [lower map fst snd int_arg].
  - cbn -[enc_int int64]. rewrite E1. cbn -[enc_int int64]. rewrite E2. cbn -[enc_int int64].
    rewrite HF, ?concat_app. cbn -[zlen Z.le]. rewrite ?app_nil_r, ?concat_app. cbn -[zlen Z.le].
    repeat (rewrite ?zlen_cons, ?zlen_app). rewrite ?app_nil_r. repeat (rewrite ?zlen_cons, ?zlen_app). lia.
  - cbn -[enc_int int64]. rewrite E1. cbn -[enc_int int64].
    rewrite HF, ?concat_app. cbn -[zlen Z.le]. rewrite ?app_nil_r. repeat (rewrite ?zlen_cons, ?zlen_app). lia.
Qed.
Lemma pull_arrives v cs n id o rest : is_int64 n = true -> is_int64 id = true -> 1 <= cs <= 65535 ->
  exists w md, encoder_encode v (encoder_on o None cs) (pull_message n id) = (encoder_on (o ++ w) None cs, None)
  /\ parse_message (w ++ rest) = Some (Some (PStruct 0x3F [PMap md]), rest)
  /\ look (str "n") md = Some (PInt n) /\ look (str "qid") md = if id =? -1 then None else Some (PInt id).
Proof.
  intros Hn Hi Hcs. pose proof (pull_payload v n id Hn Hi) as HL. apply is_int64_iff in Hn, Hi.
  assert (S : sendable v cs (pull_message n id) = true).
  { assert (T : go_typed (pull_message n id) = true).
    { unfold pull_message. destruct (negb (id =? AbsentQueryId)); cbn [go_typed forallb snd map fst]; unfold in_kind;
        repeat (apply andb_true_iff; split); try reflexivity; unfold kind_min, kind_max;
        change (2 ^ 63) with 9223372036854775808; lia. }
    apply sendable_small; auto; [|lia].
    apply encode_accepts; [exact T|]. unfold pull_message. destruct (negb (id =? AbsentQueryId)); repeat split. }
  destruct (sendable_arrives v cs _ o rest S) as (w & E & Hp).
  exists w. unfold pull_message in *. cbn [lower map fst snd int_arg] in Hp.
  eexists. split; [exact E|]. split; [exact Hp|]. rewrite int64_small by exact Hn. split; [reflexivity|].
  unfold AbsentQueryId in *. destruct (id =? -1); [reflexivity|]. cbn [negb map fst snd lower int_arg]. rewrite int64_small by exact Hi. reflexivity.
Qed.
(** DISCARD loses its arguments, and version 4 of the protocol does not know the result. *)
Lemma discard_loses n id n' id' : discard_message n id = discard_message n' id'.
Proof. reflexivity. Qed.
Lemma discard_unreadable cs p : 1 <= cs <= 65535 -> 
  arrives P4 cs (get_discard_all_message P4) (eq QBad) /\ arrives P4 cs (get_discard_message P4 p) (eq QBad).
Proof.
  intro H. assert (S : forall n i, sendable V2 cs (discard_message n i) = true) by (intros; apply sendable_small; try assumption; vm_compute; reflexivity).
  split; apply arrives_ok; try apply S; reflexivity.
Qed.

(** ** C27, C28 *)

Lemma mode_inverted timeout txmd db :
  map_get (build_tx_metadata_db timeout txmd db ReadMode) (str "mode") = None
  /\ map_get (build_tx_metadata_db timeout txmd db WriteMode) (str "mode") = Some (GStr (str "r")).
Proof.
  unfold build_tx_metadata_db, ReadMode, WriteMode. cbn [Z.eqb negb].
  destruct (match timeout with Some d => negb (d =? 0) | None => false end),
    (match txmd with Some m => negb (zlen m =? 0) | None => false end), (negb (bytes_eqb db [])); split; reflexivity.
Qed.
Lemma tx_metadata_carried timeout txmd db mode :
  map_get (build_tx_metadata_db timeout txmd db mode) (str "tx_timeout")
    = match timeout with Some d => if d =? 0 then None else Some (GInt KInt64 (Z.quot d 1000000)) | None => None end
  /\ map_get (build_tx_metadata_db timeout txmd db mode) (str "tx_metadata")
    = match txmd with Some (kv :: m) => Some (GMap (kv :: m)) | _ => None end
  /\ map_get (build_tx_metadata_db timeout txmd db mode) (str "db")
    = match db with [] => None | _ => Some (GStr db) end.
Proof.
  unfold build_tx_metadata_db.
  assert (Z0 : forall (A : Type) (x : A) l, zlen (x :: l) =? 0 = false) by (intros A x l; rewrite zlen_cons; pose proof (zlen_nonneg l); lia).
  assert (B0 : bytes_eqb db [] = match db with [] => true | _ => false end) by now destruct db.
  rewrite B0. destruct timeout as [d|]; [destruct (d =? 0)|]; (destruct txmd as [[|kv m]|]; rewrite ?Z0); destruct (mode =? ReadMode), db;
    repeat split.
Qed.
Lemma token_carried user password realm :
  map_get (auth_basic_realm user password realm) (str "scheme") = Some (GStr (str "basic"))
  /\ map_get (auth_basic_realm user password realm) (str "principal") = Some (GStr user)
  /\ map_get (auth_basic_realm user password realm) (str "credentials") = Some (GStr password).
Proof. unfold auth_basic_realm. destruct (bytes_eqb realm []); repeat split. Qed.
Lemma realm_dropped user password realm : realm <> [] -> map_get (auth_basic_realm user password realm) (str "realm") = None.
Proof. intro H. unfold auth_basic_realm. destruct realm; [now elim H|reflexivity]. Qed.

(** ** C30 *)

Lemma database_refused {St} (N : net St) c s o : database_of o <> [] -> multi_database (c_proto c) = false -> refuses N o (c, s).
Proof.
  intros Hd Hm. assert (Hb : bytes_eqb (database_of o) [] = false) by (destruct (database_of o); [now elim Hd|reflexivity]).
  assert (E : forall n q ps t, exec N (query_db n q ps (database_of o) t) c s = (c, s, Err (EFmt None (TMsg 7)))).
  { intros n q ps t. unfold query_db. rewrite exec_get, Hm, Hb. reflexivity. }
  apply (refuses_intro N o (c, s) (EFmt None (TMsg 7))). exists 0%nat. intros n _. cbn [fst snd].
  destruct o; cbn [database_of] in *; try (now elim Hd); cbn [do_call]; unfold pmap, exec_db; now rewrite !exec_bind, E.
Qed.

(** Logging in with any token: what the server finds under each key. *)
Lemma look_lower v m k : look k (map (fun kv => (fst kv, lower v (snd kv))) m) = option_map (lower v) (map_get m k).
Proof.
  induction m as [|[k' x] m IH]; [reflexivity|]. cbn [map look map_get fst snd].
  rewrite (bytes_eqb_sym k k'). destruct (bytes_eqb k' k); [reflexivity|exact IH].
Qed.
Lemma get_set_same {A} (m : list (bytes * A)) k x : map_get (map_set m k x) k = Some x.
Proof. induction m as [|[k' y] m IH]; cbn; [now rewrite bytes_eqb_refl|]. destruct (bytes_eqb k k') eqn:E; cbn; [now rewrite bytes_eqb_refl|now rewrite E]. Qed.
Lemma get_set_other {A} (m : list (bytes * A)) k k' x : bytes_eqb k' k = false -> map_get (map_set m k x) k' = map_get m k'.
Proof.
  intros N. induction m as [|[k0 y] m IH]; cbn; [now rewrite N|]. destruct (bytes_eqb k k0) eqn:E; cbn; [|now rewrite IH].
  apply bytes_eqb_eq in E. subst k0. now rewrite N.
Qed.
Lemma look_app k a b : look k (a ++ b) = match look k a with Some x => Some x | None => look k b end.
Proof. induction a as [|[k' x] a IH]; [reflexivity|]. cbn. destruct (bytes_eqb k' k); auto. Qed.
Lemma any_login_arrives p cs agent token : sendable (codec p) cs (get_init_message p agent token) = true -> map_get token (str "user_agent") = None ->
  arrives p cs (get_init_message p agent token)
    (fun r => exists md, r = QLogin md /\ forall k, look k md = if bytes_eqb k (str "user_agent") then Some (PStr agent) else option_map (lower (codec p)) (map_get token k)).
Proof.
  intros S U. apply arrives_ok; [exact S|].
  destruct p; (eexists; split; [reflexivity|]); intros k.
  1,2: rewrite look_app, look_lower; destruct (bytes_eqb k (str "user_agent")) eqn:E;
    [apply bytes_eqb_eq in E; subst k; rewrite U; reflexivity|destruct (map_get token k); cbn [option_map]; [reflexivity|]; cbn [look]; rewrite bytes_eqb_sym, E; reflexivity].
  all: rewrite look_lower; destruct (bytes_eqb k (str "user_agent")) eqn:E; [apply bytes_eqb_eq in E; subst k; now rewrite get_set_same|now rewrite get_set_other].
Qed.
Lemma kerberos_sendable p agent ticket : zlen agent <= 65535 -> zlen ticket <= 65535 -> sendable (codec p) 65535 (get_init_message p agent (auth_kerberos ticket)) = true.
Proof.
  intros Hu Hp. pose proof (zlen_nonneg agent). pose proof (zlen_nonneg ticket).
  assert (T : go_typed (get_init_message p agent (auth_kerberos ticket)) = true) by (destruct p; reflexivity).
  assert (E : snd (encode (codec p) (get_init_message p agent (auth_kerberos ticket))) = None).
  { apply (encode_accepts (codec p) _ T). split; [destruct p; reflexivity|]. split; [|destruct p; reflexivity].
    apply forallb_forall. intros n Hn. apply size_ok_small. destruct p; cbn in Hn; repeat (destruct Hn as [<-|Hn]; [lia|]); elim Hn. }
  unfold sendable. rewrite T, E. cbn [andb]. unfold fits. replace (8 <=? 65535) with true by lia. replace (65535 <=? 65535) with true by lia. cbn [andb].
  apply orb_true_iff. left. apply forallb_forall. intros n Hn. destruct p; cbn in Hn; repeat (destruct Hn as [<-|Hn]; [lia|]); elim Hn.
Qed.
Lemma basic_sendable p agent user password realm : zlen agent <= 65535 -> zlen user <= 65535 -> zlen password <= 65535 ->
  sendable (codec p) 65535 (get_init_message p agent (auth_basic_realm user password realm)) = true.
Proof.
  intros Ha Hu Hp. pose proof (zlen_nonneg agent). pose proof (zlen_nonneg user). pose proof (zlen_nonneg password).
  assert (T : go_typed (get_init_message p agent (auth_basic_realm user password realm)) = true) by (destruct realm, p; reflexivity).
  assert (E : snd (encode (codec p) (get_init_message p agent (auth_basic_realm user password realm))) = None).
  { apply (encode_accepts (codec p) _ T). split; [destruct realm, p; reflexivity|]. split; [|destruct realm, p; reflexivity].
    apply forallb_forall. intros n Hn. apply size_ok_small. destruct realm, p; cbn in Hn; repeat (destruct Hn as [<-|Hn]; [lia|]); elim Hn. }
  unfold sendable. rewrite T, E. cbn [andb]. unfold fits. replace (8 <=? 65535) with true by lia. replace (65535 <=? 65535) with true by lia. cbn [andb].
  apply orb_true_iff. left. apply forallb_forall. intros n Hn. destruct realm, p; cbn in Hn; repeat (destruct Hn as [<-|Hn]; [lia|]); elim Hn.
Qed.
(** What a token of text entries puts under a key. *)
Definition entry (s : bytes) : option pv := Some (PStr s).
Theorem kerberos_arrives p agent ticket : zlen agent <= 65535 -> zlen ticket <= 65535 ->
  arrives p 65535 (get_init_message p agent (auth_kerberos ticket))
    (fun r => exists md, r = QLogin md /\ look (str "scheme") md = entry (str "kerberos") /\ look (str "principal") md = entry [] /\ look (str "credentials") md = entry ticket
       /\ look (str "user_agent") md = entry agent /\ forall k, look k md <> None -> In k [str "scheme"; str "principal"; str "credentials"; str "user_agent"]).
Proof.
  intros Ha Ht o rest. destruct (any_login_arrives p 65535 agent (auth_kerberos ticket) (kerberos_sendable p agent ticket Ha Ht) eq_refl o rest) as (w & x & E & P & md & R & L).
  exists w, x. split; [exact E|]. split; [exact P|]. exists md. split; [exact R|]. rewrite !L. repeat split. intros k. rewrite L.
  destruct (bytes_eqb k (str "user_agent")) eqn:Eu; [apply bytes_eqb_eq in Eu; subst; intros _; do 3 right; now left|].
  unfold auth_kerberos. cbn [map_get].
  destruct (bytes_eqb k (str "scheme")) eqn:E1; [apply bytes_eqb_eq in E1; subst; intros _; now left|].
  destruct (bytes_eqb k (str "principal")) eqn:E2; [apply bytes_eqb_eq in E2; subst; intros _; right; now left|].
  destruct (bytes_eqb k (str "credentials")) eqn:E3; [apply bytes_eqb_eq in E3; subst; intros _; right; right; now left|]. now intros [].
Qed.
Theorem basic_arrives p agent user password realm : zlen agent <= 65535 -> zlen user <= 65535 -> zlen password <= 65535 ->
  arrives p 65535 (get_init_message p agent (auth_basic_realm user password realm))
    (fun r => exists md, r = QLogin md /\ look (str "scheme") md = entry (str "basic") /\ look (str "principal") md = entry user /\ look (str "credentials") md = entry password
       /\ look (str "user_agent") md = entry agent /\ look (str "realm") md = (if bytes_eqb realm [] then entry [] else None)
       /\ forall k, look k md <> None -> In k [str "scheme"; str "principal"; str "credentials"; str "user_agent"; str "realm"]).
Proof.
  intros Ha Hu Ht o rest.
  assert (U : map_get (auth_basic_realm user password realm) (str "user_agent") = None) by (destruct realm; reflexivity).
  destruct (any_login_arrives p 65535 agent (auth_basic_realm user password realm) (basic_sendable p agent user password realm Ha Hu Ht) U o rest) as (w & x & E & P & md & R & L).
  exists w, x. split; [exact E|]. split; [exact P|]. exists md. split; [exact R|]. rewrite !L.
  split; [destruct realm; reflexivity|]. split; [destruct realm; reflexivity|]. split; [destruct realm; reflexivity|]. split; [destruct realm; reflexivity|]. split; [destruct realm; reflexivity|].
  intros k. rewrite L.
  destruct (bytes_eqb k (str "user_agent")) eqn:Eu; [apply bytes_eqb_eq in Eu; subst; intros _; do 3 right; now left|].
  unfold auth_basic_realm. cbn [map_get app].
  destruct (bytes_eqb k (str "scheme")) eqn:E1; [apply bytes_eqb_eq in E1; subst; intros _; now left|].
  destruct (bytes_eqb k (str "principal")) eqn:E2; [apply bytes_eqb_eq in E2; subst; intros _; right; now left|].
  destruct (bytes_eqb k (str "credentials")) eqn:E3; [apply bytes_eqb_eq in E3; subst; intros _; right; right; now left|].
  destruct (bytes_eqb realm []); cbn [map_get]; [|now intros []].
  destruct (bytes_eqb k (str "realm")) eqn:E4; [apply bytes_eqb_eq in E4; subst; intros _; do 4 right; now left|]. now intros [].
Qed.
