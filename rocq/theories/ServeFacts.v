(** The client against the conforming server: what each exchange of messages does. *)
From Coq Require Import String ZArith List Bool Lia.
From Coq Require Import ZifyBool.
From Verif Require Import Bytes GoVal GoErr Encoder Decoder SpecPack SpecValues SpecCodec SpecServer
  Messages Connection Link ExecFacts.
Import ListNotations.
Open Scope Z_scope.

(** ** Messages *)

Lemma sendable_small v cs m : go_typed m = true -> snd (encode v m) = None ->
  (zlen (payload v m) <=? 65535) = true -> 1 <= cs <= 65535 -> sendable v cs m = true.
Proof.
  intros H1 H2 H3 H4. unfold sendable, fits. rewrite H1, H2, H3. cbn [andb].
  replace (1 <=? cs) with true by lia. replace (cs <=? 65535) with true by lia. cbn. apply orb_true_r.
Qed.
Lemma sendable_encodes v cs m : sendable v cs m = true -> snd (encode v m) = None.
Proof.
  unfold sendable. destruct (snd (encode v m)); [|reflexivity]. rewrite andb_false_r. discriminate.
Qed.

Ltac small := intros; apply sendable_small; try assumption; vm_compute; reflexivity.
Lemma sendable_reset v cs : 1 <= cs <= 65535 -> sendable v cs reset_message = true.
Proof. destruct v; small. Qed.
Lemma sendable_pull p cs : 1 <= cs <= 65535 -> sendable (codec p) cs (get_pull_all_message p) = true.
Proof. destruct p; small. Qed.
Lemma sendable_commit p cs : 1 <= cs <= 65535 -> sendable (codec p) cs (fst (get_commit_message p)) = true.
Proof. destruct p; small. Qed.
Lemma sendable_rollback p cs : 1 <= cs <= 65535 -> sendable (codec p) cs (fst (get_rollback_message p)) = true.
Proof. destruct p; small. Qed.
Lemma sendable_goodbye p cs m : get_close_message p = Some m -> 1 <= cs <= 65535 -> sendable (codec p) cs m = true.
Proof. destruct p; cbn; intro E; try discriminate; injection E as <-; small. Qed.

(** Which request the server reads. *)
Lemma read_reset z v : read_request z (lower v reset_message) = QReset.
Proof. reflexivity. Qed.
Lemma read_pull p : read_request (proto_number p) (lower (codec p) (get_pull_all_message p)) = QPull.
Proof. destruct p; vm_compute; reflexivity. Qed.
Definition lower_map (v : ver) (m : gomap) : list (bytes * pv) := map (fun kv => (fst kv, lower v (snd kv))) m.
Definition run_extra (p : proto) (db : bytes) (mode : Z) (ac : bool) : gomap :=
  match p with
  | P1 | P2 => []
  | P3 | P4 => if ac then build_tx_metadata_db (Some 0) None db mode else []
  end.
Lemma read_run p q ps db mode ac :
  read_request (proto_number p) (lower (codec p) (get_run_message p q ps db mode ac))
  = QRun q (lower_map (codec p) ps) (lower_map (codec p) (run_extra p db mode ac)).
Proof. destruct p, ac; reflexivity. Qed.
Definition native (p : proto) : bool := match p with P1 | P2 => false | _ => true end.
Lemma read_begin p db mode :
  read_request (proto_number p) (lower (codec p) (fst (get_begin_message p db mode)))
  = if native p then QBegin (lower_map (codec p) (build_tx_metadata_db None None db mode))
    else QRun (str "BEGIN") [] [].
Proof. destruct p; reflexivity. Qed.
Lemma read_commit p :
  read_request (proto_number p) (lower (codec p) (fst (get_commit_message p)))
  = if native p then QCommit else QRun (str "COMMIT") [] [].
Proof. destruct p; reflexivity. Qed.
Lemma read_rollback p :
  read_request (proto_number p) (lower (codec p) (fst (get_rollback_message p)))
  = if native p then QRollback else QRun (str "ROLLBACK") [] [].
Proof. destruct p; reflexivity. Qed.
Lemma read_goodbye p m : get_close_message p = Some m -> read_request (proto_number p) (lower (codec p) m) = QGoodbye.
Proof. destruct p; cbn; intro E; try discriminate; injection E as <-; reflexivity. Qed.
Lemma native_begin p db mode : snd (get_begin_message p db mode) = native p. Proof. destruct p; reflexivity. Qed.
Lemma native_commit p : snd (get_commit_message p) = native p. Proof. destruct p; reflexivity. Qed.
Lemma native_rollback p : snd (get_rollback_message p) = native p. Proof. destruct p; reflexivity. Qed.

(** ** Single effects *)

Section Serve.
Variable J : judge.
Variable looks : bool.
Notation I := (ideal J looks).

Lemma send_ok m c s : s_hung s = false -> sendable (codec (c_proto c)) (c_chunk c) m = true ->
  exec I (send_message m) c s
  = (c, serve J (read_request (s_version s) (lower (codec (c_proto c)) m)) s, Ok tt).
Proof.
  intros H1 H2. unfold send_message. cbn [exec ideal n_send]. rewrite H1.
  rewrite (sendable_encodes _ _ _ H2), H2. reflexivity.
Qed.
Lemma send_refused m c s : s_hung s = false -> refused (codec (c_proto c)) (c_chunk c) m = true ->
  exists e, exec I (send_message m) c s = (c, s, Err e) /\ snd (encode (codec (c_proto c)) m) = Some e.
Proof.
  intros H1 H2. unfold send_message. cbn [exec ideal n_send]. rewrite H1.
  unfold refused in *. destruct (snd (encode (codec (c_proto c)) m)) as [e|] eqn:E; [|discriminate].
  exists e. rewrite H2. auto.
Qed.

Definition audible (s : srv) : Prop := s_mode s <> Garbled.
Lemma recv_some m o c s : audible s -> s_out s = m :: o ->
  exec I recv_message c s = (c, set_out o s, Ok m).
Proof.
  intros H1 H2. unfold recv_message, audible in *. cbn [exec ideal n_recv]. unfold is_garbled. rewrite H2.
  destruct (s_mode s); try reflexivity. now elim H1.
Qed.
Lemma recv_none c s : audible s -> s_out s = [] ->
  exec I recv_message c s = (c, s, Err (EWrap (Some (silence s)) 12)).
Proof.
  intros H1 H2. unfold recv_message, audible in *. cbn [exec ideal n_recv]. unfold is_garbled. rewrite H2.
  destruct (s_mode s); try reflexivity. now elim H1.
Qed.

Definition not_failure (m : gval) : Prop := match m with GFailure _ => False | _ => True end.
Lemma consume_some n m o c s : audible s -> s_out s = m :: o -> not_failure m ->
  exec I (consume (S n)) c s = (c, set_out o s, Ok m).
Proof.
  intros H1 H2 H3. cbn [consume]. rewrite exec_bind, (recv_some _ _ _ _ H1 H2). destruct m; try reflexivity. elim H3.
Qed.
Lemma consume_none n c s : audible s -> s_out s = [] ->
  exec I (consume (S n)) c s = (c, s, Err (EWrap (Some (silence s)) 12)).
Proof.
  intros H1 H2. cbn [consume]. now rewrite exec_bind, (recv_none _ _ H1 H2).
Qed.

(** The session after RESET was acknowledged and everything before it was read. *)
Definition revived (s : srv) : srv :=
  set_out [] (in_mode Ready (with_tx None (with_stream None s))).

Lemma reset_loop_ok k : forall n c s, (k < n)%nat -> audible s ->
  s_out s = repeat GIgnored k ++ [GSuccess []] -> exec I (reset_loop n) c s = (c, set_out [] s, Ok tt).
Proof.
  induction k as [|k IH]; intros n c s Hn Ha Ho; (destruct n as [|n]; [lia|]); cbn [reset_loop]; rewrite exec_bind;
    unfold pwrap; rewrite exec_bindr; cbn [repeat app] in Ho; rewrite (recv_some _ _ _ _ Ha Ho); cbn [exec rwrap].
  - reflexivity.
  - rewrite (IH n c (set_out (repeat GIgnored k ++ [GSuccess []]) s)); [reflexivity|lia|exact Ha|reflexivity].
Qed.

Definition chunk_ok (c : conn) : Prop := 1 <= c_chunk c <= 65535.

Lemma consume_failed k n md c s : chunk_ok c -> s_hung s = false -> s_mode s = Failed ->
  s_out s = GFailure md :: repeat GIgnored k -> (k + 3 <= n)%nat ->
  exec I (consume n) c s = (c, revived s, Err (EWrap (Some (EFailure md)) 20)).
Proof.
  intros Hc Hh Hm Ho Hn. assert (Ha : audible s) by (unfold audible; rewrite Hm; discriminate).
  destruct n as [|[|[|n]]]; try lia.
  cbn [consume]. rewrite exec_bind, (recv_some _ _ _ _ Ha Ho), exec_bindr.
  change (reset (S (S n))) with (_ <~ pwrap 22 (send_message reset_message) ;; reset_loop (S n)).
  rewrite exec_bind. unfold pwrap. rewrite exec_bindr, send_ok; [|exact Hh|apply sendable_reset, Hc].
  rewrite read_reset. cbn [exec rwrap]. unfold serve. cbn [set_out s_mode]. rewrite Hm.
  rewrite (reset_loop_ok k); [reflexivity|lia|discriminate|reflexivity].
Qed.
Lemma consume_hung_up n md c s : chunk_ok c -> s_hung s = false -> s_mode s = Gone ->
  s_out s = [GFailure md] -> (3 <= n)%nat ->
  exec I (consume n) c s = (c, set_out [] s, Err (EWrap (Some (EFailure md)) 21)).
Proof.
  intros Hc Hh Hm Ho Hn. assert (Ha : audible s) by (unfold audible; rewrite Hm; discriminate).
  destruct n as [|[|[|n]]]; try lia.
  cbn [consume]. rewrite exec_bind, (recv_some _ _ _ _ Ha Ho), exec_bindr.
  change (reset (S (S n))) with (_ <~ pwrap 22 (send_message reset_message) ;; reset_loop (S n)).
  rewrite exec_bind. unfold pwrap. rewrite exec_bindr, send_ok; [|exact Hh|apply sendable_reset, Hc].
  rewrite read_reset. cbn [exec rwrap]. unfold serve. cbn [set_out s_mode]. rewrite Hm.
  cbn [reset_loop]. rewrite exec_bind. unfold pwrap. rewrite exec_bindr, recv_none; [reflexivity| |reflexivity].
  unfold audible. cbn. rewrite Hm. discriminate.
Qed.

(** ** Answers to a request pair (statement, PULL) and to a single request *)

Definition said (md : gomap) : gerr := EWrap (Some (EFailure md)) 20.
Definition said_bye (md : gomap) : gerr := EWrap (Some (EFailure md)) 21.
Definition eof_error : gerr := EWrap (Some EEOF) 12.

(** Everything that is unread has been read, a failed session has been reset. *)
Definition drained (s : srv) : srv := match s_mode s with Failed => revived s | _ => set_out [] s end.

Inductive pair_answer (s : srv) : res (list (list gval) * gomap) -> Prop :=
| pa_ok rm l md : s_mode s = Ready -> s_out s = GSuccess rm :: map GRecord l ++ [GSuccess md] -> pair_answer s (Ok (l, md))
| pa_broken rm l md : s_mode s = Failed -> s_out s = GSuccess rm :: map GRecord l ++ [GFailure md] -> pair_answer s (Err (said md))
| pa_refused md : s_mode s = Failed -> s_out s = [GFailure md; GIgnored] -> pair_answer s (Err (said md))
| pa_bye md : s_mode s = Gone -> s_out s = [GFailure md] -> pair_answer s (Err (said_bye md))
| pa_gone : s_mode s = Gone -> s_out s = [] -> pair_answer s (Err eof_error).

Inductive single_answer (s : srv) : res gomap -> Prop :=
| sa_ok md : s_mode s = Ready -> s_out s = [GSuccess md] -> single_answer s (Ok md)
| sa_refused md : s_mode s = Failed -> s_out s = [GFailure md] -> single_answer s (Err (said md))
| sa_bye md : s_mode s = Gone -> s_out s = [GFailure md] -> single_answer s (Err (said_bye md))
| sa_gone : s_mode s = Gone -> s_out s = [] -> single_answer s (Err eof_error).

Lemma set_out_twice a b s : set_out a (set_out b s) = set_out a s. Proof. reflexivity. Qed.
Lemma revived_set_out a s : revived (set_out a s) = revived s. Proof. reflexivity. Qed.

Lemma fetch_ok n c l md : forall k acc s, s_mode s = Ready -> s_out s = map GRecord l ++ [GSuccess md] ->
  (length l < k)%nat -> exec I (fetch (S n) k acc) c s = (c, set_out [] s, Ok (acc ++ l, md)).
Proof.
  induction l as [|r l IH]; intros k acc s Hm Ho Hk; (destruct k as [|k]; [cbn in Hk; lia|]);
    cbn [map app] in Ho; cbn [fetch]; rewrite exec_bind; (rewrite (consume_some _ _ _ _ _ ltac:(unfold audible; rewrite Hm; discriminate) Ho); [|exact Logic.I]).
  - cbn. now rewrite app_nil_r.
  - cbn [map app]. rewrite (IH k (acc ++ [r]) (set_out (map GRecord l ++ [GSuccess md]) s) Hm eq_refl); [|cbn in Hk; lia].
    now rewrite set_out_twice, <- app_assoc.
Qed.
Lemma fetch_broken n c l md : chunk_ok c -> (3 <= n)%nat -> forall k acc s, s_hung s = false -> s_mode s = Failed ->
  s_out s = map GRecord l ++ [GFailure md] -> (length l < k)%nat ->
  exec I (fetch n k acc) c s = (c, revived s, Err (said md)).
Proof.
  intros Hc Hn. induction l as [|r l IH]; intros k acc s Hh Hm Ho Hk; (destruct k as [|k]; [cbn in Hk; lia|]);
    cbn [map app] in Ho; cbn [fetch]; rewrite exec_bind.
  - rewrite (consume_failed 0 n md); [reflexivity|assumption..].
  - destruct n as [|n']; [lia|].
    rewrite (consume_some _ _ _ _ _ ltac:(unfold audible; rewrite Hm; discriminate) Ho); [|exact Logic.I].
    rewrite (IH k (acc ++ [r]) (set_out (map GRecord l ++ [GFailure md]) s) Hh Hm eq_refl); [|cbn in Hk; lia].
    reflexivity.
Qed.

(** Reading the answer to a pair as runQuery does. *)
Lemma read_rows c s r : chunk_ok c -> s_hung s = false -> pair_answer s r ->
  exists N, forall n, (N <= n)%nat ->
  exec I (resp <~ consume n ;; if is_success resp then fetch n n [] else fail (EFmt None (TMsg 6))) c s
  = (c, drained s, r).
Proof.
  intros Hc Hh [rm l md Hm Ho|rm l md Hm Ho|md Hm Ho|md Hm Ho|Hm Ho].
  - exists (S (length l)). intros n Hn. destruct n as [|n]; [lia|]. rewrite exec_bind.
    rewrite (consume_some _ _ _ _ _ ltac:(unfold audible; rewrite Hm; discriminate) Ho); [|exact Logic.I]. cbn [is_success].
    rewrite (fetch_ok n c l md (S n) [] (set_out (map GRecord l ++ [GSuccess md]) s) Hm eq_refl ltac:(lia)).
    unfold drained. now rewrite Hm.
  - exists (3 + length l)%nat. intros n Hn. destruct n as [|n]; [lia|]. rewrite exec_bind.
    rewrite (consume_some _ _ _ _ _ ltac:(unfold audible; rewrite Hm; discriminate) Ho); [|exact Logic.I]. cbn [is_success].
    rewrite (fetch_broken (S n) c l md Hc ltac:(lia) (S n) [] (set_out (map GRecord l ++ [GFailure md]) s) Hh Hm eq_refl ltac:(lia)).
    unfold drained. now rewrite Hm.
  - exists 4%nat. intros n Hn. rewrite exec_bind.
    rewrite (consume_failed 1 n md); try assumption. unfold drained. now rewrite Hm.
  - exists 3%nat. intros n Hn. rewrite exec_bind.
    rewrite (consume_hung_up n md); try assumption. unfold drained. now rewrite Hm.
  - exists 1%nat. intros n Hn. rewrite exec_bind. destruct n as [|n]; [lia|].
    rewrite (consume_none n); try assumption; [|unfold audible; rewrite Hm; discriminate].
    unfold drained, silence. rewrite Hh, Hm. f_equal. f_equal. destruct s; cbn in *; now subst.
Qed.

(** Reading the answers to a request that begins or ends a transaction: one answer in versions 3
    and 4, the answers to a pair without rows in versions 1 and 2. *)
Inductive ctl_answer (nat : bool) (s : srv) : option gerr -> Prop :=
| ca_native md : nat = true -> s_mode s = Ready -> s_out s = [GSuccess md] -> ctl_answer nat s None
| ca_text rm md : nat = false -> s_mode s = Ready -> s_out s = [GSuccess rm; GSuccess md] -> ctl_answer nat s None
| ca_refused md : s_mode s = Failed -> s_out s = GFailure md :: (if nat then [] else [GIgnored]) -> ctl_answer nat s (Some (said md))
| ca_bye md : s_mode s = Gone -> s_out s = [GFailure md] -> ctl_answer nat s (Some (said_bye md))
| ca_gone : s_mode s = Gone -> s_out s = [] -> ctl_answer nat s (Some eof_error).

Lemma read_control {A} c s r nat (e1 e2 : gerr) (K : prog A) : chunk_ok c -> s_hung s = false -> ctl_answer nat s r ->
  exists N, forall n, (N <= n)%nat ->
  exec I (runSucc <~ consume n ;;
          pullSucc <~ (if nat then Ret (Ok GNil) else consume n) ;;
          if negb (is_success runSucc) then fail e1
          else if negb nat && negb (is_success pullSucc) then fail e2 else K) c s
  = match r with None => exec I K c (drained s) | Some e => (c, drained s, Err e) end.
Proof.
  intros Hc Hh [md Hn Hm Ho|rm md Hn Hm Ho|md Hm Ho|md Hm Ho|Hm Ho].
  - exists 1%nat. intros n Hle. destruct n as [|n]; [lia|]. subst nat.
    rewrite exec_bind, (consume_some n _ _ _ _ ltac:(unfold audible; rewrite Hm; discriminate) Ho); [|exact Logic.I].
    rewrite exec_bind. unfold drained. rewrite Hm. reflexivity.
  - exists 1%nat. intros n Hle. destruct n as [|n]; [lia|]. subst nat.
    rewrite exec_bind, (consume_some n _ _ _ _ ltac:(unfold audible; rewrite Hm; discriminate) Ho); [|exact Logic.I].
    rewrite exec_bind.
    rewrite (consume_some n (GSuccess md) [] c (set_out [GSuccess md] s)); [|unfold audible; cbn; rewrite Hm; discriminate|reflexivity|exact Logic.I].
    unfold drained. rewrite Hm. reflexivity.
  - exists 4%nat. intros n Hle.
    rewrite exec_bind, (consume_failed (if nat then 0 else 1) n md); try assumption.
    + unfold drained. now rewrite Hm.
    + rewrite Ho. now destruct nat.
    + destruct nat; lia.
  - exists 3%nat. intros n Hle.
    rewrite exec_bind, (consume_hung_up n md); try assumption. unfold drained. now rewrite Hm.
  - exists 1%nat. intros n Hle. destruct n as [|n]; [lia|]. rewrite exec_bind.
    rewrite (consume_none n); try assumption; [|unfold audible; rewrite Hm; discriminate].
    unfold drained, silence. rewrite Hh, Hm. f_equal. f_equal. destruct s; cbn in *; now subst.
Qed.

(** ** What the server answers *)

(** Between calls: nothing unread, nothing to pull, and the session is alive or over. *)
Definition settled (s : srv) : Prop :=
  s_out s = [] /\ s_stream s = None /\ s_hung s = false
  /\ (s_mode s = Ready \/ s_mode s = Gone /\ s_tx s = None).

Definition rows_of (o : outcome) : res (list (list gval) * gomap) :=
  match o with
  | Refused md | Broken _ _ md => Err (said md)
  | Produced _ l md => Ok (l, md)
  end.

Lemma serve_gone q s : s_mode s = Gone -> serve J q s = s.
Proof. intro H. unfold serve. now rewrite H. Qed.

(** An ordinary statement. *)
Definition after_stmt (st : stmt) (s : srv) : srv :=
  let o := j_outcome J (s_next s) in
  mkSrv (s_version s) Ready (S (s_next s))
        (match o, s_tx s with
         | Produced _ _ _, Some (db, l) => Some (db, l ++ [st])
         | Produced _ _ _, None => None
         | _, _ => None
         end) None
        (match o, s_tx s with Produced _ _ _, None => s_perm s ++ [st] | _, _ => s_perm s end)
        (s_done s ++ [(st, o)]) [] (s_raw s) (s_hung s).

Definition is_control (s : srv) (q : bytes) : option control := if s_version s <=? 2 then control_of q else None.

Lemma served_stmt q ps md s : settled s -> s_mode s = Ready -> is_control s q = None ->
  let st := mkStmt q ps (run_db md s) in
  let s2 := serve J QPull (serve J (QRun q ps md) s) in
  pair_answer s2 (rows_of (j_outcome J (s_next s))) /\ drained s2 = after_stmt st s
  /\ s_hung s2 = false.
Proof.
  intros (Ho & Hst & Hh & _) Hm Hq st. unfold serve at 2. rewrite Hm, Hst.
  assert (E : match control_of q with
              | Some k => if s_version s <=? 2 then serve_control J k None true s else serve_run J st s
              | None => serve_run J st s
              end = serve_run J st s).
  { unfold is_control in Hq. destruct (s_version s <=? 2); [now rewrite Hq|]. now destruct (control_of q). }
  fold st. rewrite E. clear E Hq. destruct s as [ver md0 nx tx str pm dn out raw hung]. cbn in *. subst.
  unfold serve_run, after_stmt. cbn [s_next s_tx s_perm s_done s_version s_raw s_hung].
  destruct (j_outcome J nx) as [fm|rm l fm|rm l fm]; cbn -[take_effect].
  - split; [|split; reflexivity]. apply pa_refused; reflexivity.
  - split; [|split; reflexivity]. apply pa_broken with rm l; reflexivity.
  - destruct tx as [[db stmts]|]; cbn; (split; [|split; reflexivity]); apply pa_ok with rm; reflexivity.
Qed.

Lemma gone_pair q s : settled s -> s_mode s = Gone ->
  let s2 := serve J QPull (serve J q s) in
  s2 = s /\ pair_answer s (Err eof_error) /\ drained s = s.
Proof.
  intros (Ho & _) Hm. cbv zeta. rewrite (serve_gone q s Hm), (serve_gone QPull s Hm).
  split; [reflexivity|]. split; [now apply pa_gone|]. unfold drained. rewrite Hm. destruct s; cbn in *; now subst.
Qed.

(** Beginning and ending a transaction. *)
Definition control_fits (k : control) (s : srv) : bool :=
  match k, s_tx s with
  | KBegin, None | KCommit, Some _ | KRollback, Some _ => true
  | _, _ => false
  end.
(** The answer when the database is asked. *)
Definition control_error (k : control) (nat : bool) (s : srv) : option gerr :=
  if control_fits k s then
    match j_outcome J (s_next s) with Refused md => Some (said md) | _ => None end
  else Some (if nat && j_strict J then said_bye (j_breach J) else said (j_breach J)).
Definition after_control (k : control) (db : option bytes) (nat : bool) (s : srv) : srv :=
  if control_fits k s then
    let o := j_outcome J (s_next s) in
    match o with
    | Refused _ => mkSrv (s_version s) Ready (S (s_next s)) None None (s_perm s) (s_done s) [] (s_raw s) (s_hung s)
    | _ => mkSrv (s_version s) Ready (S (s_next s))
                 (match k with KBegin => Some (db, []) | _ => None end) None
                 (s_perm s ++ match k, s_tx s with KCommit, Some (_, l) => l | _, _ => [] end)
                 (s_done s) [] (s_raw s) (s_hung s)
    end
  else mkSrv (s_version s) (if nat && j_strict J then Gone else Ready) (s_next s) None None (s_perm s) (s_done s) [] (s_raw s) (s_hung s).

Lemma served_control k db nat s : settled s -> s_mode s = Ready ->
  let s1 := serve_control J k db (negb nat) s in
  let s2 := if nat then s1 else serve J QPull s1 in
  ctl_answer nat s2 (control_error k nat s) /\ drained s2 = after_control k db nat s /\ s_hung s2 = false.
Proof.
  intros (Ho & Hst & Hh & _) Hm. destruct s as [ver md0 nx tx str pm dn out raw hung]. cbn in Ho, Hst, Hh, Hm. subst.
  unfold serve_control, control_error, after_control, control_fits, breach. cbn [s_next s_tx s_perm s_done s_version s_raw s_hung].
  destruct k, tx as [[tdb l]|], nat, (j_strict J), (j_outcome J nx) as [fm|rm rl fm|rm rl fm];
    match goal with |- ?G => let G' := eval cbn in G in enough (E : G') by (exact (E <: G)) end;
    rewrite ?app_nil_r;
    (split; [|split; [unfold drained; cbn; unfold revived, set_out; cbn; rewrite ?app_nil_r; reflexivity|reflexivity]]);
    solve [ eapply ca_refused; reflexivity | eapply ca_native; reflexivity | eapply ca_text; reflexivity | eapply ca_bye; reflexivity].
Qed.

End Serve.
