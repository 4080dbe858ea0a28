(** What every call of the API does against the conforming server, as a function; proved equal to
    running the call's program. *)
From Coq Require Import String ZArith List Bool Lia.
From Coq Require Import ZifyBool.
From Verif Require Import Bytes GoVal GoErr Encoder Decoder SpecPack SpecValues SpecCodec SpecServer
  Messages Connection Link ExecFacts ServeFacts.
Import ListNotations.
Open Scope Z_scope.

Section Calls.
Variable J : judge.
Variable looks : bool.
Notation I := (ideal J looks).

(** ** Invariant of a connection and its session *)

Record inv (c : conn) (s : srv) : Prop := mkInv {
  i_mode : c_mode c = ReadMode;
  i_txs : forall t, tx_closed c t = false <-> c_transaction c = Some t;
  i_open : c_closed c = false -> s_version s = proto_number (c_proto c) /\ chunk_ok c /\ settled s;
  i_closed : c_closed c = true -> s_hung s = true /\ c_transaction c = None /\ s_mode s = Gone
}.

(** ** The calls *)

Definition sent_stmt (c : conn) (s : srv) (q : bytes) (ps : gomap) (db : bytes) (inTx : bool) : stmt :=
  let v := codec (c_proto c) in
  mkStmt q (lower_map v ps) (run_db (lower_map v (run_extra (c_proto c) db (c_mode c) (negb inTx))) s).

Definition a_query (c : conn) (s : srv) (q : bytes) (ps : gomap) (db : bytes) (inTx : bool)
  : srv * res (list (list gval) * gomap) :=
  if negb (multi_database (c_proto c)) && negb (bytes_eqb db []) then (s, Err (EFmt None (TMsg 7)))
  else if c_closed c then (s, Err (ENew (TMsg 5)))
  else match snd (encode (codec (c_proto c)) (run_msg c q ps db inTx)) with
  | Some e => (s, Err e)
  | None =>
      match s_mode s with
      | Ready =>
          match is_control s q with
          | None => (after_stmt J (sent_stmt c s q ps db inTx) s, rows_of (j_outcome J (s_next s)))
          | Some k => (after_control J k None false s,
                       match control_error J k false s with None => Ok ([], []) | Some e => Err e end)
          end
      | _ => (s, Err eof_error)
      end
  end.

Definition begin_db_of (c : conn) (db : bytes) : option bytes :=
  if native (c_proto c) then db_of (lower_map (codec (c_proto c)) (build_tx_metadata_db None None db (c_mode c))) else None.

Definition a_begin (c : conn) (s : srv) (db : bytes) : conn * srv * res nat :=
  match c_transaction c with
  | Some _ => (c, s, Err (ENew (TMsg 8)))
  | None =>
      if c_closed c then (c, s, Err (ENew (TMsg 9)))
      else match snd (encode (codec (c_proto c)) (fst (get_begin_message (c_proto c) db (c_mode c)))) with
      | Some e => (c, s, Err e)
      | None =>
          match s_mode s with
          | Ready =>
              let s' := after_control J KBegin (begin_db_of c db) (native (c_proto c)) s in
              match control_error J KBegin (native (c_proto c)) s with
              | None => (new_tx c, s', Ok (length (c_txs c)))
              | Some e => (c, s', Err e)
              end
          | _ => (c, s, Err eof_error)
          end
      end
  end.

Definition a_end (k : control) (c : conn) (s : srv) (t : nat) : conn * srv * res unit :=
  if tx_closed c t then (c, s, Err (ENew (TMsg 1)))
  else match s_mode s with
  | Ready =>
      let s' := after_control J k None (native (c_proto c)) s in
      match control_error J k (native (c_proto c)) s with
      | None => (end_tx t c, s', Ok tt)
      | Some e => (c, s', Err e)
      end
  | _ => (c, s, Err eof_error)
  end.

Definition a_idle (c : conn) (s : srv) : conn * srv * res unit :=
  match c_transaction c with Some t => a_end KRollback c s t | None => (c, s, Ok tt) end.

Definition a_close (c : conn) (s : srv) : conn * srv * res unit :=
  if c_closed c then (c, s, Err (ESentinel 4))
  else match a_idle c s with
  | (c', s', Ok _) => (set_closed c', hang_up s', Ok tt)
  | r => r
  end.

Definition ans {A} (f : A -> answer) (r : res A) : res answer :=
  match r with Ok a => Ok (f a) | Err e => Err e | Panic => Panic | NoFuel => NoFuel end.
Definition put {A} (f : A -> answer) (x : conn * srv * res A) : conn * srv * res answer :=
  let '(c, s, r) := x in (c, s, ans f r).
Definition on_query {A} (c : conn) (f : A -> answer) (x : srv * res A) : conn * srv * res answer :=
  (c, fst x, ans f (snd x)).
Definition rows_answer (r : list (list gval) * gomap) : answer := ARows (fst r) (snd r).
Definition meta_answer (r : list (list gval) * gomap) : answer := AMeta (snd r).

Definition astep (o : call) (c : conn) (s : srv) : conn * srv * res answer :=
  match o with
  | CQuery q ps db => on_query c rows_answer (a_query c s q ps db false)
  | CExec q ps db => on_query c meta_answer (a_query c s q ps db false)
  | CBegin db => put ATx (a_begin c s db)
  | CTxQuery _ q ps db => on_query c rows_answer (a_query c s q ps db true)
  | CTxExecDb _ q ps db => on_query c meta_answer (a_query c s q ps db true)
  | CTxExec _ q ps => on_query c meta_answer (a_query c s q ps [] false)
  | CCommit t => put (fun _ => ADone) (a_end KCommit c s t)
  | CRollback t => put (fun _ => ADone) (a_end KRollback c s t)
  | CClose => put (fun _ => ADone) (a_close c s)
  | CMakeIdle => put (fun _ => ADone) (a_idle c s)
  | CValidate => (c, s, Ok (ABool (negb (c_closed c) && negb (looks && match s_mode s with Gone => true | _ => false end))))
  | CSetChunk cs => (set_chunk cs c, s, Ok ADone)
  end.

(** ** Running them *)

Definition eventually {A} (p : nat -> prog A) (c : conn) (s : srv) (x : conn * srv * res A) : Prop :=
  exists N, forall n, (N <= n)%nat -> exec I (p n) c s = x.

Lemma refused_some v cs m : refused v cs m = true -> exists e, snd (encode v m) = Some e.
Proof. unfold refused. destruct (snd (encode v m)) as [e|]; [eauto|discriminate]. Qed.
Lemma sendable_none v cs m : sendable v cs m = true -> snd (encode v m) = None.
Proof. apply sendable_encodes. Qed.

Lemma settled_modes s : settled s -> s_mode s = Ready \/ s_mode s = Gone.
Proof. intros (_ & _ & _ & [H|[H _]]); auto. Qed.

Lemma exec_query_open c s q ps db inTx : inv c s -> c_closed c = false -> clean c (run_msg c q ps db inTx) ->
  (negb (multi_database (c_proto c)) && negb (bytes_eqb db [])) = false ->
  eventually (fun n => run_query n q ps db inTx) c s
    (c, fst (a_query c s q ps db inTx), snd (a_query c s q ps db inTx)).
Proof.
  intros Hi Hc Hcl Hdb. destruct (i_open _ _ Hi Hc) as (Hv & Hk & Hs).
  unfold a_query. rewrite Hdb, Hc.
  assert (Hh : s_hung s = false) by apply Hs.
  destruct Hcl as [Hok|Href].
  - rewrite (sendable_none _ _ _ Hok).
    assert (Hgen : forall r s2, s2 = serve J QPull (serve J (QRun q (lower_map (codec (c_proto c)) ps)
                       (lower_map (codec (c_proto c)) (run_extra (c_proto c) db (c_mode c) (negb inTx)))) s) ->
              s_hung s2 = false -> pair_answer s2 r ->
              eventually (fun n => run_query n q ps db inTx) c s (c, drained s2, r)).
    { intros r s2 E2 Hh2 Hp. destruct (read_rows J looks c s2 r Hk Hh2 Hp) as [N HN]. exists N. intros n Hn.
      unfold run_query. change (exec I (Lock ?p) c s) with (exec I p c s). rewrite exec_bindr, exec_get, Hc.
      rewrite exec_bind, send_ok; [|exact Hh|exact Hok].
      rewrite Hv. unfold run_msg in *. rewrite read_run.
      set (s1 := serve J (QRun _ _ _) s) in *.
      assert (Hs1 : s_hung s1 = false /\ s_version s1 = s_version s).
      { subst s1. unfold serve. destruct (s_mode s), (s_stream s) as [[]|]; cbn; auto; unfold breach;
          try destruct (j_strict J); cbn; auto.
        all: repeat match goal with
                    | |- context [match ?x with _ => _ end] => destruct x eqn:?; cbn; auto
                    end. 
        all: unfold serve_run, serve_control; repeat match goal with
                    | |- context [match ?x with _ => _ end] => destruct x eqn:?; cbn; auto
                    end. }
      destruct Hs1 as [Hh1 Hv1].
      rewrite exec_bind, send_ok; [|exact Hh1|apply sendable_pull, Hk].
      rewrite Hv1, Hv, read_pull, <- E2. rewrite (HN n Hn). reflexivity. }
    destruct (settled_modes _ Hs) as [Hm|Hm]; rewrite Hm.
    + destruct (is_control s q) as [k|] eqn:Ek.
      * unfold is_control in Ek. destruct (s_version s <=? 2) eqn:Ev; [|discriminate].
        set (ps' := lower_map (codec (c_proto c)) ps) in *.
        set (md' := lower_map _ (run_extra _ _ _ _)) in *.
        assert (E : serve J (QRun q ps' md') s = serve_control J k None true s).
        { unfold serve. rewrite Hm. destruct Hs as (_ & Hst & _). rewrite Hst, Ek, Ev. reflexivity. }
        destruct (served_control J k None false s Hs Hm) as (H1 & H2 & H3). cbv zeta in *. cbn [negb] in *.
        cbn [fst snd]. rewrite <- H2.
        apply Hgen; [now rewrite E|exact H3|].
        destruct (control_error J k false s) as [e|] eqn:Ee.
        -- inversion H1; subst; try discriminate.
           ++ now apply pa_refused.
           ++ now apply pa_bye.
           ++ now apply pa_gone.
        -- inversion H1 as [md Hn0|rm md _ Hm2 Ho2| | |]; subst; try discriminate.
           replace md with (@nil (bytes * gval)) in *; [now apply pa_ok with rm|].
           (* the summary of a control statement is empty *)
           clear -Ho2 Hs Hm. destruct Hs as (Ho & Hst & _). destruct s as [ver md0 nx tx str pm dn out raw hung]. cbn in *. subst.
           unfold serve_control in Ho2.
           destruct k, tx as [[tdb l]|]; cbn in Ho2; try discriminate;
             destruct (j_outcome J nx) as [fm|r1 r2 fm|r1 r2 fm]; cbn in Ho2; try discriminate; congruence.
      * destruct (served_stmt J q (lower_map (codec (c_proto c)) ps)
                   (lower_map (codec (c_proto c)) (run_extra (c_proto c) db (c_mode c) (negb inTx))) s Hs Hm Ek)
          as (H1 & H2 & H3).
        cbn [fst snd]. unfold sent_stmt. cbv zeta in *. rewrite <- H2. apply Hgen; [reflexivity|exact H3|exact H1].
    + destruct (gone_pair J (QRun q (lower_map (codec (c_proto c)) ps)
                   (lower_map (codec (c_proto c)) (run_extra (c_proto c) db (c_mode c) (negb inTx)))) s Hs Hm)
        as (H1 & H2 & H3). cbn [fst snd]. rewrite <- H3 at 2.
      apply Hgen; [now rewrite H1|exact Hh|exact H2].
  - destruct (send_refused J looks _ _ _ Hh Href) as (e & He & Ee). rewrite Ee.
    exists 0%nat. intros n _. unfold run_query. change (exec I (Lock ?p) c s) with (exec I p c s).
    rewrite exec_bindr, exec_get, Hc, exec_bind. unfold run_msg in *. rewrite He. reflexivity.
Qed.

Lemma exec_query c s q ps db inTx : inv c s -> clean c (run_msg c q ps db inTx) ->
  eventually (fun n => query_db n q ps db inTx) c s
    (c, fst (a_query c s q ps db inTx), snd (a_query c s q ps db inTx)).
Proof.
  intros Hi Hcl.
  destruct (negb (multi_database (c_proto c)) && negb (bytes_eqb db [])) eqn:Edb.
  - exists 0%nat. intros n _. unfold query_db, a_query. rewrite exec_get, Edb. reflexivity.
  - destruct (c_closed c) eqn:Hc.
    + exists 0%nat. intros n _. unfold query_db, a_query, run_query. rewrite exec_get, Edb, Hc.
      change (exec I (Lock ?p) c s) with (exec I p c s). rewrite exec_bindr, exec_get, Hc. reflexivity.
    + destruct (exec_query_open c s q ps db inTx Hi Hc Hcl Edb) as [N HN].
      exists N. intros n Hn. unfold query_db. rewrite exec_get, Edb. now apply HN.
Qed.

(** Sending a control request (and PULL if it is a RUN) and reading the answers. *)
Lemma exec_control {A} c s k m db e1 e2 (K : prog A) :
  inv c s -> c_closed c = false -> sendable (codec (c_proto c)) (c_chunk c) m = true ->
  (s_mode s = Ready -> serve J (read_request (proto_number (c_proto c)) (lower (codec (c_proto c)) m)) s
     = serve_control J k db (negb (native (c_proto c))) s) ->
  eventually (fun n =>
      _ <~ send_message m ;;
      _ <~ (if native (c_proto c) then ok_unit else send_message (get_pull_all_message (c_proto c))) ;;
      runSucc <~ consume n ;;
      pullSucc <~ (if native (c_proto c) then Ret (Ok GNil) else consume n) ;;
      if negb (is_success runSucc) then fail e1
      else if negb (native (c_proto c)) && negb (is_success pullSucc) then fail e2
      else K) c s
    (match s_mode s with
     | Ready =>
         let s' := after_control J k db (native (c_proto c)) s in
         match control_error J k (native (c_proto c)) s with
         | None => exec I K c s'
         | Some e => (c, s', Err e)
         end
     | _ => (c, s, Err eof_error)
     end).
Proof.
  intros Hi Hc Hok Hserve. destruct (i_open _ _ Hi Hc) as (Hv & Hk & Hs).
  assert (Hh : s_hung s = false) by apply Hs.
  set (nat := native (c_proto c)) in *.
  set (s1 := serve J (read_request (proto_number (c_proto c)) (lower (codec (c_proto c)) m)) s).
  set (s2 := if nat then s1 else serve J QPull s1).
  assert (Hgen : forall r, s_hung s1 = false -> s_version s1 = s_version s -> s_hung s2 = false -> ctl_answer nat s2 r ->
      eventually (fun n =>
      _ <~ send_message m ;;
      _ <~ (if nat then ok_unit else send_message (get_pull_all_message (c_proto c))) ;;
      runSucc <~ consume n ;;
      pullSucc <~ (if nat then Ret (Ok GNil) else consume n) ;;
      if negb (is_success runSucc) then fail e1
      else if negb nat && negb (is_success pullSucc) then fail e2
      else K) c s (match r with None => exec I K c (drained s2) | Some e => (c, drained s2, Err e) end)).
  { intros r Hh1 Hv1 Hh2 Hr. destruct (read_control J looks c s2 r nat e1 e2 K Hk Hh2 Hr) as [N HN].
    exists N. intros n Hn. rewrite exec_bind, send_ok; [|exact Hh|exact Hok]. rewrite Hv. fold s1.
    rewrite exec_bind. specialize (HN n Hn). unfold s2 in *. destruct nat.
    - cbn [ok_unit exec]. exact HN.
    - rewrite send_ok; [|exact Hh1|apply sendable_pull, Hk]. rewrite Hv1, Hv, read_pull. exact HN. }
  destruct (settled_modes _ Hs) as [Hm|Hm]; rewrite Hm.
  - destruct (served_control J k db nat s Hs Hm) as (H1 & H2 & H3). cbv zeta in *.
    assert (E1 : s1 = serve_control J k db (negb nat) s) by now apply Hserve.
    assert (E2 : s2 = (if nat then serve_control J k db (negb nat) s else serve J QPull (serve_control J k db (negb nat) s)))
      by (unfold s2; now rewrite E1).
    rewrite <- E2 in H1, H2, H3. rewrite <- H2. apply Hgen; try assumption.
    + rewrite E1. unfold serve_control, breach.
      repeat match goal with |- context [match ?x with _ => _ end] => destruct x eqn:?; cbn; auto end.
    + rewrite E1. unfold serve_control, breach.
      repeat match goal with |- context [match ?x with _ => _ end] => destruct x eqn:?; cbn; auto end.
  - assert (E1 : s1 = s) by now apply serve_gone.
    assert (E2 : s2 = s) by (unfold s2; destruct nat; [exact E1|rewrite E1; now apply serve_gone]).
    assert (Ed : drained s = s).
    { unfold drained. rewrite Hm. destruct Hs as (Ho & _). destruct s; cbn in *; now subst. }
    specialize (Hgen (Some eof_error)). rewrite E2, Ed in Hgen. apply Hgen; try assumption; try (now rewrite E1).
    apply ca_gone; [exact Hm|apply Hs].
Qed.

Lemma serve_control_text q k ps md s : settled s -> s_mode s = Ready -> s_version s <=? 2 = true -> control_of q = Some k ->
  serve J (QRun q ps md) s = serve_control J k None true s.
Proof.
  intros (_ & Hst & _) Hm Hv Hq. unfold serve. now rewrite Hm, Hst, Hq, Hv.
Qed.

Lemma exec_begin c s db : inv c s -> clean c (fst (get_begin_message (c_proto c) db (c_mode c))) ->
  eventually (fun n => begin_db n db) c s (a_begin c s db).
Proof.
  intros Hi Hcl. unfold a_begin. destruct (c_transaction c) as [t|] eqn:Et.
  { exists 0%nat. intros n _. unfold begin_db. now rewrite exec_get, Et. }
  destruct (c_closed c) eqn:Hc.
  { exists 0%nat. intros n _. unfold begin_db. now rewrite exec_get, Et, Hc. }
  destruct (i_open _ _ Hi Hc) as (Hv & Hk & Hs).
  destruct Hcl as [Hok|Href].
  - rewrite (sendable_none _ _ _ Hok).
    set (m := fst (get_begin_message (c_proto c) db (c_mode c))) in *.
    destruct (exec_control c s KBegin m (begin_db_of c db) (ENew (TMsg 10)) (ENew (TMsg 11))
               (Get (fun c' => Upd new_tx (Ret (Ok (length (c_txs c')))))) Hi Hc Hok) as [N HN].
    { intro Hm. subst m. rewrite read_begin. unfold begin_db_of. destruct (native (c_proto c)) eqn:En.
      - unfold serve. destruct Hs as (_ & Hst & _). rewrite Hm, Hst. reflexivity.
      - apply serve_control_text; try assumption; [|reflexivity]. rewrite Hv. destruct (c_proto c); try discriminate; reflexivity. }
    exists N. intros n Hn. unfold begin_db. rewrite exec_get, Et, Hc.
    rewrite (surjective_pairing (get_begin_message _ _ _)), native_begin.
    fold m. rewrite (HN n Hn). destruct (s_mode s); try reflexivity.
  - assert (Hh : s_hung s = false) by apply Hs.
    destruct (send_refused J looks _ _ _ Hh Href) as (e & He & Ee). rewrite Ee.
    exists 0%nat. intros n _. unfold begin_db. rewrite exec_get, Et, Hc.
    rewrite (surjective_pairing (get_begin_message _ _ _)), exec_bind, He. reflexivity.
Qed.

Lemma open_tx_unclosed c s t : inv c s -> tx_closed c t = false -> c_closed c = false.
Proof.
  intros Hi Ht. destruct (c_closed c) eqn:Hc; [|reflexivity].
  destruct (i_closed _ _ Hi Hc) as (_ & H & _). apply (i_txs _ _ Hi) in Ht. congruence.
Qed.

Lemma exec_end (sel : proto -> gval * bool) k c s t : inv c s ->
  (k = KCommit /\ sel = get_commit_message \/ k = KRollback /\ sel = get_rollback_message) ->
  eventually (fun n => tx_end (consume n) t sel) c s (a_end k c s t).
Proof.
  intros Hi Hsel. unfold a_end. destruct (tx_closed c t) eqn:Et.
  { exists 0%nat. intros n _. unfold tx_end. now rewrite exec_get, Et. }
  assert (Hc := open_tx_unclosed _ _ _ Hi Et).
  destruct (i_open _ _ Hi Hc) as (Hv & Hk & Hs).
  assert (Hnat : snd (sel (c_proto c)) = native (c_proto c)).
  { destruct Hsel as [[_ ->]|[_ ->]]; [apply native_commit|apply native_rollback]. }
  assert (Hok : sendable (codec (c_proto c)) (c_chunk c) (fst (sel (c_proto c))) = true).
  { destruct Hsel as [[_ ->]|[_ ->]]; [apply sendable_commit|apply sendable_rollback]; exact Hk. }
  destruct (exec_control c s k (fst (sel (c_proto c))) None (ENew (TMsg 2)) (ENew (TMsg 3))
             (Upd (end_tx t) ok_unit) Hi Hc Hok) as [N HN].
  { intro Hm. assert (Ev : native (c_proto c) = false -> (s_version s <=? 2) = true).
    { rewrite Hv. now destruct (c_proto c). }
    destruct Hsel as [[-> ->]|[-> ->]]; [rewrite read_commit|rewrite read_rollback]; destruct (native (c_proto c)) eqn:En;
      try (apply serve_control_text; [exact Hs|exact Hm|now apply Ev|reflexivity]);
      unfold serve; destruct Hs as (_ & Hst & _); rewrite Hm, Hst; reflexivity. }
  exists N. intros n Hn. unfold tx_end. rewrite exec_get, Et.
  rewrite (surjective_pairing (sel (c_proto c))), Hnat. rewrite (HN n Hn). destruct (s_mode s); reflexivity.
Qed.

Lemma exec_rollback c s t : inv c s -> eventually (fun n => rollback n t) c s (a_end KRollback c s t).
Proof.
  intro Hi. destruct (exec_end get_rollback_message KRollback c s t Hi ltac:(auto)) as [N HN].
  exists (S N). intros n Hn. destruct n as [|n]; [lia|]. cbn [rollback]. apply HN. lia.
Qed.
Lemma exec_idle c s : inv c s -> eventually make_idle c s (a_idle c s).
Proof.
  intro Hi. unfold a_idle, make_idle. destruct (c_transaction c) as [t|] eqn:Et.
  - destruct (exec_rollback c s t Hi) as [N HN]. exists N. intros n Hn. rewrite exec_get, Et. now apply HN.
  - exists 0%nat. intros n _. now rewrite exec_get, Et.
Qed.

(** ** Preservation of the invariant *)

Lemma nth_set_nth t u l : nth u (set_nth t l) true = if Nat.eqb u t then true else nth u l true.
Proof.
  revert t u. induction l as [|b l IH]; intros t u.
  - destruct t, u; cbn; try destruct (Nat.eqb _ _); reflexivity.
  - destruct t, u; cbn; auto.
Qed.
Lemma after_control_settled k db nat s : settled s -> settled (after_control J k db nat s).
Proof.
  intros (_ & _ & Hh & _). unfold after_control, settled. destruct (control_fits k s).
  - destruct (j_outcome J (s_next s)), k; cbn; auto.
  - cbn. destruct (nat && j_strict J); auto 10.
Qed.
Lemma after_control_version k db nat s : s_version (after_control J k db nat s) = s_version s.
Proof.
  unfold after_control. destruct (control_fits k s); [|reflexivity]. now destruct (j_outcome J (s_next s)), k.
Qed.
Lemma after_stmt_settled st s : settled s -> settled (after_stmt J st s).
Proof. intros (_ & _ & Hh & _). unfold after_stmt, settled. cbn. auto. Qed.

Lemma a_query_inv c s q ps db inTx : inv c s -> inv c (fst (a_query c s q ps db inTx)).
Proof.
  intro Hi. unfold a_query. destruct (negb _ && _); [exact Hi|]. destruct (c_closed c) eqn:Hc; [exact Hi|].
  destruct (snd (encode _ _)); [exact Hi|]. destruct (s_mode s) eqn:Hm; try exact Hi.
  destruct (i_open _ _ Hi Hc) as (Hv & Hk & Hs).
  destruct (is_control s q) as [k|]; cbn [fst].
  - constructor; try apply Hi; try congruence. intros _. rewrite after_control_version.
    split; [exact Hv|]. split; [exact Hk|now apply after_control_settled].
  - constructor; try apply Hi; try congruence. intros _. split; [exact Hv|]. split; [exact Hk|now apply after_stmt_settled].
Qed.

Lemma inv_new_tx c s : inv c s -> c_transaction c = None -> c_closed c = false -> inv (new_tx c) s.
Proof.
  intros Hi Ht Hc. constructor; try apply Hi.
  - intro t. unfold tx_closed, new_tx. cbn. rewrite <- nth_default_eq. rewrite nth_default_eq.
    destruct (Nat.lt_trichotomy t (length (c_txs c))) as [H|[H|H]].
    + rewrite app_nth1 by exact H. assert (E := i_txs _ _ Hi t). unfold tx_closed in E. rewrite E, Ht.
      split; intro E'; [discriminate|]. injection E' as <-. lia.
    + subst. rewrite app_nth2, Nat.sub_diag by lia. cbn. tauto.
    + rewrite nth_overflow by (rewrite app_length; cbn; lia). split; [discriminate|]. intro E. injection E as <-. lia.
  - cbn. congruence.
Qed.
Lemma inv_end_tx c s t : inv c s -> c_transaction c = Some t -> inv (end_tx t c) s.
Proof.
  intros Hi Ht. constructor; try apply Hi.
  - intro u. unfold tx_closed, end_tx. cbn. rewrite nth_set_nth. destruct (Nat.eqb u t) eqn:E; [split; discriminate|].
    split; [|discriminate]. intro H. apply (i_txs _ _ Hi) in H. rewrite Ht in H. injection H as <-.
    now rewrite Nat.eqb_refl in E.
  - cbn. intro H. destruct (i_closed _ _ Hi H) as (H1 & _ & H2). auto.
Qed.
Lemma inv_control c s k db nat : inv c s -> c_closed c = false -> inv c (after_control J k db nat s).
Proof.
  intros Hi Hc. destruct (i_open _ _ Hi Hc) as (Hv & Hk & Hs). constructor; try apply Hi; try congruence.
  intros _. rewrite after_control_version. split; [exact Hv|]. split; [exact Hk|now apply after_control_settled].
Qed.

Lemma a_end_inv k c s t c' s' r : inv c s -> a_end k c s t = (c', s', r) -> inv c' s'.
Proof.
  intros Hi. unfold a_end. destruct (tx_closed c t) eqn:Et; [intro E; injection E as <- <- <-; exact Hi|].
  assert (Hc := open_tx_unclosed _ _ _ Hi Et). apply (i_txs _ _ Hi) in Et.
  destruct (s_mode s); try (intro E; injection E as <- <- <-; exact Hi).
  cbv zeta. destruct (control_error _ _ _ _); intro E; injection E as <- <- <-.
  - now apply inv_control.
  - apply inv_end_tx; [now apply inv_control|exact Et].
Qed.
Lemma a_idle_inv c s c' s' r : inv c s -> a_idle c s = (c', s', r) -> inv c' s'.
Proof.
  unfold a_idle. destruct (c_transaction c); [apply a_end_inv|]. intros Hi E. injection E as <- <- <-. exact Hi.
Qed.
Lemma a_idle_ok c s c' s' u : a_idle c s = (c', s', Ok u) -> c_transaction c' = None /\ c_closed c' = c_closed c.
Proof.
  unfold a_idle. destruct (c_transaction c) as [t|] eqn:Et.
  - unfold a_end. destruct (tx_closed c t); [discriminate|]. destruct (s_mode s); try discriminate.
    cbv zeta. destruct (control_error _ _ _ _); [discriminate|]. intro E. injection E as <- _ _. auto.
  - intro E. injection E as <- _ _. auto.
Qed.

Lemma hung_inv c s : inv c s -> c_transaction c = None -> inv (set_closed c) (hang_up s).
Proof.
  intros Hi Ht. constructor; try apply Hi; cbn; [discriminate|]. intros _. split; [reflexivity|]. split; [exact Ht|].
  unfold is_garbled. destruct (c_closed c) eqn:Hc.
  - now rewrite (proj2 (proj2 (i_closed _ _ Hi Hc))).
  - destruct (i_open _ _ Hi Hc) as (_ & _ & (_ & _ & _ & [Hm|[Hm _]])); now rewrite Hm.
Qed.

Lemma astep_inv o c s c' s' r : inv c s -> clean_call c o -> astep o c s = (c', s', r) -> inv c' s'.
Proof.
  intros Hi Hcl. destruct o; cbn [astep]; unfold on_query, put;
    try (intro E; injection E as <- <- _; now apply a_query_inv).
  - unfold a_begin. destruct (c_transaction c) eqn:Et; [intro E; injection E as <- <- _; exact Hi|].
    destruct (c_closed c) eqn:Hc; [intro E; injection E as <- <- _; exact Hi|].
    destruct (snd (encode _ _)); [intro E; injection E as <- <- _; exact Hi|].
    destruct (s_mode s); try (intro E; injection E as <- <- _; exact Hi). cbv zeta.
    destruct (control_error _ _ _ _); intro E; injection E as <- <- _.
    + now apply inv_control.
    + apply inv_new_tx; [now apply inv_control|exact Et|exact Hc].
  - destruct (a_end KCommit c s t) as [[c1 s1] r1] eqn:E1. intro E. injection E as <- <- _. eapply a_end_inv; eassumption.
  - destruct (a_end KRollback c s t) as [[c1 s1] r1] eqn:E1. intro E. injection E as <- <- _. eapply a_end_inv; eassumption.
  - unfold a_close. destruct (c_closed c) eqn:Hc; [intro E; injection E as <- <- _; exact Hi|].
    destruct (a_idle c s) as [[c1 s1] r1] eqn:E1. assert (H1 := a_idle_inv _ _ _ _ _ Hi E1).
    destruct r1; intro E; injection E as <- <- _; try exact H1.
    apply hung_inv; [exact H1|]. now apply a_idle_ok in E1.
  - destruct (a_idle c s) as [[c1 s1] r1] eqn:E1. intro E. injection E as <- <- _. eapply a_idle_inv; eassumption.
  - intro E. injection E as <- <- _. exact Hi.
  - intro E. injection E as <- <- _. constructor; try apply Hi. intro Hc. destruct (i_open _ _ Hi Hc) as (Hv & _ & Hs). auto.
Qed.

(** ** Every call *)

Lemma ev_pmap {A} (f : A -> answer) (p : nat -> prog A) c s x :
  eventually p c s x -> eventually (fun n => pmap f (p n)) c s (put f x).
Proof.
  intros [N HN]. exists N. intros n Hn. unfold pmap. rewrite exec_bind, (HN n Hn). destruct x as [[c' s'] []]; reflexivity.
Qed.

Lemma exec_close c s : inv c s -> eventually close c s (a_close c s).
Proof.
  intro Hi. destruct (exec_idle c s Hi) as [N HN]. exists (S N). intros n Hn. destruct n as [|n]; [lia|].
  specialize (HN n ltac:(lia)). cbn [close]. unfold close_with, a_close. rewrite exec_get.
  destruct (c_closed c) eqn:Hc; [reflexivity|].
  assert (E : exec I match c_transaction c with Some t => rollback n t | None => ok_unit end c s = a_idle c s).
  { rewrite <- HN. unfold make_idle. rewrite exec_get. reflexivity. }
  rewrite exec_bind, E. destruct (a_idle c s) as [[c1 s1] [[]| | |]] eqn:E1; try reflexivity.
  assert (H1 := a_idle_inv _ _ _ _ _ Hi E1). destruct (a_idle_ok _ _ _ _ _ E1) as [Ht1 Hc1].
  rewrite Hc in Hc1. destruct (i_open _ _ H1 Hc1) as (Hv & Hk & Hs).
  rewrite exec_bind. assert (Ep : c_proto c1 = c_proto c).
  { clear -E1. unfold a_idle, a_end in E1. destruct (c_transaction c); [|congruence].
    destruct (tx_closed _ _); [discriminate|]. destruct (s_mode s); try discriminate. cbv zeta in E1.
    destruct (control_error _ _ _ _); [discriminate|]. injection E1 as <- _. reflexivity. }
  destruct (get_close_message (c_proto c)) as [m|] eqn:Em; [|reflexivity].
  rewrite <- Ep in Em. rewrite send_ok; [|apply Hs|eapply sendable_goodbye; eassumption].
  rewrite Hv, (read_goodbye _ _ Em). cbn [exec ideal n_hang].
  destruct Hs as (Ho & Hst & Hh & [Hm|[Hm Htx]]); unfold serve; rewrite Hm; [|reflexivity].
  unfold hang_up, is_garbled. cbn. now rewrite Hm.
Qed.

Lemma exec_call o c s : inv c s -> clean_call c o -> eventually (fun n => do_call n o) c s (astep o c s).
Proof.
  intros Hi Hcl. destruct o; cbn [do_call astep clean_call] in *.
  - apply (ev_pmap (fun r => ARows (fst r) (snd r)) _ _ _ _ (exec_query _ _ _ _ _ _ Hi Hcl)).
  - destruct (exec_query _ _ _ _ _ _ Hi Hcl) as [N HN]. exists N. intros n Hn. specialize (HN n Hn).
    unfold pmap, exec_db. rewrite !exec_bind, HN. unfold on_query. destruct (snd (a_query _ _ _ _ _ _)); reflexivity.
  - apply ev_pmap, exec_begin; assumption.
  - apply (ev_pmap (fun r => ARows (fst r) (snd r)) _ _ _ _ (exec_query _ _ _ _ _ _ Hi Hcl)).
  - destruct (exec_query _ _ _ _ _ _ Hi Hcl) as [N HN]. exists N. intros n Hn. specialize (HN n Hn).
    unfold pmap, exec_db. rewrite !exec_bind, HN. unfold on_query. destruct (snd (a_query _ _ _ _ _ _)); reflexivity.
  - destruct (exec_query _ _ _ _ _ _ Hi Hcl) as [N HN]. exists N. intros n Hn. specialize (HN n Hn).
    unfold pmap, exec_db. rewrite !exec_bind, HN. unfold on_query. destruct (snd (a_query _ _ _ _ _ _)); reflexivity.
  - apply ev_pmap. unfold commit. apply exec_end; auto.
  - apply ev_pmap, exec_rollback; assumption.
  - apply ev_pmap, exec_close; assumption.
  - apply ev_pmap, exec_idle; assumption.
  - exists 0%nat. intros n _. unfold pmap, validate_open. rewrite exec_bind, exec_get.
    destruct (c_closed c) eqn:Hc; [reflexivity|]. destruct (i_open _ _ Hi Hc) as (_ & _ & (Ho & _ & Hh & Hm)).
    cbn [exec ideal n_probe]. rewrite Ho, Hh. destruct Hm as [Hm|[Hm _]]; rewrite Hm; destruct looks; reflexivity.
  - exists 0%nat. intros n _. reflexivity.
Qed.

Lemma does_step o c s c' s' r : inv c s -> clean_call c o ->
  does I o (c, s) (c', s') r -> astep o c s = (c', s', r).
Proof.
  intros Hi Hcl (n & He & Hr). cbn [fst snd] in He. destruct (exec_call o c s Hi Hcl) as [N HN].
  rewrite <- (HN (Nat.max n N)) by lia. rewrite <- He. apply less_do_call; [lia|]. now rewrite He.
Qed.
Definition returned {A} (r : res A) : Prop := match r with Ok _ | Err _ => True | _ => False end.
Lemma a_query_returned c s q ps db inTx : returned (snd (a_query c s q ps db inTx)).
Proof.
  unfold a_query, rows_of.
  repeat match goal with |- context [match ?x with _ => _ end] => destruct x; try exact Logic.I end.
Qed.
Lemma a_end_returned k c s t : returned (snd (a_end k c s t)).
Proof.
  unfold a_end. cbv zeta. destruct (tx_closed c t), (s_mode s); try exact Logic.I. now destruct (control_error _ _ _ _).
Qed.
Lemma a_idle_returned c s : returned (snd (a_idle c s)).
Proof. unfold a_idle. destruct (c_transaction c); [apply a_end_returned|exact Logic.I]. Qed.
Lemma a_close_returned c s : returned (snd (a_close c s)).
Proof.
  unfold a_close. destruct (c_closed c); [exact Logic.I|]. pose proof (a_idle_returned c s) as H.
  destruct (a_idle c s) as [[? ?] []]; cbn in *; auto.
Qed.
Lemma a_begin_returned c s db : returned (snd (a_begin c s db)).
Proof.
  unfold a_begin. cbv zeta. repeat match goal with |- context [match ?x with _ => _ end] => destruct x; try exact Logic.I end.
Qed.
Lemma ans_returned {A} (f : A -> answer) r : returned r -> returned (ans f r). Proof. now destruct r. Qed.
Lemma put_returned {A} (f : A -> answer) x : returned (snd x) -> returned (snd (put f x)).
Proof. destruct x as [[? ?] ?]. apply ans_returned. Qed.
Lemma astep_returned o c s : returned (snd (astep o c s)).
Proof.
  destruct o; cbn [astep];
    try (apply ans_returned, a_query_returned); try apply put_returned; try exact Logic.I.
  - apply a_begin_returned.
  - apply a_end_returned.
  - apply a_end_returned.
  - apply a_close_returned.
  - apply a_idle_returned.
Qed.
(** Every call returns. *)
Lemma step_does o c s c' s' r : inv c s -> clean_call c o -> astep o c s = (c', s', r) ->
  does I o (c, s) (c', s') r.
Proof.
  intros Hi Hcl E. destruct (exec_call o c s Hi Hcl) as [N HN]. exists N. cbn [fst snd].
  rewrite (HN N) by lia. split; [exact E|]. pose proof (astep_returned o c s) as H. rewrite E in H. intros ->. exact H.
Qed.

End Calls.
