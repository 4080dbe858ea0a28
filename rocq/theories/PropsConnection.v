(** Theorems C31-C45, C87, C88, C121, C122, C125: calls on a connection. *)
From Coq Require Import String ZArith List Bool Lia.
From Verif Require Import Bytes GoVal GoErr Encoder Decoder SpecPack SpecValues SpecCodec SpecServer
  Messages Connection Errors Link Wire SpecSession Demo DemoFacts OpenFacts SessionFacts TxFacts AnyNetFacts WatchFacts
  Result ResultFacts Concurrency ConcurFacts Cases CaseFacts SpecTalk TalkFacts WishFacts UnguardedFacts SpecEcho EchoFacts SpecTurns TurnFacts
  Texts SpecTexts SpecRefusal SpecReport ReportFacts.
Import ListNotations.
Open Scope Z_scope.

(** ** C31: true of calls whose messages can be sent as a whole or not at all *)
Theorem C31_in_step_partial p P user password l c w :
  session clean_call p P user password l (c, w) -> c_closed c = false -> quiet w.
Proof. exact (in_step p P user password l c w). Qed.
Print Assumptions C31_in_step_partial.
(** No such call waits forever. *)
Theorem C31_returns_partial p P user password l c w o :
  session clean_call p P user password l (c, w) -> clean_call c o -> exists c' w' r, does (wired P) o (c, w) (c', w') r.
Proof. exact (call_returns p P user password l c w o). Qed.
Print Assumptions C31_returns_partial.
(** A parameter that cannot be sent leaves half a request behind, and the next query fails. *)
Theorem C31_in_step_refuted : exists P l c w c' w' e,
  session (fun _ _ => True) P4 P (str "neo4j") (str "secret") l (c, w) /\ c_closed c = false
  /\ w_in w <> []
  /\ does (wired P) (CQuery q1 [] []) (c, w) (c', w') (Err e)
  /\ inner_most e = EFailure (j_breach (p_judge P)) /\ s_done (w_srv w') = s_done (w_srv w).
Proof. exact out_of_step. Qed.
Print Assumptions C31_in_step_refuted.
Example C31_case : exists c w l,
  session clean_call P3 (server P3 [done; rows; oops; done; halfway] true) (str "neo4j") (str "secret") l (c, w)
  /\ map fst l = [CQuery q1 ps []; CQuery q2 [] []; CBegin []; CTxExec 0 q2 []] /\ c_closed c = false.
Proof.
  let x := eval vm_compute in (login [CQuery q1 ps []; CQuery q2 [] []; CBegin []; CTxExec 0 q2 []] (server P3 [done; rows; oops; done; halfway] true)) in
  match x with Some (?l, (?c, ?w)) => exists c, w, l end.
  split; [session_of P3 [done; rows; oops; done; halfway] true [CQuery q1 ps []; CQuery q2 [] []; CBegin []; CTxExec 0 q2 []]|].
  split; reflexivity.
Qed.

(** ** C32 *)
Theorem C32_own_rows p P user password l c w o q ps c' w' a :
  session clean_call p P user password l (c, w) -> statement_of o = Some (q, ps) -> clean_call c o ->
  does (wired P) o (c, w) (c', w') (Ok a) ->
  if ordinary p q then
    exists st rm rows md, s_done (w_srv w') = s_done (w_srv w) ++ [(st, Produced rm rows md)]
      /\ is_stmt (codec p) q ps st
      /\ a = match o with CQuery _ _ _ | CTxQuery _ _ _ _ => ARows rows md | _ => AMeta md end
  else s_done (w_srv w') = s_done (w_srv w)
      /\ a = match o with CQuery _ _ _ | CTxQuery _ _ _ _ => ARows [] [] | _ => AMeta [] end.
Proof. exact (query_own_rows p P user password l c w o q ps c' w' a). Qed.
Print Assumptions C32_own_rows.
Example C32_case : brief (login [CQuery q1 ps []; CQuery q2 [] []; CQuery q1 [] []] (server P1 [done; oops; done; rows] false))
  = [Err (EFailure fault); Ok (ARows [] []); Ok (ARows [row1; row2] summary)].
Proof. vm_compute. reflexivity. Qed.

(** ** C33: true outside transactions *)
Theorem C33_statement_partial p P user password l c w o q ps c' w' r :
  session clean_call p P user password l (c, w) -> ready w -> statement_of o = Some (q, ps) -> goes_out c o ->
  ordinary p q = true -> does (wired P) o (c, w) (c', w') r ->
  let x := j_outcome (p_judge P) (s_next (w_srv w)) in
  c' = c /\ ready w' /\ told o x r
  /\ (exists st, s_done (w_srv w') = s_done (w_srv w) ++ [(st, x)] /\ is_stmt (codec p) q ps st
        /\ st_db st = match s_tx (w_srv w) with Some (d, _) => d | None => carried o end)
  /\ s_next (w_srv w') = S (s_next (w_srv w)).
Proof. exact (statement_judged p P user password l c w o q ps c' w' r). Qed.
Print Assumptions C33_statement_partial.
Theorem C33_control_partial p P user password l c w o k c' w' r :
  session clean_call p P user password l (c, w) -> ready w -> asks c o k -> allows k (w_srv w) ->
  does (wired P) o (c, w) (c', w') r ->
  ready w' /\ s_next (w_srv w') = S (s_next (w_srv w)) /\ s_done (w_srv w') = s_done (w_srv w)
  /\ match j_outcome (p_judge P) (s_next (w_srv w)) with
     | Refused md => c' = c /\ s_tx (w_srv w') = None /\ s_perm (w_srv w') = s_perm (w_srv w)
                     /\ exists e, r = Err e /\ inner_most e = EFailure md
     | _ => (exists a, r = Ok a)
            /\ match k, s_tx (w_srv w) with
               | KBegin, _ => s_tx (w_srv w') = Some (begun_with p o, []) /\ s_perm (w_srv w') = s_perm (w_srv w)
               | KCommit, Some (_, sts) => s_tx (w_srv w') = None /\ s_perm (w_srv w') = s_perm (w_srv w) ++ sts
               | _, _ => s_tx (w_srv w') = None /\ s_perm (w_srv w') = s_perm (w_srv w)
               end
     end.
Proof. exact (control_judged p P user password l c w o k c' w' r). Qed.
Print Assumptions C33_control_partial.
(** After a failure inside a transaction the server has none, is ready, and still the client refuses
    every Begin and cannot end the transaction. *)
Theorem C33_in_transaction_refuted : exists P l c w,
  session clean_call P4 P (str "neo4j") (str "secret") l (c, w) /\ ready w /\ s_tx (w_srv w) = None
  /\ c_closed c = false /\ exists e, map snd l = [Ok (ATx 0); Err e] /\ inner_most e = EFailure fault.
Proof. exact not_recovered. Qed.
Print Assumptions C33_in_transaction_refuted.
Theorem C33_never_recovers_refuted p P user password l c w t l' c' w' :
  session clean_call p P user password l (c, w) -> (p = P3 \/ p = P4) -> tx_closed c t = false -> s_tx (w_srv w) = None ->
  history (wired P) clean_call (c, w) l' (c', w') ->
  c_closed c' = false /\ tx_closed c' t = false
  /\ Forall (fun x => match fst x with
                      | CBegin _ | CCommit _ | CRollback _ | CClose | CMakeIdle => exists e, snd x = Err e
                      | _ => True end) l'.
Proof. exact (stuck_forever p P user password l c w t l' c' w'). Qed.
Print Assumptions C33_never_recovers_refuted.
(** A server that ends the connection on a breach of protocol: the rollback that should follow the
    failure is such a breach, and the next query finds the connection gone. *)
Theorem C33_strict_server_refuted : exists P l c w c' w' e,
  session clean_call P4 P (str "neo4j") (str "secret") l (c, w) /\ c_closed c = false
  /\ does (wired P) (CQuery q2 [] []) (c, w) (c', w') (Err e) /\ inner_most e = EEOF
  /\ exists e1 e2, map snd l = [Ok (ATx 0); Err e1; Err e2] /\ inner_most e1 = EFailure fault.
Proof. exact hangs_up. Qed.
Print Assumptions C33_strict_server_refuted.
Example C33_case : brief (login [CQuery q1 ps []; CQuery q2 [] []] (server P2 [done; halfway; rows] false))
  = [Err (EFailure fault); Ok (ARows [row1; row2] summary)].
Proof. vm_compute. reflexivity. Qed.

(** ** C34 *)
Theorem C34_one_transaction {St} (N : net St) l c s t db : used N l (c, s) -> tx_closed c t = false -> refuses N (CBegin db) (c, s).
Proof. exact (one_at_a_time N l c s t db). Qed.
Print Assumptions C34_one_transaction.
Theorem C34_begin_opens {St} (N : net St) l c s db c' s' t : used N l (c, s) ->
  does N (CBegin db) (c, s) (c', s') (Ok (ATx t)) -> tx_closed c' t = false.
Proof. exact (begin_opens N l c s db c' s' t). Qed.
Print Assumptions C34_begin_opens.
Example C34_case : results (login [CBegin []; CBegin []; CCommit 0; CBegin []] (server P4 [] true))
  = [Ok (ATx 0); Err (ENew (TMsg 8)); Ok ADone; Ok (ATx 1)].
Proof. vm_compute. reflexivity. Qed.

(** ** C35 *)
Theorem C35_ends_once {St} (N : net St) l w o t a w1 l' w2 : used N l w -> ends o t -> does N o w w1 (Ok a) ->
  history N (fun _ _ => True) w1 l' w2 -> refuses N (CCommit t) w2 /\ refuses N (CRollback t) w2.
Proof. exact (ended_once N l w o t a w1 l' w2). Qed.
Print Assumptions C35_ends_once.
Theorem C35_begins_again p P user password l c w o t c1 w1 a db c2 w2 r :
  session clean_call p P user password l (c, w) -> ends o t -> does (wired P) o (c, w) (c1, w1) (Ok a) ->
  sendable (codec (c_proto c1)) (c_chunk c1) (fst (get_begin_message (c_proto c1) db (c_mode c1))) = true ->
  does (wired P) (CBegin db) (c1, w1) (c2, w2) r ->
  match j_outcome (p_judge P) (s_next (w_srv w1)) with
  | Refused md => exists e, r = Err e /\ inner_most e = EFailure md
  | _ => exists t', r = Ok (ATx t') /\ tx_closed c2 t' = false
  end.
Proof. exact (begins_again p P user password l c w o t c1 w1 a db c2 w2 r). Qed.
Print Assumptions C35_begins_again.
Example C35_case : results (login [CBegin []; CTxExec 0 q2 []; CRollback 0; CCommit 0; CRollback 0; CBegin (str "movies"); CCommit 0; CCommit 1] (server P4 [] true))
  = [Ok (ATx 0); Ok (AMeta []); Ok ADone; Err (ENew (TMsg 1)); Err (ENew (TMsg 1)); Ok (ATx 1); Err (ENew (TMsg 1)); Ok ADone].
Proof. vm_compute. reflexivity. Qed.

(** ** C36: true if statements are not run in a transaction after a failure in it or after its end *)
Theorem C36_atomic_partial p P user password l c w : session clean_call p P user password l (c, w) -> all_disciplined p l ->
  Forall2 (fun x st => is_stmt (codec p) (fst x) (snd x) st) (lg_perm (ledger_of l)) (s_perm (w_srv w)).
Proof. exact (permanent_ledger p P user password l c w). Qed.
Print Assumptions C36_atomic_partial.
(** A transaction in which the first statement failed, the second succeeded, and which was rolled
    back: the second is permanent. *)
Theorem C36_atomic_refuted : exists P l c w,
  session clean_call P4 P (str "neo4j") (str "secret") l (c, w)
  /\ lg_perm (ledger_of l) = []
  /\ map fst l = [CBegin []; CTxQuery 0 q1 [] []; CTxQuery 0 q2 [] []; CRollback 0]
  /\ exists st, s_perm (w_srv w) = [st] /\ st_text st = q2.
Proof. exact not_atomic. Qed.
Print Assumptions C36_atomic_refuted.
Example C36_case : exists l c w,
  session clean_call P4 (server P4 [] true) (str "neo4j") (str "secret") l (c, w) /\ all_disciplined P4 l
  /\ map fst (lg_perm (ledger_of l)) = [q1; q2; q2].
Proof.
  let x := eval vm_compute in (login [CExec q1 [] []; CBegin []; CTxExec 0 q2 []; CRollback 0; CBegin []; CTxExec 1 q2 []; CExec q2 [] []; CCommit 1] (server P4 [] true)) in
  match x with Some (?l, (?c, ?w)) => exists l, c, w end.
  split; [session_of P4 (@nil outcome) true [CExec q1 [] []; CBegin []; CTxExec 0 q2 []; CRollback 0; CBegin []; CTxExec 1 q2 []; CExec q2 [] []; CCommit 1]|].
  split; [|reflexivity].
  repeat match goal with
  | |- all_disciplined _ [] => constructor
  | |- all_disciplined ?p ?l =>
      let l1 := eval cbn in (removelast l) in
      match eval cbn in (last l (CClose, Panic)) with
      | (?o, ?r) => change l with (l1 ++ [(o, r)]); apply ad_snoc; [|repeat split]
      end
  end.
Qed.

(** ** C37 *)
Theorem C37_finished_refuted : exists P l c w c' w' a,
  session clean_call P4 P (str "neo4j") (str "secret") l (c, w)
  /\ l = [(CBegin [], Ok (ATx 0)); (CTxQuery 0 q1 [] [], Ok (ARows [] [])); (CRollback 0, Ok ADone)]
  /\ does (wired P) (CTxQuery 0 q2 [] []) (c, w) (c', w') (Ok a)
  /\ exists st, s_perm (w_srv w') = s_perm (w_srv w) ++ [st] /\ st_text st = q2.
Proof. exact finished_runs. Qed.
Print Assumptions C37_finished_refuted.

(** On every network and in every state a query method does the same whatever transaction it belongs
    to, and Exec does what Exec of the connection does. *)
Theorem C37_ignored_refuted {St} (N : net St) t1 t2 q ps db w w' r :
  (does N (CTxQuery t1 q ps db) w w' r <-> does N (CTxQuery t2 q ps db) w w' r)
  /\ (does N (CTxExecDb t1 q ps db) w w' r <-> does N (CTxExecDb t2 q ps db) w w' r)
  /\ (does N (CTxExec t1 q ps) w w' r <-> does N (CExec q ps []) w w' r).
Proof.
  exact (conj (conj (any_transaction N t1 t2 q ps db w w' r) (any_transaction N t2 t1 q ps db w w' r))
    (conj (conj (proj1 (any_transaction_exec N t1 t2 q ps db w w' r)) (proj1 (any_transaction_exec N t2 t1 q ps db w w' r)))
      (conj (proj2 (any_transaction_exec N t1 t2 q ps db w w' r)) (fun H => H)))).
Qed.
Print Assumptions C37_ignored_refuted.
(** True of transactions finished by closing the connection. *)
Theorem C37_closed_partial {St} (N : net St) l w a w1 l' w2 t q ps db : used N l w -> does N CClose w w1 (Ok a) ->
  history N (fun _ _ => True) w1 l' w2 -> refuses N (CTxQuery t q ps db) w2 /\ refuses N (CTxExecDb t q ps db) w2 /\ refuses N (CTxExec t q ps) w2.
Proof.
  exact (fun H1 H2 H3 =>
    conj (closed_refuses N l w a w1 l' w2 (CTxQuery t q ps db) H1 H2 H3 (or_introl (fun E => eq_ind (Some (q, ps)) (fun o => match o with Some _ => True | None => False end) I None E)))
      (conj (closed_refuses N l w a w1 l' w2 (CTxExecDb t q ps db) H1 H2 H3 (or_introl (fun E => eq_ind (Some (q, ps)) (fun o => match o with Some _ => True | None => False end) I None E)))
         (closed_refuses N l w a w1 l' w2 (CTxExec t q ps) H1 H2 H3 (or_introl (fun E => eq_ind (Some (q, ps)) (fun o => match o with Some _ => True | None => False end) I None E))))).
Qed.
Print Assumptions C37_closed_partial.

(** ** C38 *)
Theorem C38_closed_refuses {St} (N : net St) l w a w1 l' w2 o : used N l w -> does N CClose w w1 (Ok a) ->
  history N (fun _ _ => True) w1 l' w2 -> statement_of o <> None \/ (exists db, o = CBegin db) -> refuses N o w2.
Proof. exact (closed_refuses N l w a w1 l' w2 o). Qed.
Print Assumptions C38_closed_refuses.
Theorem C38_second_close {St} (N : net St) l w a w1 l' w2 w3 r : used N l w -> does N CClose w w1 (Ok a) ->
  history N (fun _ _ => True) w1 l' w2 -> does N CClose w2 w3 r -> w3 = w2 /\ r = Err (ESentinel 4).
Proof. exact (closed_closes N l w a w1 l' w2 w3 r). Qed.
Print Assumptions C38_second_close.
Example C38_case : results (login [CQuery q1 [] []; CBegin []; CClose; CQuery q1 [] []; CTxExec 0 q1 []; CBegin []; CClose] (server P3 [done; rows] true))
  = [Ok (ARows [row1; row2] summary); Ok (ATx 0); Ok ADone; Err (ENew (TMsg 5)); Err (ENew (TMsg 5)); Err (ENew (TMsg 9)); Err (ESentinel 4)].
Proof. vm_compute. reflexivity. Qed.

(** ** C39: true unless the rollback of an open transaction fails *)
Theorem C39_close_partial p P user password l c w c' w' r :
  session clean_call p P user password l (c, w) -> c_closed c = false ->
  (forall t, tx_closed c t = true)
  \/ ready w /\ allows KRollback (w_srv w) /\ (forall md, j_outcome (p_judge P) (s_next (w_srv w)) <> Refused md) ->
  does (wired P) CClose (c, w) (c', w') r ->
  r = Ok ADone /\ c_closed c' = true /\ s_hung (w_srv w') = true.
Proof. exact (close_closes p P user password l c w c' w' r). Qed.
Print Assumptions C39_close_partial.
(** A connection that can never be closed. *)
Theorem C39_close_refuted : exists P l c w,
  session clean_call P4 P (str "neo4j") (str "secret") l (c, w) /\ c_closed c = false
  /\ forall l' c' w', history (wired P) clean_call (c, w) l' (c', w') ->
     c_closed c' = false /\ forall r, In (CClose, r) l' -> exists e, r = Err e.
Proof. exact cannot_close. Qed.
Print Assumptions C39_close_refuted.
Example C39_case :
  results (login [CBegin []; CTxExec 0 q2 []; CClose] (server P4 [] true)) = [Ok (ATx 0); Ok (AMeta []); Ok ADone]
  /\ s_perm (w_srv (snd (final (login [CBegin []; CTxExec 0 q2 []; CClose] (server P4 [] true))))) = [].
Proof. vm_compute. auto. Qed.

(** ** C40: true of conforming servers *)
Theorem C40_accepted_partial p P user password c w :
  conforming p P -> zlen user <= 65535 -> zlen password <= 65535 ->
  opens (wired P) user password new_wire (c, w) (Ok tt) ->
  (forall md, j_outcome (p_judge P) 0 <> Refused md) /\ ready w /\ c_closed c = false.
Proof. exact (accepted_open p P user password c w). Qed.
Print Assumptions C40_accepted_partial.
(** On any network: the login was answered with SUCCESS and the connection is open, or it was answered
    with something that is neither SUCCESS nor FAILURE, and the connection is closed. *)
Theorem C40_reply_partial {St} (N : net St) user password s c s' tr :
  opens (watched N) user password (s, []) (c, (s', tr)) (Ok tt) ->
  exists vb p, get_protocol (Some vb) = (Some p, proto_number p, None) /\ c_proto c = p
  /\ let start := [VDial None; VWrite handshake_bytes (20, None); VRead (vb, None);
                   VSend (get_init_message p client_id (auth_basic user password)) None] in
     (exists md, tr = start ++ [VRecv (Ok (GSuccess md))] /\ c_closed c = false)
     \/ (exists m tr', tr = start ++ VRecv (Ok m) :: tr' /\ (forall md, m <> GSuccess md)
           /\ (forall md, m <> GFailure md) /\ c_closed c = true).
Proof. exact (open_events N user password s c s' tr). Qed.
Print Assumptions C40_reply_partial.
(** IGNORED in answer to the login: no error, and a closed connection. *)
Theorem C40_accepted_refuted : exists c,
  opens (parrot GIgnored) (str "neo4j") (str "secret") tt (c, tt) (Ok tt) /\ c_closed c = true.
Proof. exact odd_reply. Qed.
Print Assumptions C40_accepted_refuted.
Example C40_case :
  snd (exec (wired (server P4 [done] false)) (create_bolt_conn 50) (fresh_conn (str "neo4j") (str "secret")) new_wire) = Ok tt
  /\ (exists e, snd (exec (wired (server P4 [oops] false)) (create_bolt_conn 50) (fresh_conn (str "neo4j") (str "secret")) new_wire)
     = Err e /\ inner_most e = EFailure fault).
Proof. split; [vm_compute; reflexivity|]. eexists. split; vm_compute; reflexivity. Qed.

(** ** C41 *)
Theorem C41_same_request {St} (N : net St) n q ps t c s : c_mode c = ReadMode ->
  let '(c', s', r) := exec N (do_call n (CQuery q ps [])) c s in
  exec N (do_call n (CTxQuery t q ps [])) c s = (c', s', r)
  /\ exec N (do_call n (CExec q ps [])) c s = (c', s', answer_meta r)
  /\ exec N (do_call n (CTxExec t q ps)) c s = (c', s', answer_meta r)
  /\ exec N (do_call n (CTxExecDb t q ps [])) c s = (c', s', answer_meta r).
Proof. exact (same_request N n q ps t c s). Qed.
Print Assumptions C41_same_request.
(** Every connection made by this client has that mode. *)
Theorem C41_mode {St} (N : net St) l c s : used N l (c, s) -> c_mode c = ReadMode.
Proof. exact (fun H => d_mode c (used_decent N l (c, s) H)). Qed.
Print Assumptions C41_mode.
Example C41_case : results (login [CBegin []; CQuery q1 ps []; CTxQuery 0 q1 ps []; CTxExec 0 q1 ps; CTxExecDb 0 q1 ps []; CExec q1 ps []]
    (server P4 [done; done; rows; rows; rows; rows; rows] true))
  = [Ok (ATx 0); Ok (ARows [row1; row2] summary); Ok (ARows [row1; row2] summary); Ok (AMeta summary); Ok (AMeta summary); Ok (AMeta summary)].
Proof. vm_compute. reflexivity. Qed.

(** ** C42: true of statements; Begin, Commit, Rollback and Close do not take the mutex *)
Theorem C42_own_results_partial p P user password l c w n gs is x results :
  session clean_call p P user password l (c, w) ->
  (forall calls o, In calls gs -> In o calls -> statement_of o <> None /\ clean_call c o) ->
  schedule (wired P) is (start n c w gs) = Some x -> finished x results ->
  (forall rs y, In rs results -> In y rs -> snd y <> NoFuel) ->
  exists order pieces,
    session clean_call p P user password (l ++ map snd order) (sy_conn x, sy_net x)
    /\ s_done (w_srv (sy_net x)) = s_done (w_srv w) ++ concat pieces
    /\ Forall2 (served p) (map snd order) pieces
    /\ length results = length gs
    /\ (forall y, In y order -> (fst y < length gs)%nat)
    /\ forall i calls, nth_error gs i = Some calls ->
         nth_error results i = Some (mine i order) /\ map fst (mine i order) = calls.
Proof. exact (concurrent_own_results p P user password l c w n gs is x results). Qed.
Print Assumptions C42_own_results_partial.
(** On any network the effect is that of some sequential order. *)
Theorem C42_serializable_partial {St} (N : net St) n c s gs :
  (forall calls o, In calls gs -> In o calls -> statement_of o <> None) ->
  forall is x results, schedule N is (start n c s gs) = Some x -> finished x results ->
  exists order,
    exec N (serial n (map (fun y => fst (snd y)) order) []) c s = (sy_conn x, sy_net x, Ok (map snd order))
    /\ (forall y, In y order -> (fst y < length gs)%nat)
    /\ length results = length gs
    /\ forall i calls, nth_error gs i = Some calls ->
         nth_error results i = Some (mine i order) /\ map fst (mine i order) = calls.
Proof. exact (serializable N n c s gs). Qed.
Print Assumptions C42_serializable_partial.
(** No schedule runs forever, and each can be completed. *)
Theorem C42_finishes_partial {St} (N : net St) n c s gs is x :
  (forall calls o, In calls gs -> In o calls -> statement_of o <> None) ->
  schedule N is (start n c s gs) = Some x ->
  Acc (moves N) x
  /\ exists js y results, schedule N (is ++ js) (start n c s gs) = Some y /\ finished y results.
Proof. exact (always_finishes N n c s gs is x). Qed.
Print Assumptions C42_finishes_partial.
(** A concurrent Begin takes a row from the query, which returns without it and without an error. *)
Theorem C42_begin_steals_refuted : exists P c w x e,
  session clean_call P4 P (str "neo4j") (str "secret") [] (c, w)
  /\ (exists is, schedule (wired P) is (start 50 c w [[CQuery q1 [] []]; [CBegin []]]) = Some x)
  /\ finished x [[(CQuery q1 [] [], Ok (ARows [row2] summary))]; [(CBegin [], Err e)]]
  /\ map (fun y => (st_text (fst y), snd y)) (s_done (w_srv (sy_net x))) = [(q1, rows)]
  /\ w_down (sy_net x) <> [].
Proof. exact stolen. Qed.
Print Assumptions C42_begin_steals_refuted.
(** On every network each call that is no statement runs from beginning to end while a statement holds the mutex. *)
Theorem C42_unguarded_refuted {St} (N : net St) n o (x : sys St (list (call * res answer))) i : statement_of o = None ->
  nth_error (sy_threads x) i = Some (serial n [o] []) -> sy_locked x = true ->
  exists k c s r, exec N (do_call n o) (sy_conn x) (sy_net x) = (c, s, r)
  /\ schedule N (repeat i k) x = Some (mkSys c s true (put_nth i (Ret (Ok [(o, r)])) (sy_threads x))).
Proof. exact (unguarded N n o x i). Qed.
Print Assumptions C42_unguarded_refuted.
Example C42_case : exists is x,
  (let '(c, w) := final (login [] (server P4 [done; rows; done] false)) in
   schedule (wired (server P4 [done; rows; done] false)) is (start 50 c w [[CQuery q1 [] []]; [CExec q2 [] []]])) = Some x
  /\ finished x [[(CQuery q1 [] [], Ok (ARows [row1; row2] summary))]; [(CExec q2 [] [], Ok (AMeta []))]].
Proof.
  (* the second goroutine starts while the first holds the mutex *)
  exists ([0; 1; 0; 0; 0] ++ repeat 0 12 ++ repeat 1 11)%nat. eexists. split; [vm_compute; reflexivity|vm_compute; reflexivity].
Qed.

(** ** C43: true if the server did not report a failure during the call and the link failed otherwise
    than by a regular end of the stream *)
Theorem C43_reported_partial {St} (N : net St) o c s c' s' tr r v e :
  does (watched N) o (c, (s, [])) (c', (s', tr)) r ->
  forallb (fun v => negb (is_failure v)) tr = true -> In v tr -> transport_error v = Some e ->
  exists e', r = Err e' /\ inner_most e' = inner_most e.
Proof. exact (lost_link N o c s c' s' tr r v e). Qed.
Print Assumptions C43_reported_partial.
Theorem C43_write_partial v e x e' err : snd (encode v x) = None -> encoder_encode v e x = (e', Some err) -> inner_most err = EBadConn.
Proof. exact (broken_write v e x e' err). Qed.
Print Assumptions C43_write_partial.
Theorem C43_read_partial r e : r_end r = EBadConn -> nonempty (r_frags r) -> read_message r = Err e -> inner_most e = EBadConn.
Proof. exact (broken_read r e). Qed.
Print Assumptions C43_read_partial.
(** The server closed the connection: the error is io.EOF. *)
Theorem C43_end_of_stream_refuted : exists P l c w c' w' e,
  session clean_call P4 P (str "neo4j") (str "secret") l (c, w) /\ c_closed c = false
  /\ does (wired P) (CQuery q2 [] []) (c, w) (c', w') (Err e) /\ inner_most e = EEOF
  /\ exists e1 e2, map snd l = [Ok (ATx 0); Err e1; Err e2] /\ inner_most e1 = EFailure fault.
Proof. exact hangs_up. Qed.
Print Assumptions C43_end_of_stream_refuted.
(** The link broke during the reset that follows a failure: the failure is reported. *)
Theorem C43_masked_refuted : exists P l c w c' w' e,
  used (wired P) l (c, w) /\ conforming P4 (server P4 [done; oops] false) /\ P = break_at 7 0 (server P4 [done; oops] false)
  /\ does (wired P) (CQuery q1 [] []) (c, w) (c', w') (Err e) /\ w_dead w' = true /\ inner_most e = EFailure fault.
Proof. exact failure_masks. Qed.
Print Assumptions C43_masked_refuted.
Example C43_case : map (fun r => match r with Err e => Some (inner_most e) | _ => None end)
    (results (login [CQuery q1 [] []; CQuery q2 [] []] (break_at 5 5 (server P4 [done; rows] false))))
  = [Some EBadConn; Some EBadConn].
Proof. vm_compute. reflexivity. Qed.

(** ** C44: true while the link works (C32) *)
Theorem C44_stale_rows_refuted : exists P l c w c' w' e,
  used (wired P) l (c, w) /\ conforming P4 (server P4 [done; rows] false) /\ P = late_at 6 0 (server P4 [done; rows] false)
  /\ l = [(CQuery q1 [] [], Err e)]
  /\ does (wired P) (CQuery q2 [] []) (c, w) (c', w') (Ok (ARows [row1; row2] summary))
  /\ map (fun x => (st_text (fst x), snd x)) (s_done (w_srv w')) = [(q1, rows); (q2, done)].
Proof. exact stale_rows. Qed.
Print Assumptions C44_stale_rows_refuted.

(** On every network the rows returned are the records received after the request was sent. *)
Theorem C44_received_partial {St} (N : net St) o q ps c s c' s' tr rows md : statement_of o = Some (q, ps) ->
  does (watched N) o (c, (s, [])) (c', (s', tr)) (Ok (ARows rows md)) ->
  exists m0 m1 md0, tr = [VSend m0 None; VSend m1 None; VRecv (Ok (GSuccess md0))]
      ++ map (fun row => VRecv (Ok (GRecord row))) rows ++ [VRecv (Ok (GSuccess md))]
    /\ wish_of m0 = WRun q ps /\ wish_of m1 = WPull.
Proof. exact (received_rows N o q ps c s c' s' tr rows md). Qed.
Print Assumptions C44_received_partial.
(** While the link works they are the rows of the statement just executed. *)
Theorem C44_own_partial p P user password l c w o q ps c' w' rows md :
  session clean_call p P user password l (c, w) -> statement_of o = Some (q, ps) -> clean_call c o -> ordinary p q = true ->
  does (wired P) o (c, w) (c', w') (Ok (ARows rows md)) ->
  exists st rm, s_done (w_srv w') = s_done (w_srv w) ++ [(st, Produced rm rows md)] /\ is_stmt (codec p) q ps st.
Proof. exact (own_rows_only p P user password l c w o q ps c' w' rows md). Qed.
Print Assumptions C44_own_partial.
Example C44_case : exists c' m0 m1,
  does (watched (parrot (GSuccess summary))) (CQuery q1 ps []) (set_proto P4 (fresh_conn [] []), (tt, []))
    (c', (tt, [VSend m0 None; VSend m1 None; VRecv (Ok (GSuccess summary)); VRecv (Ok (GSuccess summary))])) (Ok (ARows [] summary)).
Proof. eexists _, _, _. exists 6%nat; split; [vm_compute; reflexivity|discriminate]. Qed.

(** ** C45 *)
Theorem C45_counts_partial key md :
  (forall z, reported md key z -> stat_unchecked key md = Ok (z, true))
  /\ (unreported md key \/ malformed md key -> stat_unchecked key md = Panic)
  /\ ((forall s, map_get md (str "stats") <> Some (GMap s)) -> stat_unchecked key md = Ok (-1, false)).
Proof. exact (stat_cases key md). Qed.
Print Assumptions C45_counts_partial.
Theorem C45_crashes_refuted key md : stat_unchecked key md = Panic <-> unreported md key \/ malformed md key.
Proof. exact (stat_never_crashes_iff key md). Qed.
Print Assumptions C45_crashes_refuted.
Theorem C45_nodes_deleted_partial md :
  (forall z, reported md (str "nodes-deleted") z -> get_nodes_deleted md = Ok (z, true))
  /\ (unreported md (str "nodes-deleted") \/ (forall s, map_get md (str "stats") <> Some (GMap s)) -> get_nodes_deleted md = Ok (-1, false))
  /\ (malformed md (str "nodes-deleted") -> get_nodes_deleted md = Panic).
Proof. exact (deleted_cases md). Qed.
Print Assumptions C45_nodes_deleted_partial.
(** Each is read under its own name. *)
Theorem C45_names_partial md z : 
  (reported md (str "nodes-created") z -> get_nodes_created md = Ok (z, true))
  /\ (reported md (str "relationships-created") z -> get_relationships_created md = Ok (z, true))
  /\ (reported md (str "nodes-deleted") z -> get_nodes_deleted md = Ok (z, true))
  /\ (reported md (str "relationships-deleted") z -> get_relationships_deleted md = Ok (z, true)).
Proof.
  split; [exact (proj1 (stat_cases _ md) z)|]. split; [exact (proj1 (stat_cases _ md) z)|].
  split; [exact (proj1 (deleted_cases md) z)|exact (proj1 (stat_cases _ md) z)].
Qed.
Print Assumptions C45_names_partial.
Example C45_case :
  get_nodes_created [(str "stats", GMap [(str "nodes-created", GInt KInt64 3)])] = Ok (3, true)
  /\ get_nodes_created [(str "stats", GMap [(str "labels-added", GInt KInt64 3)])] = Panic
  /\ get_nodes_deleted [(str "stats", GMap [(str "labels-added", GInt KInt64 3)])] = Ok (-1, false)
  /\ get_nodes_created [(str "type", GStr (str "r"))] = Ok (-1, false).
Proof. vm_compute. auto. Qed.

(** ** C87: on every network *)
(** What happens during a call follows the discipline of SpecTalk.v, and a call that succeeds leaves
    no answer unread. *)
Theorem C87_discipline {St} (N : net St) o c s c' s' tr r : does (watched N) o (c, (s, [])) (c', (s', tr)) r ->
  exists st, walk (Owes 0) tr = Some st /\ settled_talk st = true
    /\ (forall a, r = Ok a -> st = match o with CClose => Parted | _ => Owes 0 end).
Proof. exact (call_talk N o c s c' s' tr r). Qed.
Print Assumptions C87_discipline.
Theorem C87_opening {St} (N : net St) user password s c' s' tr r : opens (watched N) user password (s, []) (c', (s', tr)) r ->
  exists st, walk (Owes 0) tr = Some st /\ settled_talk st = true /\ (r = Ok tt -> st = Owes 0 \/ st = Parted).
Proof. exact (open_talk N user password s c' s' tr r). Qed.
Print Assumptions C87_opening.
(** A peer that answers everything with a failure: RESET is sent, fails too, and the link is closed. *)
Example C87_case : exists c' e,
  does (watched (parrot (GFailure fault))) (CQuery q1 ps []) (set_proto P4 (fresh_conn [] []), (tt, []))
    (c', (tt, [VSend (autocommit_run q1 ps 0 None [] ReadMode) None; VSend (pull_message (-1) (-1)) None; VRecv (Ok (GFailure fault));
               VSend GReset None; VRecv (Ok (GFailure fault)); VSend (GStructure 2 []) None; VHang None])) (Err e)
  /\ walk (Owes 0) [VSend (autocommit_run q1 ps 0 None [] ReadMode) None; VSend (pull_message (-1) (-1)) None; VRecv (Ok (GFailure fault));
               VSend GReset None; VRecv (Ok (GFailure fault)); VSend (GStructure 2 []) None; VHang None] = Some Parted
  /\ walk (Owes 0) [VSend (run_message q1 ps) None; VRecv (Ok (GFailure fault)); VSend (run_message q2 []) None] = None
  /\ walk (Owes 0) [VSend (run_message q1 ps) None; VRecv (Ok (GSuccess [])); VRecv (Ok (GSuccess []))] = None.
Proof.
  eexists. eexists. split; [exists 6%nat; split; [vm_compute; reflexivity|discriminate]|].
  repeat split.
Qed.

(** ** C88: on every network *)
(** A call asks for its errands, in their order. If it succeeds, for all of them and nothing else;
    without a failure reported by the peer, for nothing else. *)
Theorem C88_errands {St} (N : net St) o c s c' s' tr r : does (watched N) o (c, (s, [])) (c', (s', tr)) r ->
  exists a b, wishes tr = a ++ b /\ (exists rest, errands (proto_number (c_proto c)) (has_tx c) o = a ++ rest)
    /\ Forall (amends (proto_number (c_proto c))) b /\ (no_blame tr -> b = [])
    /\ (forall x, r = Ok x -> a = errands (proto_number (c_proto c)) (has_tx c) o /\ b = []).
Proof. exact (call_wishes N o c s c' s' tr r). Qed.
Print Assumptions C88_errands.
(** Whatever happens, no call sends a second statement. *)
Theorem C88_once {St} (N : net St) o c s c' s' tr r : does (watched N) o (c, (s, [])) (c', (s', tr)) r ->
  (length (filter counted (wishes tr)) <= 1)%nat.
Proof. exact (once N o c s c' s' tr r). Qed.
Print Assumptions C88_once.
Example C88_case : exists c' tr,
  does (watched (parrot (GSuccess []))) (CBegin []) (set_proto P2 (fresh_conn [] []), (tt, [])) (c', (tt, tr)) (Ok (ATx 0))
  /\ wishes tr = [WRun (str "BEGIN") []; WPull].
Proof. eexists. eexists. split; [exists 6%nat; split; [vm_compute; reflexivity|discriminate]|reflexivity]. Qed.

(** ** C121: a parameter that the server returns comes back unchanged *)

(** Of a server that answers with the parameters it received: they come back in their received form (C03), if they
    have one. Through the encoder, the link, the server, the link in any pieces, and the decoder. *)
Theorem C121_echo_partial p P user password l c w o q ps c' w' r :
  session clean_call p P user password l (c, w) -> ready w -> statement_of o = Some (q, ps) ->
  match o with CQuery _ _ _ | CTxQuery _ _ _ _ => True | _ => False end -> goes_out c o -> ordinary p q = true ->
  Forall (fun kv => plain (codec p) (snd kv) = true) ps -> does (wired P) o (c, w) (c', w') r ->
  (forall st x, s_done (w_srv w') = s_done (w_srv w) ++ [(st, x)] -> echoes (codec p) st x) ->
  exists widen md, exact_widening widen /\ r = Ok (ARows [map (fun kv => received widen (snd kv)) ps] md).
Proof. exact (echo_back p P user password l c w o q ps c' w' r). Qed.
Print Assumptions C121_echo_partial.
(** Missing: values without a received form. A uint above the largest int64 comes back negative. *)
Theorem C121_uint_refuted : exists P l c w c' w' st,
  session clean_call P4 P (str "neo4j") (str "secret") l (c, w) /\ ready w
  /\ does (wired P) (CQuery q1 [(str "x", GInt KUint (2 ^ 64 - 1))] []) (c, w) (c', w') (Ok (ARows [[GInt KInt64 (-1)]] []))
  /\ s_done (w_srv w') = s_done (w_srv w) ++ [(st, mirror)] /\ echoes (codec P4) st mirror.
Proof. exact echo_wrong. Qed.
Print Assumptions C121_uint_refuted.
Example C121_case :
  let x := login [CQuery q1 [(str "when", GDate 18000); (str "where", GFloat32 1065353216); (str "what", GTSlice [GInt KInt8 3; GStr (str "b")])] []]
    (server P4 [done; Produced [] [[GDate 18000; GFloat64 4607182418800017408; GSlice [GInt KInt64 3; GStr (str "b")]]] []] false) in
  brief x = [Ok (ARows [[GDate 18000; GFloat64 4607182418800017408; GSlice [GInt KInt64 3; GStr (str "b")]]] [])]
  /\ map (fun y => map (fun kv => meaning V2 (snd kv)) (st_params (fst y))) (s_done (w_srv (snd (final x))))
     = [[Some (GDate 18000); Some (GFloat64 4607182418800017408); Some (GSlice [GInt KInt64 3; GStr (str "b")])]].
Proof. vm_compute. split; reflexivity. Qed.

(** ** C122: calls of several goroutines have the effect of the same calls in some order *)

(** True of statements, which take the connection's mutex. *)
Theorem C122_statements_partial {St} (N : net St) n c s gs is x results :
  (forall calls o, In calls gs -> In o calls -> statement_of o <> None) ->
  schedule N is (start n c s gs) = Some x -> finished x results -> (forall l y, In l results -> In y l -> snd y <> NoFuel) ->
  in_some_order N (c, s) gs results (sy_conn x, sy_net x).
Proof. exact (statements_ordered N n c s gs is x results). Qed.
Print Assumptions C122_statements_partial.
(** True of all calls if the callers have a mutex of their own around each; no schedule then deadlocks. *)
Theorem C122_turns_partial {St} (N : net St) n c s gs is x results :
  schedule N is (take_turns n c s gs) = Some x -> finished x results -> (forall l y, In l results -> In y l -> snd y <> NoFuel) ->
  in_some_order N (c, s) gs results (sy_conn x, sy_net x).
Proof. exact (turns_ordered N n c s gs is x results). Qed.
Print Assumptions C122_turns_partial.
Theorem C122_turns_finish_partial {St} (N : net St) n c s gs is x : schedule N is (take_turns n c s gs) = Some x ->
  Acc (moves N) x /\ exists js y results, schedule N (is ++ js) (take_turns n c s gs) = Some y /\ finished y results.
Proof. exact (turns_finish N n c s gs is x). Qed.
Print Assumptions C122_turns_finish_partial.
(** A Begin that finds a transaction is refused at once, in every state of the others. *)
Theorem C122_begin_sees_partial {St} (N : net St) n db rest acc t (x : sys St (list (call * res answer))) i :
  nth_error (sy_threads x) i = Some (serial n (CBegin db :: rest) acc) -> c_transaction (sy_conn x) = Some t ->
  exists e, sys_step N i x = Some (mkSys (sy_conn x) (sy_net x) (sy_locked x)
    (put_nth i (serial n rest (acc ++ [(CBegin db, Err e)])) (sy_threads x))).
Proof. exact (begin_sees N n db rest acc t x i). Qed.
Print Assumptions C122_begin_sees_partial.
(** False of Begin: two that look before either has its transaction both ask the server. The second is refused there, and
    its reset ends the transaction of the first, whose statement is executed and kept at once; its Rollback fails. *)
Theorem C122_begin_refuted : exists P c w x e1 e2,
  let gs := [[CBegin []; CTxExecDb 0 q2 [] []; CRollback 0]; [CBegin []]] in
  let results := [[(CBegin [], Ok (ATx 0)); (CTxExecDb 0 q2 [] [], Ok (AMeta [])); (CRollback 0, Err e1)]; [(CBegin [], Err e2)]] in
  session clean_call P4 P (str "neo4j") (str "secret") [] (c, w)
  /\ (exists is, schedule (wired P) is (start 50 c w gs) = Some x) /\ finished x results
  /\ map st_text (s_perm (w_srv (sy_net x))) = [q2]
  /\ ~ in_some_order (wired P) (c, w) gs results (sy_conn x, sy_net x).
Proof. exact crossed. Qed.
Print Assumptions C122_begin_refuted.
(** The same goroutines taking turns: the Begin that comes second is refused, and Rollback leaves nothing. *)
Example C122_case :
  let P := server P4 [done; done; done; rows] false in
  let '(c, w) := final (login [] P) in
  match schedule (wired P) (repeat 0 9 ++ repeat 1 3 ++ repeat 0 20)%nat
      (take_turns 50 c w [[CBegin []; CTxExecDb 0 q2 [] []; CRollback 0]; [CBegin []]]) with
  | Some x => map (fun t => match t with Ret (Ok l) => Some (map (fun y => match snd y with Ok _ => true | _ => false end) l) | _ => None end) (sy_threads x)
                = [Some [true; true; true]; Some [false]]
              /\ s_perm (w_srv (sy_net x)) = []
  | None => False
  end.
Proof. vm_compute. split; reflexivity. Qed.

(** ** C125 *)
(** On every network: a call during which FAILURE messages arrive fails, with an error that leads to the first of them, and an
    error that leads to a FAILURE message leads to the first one that arrived during the call (unless the network itself
    reported it); it panics only if reading a message did. *)
Theorem C125_call_partial {St} (N : net St) o c s c' s' tr r : does (watched N) o (c, (s, [])) (c', (s', tr)) r ->
  (forall md rest, complaints tr = md :: rest -> r <> Panic -> exists e, r = Err e /\ inner_most e = EFailure md)
  /\ (forall e md, r = Err e -> inner_most e = EFailure md -> (exists rest, complaints tr = md :: rest) \/ (complaints tr = [] /\ second_hand tr md))
  /\ (r = Panic -> In (VRecv Panic) tr).
Proof. exact (call_tells N o c s c' s' tr r). Qed.
Print Assumptions C125_call_partial.
Theorem C125_open_partial {St} (N : net St) user password s c' s' tr r : opens (watched N) user password (s, []) (c', (s', tr)) r ->
  (forall md rest, complaints tr = md :: rest -> r <> Panic -> exists e, r = Err e /\ inner_most e = EFailure md)
  /\ (forall e md, r = Err e -> inner_most e = EFailure md -> (exists rest, complaints tr = md :: rest) \/ (complaints tr = [] /\ second_hand tr md))
  /\ (r = Panic -> In (VRecv Panic) tr).
Proof. exact (opening_tells N user password s c' s' tr r). Qed.
Print Assumptions C125_open_partial.
(** The text of such an error contains the code and the message that the server sent, *)
Theorem C125_text_partial W e md code message : plain_failures W -> inner_most e = EFailure md ->
  hears md (str "code") code -> hears md (str "message") message ->
  mentions (str "code: [" ++ code ++ str "]; message: [" ++ message ++ str "]") (error_text W e).
Proof. intros P I H1 H2. rewrite <- (failure_reads md code message H1 H2). exact (failure_shown W e md P I). Qed.
Print Assumptions C125_text_partial.
(** Whatever the server sent, the reader is told something about both. *)
Theorem C125_heard md : exists code message, hears md (str "code") code /\ hears md (str "message") message
  /\ failure_text md = str "code: [" ++ code ++ str "]; message: [" ++ message ++ str "]".
Proof. exact (heard_always md). Qed.
Print Assumptions C125_heard.
(** in a form from which both can be read off, if the code has no bracket in it. *)
Theorem C125_readable_partial md1 md2 code1 code2 message1 message2 :
  hears md1 (str "code") code1 -> hears md1 (str "message") message1 -> hears md2 (str "code") code2 -> hears md2 (str "message") message2 ->
  failure_text md1 = failure_text md2 -> ~ In "]"%byte code1 -> ~ In "]"%byte code2 -> code1 = code2 /\ message1 = message2.
Proof.
  intros A1 B1 A2 B2. rewrite <- (hears_code _ _ A1), <- (hears_code _ _ A2), <- (hears_message _ _ B1), <- (hears_message _ _ B2).
  exact (failure_readable md1 md2).
Qed.
Print Assumptions C125_readable_partial.
(** When the reset that follows fails too, the text tells why, if it has no % sign in it. *)
Theorem C125_reset_partial W F e md : formats F -> ~ In "%"%byte (error_text W e) ->
  in_order [error_text W e; w_other W (EFailure md)] (error_text (after_reset W F e) (EWrap (Some (EFailure md)) 21)).
Proof. exact (reset_told W F e md). Qed.
Print Assumptions C125_reset_partial.
(** Otherwise it does not: the text of the error is used as a format. The server refuses a query, then the reset, with the
    message "99%full", which the error that the caller gets does not contain. *)
Theorem C125_reset_refuted : exists c c' s' tr,
  does (watched replies) (CQuery (str "RETRUN 1") [] []) (c, ([GFailure first_md; GFailure second_md], [])) (c', (s', tr)) (Err (EWrap (Some (EFailure first_md)) 21))
  /\ complaints tr = [first_md; second_md]
  /\ (exists n c1 s1, exec replies (reset n) c [GFailure second_md] = (c1, s1, Err (EWrap (Some (EFailure second_md)) 24)))
  /\ forall F, formats F -> ~ mentions (str "99%full") (error_text (after_reset plain_words F (EWrap (Some (EFailure second_md)) 24)) (EWrap (Some (EFailure first_md)) 21)).
Proof. exact reset_garbled. Qed.
Print Assumptions C125_reset_refuted.
Example C125_case :
  hears first_md (str "code") (str "Neo.ClientError.Statement.SyntaxError") /\ hears [] (str "message") (str "none")
  /\ failure_text first_md = str "code: [Neo.ClientError.Statement.SyntaxError]; message: [no]"
  /\ error_text plain_words (EWrap (Some (EFailure first_md)) 20)
     = str "wrapped" ++ [x0a] ++ str "Internal Error(messages.FailureMessage):code: [Neo.ClientError.Statement.SyntaxError]; message: [no]"
       ++ [x0a; x0a] ++ str " Stack Trace:" ++ [x0a; x0a] ++ str "main.go:7"
  /\ get_code [(str "code", GInt KInt64 3)] = str "failed to parse code string".
Proof. repeat split; try (constructor; reflexivity). Qed.
