(** Theorems C26-C30 and C84-C86: version negotiation, requests, and what the versions differ in. *)
From Coq Require Import String ZArith List Bool Lia.
From Verif Require Import Bytes GoVal GoErr Encoder Decoder SpecPack SpecValues SpecCodec SpecParse SpecServer
  Messages Connection Link Wire SpecSession Demo DemoFacts OpenFacts SessionFacts TxFacts WatchFacts MessageFacts Cases CaseFacts
  SpecGrammar SpecDialect DialectFacts Result.
Import ListNotations.
Open Scope Z_scope.

(** ** C26 *)
(** The four bytes of an answer select version n exactly if they are 0, 0, 0, n. *)
Theorem C26_version_exact b p :
  (exists z e, get_protocol (Some b) = (Some p, z, e)) <-> b = version_bytes (proto_number p).
Proof. exact (version_exact b p). Qed.
Print Assumptions C26_version_exact.
(** Anything else is an error. *)
Theorem C26_otherwise_error b : (forall p, b <> Some (version_bytes (proto_number p))) ->
  exists z e, get_protocol b = (None, z, Some e).
Proof. exact (version_error b). Qed.
Print Assumptions C26_otherwise_error.
(** On any network, a connection that was opened wrote the proposals 4, 3, 2, 1 and got the version it uses. *)
Theorem C26_proposals {St} (N : net St) user password s c s' tr :
  opens (watched N) user password (s, []) (c, (s', tr)) (Ok tt) ->
  exists tr', tr = VDial None :: VWrite ([x60; x60; xb0; x17] ++ version_bytes 4 ++ version_bytes 3 ++ version_bytes 2 ++ version_bytes 1) (20, None)
              :: VRead (version_bytes (proto_number (c_proto c)), None) :: tr'.
Proof. exact (open_negotiates N user password s c s' tr). Qed.
Print Assumptions C26_proposals.
(** With a conforming server the session uses the best common version. *)
Theorem C26_best_version p P user password l c w : session clean_call p P user password l (c, w) ->
  negotiated (p_judge P) = Some p /\ c_proto c = p.
Proof. exact (fun H => conj (cf_version _ _ (proj1 H)) (session_version p P user password l c w H)). Qed.
Print Assumptions C26_best_version.
(** Without a common version opening fails. *)
Theorem C26_no_version P user password w r : negotiated (p_judge P) = None -> greets_whole P ->
  (forall n, p_left P n = None) -> (forall n, p_late P n = None) ->
  opens (wired P) user password new_wire w r -> exists e, r = Err e.
Proof. exact (open_fails P user password w r). Qed.
Print Assumptions C26_no_version.
Example C26_case :
  get_protocol (Some [x00; x00; x00; x03]) = (Some P3, 3, None)
  /\ get_protocol (Some [x00; x00; x00; x05]) = (None, -1, Some (EFmt None (TMsg 101)))
  /\ get_protocol (Some [x00; x00; x01; x04]) = (None, -1, Some (EFmt None (TMsg 101))).
Proof. vm_compute. auto. Qed.
Example C26_session_case : exists c w, session clean_call P3 (server P3 [done] false) (str "neo4j") (str "secret") [] (c, w).
Proof.
  exists (fst (final (login [] (server P3 [done] false)))), (snd (final (login [] (server P3 [done] false)))).
  apply (play_session_ok P3 [done] false true 50) with (calls := []); [plain_all|reflexivity|vm_compute; reflexivity].
Qed.

(** ** C27: the mode is inverted; the other entries are carried *)
Theorem C27_access_mode_refuted timeout txmd db :
  map_get (build_tx_metadata_db timeout txmd db ReadMode) (str "mode") = None
  /\ map_get (build_tx_metadata_db timeout txmd db WriteMode) (str "mode") = Some (GStr (str "r")).
Proof. exact (mode_inverted timeout txmd db). Qed.
Print Assumptions C27_access_mode_refuted.
Theorem C27_other_metadata_partial timeout txmd db mode :
  map_get (build_tx_metadata_db timeout txmd db mode) (str "tx_timeout")
    = match timeout with Some d => if d =? 0 then None else Some (GInt KInt64 (Z.quot d 1000000)) | None => None end
  /\ map_get (build_tx_metadata_db timeout txmd db mode) (str "tx_metadata")
    = match txmd with Some (kv :: m) => Some (GMap (kv :: m)) | _ => None end
  /\ map_get (build_tx_metadata_db timeout txmd db mode) (str "db")
    = match db with [] => None | _ => Some (GStr db) end.
Proof. exact (tx_metadata_carried timeout txmd db mode). Qed.
Print Assumptions C27_other_metadata_partial.
Example C27_case :
  build_tx_metadata_db (Some 1500000000) None (str "movies") WriteMode
  = [(str "tx_timeout", GInt KInt64 1500); (str "mode", GStr (str "r")); (str "db", GStr (str "movies"))].
Proof. reflexivity. Qed.

(** ** C28: a realm is dropped exactly when one is given; the rest is carried *)
Theorem C28_realm_refuted user password realm : realm <> [] ->
  map_get (auth_basic_realm user password realm) (str "realm") = None.
Proof. exact (realm_dropped user password realm). Qed.
Print Assumptions C28_realm_refuted.
Theorem C28_token_partial user password realm :
  map_get (auth_basic_realm user password realm) (str "scheme") = Some (GStr (str "basic"))
  /\ map_get (auth_basic_realm user password realm) (str "principal") = Some (GStr user)
  /\ map_get (auth_basic_realm user password realm) (str "credentials") = Some (GStr password).
Proof. exact (token_carried user password realm). Qed.
Print Assumptions C28_token_partial.
Theorem C28_kerberos ticket :
  map_get (auth_kerberos ticket) (str "scheme") = Some (GStr (str "kerberos"))
  /\ map_get (auth_kerberos ticket) (str "principal") = Some (GStr [])
  /\ map_get (auth_kerberos ticket) (str "credentials") = Some (GStr ticket).
Proof. exact (conj eq_refl (conj eq_refl eq_refl)). Qed.
Print Assumptions C28_kerberos.
Example C28_case :
  auth_basic_realm (str "u") (str "p") (str "native")
  = [(str "scheme", GStr (str "basic")); (str "principal", GStr (str "u")); (str "credentials", GStr (str "p"))].
Proof. reflexivity. Qed.

(** As the server reads it: any client name, any version. *)
Theorem C28_sent_partial p agent user password realm : zlen agent <= 65535 -> zlen user <= 65535 -> zlen password <= 65535 ->
  forall o rest, exists w x,
    encoder_encode (codec p) (encoder_on o None 65535) (get_init_message p agent (auth_basic_realm user password realm)) = (encoder_on (o ++ w) None 65535, None)
    /\ parse_message (w ++ rest) = Some (Some x, rest)
    /\ exists md, read_request (proto_number p) x = QLogin md
       /\ look (str "scheme") md = Some (PStr (str "basic")) /\ look (str "principal") md = Some (PStr user) /\ look (str "credentials") md = Some (PStr password)
       /\ look (str "user_agent") md = Some (PStr agent) /\ look (str "realm") md = (if bytes_eqb realm [] then Some (PStr []) else None)
       /\ forall k, look k md <> None -> In k [str "scheme"; str "principal"; str "credentials"; str "user_agent"; str "realm"].
Proof. exact (basic_arrives p agent user password realm). Qed.
Print Assumptions C28_sent_partial.
(** Without a realm (BuildAuthTokenBasic). *)
Theorem C28_basic_partial p agent user password : zlen agent <= 65535 -> zlen user <= 65535 -> zlen password <= 65535 ->
  forall o rest, exists w x,
    encoder_encode (codec p) (encoder_on o None 65535) (get_init_message p agent (auth_basic user password)) = (encoder_on (o ++ w) None 65535, None)
    /\ parse_message (w ++ rest) = Some (Some x, rest)
    /\ exists md, read_request (proto_number p) x = QLogin md
       /\ look (str "scheme") md = Some (PStr (str "basic")) /\ look (str "principal") md = Some (PStr user) /\ look (str "credentials") md = Some (PStr password)
       /\ look (str "user_agent") md = Some (PStr agent) /\ look (str "realm") md = Some (PStr [])
       /\ forall k, look k md <> None -> In k [str "scheme"; str "principal"; str "credentials"; str "user_agent"; str "realm"].
Proof. exact (basic_arrives p agent user password []). Qed.
Print Assumptions C28_basic_partial.
Theorem C28_ticket p agent ticket : zlen agent <= 65535 -> zlen ticket <= 65535 ->
  forall o rest, exists w x,
    encoder_encode (codec p) (encoder_on o None 65535) (get_init_message p agent (auth_kerberos ticket)) = (encoder_on (o ++ w) None 65535, None)
    /\ parse_message (w ++ rest) = Some (Some x, rest)
    /\ exists md, read_request (proto_number p) x = QLogin md
       /\ look (str "scheme") md = Some (PStr (str "kerberos")) /\ look (str "principal") md = Some (PStr []) /\ look (str "credentials") md = Some (PStr ticket)
       /\ look (str "user_agent") md = Some (PStr agent)
       /\ forall k, look k md <> None -> In k [str "scheme"; str "principal"; str "credentials"; str "user_agent"].
Proof. exact (kerberos_arrives p agent ticket). Qed.
Print Assumptions C28_ticket.
(** Any token, if the message fits its chunks and the token has no user_agent of its own. *)
Theorem C28_any_partial p cs agent token : sendable (codec p) cs (get_init_message p agent token) = true -> map_get token (str "user_agent") = None ->
  forall o rest, exists w x,
    encoder_encode (codec p) (encoder_on o None cs) (get_init_message p agent token) = (encoder_on (o ++ w) None cs, None)
    /\ parse_message (w ++ rest) = Some (Some x, rest)
    /\ exists md, read_request (proto_number p) x = QLogin md
       /\ forall k, look k md = if bytes_eqb k (str "user_agent") then Some (PStr agent) else option_map (lower (codec p)) (map_get token k).
Proof. exact (any_login_arrives p cs agent token). Qed.
Print Assumptions C28_any_partial.
Example C28_any_case :
  sendable V2 65535 (get_init_message P4 (str "app") (auth_kerberos (str "t") ++ [(str "realm", GStr (str "native"))])) = true
  /\ map_get (auth_kerberos (str "t") ++ [(str "realm", GStr (str "native"))]) (str "user_agent") = None.
Proof. split; vm_compute; reflexivity. Qed.

(** ** C29: every request the connection sends, when the message fits its chunks ([sendable], see C10) *)
Theorem C29_run_partial p cs q ps db mode ac : sendable (codec p) cs (get_run_message p q ps db mode ac) = true ->
  forall o rest, exists w x,
    encoder_encode (codec p) (encoder_on o None cs) (get_run_message p q ps db mode ac) = (encoder_on (o ++ w) None cs, None)
    /\ parse_message (w ++ rest) = Some (Some x, rest)
    /\ exists ps' md, read_request (proto_number p) x = QRun q ps' md /\ conveys (codec p) ps ps'
       /\ db_of md = match p with P1 | P2 => None | _ => if ac then name_of db else None end.
Proof. exact (run_arrives p cs q ps db mode ac). Qed.
Print Assumptions C29_run_partial.
Theorem C29_begin_partial p cs db mode : sendable (codec p) cs (fst (get_begin_message p db mode)) = true ->
  forall o rest, exists w x,
    encoder_encode (codec p) (encoder_on o None cs) (fst (get_begin_message p db mode)) = (encoder_on (o ++ w) None cs, None)
    /\ parse_message (w ++ rest) = Some (Some x, rest)
    /\ match p with
       | P1 | P2 => read_request (proto_number p) x = QRun (str "BEGIN") [] []
       | _ => exists md, read_request (proto_number p) x = QBegin md /\ db_of md = name_of db
       end.
Proof. exact (begin_arrives p cs db mode). Qed.
Print Assumptions C29_begin_partial.
(** The requests without arguments, for every chunk size. *)
Theorem C29_fixed_requests p cs : 1 <= cs <= 65535 ->
  arrives p cs (fst (get_commit_message p)) (eq match p with P1 | P2 => QRun (str "COMMIT") [] [] | _ => QCommit end)
  /\ arrives p cs (fst (get_rollback_message p)) (eq match p with P1 | P2 => QRun (str "ROLLBACK") [] [] | _ => QRollback end)
  /\ arrives p cs (get_pull_all_message p) (eq QPull)
  /\ arrives p cs reset_message (eq QReset)
  /\ (forall m, get_close_message p = Some m -> arrives p cs m (eq QGoodbye)).
Proof. exact (fixed_arrive p cs). Qed.
Print Assumptions C29_fixed_requests.
Theorem C29_login p user password : zlen user <= 65535 -> zlen password <= 65535 ->
  arrives p 65535 (get_init_message p client_id (auth_basic user password))
    (fun r => exists md, r = QLogin md /\ look (str "scheme") md = Some (PStr (str "basic"))
       /\ look (str "principal") md = Some (PStr user) /\ look (str "credentials") md = Some (PStr password)
       /\ look (str "user_agent") md = Some (PStr (str "GoBolt/0.1"))).
Proof. exact (login_arrives p user password). Qed.
Print Assumptions C29_login.
Theorem C29_pull v cs n id o rest : is_int64 n = true -> is_int64 id = true -> 1 <= cs <= 65535 ->
  exists w md, encoder_encode v (encoder_on o None cs) (pull_message n id) = (encoder_on (o ++ w) None cs, None)
  /\ parse_message (w ++ rest) = Some (Some (PStruct 0x3F [PMap md]), rest)
  /\ look (str "n") md = Some (PInt n) /\ look (str "qid") md = if id =? -1 then None else Some (PInt id).
Proof. exact (pull_arrives v cs n id o rest). Qed.
Print Assumptions C29_pull.
Example C29_case : sendable V2 8 (get_run_message P4 (str "RETURN $x") [(str "x", GInt KInt 5)] (str "db") ReadMode true) = true
  /\ is_int64 1000 = true
  /\ read_request 4 (lower V2 (get_run_message P4 (str "RETURN $x") [(str "x", GInt KInt 5)] (str "db") ReadMode true))
     = QRun (str "RETURN $x") [(str "x", PInt 5)] [(str "db", PStr (str "db"))].
Proof. vm_compute. auto. Qed.
(** The stream limit and query id of a DISCARD never leave the client, and version 4 servers cannot
    read the message. *)
Theorem C29_discard_refuted cs n id n' id' qid : 1 <= cs <= 65535 ->
  discard_message n id = discard_message n' id'
  /\ arrives P4 cs (get_discard_all_message P4) (eq QBad) /\ arrives P4 cs (get_discard_message P4 qid) (eq QBad).
Proof. exact (fun H => conj (discard_loses n id n' id') (discard_unreadable cs qid H)). Qed.
Print Assumptions C29_discard_refuted.
Example C29_discard_case : marshal V2 (discard_message 10 3) = ([x00; x02; xb0; x2f; x00; x00], None).
Proof. vm_compute. reflexivity. Qed.

(** ** C30 *)
(** Statement calls that name a database a server of the session's version cannot be told about are
    refused, on every network. *)
Theorem C30_refused_partial {St} (N : net St) c s o : database_of o <> [] -> multi_database (c_proto c) = false ->
  refuses N o (c, s).
Proof. exact (database_refused N c s o). Qed.
Print Assumptions C30_refused_partial.
(** Otherwise the server runs the statement in the open transaction's database, else in the one the
    call carries, which for calls on the connection is the one named. *)
Theorem C30_carried_partial p P user password l c w o q ps c' w' r :
  session clean_call p P user password l (c, w) -> ready w ->
  statement_of o = Some (q, ps) -> goes_out c o -> ordinary p q = true ->
  does (wired P) o (c, w) (c', w') r ->
  exists st x, s_done (w_srv w') = s_done (w_srv w) ++ [(st, x)]
    /\ st_db st = match s_tx (w_srv w) with
                  | Some (d, _) => d
                  | None => match o with CQuery _ _ db | CExec _ _ db => name_of db | _ => None end
                  end.
Proof.
  exact (fun H1 H2 H3 H4 H5 H6 =>
    match statement_judged p P user password l c w o q ps c' w' r H1 H2 H3 H4 H5 H6 with
    | conj _ (conj _ (conj _ (conj (ex_intro _ st (conj A (conj _ B))) _))) => ex_intro _ st (ex_intro _ _ (conj A B))
    end).
Qed.
Print Assumptions C30_carried_partial.
(** Begin in versions 3 and 4 carries the name. *)
Theorem C30_begin_partial p P user password l c w db c' w' a :
  session clean_call p P user password l (c, w) -> ready w -> asks c (CBegin db) KBegin -> s_tx (w_srv w) = None ->
  does (wired P) (CBegin db) (c, w) (c', w') (Ok a) ->
  s_tx (w_srv w') = Some (match p with P3 | P4 => name_of db | _ => None end, []).
Proof. exact (begin_carries p P user password l c w db c' w' a). Qed.
Print Assumptions C30_begin_partial.
Example C30_case :
  let x := login [CQuery q1 ps (str "movies"); CBegin (str "people"); CTxQuery 0 q2 [] []] (server P4 [done; rows] false) in
  map snd (match x with Some (l, _) => l | None => [] end) = [Ok (ARows [row1; row2] summary); Ok (ATx 0); Ok (ARows [] [])]
  /\ map st_db (map fst (s_done (w_srv (snd (final x))))) = [Some (str "movies"); Some (str "people")].
Proof. vm_compute. auto. Qed.
(** Begin with a database name in versions 1 and 2 drops the name without an error, although the
    connection knows that it cannot be honoured. *)
Theorem C30_begin_refuted : exists P l c w c' w' a,
  session clean_call P2 P (str "neo4j") (str "secret") l (c, w)
  /\ does (wired P) (CBegin (str "movies")) (c, w) (c', w') (Ok a)
  /\ s_tx (w_srv w') = Some (None, []) /\ multi_database (c_proto c) = false.
Proof. exact begin_drops. Qed.
Print Assumptions C30_begin_refuted.
(** A transaction's query that names a database runs in the transaction's database, or, once the
    transaction is over on the server, in the default database. *)
Theorem C30_tx_query_refuted : exists P l c w c' w' a st,
  session clean_call P4 P (str "neo4j") (str "secret") l (c, w)
  /\ does (wired P) (CTxQuery 0 q1 [] (str "movies")) (c, w) (c', w') (Ok a)
  /\ s_done (w_srv w') = s_done (w_srv w) ++ [st] /\ st_db (fst st) = None.
Proof. exact tx_query_drops. Qed.
Print Assumptions C30_tx_query_refuted.

(** ** C84 *)
(** Values of the types that version 2 added are sent exactly from version 2 on. *)
Theorem C84_temporal_values p x : go_typed x = true -> temporal x = true ->
  (snd (encode (codec p) x) = None <-> has_structs2 (proto_number p) = true).
Proof. exact (temporal_sent p x). Qed.
Print Assumptions C84_temporal_values.
(** A structure that version 2 added is read by no connection of version 1; from version 2 on its
    fields are known, which by C82 is when it is read. *)
Theorem C84_structures_read p tz h s b x r : In h struct_markers -> In (bz s) sigs2 ->
  decode (codec p) tz (h :: s :: b) = Ok (x, r) -> has_structs2 (proto_number p) = true.
Proof. exact (struct_received p tz h s b x r). Qed.
Print Assumptions C84_structures_read.
Theorem C84_structures_known p sig : In sig sigs2 ->
  (fields_of (codec p) sig <> None <-> has_structs2 (proto_number p) = true).
Proof. exact (structs_known p sig). Qed.
Print Assumptions C84_structures_known.
(** The requests about transactions, the farewell, the databases and the summary keys. *)
Theorem C84_requests p db mode :
  snd (get_begin_message p db mode) = has_transactions (proto_number p)
  /\ snd (get_commit_message p) = has_transactions (proto_number p)
  /\ snd (get_rollback_message p) = has_transactions (proto_number p)
  /\ get_close_message p = (if has_transactions (proto_number p) then Some (GStructure 2 []) else None)
  /\ multi_database p = has_databases (proto_number p)
  /\ available_after_key p = first_key (proto_number p)
  /\ consumed_after_key p = last_key (proto_number p).
Proof. exact (dialect p db mode). Qed.
Print Assumptions C84_requests.
Example C84_case : go_typed (GClock 3 7200) = true /\ temporal (GClock 3 7200) = true
  /\ In xb1 struct_markers /\ In (bz x44) sigs2
  /\ decode (codec P2) (fun _ => None) [xb1; x44; x03] = Ok (GDate 3, [])
  /\ decode (codec P1) (fun _ => None) [xb1; x44; x03] = Err (ENew TUnrecognizedStruct).
Proof. vm_compute. auto 20. Qed.

(** ** C85 *)
(** On every network, a Close that succeeds ends by saying GOODBYE, where the version has it, and
    hanging up; without an open transaction it does nothing else. *)
Theorem C85_farewell {St} (N : net St) c s tr c' s' tr' a : does (watched N) CClose (c, (s, tr)) (c', (s', tr')) (Ok a) ->
  exists before, tr' = tr ++ before ++ (if has_transactions (proto_number (c_proto c)) then [VSend (GStructure 2 []) None] else []) ++ [VHang None]
  /\ (c_transaction c = None -> before = []).
Proof. exact (close_farewell N c s tr c' s' tr' a). Qed.
Print Assumptions C85_farewell.
(** GOODBYE is understood as such. *)
Theorem C85_understood p cs : 1 <= cs <= 65535 -> has_transactions (proto_number p) = true ->
  arrives p cs (GStructure 2 []) (eq QGoodbye).
Proof.
  exact (fun H E => match fixed_arrive p cs H with
    conj _ (conj _ (conj _ (conj _ K))) =>
      K _ (eq_trans (proj1 (proj2 (proj2 (proj2 (dialect p [] 0)))))
             (f_equal (fun b : bool => if b then Some (GStructure 2 []) else None) E))
    end).
Qed.
Print Assumptions C85_understood.
Example C85_case : does (watched (parrot (GSuccess []))) CClose
    (set_proto P3 (fresh_conn [] []), (tt, [])) (set_closed (set_proto P3 (fresh_conn [] [])), (tt, [VSend (GStructure 2 []) None; VHang None])) (Ok ADone)
  /\ does (watched (parrot (GSuccess []))) CClose
    (set_proto P2 (fresh_conn [] []), (tt, [])) (set_closed (set_proto P2 (fresh_conn [] [])), (tt, [VHang None])) (Ok ADone).
Proof. split; exists 5%nat; (split; [vm_compute; reflexivity|discriminate]). Qed.

(** ** C86: true in versions 1 and 2; from version 3 on the time reported is not found *)
Theorem C86_available_partial n md z : n <= 2 -> map_get md (first_key n) = Some (GInt KInt64 z) -> get_available_after md = z.
Proof. exact (available_old n md z). Qed.
Print Assumptions C86_available_partial.
Theorem C86_available_refuted n md : 3 <= n -> (forall k, k <> first_key n -> map_get md k = None) -> get_available_after md = -1.
Proof. exact (available_new n md). Qed.
Print Assumptions C86_available_refuted.
Example C86_case : map_get [(str "t_first", GInt KInt64 12)] (first_key 3) = Some (GInt KInt64 12)
  /\ get_available_after [(str "t_first", GInt KInt64 12)] = -1
  /\ get_available_after [(str "result_available_after", GInt KInt64 12)] = 12.
Proof. vm_compute. auto. Qed.
