(** Theorems C74-C81: opening, giving up, looking, and sharing connections. *)
From Coq Require Import String ZArith List Bool Lia.
From Verif Require Import Bytes GoVal GoErr SpecValues SpecServer Messages Connection Errors Link Wire SpecSession SpecShare
  Demo DemoFacts Cases CaseFacts RestFacts ShareCases DemoShare.
From Verif Require DriverPool SpecDriver DemoDriver DriverHistory ShareFacts Pool SpecPool RouteShare.
Import ListNotations.
Open Scope Z_scope.

(** ** C74: true if the version reply arrives in one piece *)
Theorem C74_opens_partial p P user password : conforming p P -> zlen user <= 65535 -> zlen password <= 65535 ->
  (exists c w r, opens (wired P) user password new_wire (c, w) r)
  /\ forall c w r, opens (wired P) user password new_wire (c, w) r ->
     match j_outcome (p_judge P) 0 with
     | Refused md => exists e, r = Err e /\ inner_most e = EFailure md
     | _ => r = Ok tt /\ ready w /\ c_closed c = false /\ rested (c, w)
     end.
Proof. exact (opens_accepted p P user password). Qed.
Print Assumptions C74_opens_partial.
(** A version reply whose first byte arrives on its own. *)
Theorem C74_refuted : exists P c w e,
  negotiated (p_judge P) = Some P4 /\ sound V2 P /\ j_outcome (p_judge P) 0 = done
  /\ opens (wired P) (str "neo4j") (str "secret") new_wire (c, w) (Err e).
Proof. exact dribbled. Qed.
Print Assumptions C74_refuted.
Example C74_case : conforming P3 (server P3 [done] true) /\ conforming P3 (server P3 [oops] true)
  /\ exists c w c' w' e, opens (wired (server P3 [done] true)) (str "neo4j") (str "secret") new_wire (c, w) (Ok tt)
     /\ opens (wired (server P3 [oops] true)) (str "neo4j") (str "secret") new_wire (c', w') (Err e) /\ inner_most e = EFailure fault.
Proof.
  split; [apply demo_conforming; plain_all|]. split; [apply demo_conforming; plain_all|]. do 5 eexists. split; [|split].
  - exists 50%nat. split; [vm_compute; reflexivity|discriminate].
  - exists 50%nat. split; [vm_compute; reflexivity|discriminate].
  - reflexivity.
Qed.

(** ** C75: true if the dial is what fails *)
Theorem C75_nothing_left_partial St (N : net St) user password s c x r e :
  snd (n_dial N s) = Some e -> opens (watched N) user password (s, []) (c, x) r ->
  r = Err e /\ snd x = [VDial (Some e)] /\ socket_open (snd x) = false.
Proof. exact (dial_refused N user password s c x r e). Qed.
Print Assumptions C75_nothing_left_partial.
(** A login that is refused. *)
Theorem C75_refuted : exists P c w tr e,
  conforming P4 P /\ opens (watched (wired P)) (str "neo4j") (str "secret") (new_wire, []) (c, (w, tr)) (Err e)
  /\ inner_most e = EFailure fault /\ socket_open tr = true.
Proof. exact socket_left. Qed.
Print Assumptions C75_refuted.
Example C75_case : let N := {| n_send := fun _ _ _ s => (s, None); n_recv := fun _ s => (s, Err EEOF); n_hang := fun s => (s, None);
    n_dial := fun s => (s, Some ETimeout); n_write := fun b s => (s, (zlen b, None)); n_read := fun _ s => (s, ([], None)); n_probe := fun s => (s, None) |} in
  snd (n_dial N tt) = Some ETimeout
  /\ exists c x, opens (watched N) (str "neo4j") (str "secret") (tt, []) (c, x) (Err ETimeout).
Proof. split; [reflexivity|]. do 2 eexists. exists 5%nat. split; [vm_compute; reflexivity|discriminate]. Qed.

(** ** C76: true if the network falls silent, be it with an error *)
Theorem C76_returns_partial St (N : net St) left o c s : runs_dry N left -> exists c' s' r, does N o (c, s) (c', s') r.
Proof. intros D. exact (dry_returns N left D o c s). Qed.
Print Assumptions C76_returns_partial.
Theorem C76_opens_partial St (N : net St) left user password s : runs_dry N left -> exists c' s' r, opens N user password s (c', s') r.
Proof. intros D. exact (dry_opens N left D user password s). Qed.
Print Assumptions C76_opens_partial.
(** A peer that reports a failure for ever: closing the connection rolls the transaction back, which
    resets the connection, which closes it. *)
Theorem C76_refuted : exists (N : net nat) l w, used N l w
  /\ map snd l = [Ok (ATx 0)] /\ tx_closed (fst w) 0 = false
  /\ forall w' r, ~ does N (CRollback 0) w w' r.
Proof. exact never_returns. Qed.
Print Assumptions C76_refuted.
(** Ten failures, then nothing. *)
Definition ten : net nat := {|
  n_send _ _ _ s := (s, None); n_recv _ s := match s with O => (O, Err ETimeout) | S s' => (s', Ok (GFailure [])) end;
  n_hang s := (s, None); n_dial s := (s, None); n_write b s := (s, (zlen b, None)); n_read _ s := (s, ([x00; x00; x00; x04], None)); n_probe s := (s, None) |}.
Example C76_case : runs_dry ten (fun s => s)
  /\ exists c e, does ten (CRollback 0) (in_trouble, 10%nat) (c, 0%nat) (Err e).
Proof.
  split.
  - constructor; cbn; auto; intros _ [|s]; cbn; auto; try discriminate. intros s' m [= <- _]. auto.
  - do 2 eexists. exists 60%nat. split; [vm_compute; reflexivity|discriminate].
Qed.

(** ** C77: true if the look at the socket sees that it was closed *)
Theorem C77_tells_partial p P user password l c w c' w' r : session clean_call p P user password l (c, w) -> p_looks P = true ->
  does (wired P) CValidate (c, w) (c', w') r ->
  (c', w') = (c, w) /\ exists b, r = Ok (ABool b) /\ (b = true <-> c_closed c = false /\ s_mode (w_srv w) <> Gone).
Proof. exact (validate_tells p P user password l c w c' w' r). Qed.
Print Assumptions C77_tells_partial.
(** Looking never disturbs a connection, whether or not it sees anything; what it calls dead is dead
    or closed. *)
Theorem C77_harmless p P user password l c w c' w' b : session clean_call p P user password l (c, w) ->
  does (wired P) CValidate (c, w) (c', w') (Ok (ABool b)) ->
  (c', w') = (c, w) /\ (b = true -> c_closed c = false) /\ (b = false -> c_closed c = true \/ s_mode (w_srv w) = Gone).
Proof. exact (validate_harmless p P user password l c w c' w' b). Qed.
Print Assumptions C77_harmless.
(** Where a read whose deadline has passed fails without looking, as in Go's net package, a server hung
    up, the connection is said to be fine, and the next query fails. *)
Theorem C77_refuted : exists P l c w c' w' e,
  session clean_call P4 P (str "neo4j") (str "secret") l (c, w)
  /\ c_closed c = false /\ s_mode (w_srv w) = Gone
  /\ does (wired P) CValidate (c, w) (c, w) (Ok (ABool true))
  /\ does (wired P) (CQuery q1 [] []) (c, w) (c', w') (Err e).
Proof. exact not_told. Qed.
Print Assumptions C77_refuted.
Example C77_case : results (login [CValidate; CQuery q1 ps []; CValidate; CClose; CValidate] (server P4 [done; rows] true))
  = [Ok (ABool true); Ok (ARows [row1; row2] summary); Ok (ABool true); Ok ADone; Ok (ABool false)]
  /\ brief (login [CBegin []; CTxQuery 0 q1 ps []; CCommit 0; CValidate] (server P4 [done; done; oops] true))
     = [Ok (ATx 0); Err (EFailure fault); Err (EFailure [(str "code", GStr (str "Neo.ClientError.Request.Invalid"))]); Ok (ABool false)].
Proof. vm_compute. auto. Qed.

(** ** C78: true if transactions were not begun by statements *)
Theorem C78_rested_partial p P user password l c w c' w' a : session polite p P user password l (c, w) ->
  does (wired P) CMakeIdle (c, w) (c', w') (Ok a) -> c_closed c' = c_closed c /\ (c_closed c = false -> rested (c', w')).
Proof. exact (idle_rested p P user password l c w c' w' a). Qed.
Print Assumptions C78_rested_partial.
(** A transaction begun with the statement BEGIN, which version 1 of the protocol allows. *)
Theorem C78_refuted : exists P l c w c' w',
  session clean_call P1 P (str "neo4j") (str "secret") l (c, w)
  /\ does (wired P) CMakeIdle (c, w) (c', w') (Ok ADone)
  /\ c_closed c' = false /\ s_tx (w_srv w') = Some (None, []).
Proof. exact not_rested. Qed.
Print Assumptions C78_refuted.
Example C78_case : exists P l c w c' w', session polite P3 P (str "neo4j") (str "secret") l (c, w) /\ s_tx (w_srv w) <> None
  /\ does (wired P) CMakeIdle (c, w) (c', w') (Ok ADone) /\ s_tx (w_srv w') = None.
Proof. exact idle_case. Qed.

(** ** C79 *)
Theorem C79_prepared W (N : DriverPool.net W) made max w0 l d w e d' w' c : SpecDriver.fresh_net N made ->
  shared (noted N) (noted_use made) max (w0, []) l d w ->
  match e with DriverPool.EvReclaim (Some c) => In c (SpecDriver.held l) | _ => True end ->
  DriverPool.do_event (noted N) e d w = (d', w', DriverPool.DLent c) -> prepared c (snd w') = true.
Proof. intros F. exact (ShareFacts.lends_prepared N made max w0 F l d w e d' w' c). Qed.
Print Assumptions C79_prepared.
Example C79_case : exists l d w d' w', SpecDriver.fresh_net DemoDriver.demo_net DemoDriver.t_made
  /\ shared (noted DemoDriver.demo_net) (noted_use DemoDriver.t_made) 2 (DemoDriver.mkT 0 [] [], []) l d w
  /\ DriverPool.do_event (noted DemoDriver.demo_net) DriverPool.EvOpen d w = (d', w', DriverPool.DLent 0)
  /\ snd w' = [WasIdled 0 true; WasUsed 0; WasUsed 0; WasMade 0].
Proof. exact prepared_case. Qed.

(** ** C80: true if transactions are not begun by statements *)
Theorem C80_isolated_partial W (N : DriverPool.net W) made p P user password cell max w0 l d w e d' w' c :
  SpecDriver.fresh_net N made -> over_sessions N made p P user password cell -> made w0 = [] ->
  shared N (session_use polite made P cell) max w0 l d w ->
  match e with DriverPool.EvReclaim (Some c) => In c (SpecDriver.held l) | _ => True end ->
  DriverPool.do_event N e d w = (d', w', DriverPool.DLent c) ->
  ~ In c (SpecDriver.held l) /\ c_closed (fst (cell w' c)) = false /\ rested (cell w' c).
Proof. intros F S Z. exact (ShareFacts.lends_rested N made p P user password cell max w0 F S Z l d w e d' w' c). Qed.
Print Assumptions C80_isolated_partial.
Theorem C80_refuted : exists N p P l d w d' w' c, SpecDriver.fresh_net N cells_made
  /\ over_sessions N cells_made p P (str "neo4j") (str "secret") cell
  /\ shared N (session_use clean_call cells_made P cell) 2 [] l d w
  /\ DriverPool.do_event N DriverPool.EvOpen d w = (d', w', DriverPool.DLent c)
  /\ s_tx (w_srv (snd (cell w' c))) = Some (None, []).
Proof. exact begun_by_statement. Qed.
Print Assumptions C80_refuted.
(** A transaction begun and a statement run in it by the first holder; the second gets the same
    connection without them. *)
Example C80_case : SpecDriver.fresh_net home_net cells_made
  /\ over_sessions home_net cells_made (fun _ => P4) homes (str "neo4j") (str "secret") cell
  /\ shared home_net (session_use polite cells_made homes cell) 2 [] home_log (fst (fst home_back)) (snd (fst home_back))
  /\ s_tx (w_srv (snd (cell home_used 0))) = Some (None, [mkStmt q2 [(str "name", PStr (str "Ann")); (str "age", PInt 41)] None])
  /\ DriverPool.do_event home_net DriverPool.EvOpen (fst (fst home_back)) (snd (fst home_back)) = (fst (fst home_again), snd (fst home_again), DriverPool.DLent 0)
  /\ s_tx (w_srv (snd (cell (snd (fst home_again)) 0))) = None.
Proof.
  split; [apply session_net_fresh|]. split; [exact home_over|]. split; [exact home_shared|]. vm_compute. auto.
Qed.

(** ** C81 *)
(** The pool leaves a connection that it does not close as it is, with its transaction. *)
Theorem C81_passed_on_partial W (K : Pool.cluster W) opened named p P cell os q w tr q' w' new l h :
  SpecPool.fresh K opened named -> cluster_sessions K opened p P cell ->
  Pool.run_pool (SpecPool.watch K) os q (w, tr) = (q', (w', new ++ tr), l) -> In h (opened w) ->
  (forall e, ~ In (SpecPool.KClose h e) new) ->
  fst (cell w' h) = fst (cell w h) /\ w_srv (snd (cell w' h)) = w_srv (snd (cell w h)).
Proof. intros F S. exact (RouteShare.passed_on K opened named p P cell F S os q w tr q' w' new l h). Qed.
Print Assumptions C81_passed_on_partial.
(** The first holder begins a transaction and gives the connection back. The second executes a
    statement, which succeeds, inside that transaction; the first rolls it back, and it is lost. *)
Theorem C81_refuted : exists K p P, SpecPool.fresh K opened_cells named_cells /\ cluster_sessions K opened_cells p P cell_of
  /\ exists l q w w1 q' w' h id t y z,
     SpecPool.pool_history K 2 (str "neo4j:secret") [] ([], 0%nat) l q w
     /\ l = [(Pool.OStart, Pool.RDone); (Pool.OBorrow Messages.WriteMode, Pool.RLent id h)]
     /\ (forall d, d <> h -> cell_of w1 d = cell_of w d) /\ does (wired (P h)) (CBegin []) (cell_of w h) (cell_of w1 h) (Ok (ATx t))
     /\ Pool.run_pool K [Pool.OReclaim id h; Pool.OBorrow Messages.WriteMode] q w1
        = (q', w', [(Pool.OReclaim id h, Pool.RDone); (Pool.OBorrow Messages.WriteMode, Pool.RLent id h)])
     /\ tx_closed (fst (cell_of w' h)) t = false /\ s_tx (w_srv (snd (cell_of w' h))) = Some (None, [])
     /\ does (wired (P h)) (CExec q2 [] []) (cell_of w' h) y (Ok (AMeta summary))
     /\ s_perm (w_srv (snd y)) = [] /\ s_tx (w_srv (snd y)) = Some (None, [mkStmt q2 [] None])
     /\ does (wired (P h)) (CRollback t) y z (Ok ADone) /\ s_perm (w_srv (snd z)) = [] /\ s_tx (w_srv (snd z)) = None.
Proof. exact open_passed_on. Qed.
Print Assumptions C81_refuted.
