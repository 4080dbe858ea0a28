(** Theorem C127: the holder of a connection of a driver pool. *)
From Coq Require Import String ZArith List Bool.
From Verif Require Import Bytes GoVal GoErr SpecValues SpecServer Messages Connection Link Wire SpecSession SpecShare SpecHolder
  Demo Cases DemoShare HolderCases.
From Verif Require DriverPool SpecDriver HolderFacts.
Import ListNotations.
Open Scope Z_scope.

(** ** C127: true if transactions are not begun by statements *)
(** What the holder does becomes permanent as its own calls tell it, whatever was done with the connection
    before and is done with the pool meanwhile. *)
Theorem C127_holder_partial W (N : DriverPool.net W) made p P user password cell max w0 l d w e d1 w1 c own l2 d2 w2 :
  SpecDriver.fresh_net N made -> over_sessions N made p P user password cell -> made w0 = [] ->
  shared N (session_use polite made P cell) max w0 l d w ->
  match e with DriverPool.EvReclaim (Some x) => In x (SpecDriver.held l) | _ => True end ->
  DriverPool.do_event N e d w = (d1, w1, DriverPool.DLent c) ->
  tenure N made P cell c (l ++ [(e, DriverPool.DLent c)], d1, w1) own (l2, d2, w2) ->
  history (wired (P c)) polite (cell w1 c) own (cell w2 c)
  /\ (all_disciplined (p c) own -> exists new, permanent cell w2 c = permanent cell w1 c ++ new
      /\ Forall2 (fun x st => is_stmt (codec (p c)) (fst x) (snd x) st) (lg_perm (ledger_of own)) new).
Proof. intros F S Z. exact (HolderFacts.holder_keeps N made p P user password cell max w0 F S Z l d w e d1 w1 c own l2 d2 w2). Qed.
Print Assumptions C127_holder_partial.
(** The pool makes nothing permanent, be it by giving back, closing, lending or making. *)
Theorem C127_pool_partial W (N : DriverPool.net W) made p P user password cell max w0 l d w e d' w' r :
  SpecDriver.fresh_net N made -> over_sessions N made p P user password cell -> made w0 = [] ->
  shared N (session_use polite made P cell) max w0 l d w ->
  match e with DriverPool.EvReclaim (Some x) => In x (SpecDriver.held l) | _ => True end ->
  DriverPool.do_event N e d w = (d', w', r) ->
  (forall x, In x (made w) -> permanent cell w' x = permanent cell w x)
  /\ forall x, In x (made w') -> ~ In x (made w) -> permanent cell w' x = [].
Proof. intros F S Z. exact (HolderFacts.pool_adds_nothing N made p P user password cell max w0 F S Z l d w e d' w' r). Qed.
Print Assumptions C127_pool_partial.
(** The connection is lent in a session, and ready where the pool can see what became of the socket. *)
Theorem C127_ready_partial W (N : DriverPool.net W) made p P user password cell max w0 l d w e d' w' c :
  SpecDriver.fresh_net N made -> over_sessions N made p P user password cell -> made w0 = [] ->
  shared N (session_use polite made P cell) max w0 l d w ->
  match e with DriverPool.EvReclaim (Some x) => In x (SpecDriver.held l) | _ => True end ->
  DriverPool.do_event N e d w = (d', w', DriverPool.DLent c) ->
  (exists lc, session polite (p c) (P c) user password lc (cell w' c))
  /\ c_closed (fst (cell w' c)) = false /\ rested (cell w' c) /\ (p_looks (P c) = true -> ready (snd (cell w' c))).
Proof. intros F S Z. exact (HolderFacts.lent_session N made p P user password cell max w0 F S Z l d w e d' w' c). Qed.
Print Assumptions C127_ready_partial.
(** The holder before executed the statement BEGIN. *)
Theorem C127_refuted : exists N p P l d w d1 w1 c own l2 d2 w2, SpecDriver.fresh_net N cells_made
  /\ over_sessions N cells_made p P (str "neo4j") (str "secret") cell
  /\ shared N (session_use clean_call cells_made P cell) 2 [] l d w
  /\ DriverPool.do_event N DriverPool.EvOpen d w = (d1, w1, DriverPool.DLent c)
  /\ tenure N cells_made P cell c (l ++ [(DriverPool.EvOpen, DriverPool.DLent c)], d1, w1) own (l2, d2, w2)
  /\ all_disciplined (p c) own /\ lg_perm (ledger_of own) = [(q2, [])] /\ permanent cell w2 c = [].
Proof. exact held_in_anothers. Qed.
Print Assumptions C127_refuted.
(** The first holder left a transaction with a statement in it open; the second executes a statement,
    which alone becomes permanent, while somebody else is lent another connection. *)
Example C127_case : SpecDriver.fresh_net home_net cells_made
  /\ over_sessions home_net cells_made (fun _ => P4) homes (str "neo4j") (str "secret") cell
  /\ shared home_net (session_use polite cells_made homes cell) 2 [] home_log (fst (fst home_back)) (snd (fst home_back))
  /\ DriverPool.do_event home_net DriverPool.EvOpen (fst (fst home_back)) (snd (fst home_back)) = (fst (fst home_again), snd (fst home_again), DriverPool.DLent 0)
  /\ tenure home_net cells_made homes cell 0
       (home_log ++ [(DriverPool.EvOpen, DriverPool.DLent 0)], fst (fst home_again), snd (fst home_again)) [(CExec q2 [] [], Ok (AMeta []))]
       (home_log3 ++ [(DriverPool.EvOpen, DriverPool.DLent 1)], fst (fst home_more), home_wrote)
  /\ all_disciplined P4 [(CExec q2 [] [], Ok (AMeta []))]
  /\ permanent cell (snd (fst home_again)) 0 = [] /\ permanent cell home_wrote 0 = [mkStmt q2 [] None].
Proof.
  split; [apply session_net_fresh|]. split; [exact home_over|]. split; [exact home_shared|]. split; [vm_compute; reflexivity|].
  split; [exact home_tenure|]. split; [|split; vm_compute; reflexivity].
  apply (ad_snoc P4 []); [constructor|]. vm_compute. auto.
Qed.
