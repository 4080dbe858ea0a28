(** Theorems C134 to C136: a routing pool and those who hold its connections. *)
From Coq Require Import String ZArith List Bool.
From Verif Require Import Bytes GoVal GoErr SpecValues SpecServer Messages Connection Link Wire SpecSession SpecShare Cases DemoShare SpecHolder SpecManners MannersFacts CareFacts MannersCases.
From Verif Require Pool SpecPool DemoPool.
Import ListNotations.
Open Scope Z_scope.

(** ** C134 *)
Theorem C134_lends_rested W (K : Pool.cluster W) opened named p P cell leader n auth tls q0 w0 l q w tr m q' w' tr' id h :
  SpecPool.fresh K opened named -> cluster_sessions K opened p P cell -> asks_overview K opened P cell ->
  Pool.new_routing_pool leader n auth tls = Ok q0 ->
  courteous K (holder_use opened named P cell) (fun h w => no_loose_ends (fst (cell w h))) q0 w0 l q w tr ->
  Pool.do_pop (SpecPool.watch K) (Pool.OBorrow m) q (w, tr) = (q', (w', tr'), Pool.RLent id h) ->
  ~ In h (SpecPool.lent l) /\ c_closed (fst (cell w' h)) = false /\ rested (cell w' h).
Proof. intros F C A. exact (lends_rested K opened named p P cell F C A auth tls leader n q0 w0 l q w tr m q' w' tr' id h). Qed.
Print Assumptions C134_lends_rested.
(** A transaction is begun, a statement run in it and committed by the first holder; the second gets the same connection. *)
Example C134_case : SpecPool.fresh town_cluster opened_cells named_cells /\ cluster_sessions town_cluster opened_cells (fun _ => P4) town cell_of
  /\ asks_overview town_cluster opened_cells town cell_of
  /\ Pool.new_routing_pool DemoPool.leader_string 2 (str "neo4j:secret") [] = Ok (DemoPool.demo_pool 2)
  /\ courteous town_cluster (holder_use opened_cells named_cells town cell_of) (fun h w => no_loose_ends (fst (cell_of w h)))
       (DemoPool.demo_pool 2) ([], 0%nat) town_log (fst (fst town_back)) (fst (snd (fst town_back))) (snd (snd (fst town_back)))
  /\ Pool.do_pop (SpecPool.watch town_cluster) (Pool.OBorrow WriteMode) (fst (fst town_back)) (snd (fst town_back))
     = (fst (fst town_next), snd (fst town_next), Pool.RLent (str "1-") 1)
  /\ s_tx (w_srv (snd (cell_of town_w2 1))) = Some (None, [mkStmt q2 [(str "name", PStr (str "Ann")); (str "age", PInt 41)] None])
  /\ s_perm (w_srv (snd (cell_of (fst (snd (fst town_next))) 1))) = [mkStmt q2 [(str "name", PStr (str "Ann")); (str "age", PInt 41)] None]
  /\ s_tx (w_srv (snd (cell_of (fst (snd (fst town_next))) 1))) = None.
Proof.
  split; [apply session_cluster_fresh|]. split; [apply session_cluster_over; [exact town_conforms|vm_compute; discriminate..]|].
  split; [apply session_cluster_asks|]. split; [reflexivity|]. split; [exact town_courteous|]. vm_compute. auto.
Qed.

(** ** C135 *)
(** Whatever the borrowers do with what they hold. *)
Theorem C135_left_alone W (K : Pool.cluster W) opened named leader n auth tls q0 w0 l q w tr o q' w' new r h :
  SpecPool.fresh K opened named -> Pool.new_routing_pool leader n auth tls = Ok q0 ->
  courteous K (any_use opened named) (fun _ _ => True) q0 w0 l q w tr -> In h (SpecPool.lent l) ->
  match o with Pool.OReclaim id d => d <> h /\ exists m, In (Pool.OBorrow m, Pool.RLent id d) l | _ => True end ->
  Pool.do_pop (SpecPool.watch K) o q (w, tr) = (q', (w', new ++ tr), r) ->
  forall e, In e new -> dealt e <> Some h /\ forall s, e <> SpecPool.KDial s (Ok h).
Proof. intros F. exact (left_alone K opened named F auth tls leader n q0 w0 l q w tr o q' w' new r h). Qed.
Print Assumptions C135_left_alone.
(** Connection 1 is lent while the members of the cluster are asked for, which dials, asks and closes another. *)
Example C135_case : SpecPool.fresh town_cluster opened_cells named_cells
  /\ Pool.new_routing_pool DemoPool.leader_string 2 (str "neo4j:secret") [] = Ok (DemoPool.demo_pool 2)
  /\ courteous town_cluster (any_use opened_cells named_cells) (fun _ _ => True)
       (DemoPool.demo_pool 2) ([], 0%nat) care_log (fst (fst town_next)) (fst (snd (fst town_next))) (snd (snd (fst town_next)))
  /\ In 1%nat (SpecPool.lent care_log)
  /\ exists new, Pool.do_pop (SpecPool.watch town_cluster) Pool.ORefresh (fst (fst town_next)) (snd (fst town_next))
       = (fst (fst care_asked), (fst (snd (fst care_asked)), new ++ snd (snd (fst town_next))), Pool.RDone)
     /\ List.map dealt new = [Some 3%nat; Some 3%nat; None].
Proof.
  split; [apply session_cluster_fresh|]. split; [reflexivity|]. split.
  { refine (courteous_weaken _ _ _ _ _ _ _ _ _ _ _ _ _ care_courteous); [|auto]. intros h a b (H1 & H2 & _). split; assumption. }
  split; [vm_compute; auto|]. exists (firstn 3 (snd (snd (fst care_asked)))). split; vm_compute; reflexivity.
Qed.

(** ** C136 *)
(** What the holder does becomes permanent as its own calls tell it, whatever was done with the connection before and is done
    with the pool and the other connections meanwhile. *)
Theorem C136_holder W (K : Pool.cluster W) opened named p P cell leader n auth tls q0 w0 l q w tr m q1 w1 tr1 id h own l2 q2 w2 tr2 :
  SpecPool.fresh K opened named -> cluster_sessions K opened p P cell -> asks_overview K opened P cell ->
  Pool.new_routing_pool leader n auth tls = Ok q0 ->
  courteous K (holder_use opened named P cell) (fun h w => no_loose_ends (fst (cell w h))) q0 w0 l q w tr ->
  Pool.do_pop (SpecPool.watch K) (Pool.OBorrow m) q (w, tr) = (q1, (w1, tr1), Pool.RLent id h) ->
  in_care K opened named P cell h (l ++ [(Pool.OBorrow m, Pool.RLent id h)], q1, w1, tr1) own (l2, q2, w2, tr2) ->
  history (wired (P h)) polite (cell w1 h) own (cell w2 h)
  /\ (all_disciplined (p h) own -> exists new, permanent cell w2 h = permanent cell w1 h ++ new
      /\ Forall2 (fun x st => is_stmt (codec (p h)) (fst x) (snd x) st) (lg_perm (ledger_of own)) new).
Proof. intros F C A En. exact (holder_keeps K opened named p P cell F C A auth tls leader n q0 w0 En l q w tr m q1 w1 tr1 id h own l2 q2 w2 tr2). Qed.
Print Assumptions C136_holder.
(** The pool makes nothing permanent on a connection it has opened before, be it by giving back, closing, lending or asking. *)
Theorem C136_pool W (K : Pool.cluster W) opened named p P cell leader n auth tls q0 w0 l q w tr o q' w' tr' r h :
  SpecPool.fresh K opened named -> cluster_sessions K opened p P cell -> asks_overview K opened P cell ->
  Pool.new_routing_pool leader n auth tls = Ok q0 ->
  courteous K (holder_use opened named P cell) (fun h w => no_loose_ends (fst (cell w h))) q0 w0 l q w tr ->
  Pool.do_pop (SpecPool.watch K) o q (w, tr) = (q', (w', tr'), r) ->
  (exists s, In (SpecPool.KDial s (Ok h)) tr) -> permanent cell w' h = permanent cell w h.
Proof. intros F C A En. exact (pool_adds_nothing K opened named p P cell F C A auth tls leader n q0 w0 En l q w tr o q' w' tr' r h). Qed.
Print Assumptions C136_pool.
(** The second holder executes a statement; meanwhile the members of the cluster are asked for, and somebody is lent another
    connection and begins a transaction on it. *)
Example C136_case : courteous town_cluster (holder_use opened_cells named_cells town cell_of) (fun h w => no_loose_ends (fst (cell_of w h)))
       (DemoPool.demo_pool 2) ([], 0%nat) town_log (fst (fst town_back)) (fst (snd (fst town_back))) (snd (snd (fst town_back)))
  /\ Pool.do_pop (SpecPool.watch town_cluster) (Pool.OBorrow WriteMode) (fst (fst town_back)) (snd (fst town_back))
     = (fst (fst town_next), snd (fst town_next), Pool.RLent (str "1-") 1)
  /\ in_care town_cluster opened_cells named_cells town cell_of 1
       (town_log ++ [(Pool.OBorrow WriteMode, Pool.RLent (str "1-") 1%nat)], fst (fst town_next), fst (snd (fst town_next)), snd (snd (fst town_next)))
       [(CExec q2 [] [], Ok (AMeta []))] (care_log2, fst (fst care_other), care_w2, snd (snd (fst care_other)))
  /\ all_disciplined P4 [(CExec q2 [] [], Ok (AMeta []))] /\ lg_perm (ledger_of [(CExec q2 [] [], Ok (AMeta []))]) = [(q2, [])]
  /\ permanent cell_of (fst (snd (fst town_next))) 1 = [mkStmt q2 [(str "name", PStr (str "Ann")); (str "age", PInt 41)] None]
  /\ permanent cell_of care_w2 1 = permanent cell_of (fst (snd (fst town_next))) 1 ++ [mkStmt q2 [] None].
Proof.
  split; [exact town_courteous|]. split; [vm_compute; reflexivity|]. split; [exact town_care|].
  split; [apply (ad_snoc P4 []); [constructor|]; vm_compute; auto|]. vm_compute. auto.
Qed.
