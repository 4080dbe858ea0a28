(** Theorems C132: the settings of connections. *)
From Coq Require Import String ZArith List Bool.
From Verif Require Import Bytes GoVal GoErr Encoder Decoder Messages Connection Errors Link Timing Clock Cases Settings SpecSettings SettingsFacts SettingsCases.
From Verif Require DriverPool SpecDriver SpecShare Pool SpecPool DemoPool.
Import ListNotations.
Open Scope Z_scope.

(** ** C132: as stated it is false of the code *)
(** A driver pool: the first holder asks the server something, sets the timeout to zero and the chunk size to 100 and gives the
    connection back. The next holder is lent it with these settings; its statement fails at once, although the answer is
    there, as the same statement before the timeout was set shows. *)
Theorem C132_refuted : exists W St (N : DriverPool.net W) made (Net : nat -> Z -> net St) t0 user password cell w0 l d w d' w' c,
  SpecDriver.fresh_net N made /\ over_tuned N made Net t0 user password cell /\ made w0 = []
  /\ SpecShare.shared (with_calls N) (tuned_use made Net cell) 1 (w0, []) l d w
  /\ DriverPool.do_event (with_calls N) DriverPool.EvOpen d w = (d', w', DriverPool.DLent c)
  /\ settings (cell (fst w') c) <> (t0, 65535).
Proof.
  exists tcells, clock, inn, tcells_made, (fun _ T => timed T no_zones), 30000000000, (str "neo4j"), (str "secret"), tcell, [], inn_log, (fst (fst inn_back)), (snd (fst inn_back)),
    (fst (fst inn_again)), (snd (fst inn_again)), 0%nat.
  split; [exact inn_fresh|]. split; [exact inn_over|]. split; [reflexivity|]. split; [exact inn_shared|]. split; [exact inn_lends|]. vm_compute. discriminate.
Qed.
Print Assumptions C132_refuted.
Example C132_refuted_case : settings (tcell (fst (snd (fst inn_again))) 0) = (0, 100)
  /\ inn_says (CQuery q1 [] []) (fst (snd (fst inn_again))) = Some (Err (EWrap (Some EBadConn) 3))
  /\ inn_says (CQuery q1 [] []) (fst inn_asked) = Some (Ok (ARows [[GStr (str "Bob")]] [])).
Proof. vm_compute. auto. Qed.
(** The routing pool likewise. *)
Theorem C132_routing_refuted : exists W St (K : Pool.cluster W) opened named (Net : nat -> Z -> net St) cell w0 l q w w1 q' w' h id,
  SpecPool.fresh K opened named /\ cluster_tuned K opened Net cell /\ SpecPool.pool_history K 2 (str "neo4j:secret") [] w0 l q w
  /\ l = [(Pool.OStart, Pool.RDone); (Pool.OBorrow WriteMode, Pool.RLent id h)]
  /\ (forall d, d <> h -> cell w1 d = cell w d) /\ tuned_does (Net h) (TSetTimeout 0) (cell w h) (cell w1 h) (Ok ADone)
  /\ Pool.run_pool K [Pool.OReclaim id h; Pool.OBorrow WriteMode] q w1 = (q', w', [(Pool.OReclaim id h, Pool.RDone); (Pool.OBorrow WriteMode, Pool.RLent id h)])
  /\ settings (cell w h) = (30000000000, 65535) /\ settings (cell w' h) = (0, 65535).
Proof. exact village_case. Qed.
Print Assumptions C132_routing_refuted.

(** ** What is true *)
(** The settings of a connection are what SetTimeout and SetChunkSize last made them, on any network, whatever else was done with
    it and however it ended; before that, those it was opened with. *)
Theorem C132_last_partial {St} (Net : Z -> net St) t0 user password l x : tuned_life Net t0 user password l x -> settings x = after_calls (t0, 65535) (map fst l).
Proof. exact (life_settings Net t0 user password l x). Qed.
Print Assumptions C132_last_partial.
Example C132_last_case : exists x, tuned_life (fun T => timed T no_zones) 30000000000 (str "neo4j") (str "secret")
    [(TCall (CQuery q1 [] []), Ok (ARows [[GStr (str "Ann")]] [])); (TSetTimeout 5, Ok ADone); (TCall (CSetChunk 100), Ok ADone); (TCall (CExec q2 [] []), Err (EWrap (Some EBadConn) 12))] x
  /\ settings x = (5, 100).
Proof. exact last_case. Qed.
(** In a driver pool the settings of every connection are what the calls of all its holders made of those it was made with; so
    are those of a connection that is being lent. The pool itself changes none. *)
Theorem C132_pool_partial {W St} (N : DriverPool.net W) made (Net : nat -> Z -> net St) t0 user password cell max w0 :
  SpecDriver.fresh_net N made -> over_tuned N made Net t0 user password cell -> made w0 = [] ->
  forall l d w, SpecShare.shared (with_calls N) (tuned_use made Net cell) max (w0, []) l d w ->
  (forall c, In c (made (fst w)) -> settings (cell (fst w) c) = after_calls (t0, 65535) (calls_on c (snd w)))
  /\ forall e d' w' c, match e with DriverPool.EvReclaim (Some c) => In c (SpecDriver.held l) | _ => True end ->
     DriverPool.do_event (with_calls N) e d w = (d', w', DriverPool.DLent c) -> settings (cell (fst w') c) = after_calls (t0, 65535) (calls_on c (snd w')).
Proof.
  intros F O M l d w H. split; [intros c; exact (pool_settings N made Net t0 user password cell max w0 F O M l d w c H)|].
  intros e d' w' c. exact (lent_settings N made Net t0 user password cell max w0 F O M l d w e d' w' c H).
Qed.
Print Assumptions C132_pool_partial.
Example C132_pool_case : SpecShare.shared (with_calls inn) (tuned_use tcells_made (fun _ T => timed T no_zones) tcell) 1 ([], []) inn_log (fst (fst inn_back)) (snd (fst inn_back))
  /\ calls_on 0 (snd (snd (fst inn_again))) = [TCall (CQuery q1 [] []); TSetTimeout 0; TCall (CSetChunk 100)].
Proof. split; [exact inn_shared|]. vm_compute. reflexivity. Qed.
(** If nobody sets anything, every connection lent has the settings new ones have. *)
Theorem C132_unset_partial {W St} (N : DriverPool.net W) made (Net : nat -> Z -> net St) t0 user password cell max w0 :
  SpecDriver.fresh_net N made -> over_tuned N made Net t0 user password cell -> made w0 = [] ->
  forall l d w e d' w' c, SpecShare.shared (with_calls N) (tuned_use made Net cell) max (w0, []) l d w ->
  match e with DriverPool.EvReclaim (Some c) => In c (SpecDriver.held l) | _ => True end ->
  DriverPool.do_event (with_calls N) e d w = (d', w', DriverPool.DLent c) ->
  (forall o, In (c, o) (snd w') -> (forall t, o <> TSetTimeout t) /\ forall cs, o <> TCall (CSetChunk cs)) -> settings (cell (fst w') c) = (t0, 65535).
Proof. intros F O M l d w e d' w' c. exact (unset_settings N made Net t0 user password cell max w0 F O M l d w e d' w' c). Qed.
Print Assumptions C132_unset_partial.
Example C132_unset_case : settings (tcell (fst inn_asked) 0) = (30000000000, 65535) /\ snd inn_asked = [(0%nat, TCall (CQuery q1 [] []))].
Proof. vm_compute. auto. Qed.
(** The routing pool changes no settings of any connection. *)
Theorem C132_routing_partial {W St} (K : Pool.cluster W) opened named (Net : nat -> Z -> net St) cell :
  SpecPool.fresh K opened named -> cluster_tuned K opened Net cell ->
  forall os q w q' w' l h, Pool.run_pool K os q w = (q', w', l) -> In h (opened w) -> settings (cell w' h) = settings (cell w h).
Proof. intros F C os q w q' w' l h. exact (routing_settings K opened named Net cell h F C os q w q' w' l). Qed.
Print Assumptions C132_routing_partial.
(** What a timeout that is not positive does: every statement that can be sent fails with driver.ErrBadConn at once, nothing is sent
    or received, and the connection stays open, so that it can be given back and lent again. *)
Theorem C132_no_patience T tz c k q ps db x r : T <= 0 -> c_closed c = false -> (multi_database (c_proto c) = true \/ db = []) ->
  snd (encode (codec (c_proto c)) (run_msg c q ps db false)) = None -> does (timed T tz) (CQuery q ps db) (c, k) x r ->
  exists e, r = Err e /\ inner_most e = EBadConn /\ fst x = c /\ k_in (snd x) = k_in k /\ k_now (snd x) = k_now k /\ t_out (k_send (snd x)) = t_out (k_send k).
Proof. exact (no_patience T tz c k q ps db x r). Qed.
Print Assumptions C132_no_patience.
Example C132_no_patience_case : let c := set_proto P4 (fresh_conn (str "neo4j") (str "secret")) in
  c_closed c = false /\ snd (encode (codec (c_proto c)) (run_msg c q1 [] [] false)) = None
  /\ does (timed 0 no_zones) (CQuery q1 [] []) (c, ready two_answers) (c, mkClock (mkSender 0 (repeat 0 600) [] 1) (k_in (ready two_answers))) (Err (EWrap (Some EBadConn) 3)).
Proof. cbv zeta. split; [reflexivity|]. split; [vm_compute; reflexivity|]. exists 9%nat. split; [vm_compute; reflexivity|discriminate]. Qed.
