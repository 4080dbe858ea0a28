(** Theorem C133: a routing client, from its options to the server that executes a statement. *)
From Coq Require Import String ZArith List Bool.
From Verif Require Import Bytes GoVal GoErr SpecValues SpecServer Messages Connection Link Wire SpecSession GoStr Routing Client SpecClient Cases SpecJourney JourneyFacts DialFacts JourneyCases.
From Verif Require Pool SpecPool.
Import ListNotations.
Open Scope Z_scope.

(** ** C133 *)

(** A client made from host, port, user name and password. *)
Theorem C133_host W (K : Pool.cluster W) opened named p P site cell os c h q u pw n p0 w0 l x w tr m id d :
  SpecPool.fresh K opened named -> cluster_at K opened p P site cell ->
  new_client os = Ok c -> last_word string_opt os = None -> last_word host_opt os = Some (h, q) -> last_word auth_opt os = Some (u, pw) -> last_word tls_opt os = None ->
  Forall host_char h -> Forall user_char u -> Forall password_char pw -> (forall a b, cl_conn_str c = a ++ str "+routing" ++ b -> a = str "bolt") ->
  zlen u <= 65535 -> zlen pw <= 65535 ->
  new_routing_driver c n = Ok p0 -> journey K (call_at opened P site cell) p0 w0 l x w tr -> In (Pool.OBorrow m, Pool.RLent id d) l ->
  exists ds, decimal q ds /\ serves_right p P site cell u pw (h ++ str ":" ++ ds) m d w.
Proof.
  intros F C E Hs Hh Ha Ht Ch Cu Cp Ho Lu Lp En J Hi. destruct (host_dials os c h q u pw E Hs Hh Ha Ht Ch Cu Cp Ho) as (ds & Hd & Hu & D). exists ds. split; [exact Hd|].
  exact (journey_serves K opened named p P site cell F C c u pw _ D Hu Lu Lp n p0 w0 l x w tr m id d En J Hi).
Qed.
Print Assumptions C133_host.
(** Whatever it is used for, the connection is a session with that server. *)
Theorem C133_host_session W (K : Pool.cluster W) opened named p P site cell os c h q u pw n p0 w0 l x w tr m id d :
  SpecPool.fresh K opened named -> cluster_at K opened p P site cell ->
  new_client os = Ok c -> last_word string_opt os = None -> last_word host_opt os = Some (h, q) -> last_word auth_opt os = Some (u, pw) -> last_word tls_opt os = None ->
  Forall host_char h -> Forall user_char u -> Forall password_char pw -> (forall a b, cl_conn_str c = a ++ str "+routing" ++ b -> a = str "bolt") ->
  zlen u <= 65535 -> zlen pw <= 65535 ->
  new_routing_driver c n = Ok p0 -> journey K (call_at opened P site cell) p0 w0 l x w tr -> In (Pool.OBorrow m, Pool.RLent id d) l ->
  exists ds, decimal q ds /\ leads_right p P site cell u pw (h ++ str ":" ++ ds) m d w.
Proof.
  intros F C E Hs Hh Ha Ht Ch Cu Cp Ho Lu Lp En J Hi. destruct (host_dials os c h q u pw E Hs Hh Ha Ht Ch Cu Cp Ho) as (ds & Hd & Hu & D). exists ds. split; [exact Hd|].
  exact (journey_leads K opened named p P site cell F C c u pw _ D Hu Lu Lp n p0 w0 l x w tr m id d En J Hi).
Qed.
Print Assumptions C133_host_session.
(** A client made from a connection string. *)
Theorem C133_string W (K : Pool.cluster W) opened named p P site cell os c s u pw hp ps n p0 w0 l x w tr m id d :
  SpecPool.fresh K opened named -> cluster_at K opened p P site cell ->
  new_client os = Ok c -> last_word string_opt os = Some s -> address_of s (Some (u, pw)) hp ps -> last_word tls_opt os = None -> u <> [] -> plain_files ps ->
  (forall a b, s = a ++ str "+routing" ++ b -> a = str "bolt") -> zlen u <= 65535 -> zlen pw <= 65535 ->
  new_routing_driver c n = Ok p0 -> journey K (call_at opened P site cell) p0 w0 l x w tr -> In (Pool.OBorrow m, Pool.RLent id d) l ->
  serves_right p P site cell u pw hp m d w.
Proof.
  intros F C E Hs Ha Ht Hu Hf Ho Lu Lp En J Hi. pose proof (string_dials os c s u pw hp ps E Hs Ha Ht Hu Hf Ho) as D.
  exact (journey_serves K opened named p P site cell F C c u pw hp D Hu Lu Lp n p0 w0 l x w tr m id d En J Hi).
Qed.
Print Assumptions C133_string.
(** The user neo4j asks the server one:7687 for the members of the cluster, borrows a connection for reading, which leads to
    three:7687, and runs two statements on it. *)
Example C133_case : SpecPool.fresh realm_cluster w_opened w_named /\ cluster_at realm_cluster w_opened (fun _ => P4) realm w_site w_cell
  /\ new_client realm_opts = Ok realm_client /\ new_routing_driver realm_client 2 = Ok realm_pool
  /\ last_word string_opt realm_opts = None /\ last_word host_opt realm_opts = Some (str "one", 7687)
  /\ last_word auth_opt realm_opts = Some (str "neo4j", str "S3cret!") /\ last_word tls_opt realm_opts = None
  /\ journey realm_cluster (call_at w_opened realm w_site w_cell) realm_pool realm_new realm_log (fst (fst (fst realm2))) realm3 (snd (fst realm2))
  /\ In (Pool.OBorrow ReadMode, Pool.RLent (str "0-a") 2%nat) realm_log /\ w_site realm3 2 = str "three:7687"
  /\ does (wired (realm (w_site realm3 2))) (CQuery q1 ps []) (w_cell realm3 2) realm4 (Ok (ARows [row1; row2] summary))
  /\ length (s_done (w_srv (snd realm4))) = 2%nat.
Proof.
  split; [apply by_address_fresh|]. split; [exact (by_address_at (fun _ => P4) realm 50 realm_conforms)|]. split; [vm_compute; reflexivity|]. split; [vm_compute; reflexivity|].
  split; [reflexivity|]. split; [reflexivity|]. split; [reflexivity|]. split; [reflexivity|]. split; [exact realm_journey|]. split; [right; now left|]. split; [vm_compute; reflexivity|].
  split; [exact realm_answers|vm_compute; reflexivity].
Qed.
