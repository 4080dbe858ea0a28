(** The way from the options of a client to the rows of its statements, in one piece (C126). *)
From Coq Require Import String ZArith List Bool Lia.
From Verif Require Import Bytes GoVal GoErr Encoder SpecPack SpecValues SpecCodec SpecServer Messages Connection Link Wire SpecSession
  MessageFacts GoStr Url Client SpecClient Refusal SpecRefusal RefusalFacts SpecWhole WholeFacts Demo DemoFacts Cases.
Import ListNotations.
Open Scope Z_scope.

(** ** C126 *)
(** A client is made from a host, a port, a user name and a password, without TLS, and none of these has
    to be escaped. It dials that host and port; a conforming server which accepts the login reads that
    user name and password from the only message it is sent. Then statements can be asked for,
    each gets the answer the database gave to it, the database gets these statements and no others, and
    keeps those it did not refuse. *)
Theorem C126_whole_partial os c h n u pw p P qs :
  new_client os = Ok c -> last_word string_opt os = None -> last_word host_opt os = Some (h, n) -> last_word auth_opt os = Some (u, pw) ->
  last_word tls_opt os = None -> Forall host_char h -> Forall user_char u -> Forall password_char pw ->
  zlen u <= 65535 -> zlen pw <= 65535 -> conforming p P -> (forall md, j_outcome (p_judge P) 0 <> Refused md) -> Forall (fits_in p) qs ->
  exists cf ds, driver_open (cl_conn_str c) = Ok cf /\ decimal n ds
  /\ (forall F, how_to_dial F cf = Ok (DialTCP (h ++ str ":" ++ ds) (cf_timeout cf)))
  /\ (exists cn w tr m, opens (watched (wired P)) (cf_user cf) (cf_password cf) (new_wire, []) (cn, (w, tr)) (Ok tt)
       /\ opens (wired P) (cf_user cf) (cf_password cf) new_wire (cn, w) (Ok tt)
       /\ (forall m', (exists e, In (VSend m' e) tr) <-> m' = m) /\ In (VSend m None) tr /\ arrives p 65535 m (login_of u pw)
       /\ exists l cn' w', history (wired P) (fun _ _ => True) (cn, w) l (cn', w') /\ map fst l = map ask qs)
  /\ forall cn w l cn' w', opens (wired P) (cf_user cf) (cf_password cf) new_wire (cn, w) (Ok tt) ->
     history (wired P) (fun _ _ => True) (cn, w) l (cn', w') -> map fst l = map ask qs ->
     answered (p_judge P) qs l /\ received (p_judge P) p qs (s_done (w_srv w')) /\ s_perm (w_srv w') = granted (s_done (w_srv w')) /\ ready w'.
Proof. exact (whole_way os c h n u pw p P qs). Qed.
Print Assumptions C126_whole_partial.

(** Not so for every user name and password: the client is made without complaint, and its every attempt
    to connect fails before it dials, if there is a character among them that would have to be escaped and
    none that ends the authority. *)
Theorem C126_escaped_refuted os c h n u pw :
  new_client os = Ok c -> last_word string_opt os = None -> last_word tls_opt os = None ->
  last_word host_opt os = Some (h, n) -> last_word auth_opt os = Some (u, pw) ->
  Forall clear_char (u ++ pw ++ h) -> Forall (fun b => ~ ends_authority b) (u ++ pw) -> ~ In "#"%byte h ->
  (exists b, In b (u ++ pw) /\ ~ authority_char b) ->
  exists e, driver_open (cl_conn_str c) = Err e.
Proof. exact (never_opens os c h n u pw). Qed.
Print Assumptions C126_escaped_refuted.

Definition three : list (bytes * gomap) := [(q1, [(str "age", GInt KInt 41)]); (q2, []); (q1, [])].
Definition neo : list copt := [OHostPort (str "db.example.org") 7687; OBasicAuth (str "neo4j") (str "S3cret!")].
(** The second of three statements is refused. *)
Example C126_case :
  (exists c, new_client neo = Ok c /\ last_word host_opt neo = Some (str "db.example.org", 7687) /\ last_word auth_opt neo = Some (str "neo4j", str "S3cret!")
   /\ match driver_open (cl_conn_str c) with
      | Ok cf => brief (play_session (server P4 [done; rows; oops; rows] true) 60 clean_call_b (cf_user cf) (cf_password cf) (map ask three))
        = [Ok (ARows [row1; row2] summary); Err (EFailure fault); Ok (ARows [row1; row2] summary)]
      | _ => False
      end)
  /\ Forall (fits_in P4) three /\ conforming P4 (server P4 [done; rows; oops; rows] true)
  /\ exists c e, new_client [OHostPort (str "db") 7687; OBasicAuth (str "neo4j") (str "S3 cret")] = Ok c /\ driver_open (cl_conn_str c) = Err e.
Proof.
  split; [eexists; split; [vm_compute; reflexivity|split; [reflexivity|split; [reflexivity|vm_compute; reflexivity]]]|].
  split; [repeat (apply Forall_cons; [split; vm_compute; reflexivity|]); apply Forall_nil|]. split; [apply demo_conforming; plain_all|]. do 2 eexists. split; [vm_compute; reflexivity|vm_compute; reflexivity].
Qed.
