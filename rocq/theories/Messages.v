(** Request messages (structures/messages) and the four protocol versions (protocol/). *)
From Coq Require Import ZArith List Bool String.
From Verif Require Import Bytes GoVal GoErr Decoder.
Import ListNotations.
Open Scope Z_scope.

Notation str s := (list_byte_of_string s%string).

(** A Go map built by a composite literal or by assignments; the association list is one of its
    enumeration orders (the others are covered by C16). *)
Definition gomap := list (bytes * gval).

(** bolt_mode/consts.go:3-8. AccessMode is an int; the driver knows these two values. *)
Definition ReadMode : Z := 0.
Definition WriteMode : Z := 1.

(** ** structures/messages *)

(** builder.go:23-58 BuildTxMetadataWithDatabase. [timeout] is the *time.Duration in nanoseconds;
    the bookmark argument is unused in the code. time.Duration.Milliseconds truncates. *)
Definition build_tx_metadata_db (timeout : option Z) (txmd : option gomap) (db : bytes) (mode : Z) : gomap :=
  let txTimeoutPresent := match timeout with Some d => negb (d =? 0) | None => false end in
  let txMetaDataPresent := match txmd with Some m => negb (zlen m =? 0) | None => false end in
  let accessModePresent := negb (mode =? ReadMode) in
  let databaseNamePresent := negb (bytes_eqb db []) in
  if negb txTimeoutPresent && negb txMetaDataPresent && negb accessModePresent && negb databaseNamePresent
  then []
  else
    (if txTimeoutPresent
     then [(str "tx_timeout", GInt KInt64 (Z.quot (match timeout with Some d => d | None => 0 end) 1000000))]
     else [])
    ++ (if txMetaDataPresent then [(str "tx_metadata", GMap (match txmd with Some m => m | None => [] end))] else [])
    ++ (if accessModePresent then [(str "mode", GStr (str "r"))] else [])
    ++ (if databaseNamePresent then [(str "db", GStr db)] else []).

(** builder.go:19-21 BuildTxMetadata *)
Definition build_tx_metadata (timeout : option Z) (txmd : option gomap) (mode : Z) : gomap :=
  build_tx_metadata_db timeout txmd [] mode.

(** init.go:24-36 BuildAuthTokenBasicWithRealm *)
Definition auth_basic_realm (username password realm : bytes) : gomap :=
  [(str "scheme", GStr (str "basic")); (str "principal", GStr username); (str "credentials", GStr password)]
  ++ (if bytes_eqb realm [] then [(str "realm", GStr realm)] else []).
(** init.go:38-40 BuildAuthTokenBasic *)
Definition auth_basic (username password : bytes) : gomap := auth_basic_realm username password [].
(** init.go:42-48 BuildAuthTokenKerberos *)
Definition auth_kerberos (ticket : bytes) : gomap :=
  [(str "scheme", GStr (str "kerberos")); (str "principal", GStr []); (str "credentials", GStr ticket)].

(** init.go:51-68 NewInitMessage, Signature, AllFields *)
Definition init_message (client : bytes) (token : gomap) : gval := GStructure 0x01 [GStr client; GMap token].
(** hello.go:14-26 *)
Definition hello_message (md : gomap) : gval := GStructure 0x01 [GMap md].
(** goodbye.go:12-22 *)
Definition goodbye_message : gval := GStructure 0x02 [].
(** run.go:17-32 *)
Definition run_message (q : bytes) (params : gomap) : gval := GStructure 0x10 [GStr q; GMap params].
(** run_with_metadata.go:32-46 newRunMessageWithMetadata, Signature, AllFields *)
Definition run_with_metadata (q : bytes) (params md : gomap) : gval :=
  GStructure 0x10 [GStr q; GMap params; GMap md].
(** run_with_metadata.go:23-25 NewAutoCommitTxRunMessage *)
Definition autocommit_run (q : bytes) (params : gomap) (timeout : Z) (txmd : option gomap) (db : bytes) (mode : Z) : gval :=
  run_with_metadata q params (build_tx_metadata_db (Some timeout) txmd db mode).
(** run_with_metadata.go:28-30 NewUnmanagedTxRunMessage *)
Definition unmanaged_run (q : bytes) (params : gomap) : gval := run_with_metadata q params [].
(** tx.go:22-32 *)
Definition commit_message : gval := GStructure 0x12 [].
(** tx.go:39-51 *)
Definition begin_message (md : gomap) : gval := GStructure 0x11 [GMap md].
(** tx.go:55-65 *)
Definition rollback_message : gval := GStructure 0x13 [].
(** pull.go:8-9 *)
Definition StreamUnlimited : Z := -1.
Definition AbsentQueryId : Z := -1.
(** pull.go:18-44 NewPullMessage, AllFields *)
Definition pull_message (n id : Z) : gval :=
  GStructure 0x3F [GMap ((str "n", GInt KInt64 n) :: (if negb (id =? AbsentQueryId) then [(str "qid", GInt KInt64 id)] else []))].
(** discard.go:16-37: the metadata is stored but AllFields returns no field *)
Definition discard_message (n id : Z) : gval := GStructure 0x2F [].
(** pull_all.go:14-26, discard_all.go:14-26, reset.go:14-26 *)
Definition pull_all_message : gval := GPullAll.
Definition discard_all_message : gval := GDiscardAll.
Definition reset_message : gval := GReset.

(** ** protocol/ *)

(** The four implementations of IBoltProtocol: protocol/protocol_v1 ... protocol_v4. *)
Inductive proto := P1 | P2 | P3 | P4.

(** protocol/protocol_v*/const.go *)
Definition proto_number (p : proto) : Z := match p with P1 => 1 | P2 => 2 | P3 => 3 | P4 => 4 end.
Definition proto_bytes (p : proto) : bytes :=
  match p with
  | P1 => [x00; x00; x00; x01]
  | P2 => [x00; x00; x00; x02]
  | P3 => [x00; x00; x00; x03]
  | P4 => [x00; x00; x00; x04]
  end.

(** protocol/util.go:13-29 GetProtocol. The integer result on error is -1. [None]: nil slice. *)
Definition get_protocol (version : option bytes) : option proto * Z * option gerr :=
  match version with
  | None => (None, -1, Some (EFmt None (TMsg 100)))
  | Some b =>
      if zlen b =? 0 then (None, -1, Some (EFmt None (TMsg 100)))
      else if bytes_eqb b (proto_bytes P1) then (Some P1, proto_number P1, None)
      else if bytes_eqb b (proto_bytes P2) then (Some P2, proto_number P2, None)
      else if bytes_eqb b (proto_bytes P3) then (Some P3, proto_number P3, None)
      else if bytes_eqb b (proto_bytes P4) then (Some P4, proto_number P4, None)
      else (None, -1, Some (EFmt None (TMsg 101)))
  end.

(** NewEncoder / NewDecoder: protocol_v1/bolt.go:71-77 uses encoding_v1, protocol_v2/bolt.go:71-77,
    protocol_v3/bolt.go:80-86 and protocol_v4/bolt.go:80-86 use encoding_v2. *)
Definition codec (p : proto) : ver := match p with P1 => V1 | _ => V2 end.

(** SupportsMultiDatabase: bolt.go:31-33 (v1, v2), bolt.go:30-32 (v3, v4) *)
Definition multi_database (p : proto) : bool := match p with P4 => true | _ => false end.

(** GetResultAvailableAfterKey / GetResultConsumedAfterKey: bolt.go:15-21 (v1, v2), 14-20 (v3, v4) *)
Definition available_after_key (p : proto) : bytes :=
  match p with P1 | P2 => str "result_available_after" | P3 | P4 => str "t_first" end.
Definition consumed_after_key (p : proto) : bytes :=
  match p with P1 | P2 => str "result_consumed_after" | P3 | P4 => str "t_last" end.

(** GetInitMessage: bolt.go:51-53 (v1, v2), 34-42 (v3, v4: authToken["user_agent"] = client) *)
Definition get_init_message (p : proto) (client : bytes) (token : gomap) : gval :=
  match p with
  | P1 | P2 => init_message client token
  | P3 | P4 => hello_message (map_set token (str "user_agent") (GStr client))
  end.

(** GetCloseMessage: bolt.go:35-37 (v1, v2: none), 44-46 (v3, v4) *)
Definition get_close_message (p : proto) : option gval :=
  match p with P1 | P2 => None | P3 | P4 => Some goodbye_message end.

(** GetTxBeginMessage: bolt.go:39-41 (v1, v2), 48-50 (v3, v4). A nil parameter map is encoded as an
    empty map. The second component: is it a messages.BeginMessage (connection.go:481)? *)
Definition get_begin_message (p : proto) (db : bytes) (mode : Z) : gval * bool :=
  match p with
  | P1 | P2 => (run_message (str "BEGIN") [], false)
  | P3 | P4 => (begin_message (build_tx_metadata_db None None db mode), true)
  end.
(** GetTxCommitMessage: bolt.go:43-45 (v1, v2), 52-54 (v3, v4); type test transaction.go:60 *)
Definition get_commit_message (p : proto) : gval * bool :=
  match p with
  | P1 | P2 => (run_message (str "COMMIT") [], false)
  | P3 | P4 => (commit_message, true)
  end.
(** GetTxRollbackMessage: bolt.go:47-49 (v1, v2), 56-58 (v3, v4); type test transaction.go:121 *)
Definition get_rollback_message (p : proto) : gval * bool :=
  match p with
  | P1 | P2 => (run_message (str "ROLLBACK") [], false)
  | P3 | P4 => (rollback_message, true)
  end.

(** GetRunMessage: bolt.go:55-57 (v1, v2), 60-66 (v3, v4) *)
Definition get_run_message (p : proto) (q : bytes) (params : gomap) (db : bytes) (mode : Z) (autoCommit : bool) : gval :=
  match p with
  | P1 | P2 => run_message q params
  | P3 | P4 => if autoCommit then autocommit_run q params 0 None db mode else unmanaged_run q params
  end.

(** GetPullAllMessage: bolt.go:59-61 (v1, v2), 68-70 (v3, v4) *)
Definition get_pull_all_message (p : proto) : gval :=
  match p with P4 => pull_message StreamUnlimited AbsentQueryId | _ => pull_all_message end.

(** GetDiscardMessage: bolt.go:23-25 (v1, v2), 22-24 (v3: DiscardMessage, v4: DiscardMessage) *)
Definition get_discard_message (p : proto) (qid : Z) : gval :=
  match p with P1 | P2 => discard_all_message | P3 | P4 => discard_message StreamUnlimited qid end.
(** GetDiscardAllMessage: bolt.go:27-29 (v1, v2), 26-28 (v3: DiscardAllMessage, v4) *)
Definition get_discard_all_message (p : proto) : gval :=
  match p with P4 => discard_message StreamUnlimited AbsentQueryId | _ => discard_all_message end.
