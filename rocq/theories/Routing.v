(** routing/routing_handler.go: the routing table. *)
From Coq Require Import String ZArith List Bool.
From Verif Require Import Bytes GoVal GoErr Decoder Messages GoStr.
Import ListNotations.
Open Scope Z_scope.

(** routing_handler.go:15-16 *)
Definition cluster_overview : bytes := str "call dbms.cluster.overview()".
Definition neo_v4_system_db : bytes := str "system".

(** routing_handler.go:18-24; -1 is what infoFromRoleString answers for an unknown role *)
Definition Leader : Z := 0.
Definition Follower : Z := 1.
Definition ReadReplica : Z := 2.

(** routing_handler.go:26-34 neoNodeConfig; Database and Groups are never set *)
Record node := mkNode {
  n_id : bytes;
  n_addresses : list bytes;
  n_bolt : bytes;
  n_action : Z;
  n_type : Z
}.
(** routing_handler.go:36-40 boltRoutingHandler; a nil slice is the empty list *)
Record handler := mkHandler {
  h_leaders : list node;
  h_followers : list node;
  h_replicas : list node
}.
Definition no_handler : handler := mkHandler [] [] [].

(** routing_handler.go:42-64 getReadConnectionStrings (not used by the pool) *)
Definition get_read_connection_strings (h : handler) : list bytes :=
  map n_bolt (h_replicas h) ++ map n_bolt (h_followers h) ++ map n_bolt (h_replicas h).
(** routing_handler.go:66-76 *)
Definition get_write_connection_strings (h : handler) : list bytes := map n_bolt (h_leaders h).
(** routing_handler.go:78-94 *)
Definition get_read_only_connection_strings (h : handler) : list bytes :=
  map n_bolt (h_followers h) ++ map n_bolt (h_replicas h).

(** x.(string) *)
Definition as_string (x : gval) : option bytes := match x with GStr s => Some s | _ => None end.

(** routing_handler.go:254-278 convertInterfaceToStringArr *)
Fixpoint strings_of (l : list gval) : option (list bytes) :=
  match l with
  | [] => Some []
  | x :: l' => match as_string x, strings_of l' with Some s, Some r => Some (s :: r) | _, _ => None end
  end.
Definition convert_to_string_arr (i : gval) : res (list bytes) :=
  match i with
  | GNil => Err (ENew (TMsg 201))
  | GSlice l => match strings_of l with Some r => Ok r | None => Err (ENew (TMsg 203)) end
  | _ => Err (ENew (TMsg 202))
  end.

(** routing_handler.go:181-212 parseRowV4: id, addresses, role *)
Definition parse_row_v4 (row : list gval) : res (bytes * list bytes * bytes) :=
  match row with
  | [r0; r1; r2; _] =>
      match as_string r0 with
      | None => Err (ENew (TMsg 205))
      | Some id =>
          match convert_to_string_arr r1 with
          | Ok addresses =>
              match r2 with
              | GMap databases =>
                  match map_get databases (str "system") with
                  | None => Err (ENew (TMsg 208))
                  | Some roleInt =>
                      match as_string roleInt with
                      | None => Err (EFmt None (TMsg 209))
                      | Some role => Ok (id, addresses, role)
                      end
                  end
              | _ => Err (ENew (TMsg 207))
              end
          | _ => Err (ENew (TMsg 206))
          end
      end
  | _ => Err (EFmt None (TMsg 204))
  end.
(** routing_handler.go:218-252 parseRowV3: id, addresses, role (groups and database are read and dropped) *)
Definition parse_row_v3 (row : list gval) : res (bytes * list bytes * bytes) :=
  match row with
  | [r0; r1; r2; r3; r4] =>
      match as_string r0 with
      | None => Err (ENew (TMsg 211))
      | Some id =>
          match convert_to_string_arr r1 with
          | Ok addresses =>
              match as_string r2 with
              | None => Err (ENew (TMsg 213))
              | Some role =>
                  match convert_to_string_arr r3 with
                  | Ok _ =>
                      match as_string r4 with
                      | None => Err (ENew (TMsg 215))
                      | Some _ => Ok (id, addresses, role)
                      end
                  | _ => Err (ENew (TMsg 214))
                  end
              end
          | _ => Err (ENew (TMsg 212))
          end
      end
  | _ => Err (EFmt None (TMsg 210))
  end.

(** routing_handler.go:280-291 infoFromRoleString: node type, access mode *)
Definition info_from_role_string (s : bytes) : Z * Z :=
  let l := to_lower s in
  if bytes_eqb l (str "leader") then (Leader, WriteMode)
  else if bytes_eqb l (str "follower") then (Follower, ReadMode)
  else if bytes_eqb l (str "read_replica") then (ReadReplica, ReadMode)
  else (-1, -1).

(** routing_handler.go:132-136: the last address that contains "bolt" *)
Definition pick_bolt (addresses : list bytes) : bytes :=
  fold_left (fun boltStr s => if contains (str "bolt") s then s else boltStr) addresses [].

(** routing_handler.go:118-168: the loop over the rows *)
Fixpoint read_rows (v4 : bool) (rows : list (list gval)) (acc : handler) : res handler :=
  match rows with
  | [] => Ok acc
  | row :: rows' =>
      match (if v4 then parse_row_v4 row else parse_row_v3 row) with
      | Ok (id, addresses, role) =>
          let boltStr := pick_bolt addresses in
          if bytes_eqb boltStr [] then read_rows v4 rows' acc
          else
            let '(nodeType, action) := info_from_role_string role in
            let n := mkNode id addresses boltStr action nodeType in
            if nodeType =? Leader then read_rows v4 rows' (mkHandler (h_leaders acc ++ [n]) (h_followers acc) (h_replicas acc))
            else if nodeType =? Follower then read_rows v4 rows' (mkHandler (h_leaders acc) (h_followers acc ++ [n]) (h_replicas acc))
            else if nodeType =? ReadReplica then read_rows v4 rows' (mkHandler (h_leaders acc) (h_followers acc) (h_replicas acc ++ [n]))
            else Err (EFmt None (TMsg 216))
      | Err e => Err e
      | Panic => Panic
      | NoFuel => NoFuel
      end
  end.

(** routing_handler.go:96-175 refreshClusterInfo, given the protocol version of the connection and
    what the overview query returned (lines 104-108). The pool never passes a nil connection. *)
Definition refresh_cluster_info (h : handler) (version : Z) (rows : res (list (list gval))) : handler * res unit :=
  match rows with
  | Ok rows =>
      match read_rows (version =? 4) rows no_handler with
      | Ok h' => (h', Ok tt)
      | Err e => (h, Err e)
      | Panic => (h, Panic)
      | NoFuel => (h, NoFuel)
      end
  | Err e => (h, Err e)
  | Panic => (h, Panic)
  | NoFuel => (h, NoFuel)
  end.
