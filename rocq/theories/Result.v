(** connection/result.go and the accessors of structures/messages/responses.go. *)
From Coq Require Import String ZArith List Bool.
From Verif Require Import Bytes GoVal GoErr Decoder Messages.
Import ListNotations.
Open Scope Z_scope.

(** result.go:13-25 GetStats: (nil, false) is None *)
Definition get_stats (md : gomap) : option gomap :=
  match map_get md (str "stats") with
  | Some (GMap m) => Some m
  | _ => None
  end.

(** num.(int64): panics on nil and on every other type; [num] is nil when the key is absent *)
Definition assert_int64 (num : option gval) : res Z :=
  match num with
  | Some (GInt KInt64 z) => Ok z
  | _ => Panic
  end.

(** The body shared by GetNodesCreated (result.go:27-35), GetRelationshipsCreated (37-45) and
    GetRelationshipsDeleted (60-68). *)
Definition stat_unchecked (key : bytes) (md : gomap) : res (Z * bool) :=
  match get_stats md with
  | None => Ok (-1, false)
  | Some stats =>
      let num := map_get stats key in
      match assert_int64 num with
      | Ok z => Ok (z, match num with Some _ => true | None => false end)
      | Err e => Err e
      | Panic => Panic
      | NoFuel => NoFuel
      end
  end.
(** result.go:27-35 *)
Definition get_nodes_created : gomap -> res (Z * bool) := stat_unchecked (str "nodes-created").
(** result.go:37-45 *)
Definition get_relationships_created : gomap -> res (Z * bool) := stat_unchecked (str "relationships-created").
(** result.go:60-68 *)
Definition get_relationships_deleted : gomap -> res (Z * bool) := stat_unchecked (str "relationships-deleted").
(** result.go:47-58 GetNodesDeleted *)
Definition get_nodes_deleted (md : gomap) : res (Z * bool) :=
  match get_stats md with
  | None => Ok (-1, false)
  | Some stats =>
      match map_get stats (str "nodes-deleted") with
      | None => Ok (-1, false)
      | num => match assert_int64 num with
               | Ok z => Ok (z, true)
               | Err e => Err e
               | Panic => Panic
               | NoFuel => NoFuel
               end
      end
  end.

(** responses.go:41-56 SuccessMessage.GetAvailableAfter. The key is the one of versions 1 and 2. *)
Definition get_available_after (md : gomap) : Z :=
  match map_get md (str "result_available_after") with
  | Some (GInt KInt64 z) => z
  | _ => -1
  end.
(** responses.go:131-143 FailureMessage.GetCode *)
Definition get_code (md : gomap) : bytes :=
  match map_get md (str "code") with
  | None => str "none"
  | Some (GStr s) => s
  | Some _ => str "failed to parse code string"
  end.
(** responses.go:146-158 FailureMessage.GetMessage *)
Definition get_message (md : gomap) : bytes :=
  match map_get md (str "message") with
  | None => str "none"
  | Some (GStr s) => s
  | Some _ => str "failed to parse message to string"
  end.
(** responses.go:162-164 FailureMessage.Error *)
Definition failure_text (md : gomap) : bytes :=
  str "code: [" ++ get_code md ++ str "]; message: [" ++ get_message md ++ str "]".

(** ** Specification: what the server reported under "stats" *)
Inductive reported : gomap -> bytes -> Z -> Prop :=
| rep md key stats z : map_get md (str "stats") = Some (GMap stats) -> map_get stats key = Some (GInt KInt64 z) -> reported md key z.
(** The server reported something that is not a number. *)
Definition malformed (md : gomap) (key : bytes) : Prop :=
  exists stats x, map_get md (str "stats") = Some (GMap stats) /\ map_get stats key = Some x /\ forall z, x <> GInt KInt64 z.
(** There are statistics, but not this one. *)
Definition unreported (md : gomap) (key : bytes) : Prop :=
  exists stats, map_get md (str "stats") = Some (GMap stats) /\ map_get stats key = None.
