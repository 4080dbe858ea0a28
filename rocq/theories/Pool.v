(** routing/pool.go, routing/queue.go, routing/pool_wrapper.go: the routing pool, one operation at a
    time. Operations that overlap are modelled in PoolRace.v. *)
From Coq Require Import String ZArith List Bool.
From Verif Require Import Bytes GoVal GoErr Decoder Messages GoStr Routing.
Import ListNotations.
Open Scope Z_scope.

(** ** The connections the pool works with *)

(** What the pool does with connections, on an arbitrary state [W] of the world. A connection is a
    number. [k_dial]: connection.CreateBoltConn; [k_valid]: ValidateOpen; [k_close]: Close;
    [k_query]: the protocol version and the result of the overview query
    (routing_handler.go:104-108); [k_name]: stringWithCharset(50, charset) (routing/util.go:11-17). *)
Record cluster (W : Type) := mkCluster {
  k_dial : bytes -> W -> W * res nat;
  k_valid : nat -> W -> W * bool;
  k_close : nat -> W -> W * option gerr;
  k_query : nat -> W -> W * (Z * res (list (list gval)));
  k_name : W -> W * bytes
}.
Arguments mkCluster {W}.
Arguments k_dial {W}.
Arguments k_valid {W}.
Arguments k_close {W}.
Arguments k_query {W}.
Arguments k_name {W}.

(** pool_wrapper.go:8-15 connectionPoolWrapper. [pw_id] is GetConnectionId() of the connection, set
    once at pool.go:177. Simplifications: borrowed and numBorrows are never used and left out; the
    mutable markForDeletion is kept in [p_marked]; that a borrower might call SetConnectionId on the
    connection is left out. *)
Record wrapper := mkWrap {
  pw_conn : nat;
  pw_id : bytes;
  pw_str : bytes;
  pw_mode : Z
}.

(** ** queue.go *)

Definition queue := list wrapper.
(** queue.go:26-30 *)
Definition enqueue (w : wrapper) (q : queue) : queue := q ++ [w].
(** queue.go:33-43; None: nil *)
Definition dequeue (q : queue) : option wrapper * queue :=
  match q with [] => (None, []) | w :: q' => (Some w, q') end.
(** queue.go:46-51: panics on an empty queue, with the lock held *)
Definition front (q : queue) : res wrapper := match q with [] => Panic | w :: _ => Ok w end.
(** queue.go:54-56 *)
Definition is_empty (q : queue) : bool := zlen q =? 0.
(** queue.go:59-61 *)
Definition size (q : queue) : Z := zlen q.

(** ** pool.go:14-52 routingPool; refreshInterval is not modelled, updating is never used *)
Record pool := mkPool {
  p_auth : bytes;                                  (* userPassPart *)
  p_tls : bytes;                                   (* tlsInfo *)
  p_leader : bytes;                                (* leaderConnStr *)
  p_running : bool;
  p_total : Z;
  p_min_w : Z; p_max_w : Z; p_min_r : Z; p_max_r : Z;
  p_handler : handler;
  p_lookup : list (bytes * list nat);              (* connStrLookup *)
  p_borrowed : list (bytes * wrapper);
  p_held : list (bytes * wrapper);
  p_rw : list bytes; p_rw_index : Z; p_wq : queue;
  p_rs : list bytes; p_rs_index : Z; p_rq : queue;
  p_marked : list nat
}.

Definition set_running b p := mkPool (p_auth p) (p_tls p) (p_leader p) b (p_total p) (p_min_w p) (p_max_w p) (p_min_r p) (p_max_r p) (p_handler p) (p_lookup p) (p_borrowed p) (p_held p) (p_rw p) (p_rw_index p) (p_wq p) (p_rs p) (p_rs_index p) (p_rq p) (p_marked p).
Definition set_max mw mr p := mkPool (p_auth p) (p_tls p) (p_leader p) (p_running p) (p_total p) (p_min_w p) mw (p_min_r p) mr (p_handler p) (p_lookup p) (p_borrowed p) (p_held p) (p_rw p) (p_rw_index p) (p_wq p) (p_rs p) (p_rs_index p) (p_rq p) (p_marked p).
Definition set_handler h p := mkPool (p_auth p) (p_tls p) (p_leader p) (p_running p) (p_total p) (p_min_w p) (p_max_w p) (p_min_r p) (p_max_r p) h (p_lookup p) (p_borrowed p) (p_held p) (p_rw p) (p_rw_index p) (p_wq p) (p_rs p) (p_rs_index p) (p_rq p) (p_marked p).
Definition set_borrowed m p := mkPool (p_auth p) (p_tls p) (p_leader p) (p_running p) (p_total p) (p_min_w p) (p_max_w p) (p_min_r p) (p_max_r p) (p_handler p) (p_lookup p) m (p_held p) (p_rw p) (p_rw_index p) (p_wq p) (p_rs p) (p_rs_index p) (p_rq p) (p_marked p).
Definition set_held m p := mkPool (p_auth p) (p_tls p) (p_leader p) (p_running p) (p_total p) (p_min_w p) (p_max_w p) (p_min_r p) (p_max_r p) (p_handler p) (p_lookup p) (p_borrowed p) m (p_rw p) (p_rw_index p) (p_wq p) (p_rs p) (p_rs_index p) (p_rq p) (p_marked p).
Definition set_strings rw rs p := mkPool (p_auth p) (p_tls p) (p_leader p) (p_running p) (p_total p) (p_min_w p) (p_max_w p) (p_min_r p) (p_max_r p) (p_handler p) (p_lookup p) (p_borrowed p) (p_held p) rw (p_rw_index p) (p_wq p) rs (p_rs_index p) (p_rq p) (p_marked p).
Definition set_rw_index i p := mkPool (p_auth p) (p_tls p) (p_leader p) (p_running p) (p_total p) (p_min_w p) (p_max_w p) (p_min_r p) (p_max_r p) (p_handler p) (p_lookup p) (p_borrowed p) (p_held p) (p_rw p) i (p_wq p) (p_rs p) (p_rs_index p) (p_rq p) (p_marked p).
Definition set_rs_index i p := mkPool (p_auth p) (p_tls p) (p_leader p) (p_running p) (p_total p) (p_min_w p) (p_max_w p) (p_min_r p) (p_max_r p) (p_handler p) (p_lookup p) (p_borrowed p) (p_held p) (p_rw p) (p_rw_index p) (p_wq p) (p_rs p) i (p_rq p) (p_marked p).
Definition set_wq q p := mkPool (p_auth p) (p_tls p) (p_leader p) (p_running p) (p_total p) (p_min_w p) (p_max_w p) (p_min_r p) (p_max_r p) (p_handler p) (p_lookup p) (p_borrowed p) (p_held p) (p_rw p) (p_rw_index p) q (p_rs p) (p_rs_index p) (p_rq p) (p_marked p).
Definition set_rq q p := mkPool (p_auth p) (p_tls p) (p_leader p) (p_running p) (p_total p) (p_min_w p) (p_max_w p) (p_min_r p) (p_max_r p) (p_handler p) (p_lookup p) (p_borrowed p) (p_held p) (p_rw p) (p_rw_index p) (p_wq p) (p_rs p) (p_rs_index p) q (p_marked p).
Definition set_marked l p := mkPool (p_auth p) (p_tls p) (p_leader p) (p_running p) (p_total p) (p_min_w p) (p_max_w p) (p_min_r p) (p_max_r p) (p_handler p) (p_lookup p) (p_borrowed p) (p_held p) (p_rw p) (p_rw_index p) (p_wq p) (p_rs p) (p_rs_index p) (p_rq p) l.

(** The queue, address list and position of one kind of connection. *)
Definition queue_of (mode : Z) (p : pool) : queue := if mode =? WriteMode then p_wq p else p_rq p.
Definition set_queue (mode : Z) (q : queue) (p : pool) : pool := if mode =? WriteMode then set_wq q p else set_rq q p.
Definition strings_for (mode : Z) (p : pool) : list bytes := if mode =? WriteMode then p_rw p else p_rs p.
Definition index_for (mode : Z) (p : pool) : Z := if mode =? WriteMode then p_rw_index p else p_rs_index p.
Definition set_index (mode i : Z) (p : pool) : pool := if mode =? WriteMode then set_rw_index i p else set_rs_index i p.

(** delete(m, k), m[k] = v *)
Fixpoint map_del {A} (k : bytes) (m : list (bytes * A)) : list (bytes * A) :=
  match m with
  | [] => []
  | (k', v) :: m' => if bytes_eqb k k' then map_del k m' else (k', v) :: map_del k m'
  end.
Definition map_set {A} (k : bytes) (v : A) (m : list (bytes * A)) : list (bytes * A) := (k, v) :: map_del k m.

(** pool.go:55-99 NewRoutingPool *)
Definition new_routing_pool (leaderConnStr : bytes) (numConns : Z) (authPart tlsInfo : bytes) : res pool :=
  if bytes_eqb leaderConnStr [] then Err (ENew (TMsg 220))
  else
    let leader := if contains (str "+routing") leaderConnStr then remove_all (str "+routing") leaderConnStr else leaderConnStr in
    if (numConns =? 0) || (numConns =? 1) then Err (EFmt None (TMsg 221))
    else Ok (mkPool authPart tlsInfo leader false numConns 0 0 0 0 no_handler [] [] [] [] 0 [] [] 0 [] []).

(** pool.go:553-561 addAuthInfoToConnStr *)
Definition add_auth_info (auth tls connStr : bytes) : bytes :=
  match auth, tls with
  | [], [] => connStr
  | _, _ => str "bolt://" ++ auth ++ str "@" ++ remove_all (str "bolt://") connStr ++ tls
  end.

(** routing/util.go:22-29 stringSliceContains *)
Definition slice_contains (s : list bytes) (e : bytes) : bool := existsb (fun a => bytes_eqb a e) s.

(** pool.go:167-169 makeConnID *)
Definition make_conn_id (mode : Z) (name : bytes) : bytes :=
  (if mode =? WriteMode then str "1" else str "0") ++ str "-" ++ name.

Definition listed (h : nat) (l : list nat) : bool := existsb (Nat.eqb h) l.

Section Operations.
Context {W : Type}.
Variable K : cluster W.

(** An operation changes the pool and the world, and returns (A, error). *)
Definition M (A : Type) : Type := pool -> W -> pool * W * res A.
Definition ret {A} (a : A) : M A := fun p w => (p, w, Ok a).
Definition fail {A} (e : gerr) : M A := fun p w => (p, w, Err e).
Definition crash {A} : M A := fun p w => (p, w, Panic).
Definition mbind {A B} (m : M A) (f : res A -> M B) : M B :=
  fun p w => let '(p', w', r) := m p w in f r p' w'.
Definition bind {A B} (m : M A) (f : A -> M B) : M B :=
  mbind m (fun r => match r with Ok a => f a | Err e => fail e | Panic => crash | NoFuel => fun p w => (p, w, NoFuel) end).
Definition upd (f : pool -> pool) : M unit := fun p w => (f p, w, Ok tt).
Definition get {A} (f : pool -> M A) : M A := fun p w => f p p w.
Definition dial (s : bytes) : M nat := fun p w => let '(w', r) := k_dial K s w in (p, w', r).
Definition valid (h : nat) : M bool := fun p w => let '(w', b) := k_valid K h w in (p, w', Ok b).
Definition close_conn (h : nat) : M unit :=
  fun p w => let '(w', e) := k_close K h w in (p, w', match e with None => Ok tt | Some e => Err e end).

(** pool.go:101-115 removeConn *)
Definition remove_conn (o : option wrapper) : M unit :=
  match o with
  | None => fail (ENew (TMsg 222))
  | Some c =>
      bind (valid (pw_conn c)) (fun ok =>
      bind (if ok then ret tt else close_conn (pw_conn c)) (fun _ =>
      upd (fun p => set_held (map_del (pw_id c) (p_held p)) p)))
  end.

(** pool.go:171-190 newConnection *)
Definition new_connection (mode : Z) (connStr : bytes) : M wrapper :=
  bind (dial connStr) (fun h =>
  fun p w =>
    let '(w', name) := k_name K w in
    let c := mkWrap h (make_conn_id mode name) connStr mode in
    (set_held (map_set (pw_id c) c (p_held p)) p, w', Ok c)).

(** pool.go:117-140 addWriteConn ([mode] = WriteMode), 142-165 addReadConn *)
Definition add_conn (mode : Z) : M unit :=
  get (fun p =>
    let strs := strings_for mode p in
    match strs with
    | [] => fail (ENew (TMsg 223))
    | _ =>
        let i := index_for mode p + 1 in
        let i := if i =? zlen strs then 0 else i in
        bind (upd (set_index mode i)) (fun _ =>
        (* strs[i] panics outside 0 .. len-1 *)
        if (0 <=? i) && (i <? zlen strs) then
          match nth_error strs (Z.to_nat i) with
          | None => crash
          | Some s =>
              bind (new_connection mode s) (fun c =>
              upd (fun p => set_queue mode (enqueue c (queue_of mode p)) p))
          end
        else crash)
    end).

(** pool.go:206-261, once the routing table has been read: the new address lists and the marks *)
Definition merge_strings (p : pool) : pool :=
  let newWriteStrs := get_write_connection_strings (p_handler p) in
  let newReadStrs := get_read_only_connection_strings (p_handler p) in
  let dead := filter (fun s => negb (slice_contains newWriteStrs s)) (p_rw p)
           ++ filter (fun s => negb (slice_contains newReadStrs s)) (p_rs p) in
  let keptW := filter (slice_contains newWriteStrs) (p_rw p) in
  let keptR := filter (slice_contains newReadStrs) (p_rs p) in
  let add := fold_left (fun acc s => let s' := add_auth_info (p_auth p) (p_tls p) s in
                                     if slice_contains acc s' then acc else acc ++ [s']) in
  let marked := flat_map (fun s => match map_get (p_lookup p) s with Some l => l | None => [] end) dead in
  set_strings (add newWriteStrs keptW) (add newReadStrs keptR) (set_marked (marked ++ p_marked p) p).

(** pool.go:192-262 refreshConnections. The error of refreshClusterInfo is dropped (line 201). A
    panic of the query is passed on after the deferred Close. *)
Definition refresh_connections : M unit :=
  mbind (get (fun p => dial (p_leader p))) (fun r =>
  match r with
  | Ok h =>
      mbind (fun p w =>
               let '(w', (version, rows)) := k_query K h w in
               match rows with
               | Panic | NoFuel => (p, w', match rows with Panic => Panic | _ => NoFuel end)
               | _ => let '(hd, _) := refresh_cluster_info (p_handler p) version rows in
                      (merge_strings (set_handler hd p), w', Ok tt)
               end) (fun r' =>
      mbind (close_conn h) (fun _ => fun p w => (p, w, r')))
  | Err _ => ret tt
  | Panic => crash
  | NoFuel => fun p w => (p, w, NoFuel)
  end).

(** pool.go:267-277 and 279-289: the connections of a queue that are kept *)
Fixpoint prune_queue (remove : wrapper -> M unit) (q : queue) : M queue :=
  match q with
  | [] => ret []
  | c :: q' =>
      get (fun p =>
        if listed (pw_conn c) (p_marked p)
        then mbind (remove c) (fun _ => prune_queue remove q')
        else bind (prune_queue remove q') (fun r => ret (c :: r)))
  end.
(** pool.go:264-293 prune *)
Definition prune : M unit :=
  bind (get (fun p => prune_queue (fun c => close_conn (pw_conn c)) (p_rq p))) (fun reads =>
  bind (get (fun p => prune_queue (fun c => remove_conn (Some c)) (p_wq p))) (fun writes =>
  upd (fun p => set_rq reads (set_wq writes p)))).

(** for q.Size() == bound { body } (pool.go:297, 308, 316, 327, 335), with fuel *)
Fixpoint while_size (fuel : nat) (mode bound : Z) (body : M unit) : M unit :=
  match fuel with
  | O => fun p w => (p, w, NoFuel)
  | S fuel' =>
      get (fun p => if size (queue_of mode p) =? bound
                    then mbind body (fun _ => while_size fuel' mode bound body)
                    else ret tt)
  end.
Definition take_out (mode : Z) : M unit :=
  get (fun p => let '(c, q) := dequeue (queue_of mode p) in
                bind (upd (set_queue mode q)) (fun _ => remove_conn c)).
(** pool.go:295-343 balance *)
Definition balance (fuel : nat) : M unit :=
  bind (get (fun p => if size (p_rq p) <? p_min_r p then while_size fuel ReadMode (p_min_r p) (add_conn ReadMode) else ret tt)) (fun _ =>
  bind (get (fun p => if size (p_wq p) <? p_min_w p then while_size fuel WriteMode (p_min_w p) (add_conn WriteMode)
                      else if p_max_w p <? size (p_wq p) then while_size fuel WriteMode (p_max_w p) (take_out WriteMode)
                      else ret tt)) (fun _ =>
  get (fun p => if size (p_rq p) <? p_min_r p then while_size fuel ReadMode (p_min_r p) (add_conn ReadMode)
                else if p_max_r p <? size (p_rq p) then while_size fuel ReadMode (p_max_r p) (take_out ReadMode)
                else ret tt))).

(** pool.go:345-358 refreshHandler: one round of its loop, done with the mutex held. The loop tests
    isRunning only before waiting, so one round may follow Stop. *)
Definition refresh_round : M unit :=
  bind refresh_connections (fun _ => bind prune (fun _ => balance 1)).

Fixpoint times (n : nat) (m : M unit) : M unit :=
  match n with O => ret tt | S n' => bind m (fun _ => times n' m) end.
(** pool.go:367-374; Go's / and % truncate *)
Definition write_share (total : Z) : Z := if Z.rem total 2 =? 0 then Z.quot total 2 else Z.quot (total - 1) 2 + 1.
Definition read_share (total : Z) : Z := if Z.rem total 2 =? 0 then Z.quot total 2 else Z.quot (total - 1) 2.
(** pool.go:360-403 Start *)
Definition start_pool : M unit :=
  get (fun p =>
    if p_running p then fail (ENew (TMsg 224))
    else
      bind (upd (fun p => set_max (write_share (p_total p)) (read_share (p_total p)) (set_running true p))) (fun _ =>
      bind refresh_connections (fun _ =>
      bind (get (fun p => times (Z.to_nat (p_max_w p)) (add_conn WriteMode))) (fun _ =>
      get (fun p => times (Z.to_nat (p_max_r p)) (add_conn ReadMode)))))).

(** pool.go:412-417 and 419-424, with fuel *)
Fixpoint drain (fuel : nat) (mode : Z) : M unit :=
  match fuel with
  | O => fun p w => (p, w, NoFuel)
  | S fuel' =>
      get (fun p => if size (queue_of mode p) =? 0 then ret tt
                    else bind (take_out mode) (fun _ => drain fuel' mode))
  end.
(** pool.go:405-427 Stop *)
Definition stop_pool : M unit :=
  get (fun p =>
    if negb (p_running p) then fail (ENew (TMsg 225))
    else
      bind (upd (set_running false)) (fun _ =>
      bind (drain (S (length (p_rq p))) ReadMode) (fun _ => drain (S (length (p_wq p))) WriteMode))).

(** pool.go:429-459 internalBorrow, with fuel for its recursion *)
Fixpoint internal_borrow (fuel : nat) (mode : Z) : M wrapper :=
  match fuel with
  | O => fun p w => (p, w, NoFuel)
  | S fuel' =>
      get (fun p =>
        let '(o, q) := dequeue (queue_of mode p) in
        bind (upd (set_queue mode q)) (fun _ =>
        match o with
        | None => fail (EFmt None (TMsg 226))
        | Some c =>
            if listed (pw_conn c) (p_marked p) then bind (remove_conn (Some c)) (fun _ => internal_borrow fuel' mode)
            else bind (valid (pw_conn c)) (fun ok =>
              if negb ok then bind (remove_conn (Some c)) (fun _ => internal_borrow fuel' mode)
              else bind (upd (fun p => set_borrowed (map_set (pw_id c) c (p_borrowed p)) (set_held (map_del (pw_id c) (p_held p)) p)))
                        (fun _ => ret c))
        end))
  end.
(** pool.go:461-471 BorrowRConnection ([mode] = ReadMode), 473-483 BorrowRWConnection *)
Definition borrow (mode : Z) : M wrapper :=
  get (fun p => internal_borrow (S (length (queue_of mode p))) mode).

(** pool.go:509-551 Reclaim, of the connection [h] whose id is [id] *)
Definition reclaim (id : bytes) (h : nat) : M unit :=
  get (fun p =>
    if negb (p_running p) then fail (ENew (TMsg 227))
    else match map_get (p_borrowed p) id with
    | None =>
        mbind (close_conn h) (fun r =>
        match r with
        | Err e => fail (EFmt (Some e) (TMsg 228))
        | _ => fail (EFmt None (TMsg 229))
        end)
    | Some c =>
        bind (upd (fun p => set_held (map_set id c (p_held p)) (set_borrowed (map_del id (p_borrowed p)) p))) (fun _ =>
        bind (valid (pw_conn c)) (fun ok =>
        let back := upd (fun p => let m := if pw_mode c =? WriteMode then WriteMode else ReadMode in
                                  set_queue m (enqueue c (queue_of m p)) p) in
        if ok then back
        else mbind (remove_conn (Some c)) (fun r =>
          match r with
          | Err _ => if pw_mode c =? WriteMode then add_conn WriteMode else add_conn ReadMode
          | Ok _ => back
          | Panic => crash
          | NoFuel => fun p w => (p, w, NoFuel)
          end)))
    end).

(** ** The operations and their results *)

Inductive pop := OStart | OStop | OBorrow (mode : Z) | OReclaim (id : bytes) (h : nat) | ORefresh.
Inductive presult := RLent (id : bytes) (h : nat) | RDone | RFail (e : gerr) | RPanic | RNoFuel.
Definition result_of {A} (f : A -> presult) (r : res A) : presult :=
  match r with Ok a => f a | Err e => RFail e | Panic => RPanic | NoFuel => RNoFuel end.
(** [OBorrow mode]: driver_routing_pool.go:38-44 Open; the borrower sees the connection and its id *)
Definition do_pop (o : pop) (p : pool) (w : W) : pool * W * presult :=
  match o with
  | OStart => let '(p', w', r) := start_pool p w in (p', w', result_of (fun _ => RDone) r)
  | OStop => let '(p', w', r) := stop_pool p w in (p', w', result_of (fun _ => RDone) r)
  | OBorrow mode => let '(p', w', r) := borrow (if mode =? ReadMode then ReadMode else WriteMode) p w in
                    (p', w', result_of (fun c => RLent (pw_id c) (pw_conn c)) r)
  | OReclaim id h => let '(p', w', r) := reclaim id h p w in (p', w', result_of (fun _ => RDone) r)
  | ORefresh => let '(p', w', r) := refresh_round p w in (p', w', result_of (fun _ => RDone) r)
  end.
(** A sequence of operations, with their results. *)
Fixpoint run_pool (os : list pop) (p : pool) (w : W) : pool * W * list (pop * presult) :=
  match os with
  | [] => (p, w, [])
  | o :: os' =>
      let '(p1, w1, r) := do_pop o p w in
      let '(p2, w2, l) := run_pool os' p1 w1 in
      (p2, w2, (o, r) :: l)
  end.
End Operations.
