(** routing/pool.go:117-190 and 264-551: borrowing, returning, starting, stopping and the rounds of the refresher by
    several goroutines at once. *)
From Coq Require Import String ZArith List Bool.
From Verif Require Import Bytes GoVal GoErr Decoder Messages GoStr Routing Pool Concurrency.
Import ListNotations.
Open Scope Z_scope.

(** The two maps of the pool (pool.go:36-39). *)
Inductive field := FHeld | FBorrowed.
Definition field_of (f : field) (p : pool) : list (bytes * wrapper) := match f with FHeld => p_held p | FBorrowed => p_borrowed p end.
Definition set_field (f : field) (m : list (bytes * wrapper)) (p : pool) : pool := match f with FHeld => set_held m p | FBorrowed => set_borrowed m p end.

(** pool.go:31-34 *)
Record idle_limits := mkLimits { lim_min_w : Z; lim_max_w : Z; lim_min_r : Z; lim_max_r : Z }.

(** The three lists of the routing handler (routing_handler.go:36-40). *)
Inductive part := Leaders | Followers | Replicas.
Definition part_of (m : part) (h : handler) : list node := match m with Leaders => h_leaders h | Followers => h_followers h | Replicas => h_replicas h end.
Definition set_part (m : part) (l : list node) (h : handler) : handler :=
  match m with
  | Leaders => mkHandler l (h_followers h) (h_replicas h)
  | Followers => mkHandler (h_leaders h) l (h_replicas h)
  | Replicas => mkHandler (h_leaders h) (h_followers h) l
  end.
(** pool.go:260 and 261 *)
Definition set_strings_for (mode : Z) (l : list bytes) (p : pool) : pool := if mode =? WriteMode then set_strings l (p_rs p) p else set_strings (p_rw p) l p.
(** pool.go:243-258 *)
Definition mark_all (dead : list bytes) (p : pool) : pool :=
  set_marked (flat_map (fun s => match map_get (p_lookup p) s with Some l => l | None => [] end) dead ++ p_marked p) p.

(** What a goroutine does, step by step. Queues have a lock of their own, taken and released inside
    Enqueue and Dequeue (queue.go:26-43), so these are single steps; Size (queue.go:59-61) takes none but is one
    read; isRunning and setRunning are
    one atomic operation each (pool.go:485-495). [GEnd]: finished without an error and without a connection.
    [GUse]: the goroutine uses a connection it has borrowed.
    [GMake]: a new connection and its id (newConnection, pool.go:167-187), for which nothing of the pool is used.
    [GStrings], [GIndex], [GSetIndex]: the addresses and the index of the one used last; Go does not say what comes of
    reading a field while another goroutine writes it, here one of the two comes first.
    [GSeed]: a connection to the leader, whose address never changes (pool.go:193); [GOverview]: the query for the members
    on it (routing_handler.go:103-108); [GQuit]: its Close, whose error is dropped (pool.go:199); [GPart], [GSetPart]: one
    of the three lists of the routing handler (routing_handler.go:36-40); [GAuth]: what is added to addresses, which never
    changes; [GSetStrings]: the addresses are replaced (pool.go:260, 261); [GMark]: pool.go:243-258.
    Simplifications: the marks are set in one step, the two maxima in one ([GShare]). The fields readQueue and writeQueue
    are read in the same step as the queue they point to. The loops of prune go over the items as they were when
    the loop began ([GItems]), as range does. *)
Inductive gprog :=
| GDone (r : res wrapper)
| GEnd
| GRLock (k : gprog)
| GRUnlock (k : gprog)
| GLock (k : gprog)
| GUnlock (k : gprog)
| GRunning (k : bool -> gprog)
| GSetRunning (b : bool) (k : gprog)
| GSize (mode : Z) (k : Z -> gprog)
| GDequeue (mode : Z) (k : option wrapper -> gprog)
| GEnqueue (mode : Z) (c : wrapper) (k : gprog)
| GMarked (h : nat) (k : bool -> gprog)
| GValid (h : nat) (k : bool -> gprog)
| GClose (h : nat) (k : option gerr -> gprog)
| GRead (f : field) (id : bytes) (k : option wrapper -> gprog)
| GWrite (f : field) (g : list (bytes * wrapper) -> list (bytes * wrapper)) (k : gprog)
| GMake (mode : Z) (s : bytes) (k : res wrapper -> gprog)
| GUse (c : wrapper) (k : gprog)
| GSeed (k : res nat -> gprog)
| GOverview (h : nat) (k : Z * res (list (list gval)) -> gprog)
| GQuit (h : nat) (k : gprog)
| GPart (m : part) (k : list node -> gprog)
| GSetPart (m : part) (l : list node) (k : gprog)
| GAuth (k : bytes * bytes -> gprog)
| GMark (dead : list bytes) (k : gprog)
| GSetStrings (mode : Z) (l : list bytes) (k : gprog)
| GItems (mode : Z) (k : queue -> gprog)
| GReplace (mode : Z) (q : queue) (k : gprog)
| GLimits (k : idle_limits -> gprog)
| GStrings (mode : Z) (k : list bytes -> gprog)
| GIndex (mode : Z) (k : Z -> gprog)
| GSetIndex (mode : Z) (i : Z) (k : gprog)
| GShare (k : gprog).

(** pool.go:167-190 newConnection and the rest of addWriteConn, addReadConn (131-139, 156-164): the index is in range or Go panics *)
Definition g_new (mode : Z) (k : res unit -> gprog) : gprog :=
  GStrings mode (fun l => GIndex mode (fun i =>
    if (0 <=? i) && (i <? zlen l) then
      match nth_error l (Z.to_nat i) with
      | None => k Panic
      | Some s => GMake mode s (fun r =>
          match r with
          | Ok c => GWrite FHeld (map_set (pw_id c) c) (GEnqueue mode c (k (Ok tt)))
          | Err e => k (Err e)
          | Panic => k Panic
          | NoFuel => k NoFuel
          end)
      end
    else k Panic)).
(** pool.go:117-140 addWriteConn ([mode] = WriteMode), 142-165 addReadConn, step by step; [k] is what follows *)
Definition g_add (mode : Z) (k : res unit -> gprog) : gprog :=
  GStrings mode (fun l =>
    match l with
    | [] => k (Err (ENew (TMsg 223)))
    | _ => GIndex mode (fun i => GSetIndex mode (i + 1) (GIndex mode (fun i => GStrings mode (fun l =>
             if i =? zlen l then GSetIndex mode 0 (g_new mode k) else g_new mode k))))
    end).

(** pool.go:101-115 removeConn *)
Definition g_remove (c : wrapper) (k : option gerr -> gprog) : gprog :=
  GValid (pw_conn c) (fun ok =>
    if ok then GWrite FHeld (map_del (pw_id c)) (k None)
    else GClose (pw_conn c) (fun e =>
      match e with Some e => k (Some e) | None => GWrite FHeld (map_del (pw_id c)) (k None) end)).
(** pool.go:429-459 internalBorrow, with fuel; [k] is what follows *)
Fixpoint g_internal_borrow (fuel : nat) (mode : Z) (k : res wrapper -> gprog) : gprog :=
  match fuel with
  | O => k NoFuel
  | S fuel' =>
      GDequeue mode (fun o =>
        match o with
        | None => k (Err (EFmt None (TMsg 226)))
        | Some c =>
            let again := fun e => match e with Some e => k (Err e) | None => g_internal_borrow fuel' mode k end in
            GMarked (pw_conn c) (fun marked =>
              if marked then g_remove c again
              else GValid (pw_conn c) (fun ok =>
                if negb ok then g_remove c again
                else GWrite FHeld (map_del (pw_id c)) (GWrite FBorrowed (map_set (pw_id c) c) (k (Ok c)))))
        end)
  end.
(** pool.go:461-483 BorrowRConnection, BorrowRWConnection: RLock, although the maps are written; [k] is
    what follows *)
Definition g_lend (fuel : nat) (mode : Z) (k : res wrapper -> gprog) : gprog :=
  GRLock (g_internal_borrow fuel mode (fun r => GRUnlock (k r))).
Definition g_borrow (fuel : nat) (mode : Z) : gprog := g_lend fuel mode GDone.
(** pool.go:509-551 Reclaim; the result is the connection wrapper, for convenience; [k] is what follows *)
Definition g_return (id : bytes) (h : nat) (k : res wrapper -> gprog) : gprog :=
  GLock (GRunning (fun on =>
    if negb on then GUnlock (k (Err (ENew (TMsg 227))))
    else GRead FBorrowed id (fun o =>
      match o with
      | None => GClose h (fun e => GUnlock (k (Err (match e with Some e => EFmt (Some e) (TMsg 228) | None => EFmt None (TMsg 229) end))))
      | Some c =>
          GWrite FBorrowed (map_del id) (GWrite FHeld (map_set id c) (GValid (pw_conn c) (fun ok =>
            let m := if pw_mode c =? WriteMode then WriteMode else ReadMode in
            let back := GEnqueue m c (GUnlock (k (Ok c))) in
            if ok then back
            else g_remove c (fun e =>
              match e with
              | Some _ => g_add m (fun r => GUnlock (k (match r with Ok _ => Ok c | Err e => Err e | Panic => Panic | NoFuel => NoFuel end)))
              | None => back
              end))))
      end))).
Definition g_reclaim (id : bytes) (h : nat) : gprog := g_return id h GDone.
(** A goroutine that borrows, uses and returns a connection for each mode of a list, whatever the errors
    (what users of driver_routing_pool.go do, which hands on both operations). *)
Fixpoint g_client (fuel : nat) (modes : list Z) : gprog :=
  match modes with
  | [] => GEnd
  | m :: modes' =>
      g_lend fuel m (fun r =>
        match r with
        | Ok c => GUse c (g_return (pw_id c) (pw_conn c) (fun r =>
            match r with Panic => GDone Panic | NoFuel => GDone NoFuel | _ => g_client fuel modes' end))
        | Err _ => g_client fuel modes'
        | Panic => GDone Panic
        | NoFuel => GDone NoFuel
        end)
  end.

(** pool.go:412-417 and 419-424, with fuel; [k] is what follows. The size is looked at and the connection
    taken in two steps. *)
Fixpoint g_drain (fuel : nat) (mode : Z) (k : res unit -> gprog) : gprog :=
  match fuel with
  | O => k NoFuel
  | S fuel' =>
      GSize mode (fun n =>
        if n =? 0 then k (Ok tt)
        else GDequeue mode (fun o =>
          match o with
          | None => k (Err (ENew (TMsg 222)))
          | Some c => g_remove c (fun e => match e with Some e => k (Err e) | None => g_drain fuel' mode k end)
          end))
  end.
Definition g_result (r : res unit) : gprog :=
  match r with Ok _ => GEnd | Err e => GDone (Err e) | Panic => GDone Panic | NoFuel => GDone NoFuel end.
(** pool.go:405-427 Stop: without the mutex *)
Definition g_stop (n m : nat) : gprog :=
  GRunning (fun on =>
    if negb on then GDone (Err (ENew (TMsg 225)))
    else GSetRunning false (g_drain n ReadMode (fun r =>
      match r with Ok _ => g_drain m WriteMode g_result | _ => g_result r end))).

(** pool.go:267-277 and 279-289: the connections of a list that are kept; [drop] is what is done with the others *)
Fixpoint g_sift (drop : wrapper -> gprog -> gprog) (q : queue) (k : queue -> gprog) : gprog :=
  match q with
  | [] => k []
  | c :: q' => GMarked (pw_conn c) (fun marked =>
      if marked then drop c (g_sift drop q' k) else g_sift drop q' (fun r => k (c :: r)))
  end.
(** pool.go:264-293 prune; errors are logged *)
Definition g_prune (k : gprog) : gprog :=
  GItems ReadMode (fun rs => g_sift (fun c k => GClose (pw_conn c) (fun _ => k)) rs (fun reads =>
  GItems WriteMode (fun ws => g_sift (fun c k => g_remove c (fun _ => k)) ws (fun writes =>
  GReplace WriteMode writes (GReplace ReadMode reads k))))).
(** for q.Size() == bound { body } (pool.go:297, 308, 316, 327, 335), with fuel *)
Fixpoint g_while (fuel : nat) (mode bound : Z) (body : gprog -> gprog) (k : res unit -> gprog) : gprog :=
  match fuel with
  | O => k NoFuel
  | S fuel' => GSize mode (fun n => if n =? bound then body (g_while fuel' mode bound body k) else k (Ok tt))
  end.
Definition g_more (mode : Z) (k : gprog) : gprog := g_add mode (fun _ => k).
Definition g_less (mode : Z) (k : gprog) : gprog :=
  GDequeue mode (fun o => match o with None => k | Some c => g_remove c (fun _ => k) end).
(** pool.go:306-323 and 325-342: both bounds of a queue. The size is looked at anew each time. *)
Definition g_bounds (fuel : nat) (mode low high : Z) (k : res unit -> gprog) : gprog :=
  GSize mode (fun n =>
    if n <? low then g_while fuel mode low (g_more mode) k
    else GSize mode (fun n => if high <? n then g_while fuel mode high (g_less mode) k else k (Ok tt))).
(** pool.go:295-343 balance; the limits do not change after Start *)
Definition g_balance (fuel : nat) (k : res unit -> gprog) : gprog :=
  GLimits (fun l =>
  let rest := g_bounds fuel WriteMode (lim_min_w l) (lim_max_w l) (fun r =>
    match r with Ok _ => g_bounds fuel ReadMode (lim_min_r l) (lim_max_r l) k | _ => k r end) in
  GSize ReadMode (fun n =>
    if n <? lim_min_r l then g_while fuel ReadMode (lim_min_r l) (g_more ReadMode) (fun r => match r with Ok _ => rest | _ => k r end)
    else rest)).
(** pool.go:203-261: the new address lists, from the routing handler and the old ones; [k] is what follows *)
Definition g_merge (k : gprog) : gprog :=
  GPart Leaders (fun ls => GPart Followers (fun fs => GPart Replicas (fun rs =>
  let newWriteStrs := get_write_connection_strings (mkHandler ls fs rs) in
  let newReadStrs := get_read_only_connection_strings (mkHandler ls fs rs) in
  GStrings WriteMode (fun oldW => GStrings ReadMode (fun oldR => GAuth (fun auth =>
  let add := fold_left (fun acc s => let s' := add_auth_info (fst auth) (snd auth) s in if slice_contains acc s' then acc else acc ++ [s']) in
  GMark (filter (fun s => negb (slice_contains newWriteStrs s)) oldW ++ filter (fun s => negb (slice_contains newReadStrs s)) oldR)
    (GSetStrings WriteMode (add newWriteStrs (filter (slice_contains newWriteStrs) oldW))
    (GSetStrings ReadMode (add newReadStrs (filter (slice_contains newReadStrs) oldR)) k)))))))).
(** pool.go:192-262 refreshConnections, with refreshClusterInfo (routing_handler.go:96-175), whose error is dropped *)
Definition g_refresh (k : res unit -> gprog) : gprog :=
  GSeed (fun r =>
    match r with
    | Ok h => GOverview h (fun answer =>
        let merge := g_merge (GQuit h (k (Ok tt))) in
        match snd answer with
        | Panic => GQuit h (k Panic)
        | NoFuel => GQuit h (k NoFuel)
        | Err _ => merge
        | Ok rows =>
            match read_rows (fst answer =? 4) rows no_handler with
            | Ok t => GSetPart Leaders (h_leaders t) (GSetPart Followers (h_followers t) (GSetPart Replicas (h_replicas t) merge))
            | _ => merge
            end
        end)
    | Err _ => k (Ok tt)
    | Panic => k Panic
    | NoFuel => k NoFuel
    end).
(** pool.go:349-356 refreshHandler: one round. Simplification: a panic, which ends the program, also releases the
    mutex. *)
Definition g_round (fuel : nat) : gprog :=
  GLock (g_refresh (fun r =>
    match r with
    | Ok _ => g_prune (g_balance fuel (fun r => GUnlock (g_result r)))
    | _ => GUnlock (g_result r)
    end)).

(** pool.go:387-392 and 394-399, [n] times; [k] is what follows *)
Fixpoint g_times (n : nat) (mode : Z) (k : res unit -> gprog) : gprog :=
  match n with
  | O => k (Ok tt)
  | S n' => g_add mode (fun r => match r with Ok _ => g_times n' mode k | _ => k r end)
  end.
(** pool.go:360-403 Start: without the mutex. The maxima are read once, before each loop: nobody sets them to anything else.
    The goroutine of line 401 is a task of its own ([TRound]). *)
Definition g_start : gprog :=
  GRunning (fun on =>
    if on then GDone (Err (ENew (TMsg 224)))
    else GSetRunning true (GShare (g_refresh (fun r =>
      match r with
      | Ok _ => GLimits (fun l => g_times (Z.to_nat (lim_max_w l)) WriteMode (fun r =>
          match r with Ok _ => GLimits (fun l => g_times (Z.to_nat (lim_max_r l)) ReadMode g_result) | _ => g_result r end))
      | _ => g_result r
      end)))).

(** sync.RWMutex: held for writing, or by a number of readers. Simplification: a waiting writer does
    not hold up new readers; every interleaving that is possible with that rule is possible here. *)
Record rwlock := mkRW { rw_writer : bool; rw_readers : nat }.

Section Steps.
Context {W : Type}.
Variable K : cluster W.
Record gsys := mkG { g_pool : pool; g_world : W; g_lock : rwlock; g_threads : list gprog }.

(** pool.go:167-187: connect and make an id *)
Definition make (mode : Z) (s : bytes) (w : W) : W * res wrapper :=
  match k_dial K s w with
  | (w1, Ok h) => let '(w2, name) := k_name K w1 in (w2, Ok (mkWrap h (make_conn_id mode name) s mode))
  | (w1, Err e) => (w1, Err e)
  | (w1, Panic) => (w1, Panic)
  | (w1, NoFuel) => (w1, NoFuel)
  end.
(** One step of one goroutine; None: finished or waiting. *)
Definition gstep (t : gprog) (p : pool) (w : W) (l : rwlock) : option (pool * W * rwlock * gprog) :=
  match t with
  | GDone _ | GEnd => None
  | GRLock k => if rw_writer l then None else Some (p, w, mkRW false (S (rw_readers l)), k)
  | GRUnlock k => Some (p, w, mkRW (rw_writer l) (pred (rw_readers l)), k)
  | GLock k => if rw_writer l then None else match rw_readers l with O => Some (p, w, mkRW true 0, k) | S _ => None end
  | GUnlock k => Some (p, w, mkRW false (rw_readers l), k)
  | GRunning k => Some (p, w, l, k (p_running p))
  | GSetRunning b k => Some (set_running b p, w, l, k)
  | GSize mode k => Some (p, w, l, k (size (queue_of mode p)))
  | GDequeue mode k => let '(o, q) := dequeue (queue_of mode p) in Some (set_queue mode q p, w, l, k o)
  | GEnqueue mode c k => Some (set_queue mode (enqueue c (queue_of mode p)) p, w, l, k)
  | GMarked h k => Some (p, w, l, k (listed h (p_marked p)))
  | GValid h k => let '(w', b) := k_valid K h w in Some (p, w', l, k b)
  | GClose h k => let '(w', e) := k_close K h w in Some (p, w', l, k e)
  | GRead f id k => Some (p, w, l, k (map_get (field_of f p) id))
  | GWrite f g k => Some (set_field f (g (field_of f p)) p, w, l, k)
  | GMake mode s k => let '(w', r) := make mode s w in Some (p, w', l, k r)
  | GUse _ k => Some (p, w, l, k)
  | GSeed k => let '(w', r) := k_dial K (p_leader p) w in Some (p, w', l, k r)
  | GOverview h k => let '(w', r) := k_query K h w in Some (p, w', l, k r)
  | GQuit h k => let '(w', _) := k_close K h w in Some (p, w', l, k)
  | GPart m k => Some (p, w, l, k (part_of m (p_handler p)))
  | GSetPart m ns k => Some (set_handler (set_part m ns (p_handler p)) p, w, l, k)
  | GAuth k => Some (p, w, l, k (p_auth p, p_tls p))
  | GMark dead k => Some (mark_all dead p, w, l, k)
  | GSetStrings mode ss k => Some (set_strings_for mode ss p, w, l, k)
  | GItems mode k => Some (p, w, l, k (queue_of mode p))
  | GReplace mode q k => Some (set_queue mode q p, w, l, k)
  | GLimits k => Some (p, w, l, k (mkLimits (p_min_w p) (p_max_w p) (p_min_r p) (p_max_r p)))
  | GStrings mode k => Some (p, w, l, k (strings_for mode p))
  | GIndex mode k => Some (p, w, l, k (index_for mode p))
  | GSetIndex mode i k => Some (set_index mode i p, w, l, k)
  | GShare k => Some (set_max (write_share (p_total p)) (read_share (p_total p)) p, w, l, k)
  end.
Definition gsys_step (i : nat) (x : gsys) : option gsys :=
  match nth_error (g_threads x) i with
  | None => None
  | Some t =>
      match gstep t (g_pool x) (g_world x) (g_lock x) with
      | None => None
      | Some (p, w, l, t') => Some (mkG p w l (put_nth i t' (g_threads x)))
      end
  end.
Fixpoint gschedule (is : list nat) (x : gsys) : option gsys :=
  match is with
  | [] => Some x
  | i :: is' => match gsys_step i x with Some x' => gschedule is' x' | None => None end
  end.
(** Some goroutine makes a step. *)
Definition gmoves (x' x : gsys) : Prop := exists i, gsys_step i x = Some x'.

(** One goroutine running alone until it is finished; None: it waits. *)
Fixpoint solo (t : gprog) (p : pool) (w : W) (l : rwlock) : option (pool * W * rwlock * gprog) :=
  match t with
  | GDone _ | GEnd => Some (p, w, l, t)
  | GRLock k => if rw_writer l then None else solo k p w (mkRW false (S (rw_readers l)))
  | GRUnlock k => solo k p w (mkRW (rw_writer l) (pred (rw_readers l)))
  | GLock k => if rw_writer l then None else match rw_readers l with O => solo k p w (mkRW true 0) | S _ => None end
  | GUnlock k => solo k p w (mkRW false (rw_readers l))
  | GRunning k => solo (k (p_running p)) p w l
  | GSetRunning b k => solo k (set_running b p) w l
  | GSize mode k => solo (k (size (queue_of mode p))) p w l
  | GDequeue mode k => let '(o, q) := dequeue (queue_of mode p) in solo (k o) (set_queue mode q p) w l
  | GEnqueue mode c k => solo k (set_queue mode (enqueue c (queue_of mode p)) p) w l
  | GMarked h k => solo (k (listed h (p_marked p))) p w l
  | GValid h k => let '(w', b) := k_valid K h w in solo (k b) p w' l
  | GClose h k => let '(w', e) := k_close K h w in solo (k e) p w' l
  | GRead f id k => solo (k (map_get (field_of f p) id)) p w l
  | GWrite f g k => solo k (set_field f (g (field_of f p)) p) w l
  | GMake mode s k => let '(w', r) := make mode s w in solo (k r) p w' l
  | GUse _ k => solo k p w l
  | GSeed k => let '(w', r) := k_dial K (p_leader p) w in solo (k r) p w' l
  | GOverview h k => let '(w', r) := k_query K h w in solo (k r) p w' l
  | GQuit h k => let '(w', _) := k_close K h w in solo k p w' l
  | GPart m k => solo (k (part_of m (p_handler p))) p w l
  | GSetPart m ns k => solo k (set_handler (set_part m ns (p_handler p)) p) w l
  | GAuth k => solo (k (p_auth p, p_tls p)) p w l
  | GMark dead k => solo k (mark_all dead p) w l
  | GSetStrings mode ss k => solo k (set_strings_for mode ss p) w l
  | GItems mode k => solo (k (queue_of mode p)) p w l
  | GReplace mode q k => solo k (set_queue mode q p) w l
  | GLimits k => solo (k (mkLimits (p_min_w p) (p_max_w p) (p_min_r p) (p_max_r p))) p w l
  | GStrings mode k => solo (k (strings_for mode p)) p w l
  | GIndex mode k => solo (k (index_for mode p)) p w l
  | GSetIndex mode i k => solo k (set_index mode i p) w l
  | GShare k => solo k (set_max (write_share (p_total p)) (read_share (p_total p)) p) w l
  end.
End Steps.
Arguments mkG {W}.
Arguments g_pool {W}.
Arguments g_world {W}.
Arguments g_lock {W}.
Arguments g_threads {W}.

(** The map that the next step of a goroutine uses, and whether it writes. *)
Definition uses (t : gprog) : option (field * bool) :=
  match t with
  | GRead f _ _ => Some (f, false)
  | GWrite f _ _ => Some (f, true)
  | _ => None
  end.
(** Goroutines that can use a map at the same time, one of them writing: Go stops the program when
    it notices ("concurrent map writes"). *)
Definition clash (l : list gprog) (i j : nat) : Prop :=
  i <> j /\ exists t u f b1 b2, nth_error l i = Some t /\ nth_error l j = Some u
  /\ uses t = Some (f, b1) /\ uses u = Some (f, b2) /\ (b1 || b2 = true).
(** The work of a set of goroutines. *)
Inductive task := TBorrow (fuel : nat) (mode : Z) | TReclaim (id : bytes) (h : nat) | TStop (n m : nat) | TClient (fuel : nat) (modes : list Z) | TRound (fuel : nat) | TStart.
Definition work (t : task) : gprog :=
  match t with TBorrow fuel mode => g_borrow fuel mode | TReclaim id h => g_reclaim id h | TStop n m => g_stop n m | TClient fuel modes => g_client fuel modes
  | TRound fuel => g_round fuel | TStart => g_start end.
(** Goroutines that put nothing into the queues. *)
Definition takes (t : task) : Prop := match t with TBorrow _ _ | TStop _ _ => True | _ => False end.
(** The connection that the next step of a goroutine is about. *)
Definition touches (h : nat) (t : gprog) : Prop :=
  match t with
  | GUse c _ | GEnqueue _ c _ => pw_conn c = h
  | GMarked h' _ | GValid h' _ | GClose h' _ => h' = h
  | _ => False
  end.
(** Clients and Stops with more fuel than there are connections. *)
Definition enough (n : nat) (t : task) : Prop :=
  match t with TClient fuel _ => (n < fuel)%nat | TStop a b => (n < a)%nat /\ (n < b)%nat | _ => False end.
(** Clients, Starts, Stops and rounds of the refresher, with any fuel. *)
Definition uses_pool (t : task) : Prop := match t with TClient _ _ | TStop _ _ | TRound _ | TStart => True | _ => False end.
(** A goroutine that has ended. *)
Definition ended (t : gprog) : Prop := match t with GDone _ | GEnd => True | _ => False end.
(** The connection that the next step of a goroutine opens to be lent: for what, and to which address. *)
Definition about_to_open (t : gprog) : option (Z * bytes) := match t with GMake mode s _ => Some (mode, s) | _ => None end.
