(** driver_pool.go and connection_pool_factory.go, and the object pool they use.

    The object pool is github.com/jolestar/go-commons-pool v2.0.0 (go.mod), whose source is not at hand:
    [borrow_object], [return_object], [close_object_pool], [create], [destroy] and [ensure_idle] below
    describe that release for the settings of driver_pool.go:21-35 and are part of the trusted base. *)
From Coq Require Import String ZArith List Bool.
From Verif Require Import Bytes GoVal GoErr Messages.
Import ListNotations.
Open Scope Z_scope.

(** The connections, as the pool sees them: [n_make]: connection.CreateBoltConn with the pool's
    connection string; [n_valid]: ValidateOpen; [n_close]: Close; [n_idle]: MakeIdle. Connections are
    numbered; what they do depends on the state of the world. *)
Record net (W : Type) := mkNet {
  n_make : W -> W * res nat;
  n_valid : nat -> W -> W * bool;
  n_close : nat -> W -> W * res unit;
  n_idle : nat -> W -> W * res unit
}.
Arguments mkNet {W}.
Arguments n_make {W}.
Arguments n_valid {W}.
Arguments n_close {W}.
Arguments n_idle {W}.

(** PooledObject: the connection it holds and its state *)
Inductive ostate := Idle | Allocated | Returning | Invalid.
Record pobj := mkObj { o_conn : nat; o_state : ostate }.
(** ObjectPool: the pooled objects made so far (an object is its position), allObjects (from connections
    to objects, latest first), idleObjects (first first), createCount, closed, and whether a goroutine
    waits for an idle object *)
Record opool := mkOPool {
  q_objs : list pobj;
  q_all : list (nat * nat);
  q_idle : list nat;
  q_count : Z;
  q_closed : bool;
  q_waiting : bool
}.
(** driver_pool.go:12-18 driverPool *)
Record dpool := mkDPool { d_max : Z; d_closed : bool; d_pool : opool }.

Fixpoint put_obj (i : nat) (o : pobj) (l : list pobj) : list pobj :=
  match i, l with
  | _, [] => []
  | O, _ :: l' => o :: l'
  | S i', x :: l' => x :: put_obj i' o l'
  end.
Definition obj (g : opool) (i : nat) : pobj := nth i (q_objs g) (mkObj 0 Invalid).
Definition set_obj (i : nat) (o : pobj) (g : opool) : opool :=
  mkOPool (put_obj i o (q_objs g)) (q_all g) (q_idle g) (q_count g) (q_closed g) (q_waiting g).
Definition set_idle (l : list nat) (g : opool) : opool :=
  mkOPool (q_objs g) (q_all g) l (q_count g) (q_closed g) (q_waiting g).
Definition set_waiting (b : bool) (g : opool) : opool :=
  mkOPool (q_objs g) (q_all g) (q_idle g) (q_count g) (q_closed g) b.
(** allObjects.Get *)
Fixpoint find_obj (c : nat) (l : list (nat * nat)) : option nat :=
  match l with
  | [] => None
  | (c', i) :: l' => if Nat.eqb c' c then Some i else find_obj c l'
  end.
(** allObjects.Remove *)
Definition forget (c : nat) (l : list (nat * nat)) : list (nat * nat) := filter (fun x => negb (Nat.eqb (fst x) c)) l.

Section Pool.
Context {W : Type}.
Variable N : net W.
Variable max : Z.

(** connection_pool_factory.go:24-43 DestroyObject; the pool never passes nil or anything but connections *)
Definition destroy_object (c : nat) (w : W) : W * res unit :=
  let '(w, ok) := n_valid N c w in if ok then n_close N c w else (w, Ok tt).
(** connection_pool_factory.go:62-88 ActivateObject: the connection the object holds afterwards *)
Definition activate_object (c : nat) (w : W) : W * res nat :=
  let '(w, ok) := n_valid N c w in if ok then (w, Ok c) else n_make N w.
(** connection_pool_factory.go:90-105 PassivateObject *)
Definition passivate_object (c : nat) (w : W) : W * res unit := n_idle N c w.

(** ObjectPool.destroy; the error of DestroyObject is the second result *)
Definition destroy (i : nat) (g : opool) (w : W) : opool * W * res unit :=
  let o := obj g i in
  let '(w, r) := destroy_object (o_conn o) w in
  (mkOPool (put_obj i (mkObj (o_conn o) Invalid) (q_objs g)) (forget (o_conn o) (q_all g))
           (remove Nat.eq_dec i (q_idle g)) (q_count g - 1) (q_closed g) (q_waiting g), w, r).
(** ObjectPool.create with MaxTotal: max; None: no more objects allowed *)
Definition create (g : opool) (w : W) : opool * W * res (option nat) :=
  if (-1 <? max) && (max <? q_count g + 1) then (g, w, Ok None)
  else match n_make N w with
       | (w, Ok c) =>
           (mkOPool (q_objs g ++ [mkObj c Idle]) ((c, length (q_objs g)) :: q_all g) (q_idle g) (q_count g + 1) (q_closed g) (q_waiting g),
            w, Ok (Some (length (q_objs g))))
       | (w, Err e) => (g, w, Err e)
       | (w, Panic) => (g, w, Panic)
       | (w, NoFuel) => (g, w, NoFuel)
       end.
(** ObjectPool.ensureIdle(1, false): only if someone waits *)
Definition ensure_idle (g : opool) (w : W) : opool * W :=
  if q_closed g || negb (q_waiting g) then (g, w)
  else match q_idle g with
       | [] => match create g w with
               | (g, w, Ok (Some i)) => (set_idle [i] g, w)
               | (g, w, _) => (g, w)
               end
       | _ => (g, w)
       end.

(** What becomes of a request for an object. *)
Inductive borrowing := BLent (c : nat) | BErr (e : gerr) | BBlock | BPanic | BNoFuel.
(** ObjectPool.borrowObject: its loop, until an object is lent, an error is returned or the goroutine
    has to wait for an idle object. Errors are numbered. *)
Fixpoint borrow_object (fuel : nat) (g : opool) (w : W) : opool * W * borrowing :=
  match fuel with
  | O => (g, w, BNoFuel)
  | S fuel' =>
      let try (i : nat) (created : bool) (g : opool) (w : W) :=
        match o_state (obj g i) with
        | Idle =>
            let g := set_obj i (mkObj (o_conn (obj g i)) Allocated) g in
            match activate_object (o_conn (obj g i)) w with
            | (w, Ok c) =>
                let g := set_obj i (mkObj c Allocated) g in
                let '(w, valid) := n_valid N c w in
                if valid then (g, w, BLent c)
                else let '(g, w, _) := destroy i g w in
                     if created then (g, w, BErr (EIO 331)) else borrow_object fuel' g w
            | (w, Err e) =>
                let '(g, w, _) := destroy i g w in
                if created then (g, w, BErr (EIO 330)) else borrow_object fuel' g w
            | (w, Panic) => (g, w, BPanic)
            | (w, NoFuel) => (g, w, BNoFuel)
            end
        | _ => borrow_object fuel' g w
        end in
      match q_idle g with
      | i :: rest => try i false (set_idle rest g) w
      | [] => match create g w with
              | (g, w, Ok (Some i)) => try i true g w
              | (g, w, Ok None) => (g, w, BBlock)
              | (g, w, Err e) => (g, w, BErr e)
              | (g, w, Panic) => (g, w, BPanic)
              | (g, w, NoFuel) => (g, w, BNoFuel)
              end
      end
  end.
(** Enough: every turn of the loop uses up an idle object or ends it. *)
Definition borrow_fuel (g : opool) : nat := S (length (q_idle g)).

(** ObjectPool.ReturnObject with TestOnReturn, MaxIdle: max and LIFO *)
Definition return_object (c : nat) (g : opool) (w : W) : opool * W * res unit :=
  match find_obj c (q_all g) with
  | None => (g, w, Err (EIO 332))
  | Some i =>
      match o_state (obj g i) with
      | Allocated =>
          let g := set_obj i (mkObj (o_conn (obj g i)) Returning) g in
          let c' := o_conn (obj g i) in
          let '(w, valid) := n_valid N c' w in
          if valid then
            match passivate_object c' w with
            | (w, Ok _) =>
                let g := set_obj i (mkObj c' Idle) g in
                if q_closed g || ((-1 <? max) && (max <=? Z.of_nat (length (q_idle g))))
                then let '(g, w, _) := destroy i g w in (g, w, Ok tt)
                else (set_idle (i :: q_idle g) g, w, Ok tt)
            | (w, Err e) => let '(g, w, _) := destroy i g w in let '(g, w) := ensure_idle g w in (g, w, Ok tt)
            | (w, Panic) => (g, w, Panic)
            | (w, NoFuel) => (g, w, NoFuel)
            end
          else let '(g, w, _) := destroy i g w in let '(g, w) := ensure_idle g w in (g, w, Ok tt)
      | _ => (g, w, Err (EIO 333))
      end
  end.

(** ObjectPool.Clear: the idle objects are taken out and destroyed one by one *)
Fixpoint clear (l : list nat) (g : opool) (w : W) : opool * W :=
  match l with
  | [] => (g, w)
  | i :: l' => let '(g, w, _) := destroy i (set_idle l' g) w in clear l' g w
  end.
(** ObjectPool.Close *)
Definition close_object_pool (g : opool) (w : W) : opool * W :=
  if q_closed g then (g, w)
  else let g := mkOPool (q_objs g) (q_all g) (q_idle g) (q_count g) true (q_waiting g) in clear (q_idle g) g w.
End Pool.

(** ** driver_pool.go *)

(** driver_pool.go:20-42 newDriverPool *)
Definition new_driver_pool (maxConns : Z) : dpool := mkDPool maxConns false (mkOPool [] [] [] 0 false false).

(** What other goroutines see of a call: it returned, or it has not returned. *)
Inductive dres := DLent (c : nat) | DErr (e : gerr) | DDone | DWait | DPanic | DNoFuel.

(** The things that can happen: a goroutine calls Open, Close or Reclaim, or the goroutine that waits
    for an idle connection goes on. Open and Close hold refLock, also while waiting; a call that finds
    the lock taken has no effect until it gets it, and is then the event of that moment. *)
Inductive devent := EvOpen | EvClose | EvReclaim (c : option nat) | EvWake.

Section Driver.
Context {W : Type}.
Variable N : net W.

(** driver_pool.go:48-62, once the lock is held *)
Definition lend (d : dpool) (w : W) : dpool * W * dres :=
  let '(g, w, r) := borrow_object N (d_max d) (borrow_fuel (d_pool d)) (set_waiting false (d_pool d)) w in
  match r with
  | BLent c => let '(w, valid) := n_valid N c w in
               (mkDPool (d_max d) (d_closed d) g, w, if valid then DLent c else DErr (ENew (TMsg 334)))
  | BErr e => (mkDPool (d_max d) (d_closed d) g, w, DErr e)
  | BBlock => (mkDPool (d_max d) (d_closed d) (set_waiting true g), w, DWait)
  | BPanic => (mkDPool (d_max d) (d_closed d) g, w, DPanic)
  | BNoFuel => (mkDPool (d_max d) (d_closed d) g, w, DNoFuel)
  end.
(** driver_pool.go:44-65 open *)
Definition pool_open (d : dpool) (w : W) : dpool * W * dres :=
  if q_waiting (d_pool d) then (d, w, DWait)
  else if d_closed d then (d, w, DErr (ENew (TMsg 335)))
  else lend d w.
(** driver_pool.go:67-84 close; the pool is never nil *)
Definition pool_close (d : dpool) (w : W) : dpool * W * dres :=
  if q_waiting (d_pool d) then (d, w, DWait)
  else if d_closed d then (d, w, DErr (EWrap (Some (ESentinel 4)) 336))
  else let '(g, w) := close_object_pool N (d_pool d) w in (mkDPool (d_max d) true g, w, DDone).
(** driver_pool.go:86-92 reclaim *)
Definition pool_reclaim (c : option nat) (d : dpool) (w : W) : dpool * W * dres :=
  match c with
  | None => (d, w, DErr (ENew (TMsg 337)))
  | Some c =>
      let '(g, w, r) := return_object N (d_max d) c (d_pool d) w in
      (mkDPool (d_max d) (d_closed d) g, w,
       match r with Ok _ => DDone | Err e => DErr e | Panic => DPanic | NoFuel => DNoFuel end)
  end.
(** The waiting goroutine goes on as soon as there is an idle connection. *)
Definition pool_wake (d : dpool) (w : W) : dpool * W * dres :=
  if q_waiting (d_pool d) then match q_idle (d_pool d) with [] => (d, w, DWait) | _ => lend d w end
  else (d, w, DWait).

Definition do_event (e : devent) (d : dpool) (w : W) : dpool * W * dres :=
  match e with
  | EvOpen => pool_open d w
  | EvClose => pool_close d w
  | EvReclaim c => pool_reclaim c d w
  | EvWake => pool_wake d w
  end.
Fixpoint do_events (l : list devent) (d : dpool) (w : W) : dpool * W * list dres :=
  match l with
  | [] => (d, w, [])
  | e :: l' =>
      let '(d, w, r) := do_event e d w in
      let '(d, w, rs) := do_events l' d w in
      (d, w, r :: rs)
  end.
End Driver.
