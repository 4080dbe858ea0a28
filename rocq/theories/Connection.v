(** connection/connection.go and connection/transaction.go, as programs over an arbitrary network. *)
From Coq Require Import String ZArith List Bool.
From Verif Require Import Bytes GoVal GoErr Decoder Messages.
Import ListNotations.
Open Scope Z_scope.

(** ** The state of a Connection *)

(** connection.go:56-90, the mutable fields and the identity of the login. Transactions are heap
    objects: [c_txs] lists the [closed] flag (transaction.go:10-13) of every transaction the
    connection has handed out, [c_transaction] is the field c.transaction as an index into it.
    Simplifications: the net.Conn lives in the network state; timeouts, TLS settings and the pool
    id have no influence on the protocol; openQuery is a field no code ever sets (connection.go:84,
    377), so it is omitted together with the branch that tests it. c.conn is never nil on a
    Connection handed out by CreateBoltConn, so the nil checks (connection.go:312, 440) are omitted. *)
Record conn := mkConn {
  c_proto : proto;                 (* boltProtocol, protocolVersion *)
  c_user : bytes; c_password : bytes;
  c_mode : Z;                      (* accessMode; never assigned, so ReadMode *)
  c_chunk : Z;                     (* chunkSize *)
  c_closed : bool;
  c_transaction : option nat;
  c_txs : list bool
}.

Definition set_closed (c : conn) : conn :=
  mkConn (c_proto c) (c_user c) (c_password c) (c_mode c) (c_chunk c) true (c_transaction c) (c_txs c).
Definition set_proto (p : proto) (c : conn) : conn :=
  mkConn p (c_user c) (c_password c) (c_mode c) (c_chunk c) (c_closed c) (c_transaction c) (c_txs c).
Definition set_chunk (cs : Z) (c : conn) : conn :=
  mkConn (c_proto c) (c_user c) (c_password c) (c_mode c) cs (c_closed c) (c_transaction c) (c_txs c).
(** connection.go:521-524: c.transaction = &boltTransaction{conn: c, closed: false} *)
Definition new_tx (c : conn) : conn :=
  mkConn (c_proto c) (c_user c) (c_password c) (c_mode c) (c_chunk c) (c_closed c)
         (Some (length (c_txs c))) (c_txs c ++ [false]).
Fixpoint set_nth (n : nat) (l : list bool) : list bool :=
  match l, n with
  | [], _ => []
  | _ :: l', O => true :: l'
  | b :: l', S n' => b :: set_nth n' l'
  end.
(** transaction.go:105-106, 166-167: t.conn.transaction = nil; t.closed = true *)
Definition end_tx (t : nat) (c : conn) : conn :=
  mkConn (c_proto c) (c_user c) (c_password c) (c_mode c) (c_chunk c) (c_closed c) None (set_nth t (c_txs c)).
(** t.closed *)
Definition tx_closed (c : conn) (t : nat) : bool := nth t (c_txs c) true.

(** ** Programs *)

(** A program performs effects on the shared Connection and on its network, one at a time, and ends
    with the outcome of the Go call. [Send]: one Encode call on a fresh Encoder over readWrite;
    [Recv]: one Decode call on a fresh Decoder; [Hang]: conn.Close(); [Dial]: net.Dial / tls.Dial;
    [RawWrite]/[RawRead]: one readWrite.Write / Read; [Probe]: SetReadDeadline(now) and a one-byte
    Read on the net.Conn; [Lock]/[Unlock]: c.mutex. *)
Inductive prog (A : Type) : Type :=
| Ret (r : res A)
| Get (k : conn -> prog A)
| Upd (f : conn -> conn) (k : prog A)
| Send (v : ver) (cs : Z) (m : gval) (k : option gerr -> prog A)
| Recv (v : ver) (k : res gval -> prog A)
| Hang (k : option gerr -> prog A)
| Dial (k : option gerr -> prog A)
| RawWrite (b : bytes) (k : Z * option gerr -> prog A)
| RawRead (n : Z) (k : bytes * option gerr -> prog A)
| Probe (k : option gerr -> prog A)
| Lock (k : prog A)
| Unlock (k : prog A).
Arguments Ret {A} r.
Arguments Get {A} k.
Arguments Upd {A} f k.
Arguments Send {A} v cs m k.
Arguments Recv {A} v k.
Arguments Hang {A} k.
Arguments Dial {A} k.
Arguments RawWrite {A} b k.
Arguments RawRead {A} n k.
Arguments Probe {A} k.
Arguments Lock {A} k.
Arguments Unlock {A} k.

(** Sequencing that sees every outcome, and the usual one that stops at the first error. *)
Fixpoint bindr {A B} (p : prog A) (f : res A -> prog B) : prog B :=
  match p with
  | Ret r => f r
  | Get k => Get (fun c => bindr (k c) f)
  | Upd g k => Upd g (bindr k f)
  | Send v cs m k => Send v cs m (fun e => bindr (k e) f)
  | Recv v k => Recv v (fun r => bindr (k r) f)
  | Hang k => Hang (fun e => bindr (k e) f)
  | Dial k => Dial (fun e => bindr (k e) f)
  | RawWrite b k => RawWrite b (fun r => bindr (k r) f)
  | RawRead n k => RawRead n (fun r => bindr (k r) f)
  | Probe k => Probe (fun e => bindr (k e) f)
  | Lock k => Lock (bindr k f)
  | Unlock k => Unlock (bindr k f)
  end.
Definition bind {A B} (p : prog A) (f : A -> prog B) : prog B :=
  bindr p (fun r => match r with
                    | Ok a => f a
                    | Err e => Ret (Err e)
                    | Panic => Ret Panic
                    | NoFuel => Ret NoFuel
                    end).
Notation "x <~ p ;; k" := (bind p (fun x => k)) (at level 100, p at next level, right associativity).

Definition ok_unit : prog unit := Ret (Ok tt).
Definition fail {A} (e : gerr) : prog A := Ret (Err e).

(** errors.Wrap around a call *)
Definition pwrap {A} (m : Z) (p : prog A) : prog A := bindr p (fun r => Ret (rwrap m r)).

(** ** connection.go, transaction.go *)

(** connection.go:533-538 sendMessage (no caller passes nil) *)
Definition send_message (m : gval) : prog unit :=
  Get (fun c => Send (codec (c_proto c)) (c_chunk c) m
    (fun e => match e with None => ok_unit | Some e => fail e end)).

(** c.boltProtocol.NewDecoder(c.readWrite).Decode() *)
Definition recv_message : prog gval :=
  Get (fun c => Recv (codec (c_proto c)) (fun r => Ret r)).

(** x, ok := resp.(messages.SuccessMessage) *)
Definition is_success (m : gval) : bool := match m with GSuccess _ => true | _ => false end.

(** The common body of Commit (transaction.go:49-108) and Rollback (110-169), which differ in the
    message and in error texts only. [cons] is c.consume(). *)
Definition tx_end (cons : prog gval) (t : nat) (msg : proto -> gval * bool) : prog unit :=
  Get (fun c =>
    if tx_closed c t then fail (ENew (TMsg 1))
    else
      let (m, native) := msg (c_proto c) in
      _ <~ send_message m ;;
      _ <~ (if native then ok_unit else send_message (get_pull_all_message (c_proto c))) ;;
      runSucc <~ cons ;;
      pullSucc <~ (if native then Ret (Ok GNil) else cons) ;;
      if negb (is_success runSucc) then fail (ENew (TMsg 2))
      else if negb native && negb (is_success pullSucc) then fail (ENew (TMsg 3))
      else Upd (end_tx t) ok_unit).

(** connection.go:428-460 Close; [rollback] is c.transaction.Rollback(). *)
Definition close_with (rollback : nat -> prog unit) : prog unit :=
  Get (fun c =>
    if c_closed c then fail (ESentinel 4)                         (* errors.ErrClosed *)
    else
      _ <~ match c_transaction c with Some t => rollback t | None => ok_unit end ;;
      _ <~ match get_close_message (c_proto c) with Some m => send_message m | None => ok_unit end ;;
      Hang (fun e => Upd set_closed (match e with Some e => fail e | None => ok_unit end))).

(** consume (549-571), reset (573-608) and its loop, Close (428-460) and Rollback call each other:
    a failure during consume triggers reset, a failure during reset triggers Close, which may roll
    back a transaction, which consumes. One unit of fuel per call and loop iteration. *)
Fixpoint consume (n : nat) : prog gval :=
  match n with
  | O => Ret NoFuel
  | S n' =>
      m <~ recv_message ;;
      match m with
      | GFailure md =>
          bindr (reset n') (fun r =>
            match r with
            | Ok _ => fail (EWrap (Some (EFailure md)) 20)        (* connection.go:567 *)
            | Err _ => fail (EWrap (Some (EFailure md)) 21)       (* connection.go:565 *)
            | Panic => Ret Panic
            | NoFuel => Ret NoFuel
            end)
      | _ => Ret (Ok m)
      end
  end
with reset (n : nat) : prog unit :=
  match n with
  | O => Ret NoFuel
  | S n' => _ <~ pwrap 22 (send_message reset_message) ;; reset_loop n'
  end
with reset_loop (n : nat) : prog unit :=
  match n with
  | O => Ret NoFuel
  | S n' =>
      m <~ pwrap 23 recv_message ;;
      match m with
      | GIgnored => reset_loop n'
      | GSuccess _ => ok_unit
      | GFailure md =>
          bindr (close n') (fun r =>
            match r with
            | Panic => Ret Panic
            | NoFuel => Ret NoFuel
            | _ => fail (EWrap (Some (EFailure md)) 24)
            end)
      | _ =>
          bindr (close n') (fun r =>
            match r with
            | Panic => Ret Panic
            | NoFuel => Ret NoFuel
            | _ => fail EBadConn
            end)
      end
  end
with close (n : nat) : prog unit :=
  match n with
  | O => Ret NoFuel
  | S n' => close_with (rollback n')
  end
with rollback (n : nat) (t : nat) : prog unit :=
  match n with
  | O => Ret NoFuel
  | S n' => tx_end (consume n') t get_rollback_message
  end.

(** transaction.go:49-108 Commit *)
Definition commit (n : nat) (t : nat) : prog unit := tx_end (consume n) t get_commit_message.

(** connection.go:402-424, the loop of runQuery; [k] bounds the number of messages *)
Fixpoint fetch (n k : nat) (acc : list (list gval)) : prog (list (list gval) * gomap) :=
  match k with
  | O => Ret NoFuel
  | S k' =>
      m <~ consume n ;;
      match m with
      | GSuccess md => Ret (Ok (acc, md))
      | GRecord fs => fetch n k' (acc ++ [fs])
      | _ => fail (ENew (TMsg 4))
      end
  end.

(** connection.go:373-426 runQuery; the mutex is released by defer, on every outcome. *)
Definition run_query (n : nat) (q : bytes) (params : gomap) (db : bytes) (inTx : bool)
  : prog (list (list gval) * gomap) :=
  Lock (bindr (Get (fun c =>
    if c_closed c then fail (ENew (TMsg 5))
    else
      _ <~ send_message (get_run_message (c_proto c) q params db (c_mode c) (negb inTx)) ;;
      _ <~ send_message (get_pull_all_message (c_proto c)) ;;
      resp <~ consume n ;;
      if is_success resp then fetch n n [] else fail (EFmt None (TMsg 6))))
   (fun r => Unlock (Ret r))).

(** ExecWithDb / QueryWithDb of a connection (connection.go:343-371: inTx = false) and of a
    transaction (transaction.go:19-30, 36-47: inTx = true, no check that it is still open). Exec
    drops the rows: see [exec_db]. *)
Definition query_db (n : nat) (q : bytes) (params : gomap) (db : bytes) (inTx : bool)
  : prog (list (list gval) * gomap) :=
  Get (fun c =>
    if negb (multi_database (c_proto c)) && negb (bytes_eqb db []) then fail (EFmt None (TMsg 7))
    else run_query n q params db inTx).
Definition exec_db (n : nat) (q : bytes) (params : gomap) (db : bytes) (inTx : bool) : prog gomap :=
  r <~ query_db n q params db inTx ;; Ret (Ok (snd r)).

(** connection.go:470-527 BeginWithDatabase: returns the new transaction *)
Definition begin_db (n : nat) (db : bytes) : prog nat :=
  Get (fun c =>
    match c_transaction c with
    | Some _ => fail (ENew (TMsg 8))
    | None =>
        if c_closed c then fail (ENew (TMsg 9))
        else
          let (m, native) := get_begin_message (c_proto c) db (c_mode c) in
          _ <~ send_message m ;;
          _ <~ (if native then ok_unit else send_message (get_pull_all_message (c_proto c))) ;;
          runSucc <~ consume n ;;
          pullSucc <~ (if native then Ret (Ok GNil) else consume n) ;;
          if negb (is_success runSucc) then fail (ENew (TMsg 10))
          else if negb native && negb (is_success pullSucc) then fail (ENew (TMsg 11))
          else Get (fun c' => Upd new_tx (Ret (Ok (length (c_txs c')))))
    end).

(** connection.go:462-468 MakeIdle *)
Definition make_idle (n : nat) : prog unit :=
  Get (fun c => match c_transaction c with Some t => rollback n t | None => ok_unit end).

(** connection.go:307-327 ValidateOpen *)
Definition validate_open : prog bool :=
  Get (fun c => if c_closed c then Ret (Ok false)
                else Probe (fun e => Ret (Ok (match e with Some EEOF => false | _ => true end)))).

(** const.go:4-16 *)
Definition handshake_bytes : bytes :=
  [x60; x60; xb0; x17] ++ [x00; x00; x00; x04] ++ [x00; x00; x00; x03] ++ [x00; x00; x00; x02] ++ [x00; x00; x00; x01].
Definition no_version_supported : bytes := [x00; x00; x00; x00].
Definition client_id : bytes := str "GoBolt/0.1".

(** connection.go:236-255 handshake *)
Definition handshake : prog bytes :=
  RawWrite handshake_bytes (fun r =>
    match r with
    | (_, Some e) => fail e
    | (w, None) =>
        if negb (w =? 20) then fail (EFmt None (TMsg 12))
        else RawRead 4 (fun r =>
          match r with
          | (_, Some e) => fail e
          | (b, None) =>
              if negb (zlen b =? 4) then fail (EFmt None (TMsg 13))
              else if bytes_eqb b no_version_supported then fail (ENew (TMsg 14))
              else Ret (Ok b)
          end)
    end).

(** connection.go:286-305 sendInit *)
Definition send_init (n : nat) (m : gval) : prog unit :=
  _ <~ send_message m ;;
  resp <~ consume n ;;
  match resp with
  | GSuccess _ => ok_unit
  | _ => close n
  end.

(** connection.go:257-284 initialize (createConnection 172-196 is [Dial]) *)
Definition initialize (n : nat) : prog unit :=
  Dial (fun e =>
    match e with
    | Some e => fail e
    | None =>
        bindr handshake (fun r =>
          match r with
          | Err e => fail (EFmt (Some e) (TMsg 15))
          | Panic => Ret Panic
          | NoFuel => Ret NoFuel
          | Ok vb =>
              match get_protocol (Some vb) with
              | (Some p, _, _) =>
                  Upd (set_proto p)
                    (Get (fun c => send_init n (get_init_message p client_id (auth_basic (c_user c) (c_password c)))))
              | (None, _, Some e) => fail e
              | (None, _, None) => Ret Panic
              end
          end)
    end).

(** connection.go:115-119, 92-104: the Connection that newConnectionFromConnectionString builds
    (the parsing is in Url.v); an error of initialize discards it. *)
Definition fresh_conn (user password : bytes) : conn := mkConn P1 user password ReadMode MaxUint16 false None [].
Definition create_bolt_conn (n : nat) : prog unit := initialize n.

(** ** Running a program against a network *)

(** A network with state [St]. *)
Record net (St : Type) := mkNet {
  n_send : ver -> Z -> gval -> St -> St * option gerr;
  n_recv : ver -> St -> St * res gval;
  n_hang : St -> St * option gerr;
  n_dial : St -> St * option gerr;
  n_write : bytes -> St -> St * (Z * option gerr);
  n_read : Z -> St -> St * (bytes * option gerr);
  n_probe : St -> St * option gerr
}.
Arguments n_send {St} n.
Arguments n_recv {St} n.
Arguments n_hang {St} n.
Arguments n_dial {St} n.
Arguments n_write {St} n.
Arguments n_read {St} n.
Arguments n_probe {St} n.

(** Execution by one goroutine that uses the connection alone (the mutex is then always free;
    interleavings are in Concurrency.v). *)
Fixpoint exec {St A} (N : net St) (p : prog A) (c : conn) (s : St) : conn * St * res A :=
  match p with
  | Ret r => (c, s, r)
  | Get k => exec N (k c) c s
  | Upd f k => exec N k (f c) s
  | Send v cs m k => let '(s', r) := n_send N v cs m s in exec N (k r) c s'
  | Recv v k => let '(s', r) := n_recv N v s in exec N (k r) c s'
  | Hang k => let '(s', r) := n_hang N s in exec N (k r) c s'
  | Dial k => let '(s', r) := n_dial N s in exec N (k r) c s'
  | RawWrite b k => let '(s', r) := n_write N b s in exec N (k r) c s'
  | RawRead n k => let '(s', r) := n_read N n s in exec N (k r) c s'
  | Probe k => let '(s', r) := n_probe N s in exec N (k r) c s'
  | Lock k => exec N k c s
  | Unlock k => exec N k c s
  end.

(** ** Calls of the API on an open connection *)

Inductive call :=
| CQuery (q : bytes) (params : gomap) (db : bytes)          (* Query, QueryWithDb *)
| CExec (q : bytes) (params : gomap) (db : bytes)           (* Exec, ExecWithDb *)
| CBegin (db : bytes)                                       (* Begin, BeginWithDatabase *)
| CTxQuery (t : nat) (q : bytes) (params : gomap) (db : bytes)   (* tx.Query, tx.QueryWithDb *)
| CTxExecDb (t : nat) (q : bytes) (params : gomap) (db : bytes)  (* tx.ExecWithDb *)
| CTxExec (t : nat) (q : bytes) (params : gomap)            (* tx.Exec = conn.Exec, transaction.go:15-17 *)
| CCommit (t : nat)
| CRollback (t : nat)
| CClose
| CMakeIdle
| CValidate
| CSetChunk (cs : Z).

Inductive answer :=
| ARows (rows : list (list gval)) (md : gomap)
| AMeta (md : gomap)
| ATx (t : nat)
| ADone
| ABool (b : bool).

Definition pmap {A B} (f : A -> B) (p : prog A) : prog B := a <~ p ;; Ret (Ok (f a)).

Definition do_call (n : nat) (o : call) : prog answer :=
  match o with
  | CQuery q ps db => pmap (fun r => ARows (fst r) (snd r)) (query_db n q ps db false)
  | CExec q ps db => pmap AMeta (exec_db n q ps db false)
  | CBegin db => pmap ATx (begin_db n db)
  | CTxQuery _ q ps db => pmap (fun r => ARows (fst r) (snd r)) (query_db n q ps db true)
  | CTxExecDb _ q ps db => pmap AMeta (exec_db n q ps db true)
  | CTxExec _ q ps => pmap AMeta (exec_db n q ps [] false)
  | CCommit t => pmap (fun _ => ADone) (commit n t)
  | CRollback t => pmap (fun _ => ADone) (rollback n t)
  | CClose => pmap (fun _ => ADone) (close n)
  | CMakeIdle => pmap (fun _ => ADone) (make_idle n)
  | CValidate => pmap ABool validate_open
  | CSetChunk cs => Upd (set_chunk cs) (Ret (Ok ADone))
  end.
