(** Statement-level vocabulary for the connection theorems. *)
From Coq Require Import String ZArith List Bool.
From Verif Require Import Bytes GoVal GoErr SpecPack SpecValues SpecCodec SpecServer Messages Connection Errors Link Wire.
Import ListNotations.
Open Scope Z_scope.

(** ** Sessions with a conforming server *)

Definition speaks_version (J : judge) (n : Z) : bool := existsb (Z.eqb n) (j_versions J).
(** The best version both sides speak. *)
Definition negotiated (J : judge) : option proto :=
  if speaks_version J 4 then Some P4
  else if speaks_version J 3 then Some P3
  else if speaks_version J 2 then Some P2
  else if speaks_version J 1 then Some P1
  else None.

(** The four bytes of the handshake answer arrive in one piece. *)
Definition greets_whole (P : peer) : Prop := forall b, length b = 4%nat -> p_cut P 1 b = [b].

(** A conforming server behind a link that works, which speaks protocol [p] with this client. *)
Record conforming (p : proto) (P : peer) : Prop := mkConforming {
  cf_version : negotiated (p_judge P) = Some p;
  cf_sound : sound (codec p) P;
  cf_whole : greets_whole P
}.

(** A connection was opened with a login of at most 65535 bytes each, and the calls [l] were made by
    one goroutine, each allowed by [C]. *)
Definition session (C : conn -> call -> Prop) (p : proto) (P : peer) (user password : bytes)
  (l : list (call * res answer)) (w : conn * wire) : Prop :=
  conforming p P /\ zlen user <= 65535 /\ zlen password <= 65535
  /\ exists w0, opens (wired P) user password new_wire w0 (Ok tt) /\ history (wired P) C w0 l w.

(** A connection opened on some network, and calls made on it; nothing is assumed about the peer. *)
Definition used {St} (N : net St) (l : list (call * res answer)) (w : conn * St) : Prop :=
  exists user password s0 w0, opens N user password s0 w0 (Ok tt) /\ history N (fun _ _ => True) w0 l w.

(** The call [o] returns, and returns an error, and the network is not touched. *)
Definition refuses {St} (N : net St) (o : call) (w : conn * St) : Prop :=
  (exists e, does N o w w (Err e)) /\ forall w' r, does N o w w' r -> w' = w /\ exists e, r = Err e.

(** ** Statements *)

(** The parameters the server got are the ones given, by the published representation of values. *)
Definition conveys (v : ver) (ps : list (bytes * gval)) (ps' : list (bytes * pv)) : Prop :=
  exists widen, exact_widening widen /\
  Forall2 (fun x y => fst y = fst x /\ (plain v (snd x) = true -> snd y = item widen (snd x))) ps ps'.
Definition is_stmt (v : ver) (q : bytes) (ps : list (bytes * gval)) (st : stmt) : Prop :=
  st_text st = q /\ conveys v ps (st_params st).

(** The statement a call runs, if it runs one. *)
Definition statement_of (o : call) : option (bytes * gomap) :=
  match o with
  | CQuery q ps _ | CExec q ps _ | CTxQuery _ q ps _ | CTxExecDb _ q ps _ | CTxExec _ q ps => Some (q, ps)
  | _ => None
  end.
(** Text that versions 1 and 2 of the protocol take as transaction control. *)
Definition ordinary (p : proto) (q : bytes) : bool :=
  match p with P1 | P2 => match control_of q with Some _ => false | None => true end | _ => true end.

(** The request of a statement call is sent and arrives whole: its database is one the protocol can
    name, and its message is sendable. *)
Definition goes_out (c : conn) (o : call) : Prop :=
  let fits db m := (multi_database (c_proto c) = true \/ db = []) /\ sendable (codec (c_proto c)) (c_chunk c) m = true in
  match o with
  | CQuery q ps db | CExec q ps db => fits db (run_msg c q ps db false)
  | CTxQuery _ q ps db | CTxExecDb _ q ps db => fits db (run_msg c q ps db true)
  | CTxExec _ q ps => fits [] (run_msg c q ps [] false)
  | _ => False
  end.
(** The database a statement call names for its statement. *)
Definition database_of (o : call) : bytes :=
  match o with
  | CQuery _ _ db | CExec _ _ db | CTxQuery _ _ _ db | CTxExecDb _ _ _ db => db
  | _ => []
  end.

(** The database name a server is given; the empty string stands for none. *)
Definition name_of (db : bytes) : option bytes := match db with [] => None | _ => Some db end.
(** The name the request of a statement call carries. *)
Definition carried (o : call) : option bytes :=
  match o with CQuery _ _ db | CExec _ _ db => name_of db | _ => None end.
(** The name the request of a Begin carries. *)
Definition begun_with (p : proto) (o : call) : option bytes :=
  match o, p with CBegin db, P3 | CBegin db, P4 => name_of db | _, _ => None end.

(** What the caller is told when the database decided [x] on the statement of the call [o]. *)
Definition told (o : call) (x : outcome) (r : res answer) : Prop :=
  match x with
  | Produced _ rows md =>
      r = Ok (match o with CQuery _ _ _ | CTxQuery _ _ _ _ => ARows rows md | _ => AMeta md end)
  | Refused md | Broken _ _ md => exists e, r = Err e /\ inner_most e = EFailure md
  end.

(** Nothing is under way: no byte unread, no request half received, no result waiting to be pulled. *)
Definition quiet (w : wire) : Prop := w_down w = [] /\ w_in w = [] /\ s_stream (w_srv w) = None.
Definition ready (w : wire) : Prop := quiet w /\ s_mode (w_srv w) = Ready.

(** ** What a client should expect to be permanent, from the calls and their results alone *)

(** [lg_perm]: statements that should be permanent. [lg_tx]: the open transaction, the statements run
    in it, and whether one of the requests made since it was begun failed. *)
Record ledger := mkLedger {
  lg_perm : list (bytes * gomap);
  lg_tx : option (nat * list (bytes * gomap) * bool)
}.
Definition empty_ledger : ledger := mkLedger [] None.

Definition record_call (g : ledger) (x : call * res answer) : ledger :=
  let '(o, r) := x in
  match statement_of o with
  | Some st =>
      match r, lg_tx g with
      | Ok _, None => mkLedger (lg_perm g ++ [st]) None
      | Ok _, Some (t, l, b) => mkLedger (lg_perm g) (Some (t, l ++ [st], b))
      | _, None => g
      | _, Some (t, l, _) => mkLedger (lg_perm g) (Some (t, l, true))
      end
  | None =>
      match o, r, lg_tx g with
      | CBegin _, Ok (ATx t), None => mkLedger (lg_perm g) (Some (t, [], false))
      | CCommit _, Ok _, Some (_, l, _) => mkLedger (lg_perm g ++ l) None
      | CRollback _, Ok _, _ | CMakeIdle, Ok _, _ | CClose, Ok _, _ => mkLedger (lg_perm g) None
      | CCommit u, Err _, Some (t, l, b) => if Nat.eqb u t then mkLedger (lg_perm g) (Some (t, l, true)) else g
      | CRollback u, Err _, Some (t, l, b) => if Nat.eqb u t then mkLedger (lg_perm g) (Some (t, l, true)) else g
      | CMakeIdle, Err _, Some (t, l, b) | CClose, Err _, Some (t, l, b) => mkLedger (lg_perm g) (Some (t, l, true))
      | _, _, _ => g
      end
  end.
Definition ledger_of (l : list (call * res answer)) : ledger := fold_left record_call l empty_ledger.

(** Statements go through the open transaction or the connection, never through a transaction that is
    not open; none is run in a transaction after a request failed in it; none is transaction control
    in disguise. *)
Definition disciplined (p : proto) (g : ledger) (o : call) : Prop :=
  match statement_of o with
  | None => True
  | Some (q, _) =>
      ordinary p q = true
      /\ match lg_tx g with Some (_, _, failed) => failed = false | None => True end
      /\ match o with
         | CTxQuery t _ _ _ | CTxExecDb t _ _ _ | CTxExec t _ _ =>
             match lg_tx g with Some (u, _, _) => u = t | None => False end
         | _ => True
         end
  end.
Inductive all_disciplined (p : proto) : list (call * res answer) -> Prop :=
| ad_nil : all_disciplined p []
| ad_snoc l o r : all_disciplined p l -> disciplined p (ledger_of l) o -> all_disciplined p (l ++ [(o, r)]).

(** ** Watching the network *)

Inductive event :=
| VSend (m : gval) (e : option gerr)
| VRecv (r : res gval)
| VHang (e : option gerr)
| VDial (e : option gerr)
| VWrite (b : bytes) (r : Z * option gerr)
| VRead (r : bytes * option gerr)
| VProbe (e : option gerr).

(** The network [N] with a record of everything that happens on it. *)
Definition watched {St} (N : net St) : net (St * list event) := {|
  n_send v cs m x := let '(s', r) := n_send N v cs m (fst x) in ((s', snd x ++ [VSend m r]), r);
  n_recv v x := let '(s', r) := n_recv N v (fst x) in ((s', snd x ++ [VRecv r]), r);
  n_hang x := let '(s', r) := n_hang N (fst x) in ((s', snd x ++ [VHang r]), r);
  n_dial x := let '(s', r) := n_dial N (fst x) in ((s', snd x ++ [VDial r]), r);
  n_write b x := let '(s', r) := n_write N b (fst x) in ((s', snd x ++ [VWrite b r]), r);
  n_read n x := let '(s', r) := n_read N n (fst x) in ((s', snd x ++ [VRead r]), r);
  n_probe x := let '(s', r) := n_probe N (fst x) in ((s', snd x ++ [VProbe r]), r)
|}.

(** ** Requests about transactions *)

(** The call [o] asks the server for the control request [k]: the client does not refuse it, and its
    message arrives whole. *)
Definition asks (c : conn) (o : call) (k : control) : Prop :=
  match o, k with
  | CBegin db, KBegin =>
      (forall t, tx_closed c t = true) /\ sendable (codec (c_proto c)) (c_chunk c) (fst (get_begin_message (c_proto c) db (c_mode c))) = true
  | CCommit t, KCommit | CRollback t, KRollback => tx_closed c t = false
  | _, _ => False
  end.
(** The server's session allows it. *)
Definition allows (k : control) (s : srv) : Prop :=
  match k, s_tx s with
  | KBegin, None | KCommit, Some _ | KRollback, Some _ => True
  | _, _ => False
  end.

(** The error of an event that sends, receives or closes. *)
Definition transport_error (v : event) : option gerr :=
  match v with
  | VSend _ e | VHang e => e
  | VRecv (Err e) => Some e
  | _ => None
  end.
(** The server reported a failure. *)
Definition is_failure (v : event) : bool := match v with VRecv (Ok (GFailure _)) => true | _ => false end.
