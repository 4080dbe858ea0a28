(** The client's network when the peer is a conforming server and the link loses nothing: a network
    (Connection.v) at the level of whole messages. WireFacts.v relates it to the level of bytes. *)
From Coq Require Import String ZArith List Bool.
From Verif Require Import Bytes GoVal GoErr Encoder Decoder SpecPack SpecValues SpecCodec SpecServer Messages Connection.
Import ListNotations.
Open Scope Z_scope.

(** Boolean form of [modest] (SpecCodec.v): no chunk of the message exceeds 65535 bytes. *)
Definition fits (v : ver) (cs : Z) (x : gval) : bool :=
  (8 <=? cs) && (cs <=? 65535) && forallb (fun n => n <=? cs) (str_lens x)
  || (1 <=? cs) && (cs <=? 65535) && (zlen (payload v x) <=? 65535).

(** A message that reaches the server as one message. *)
Definition sendable (v : ver) (cs : Z) (x : gval) : bool :=
  go_typed x && match snd (encode v x) with None => true | Some _ => false end && fits v cs x.
(** A message that the encoder refuses before anything was written to the link. *)
Definition refused (v : ver) (cs : Z) (x : gval) : bool :=
  match snd (encode v x) with None => false | Some _ => (1 <=? cs) && (zlen (payload v x) <? cs) end.

Definition set_out (o : list gval) (s : srv) : srv :=
  mkSrv (s_version s) (s_mode s) (s_next s) (s_tx s) (s_stream s) (s_perm s) (s_done s) o (s_raw s) (s_hung s).
Definition set_raw (b : bytes) (s : srv) : srv :=
  mkSrv (s_version s) (s_mode s) (s_next s) (s_tx s) (s_stream s) (s_perm s) (s_done s) (s_out s) b (s_hung s).
Definition is_garbled (s : srv) : bool := match s_mode s with Garbled => true | _ => false end.
Definition hang_up (s : srv) : srv :=
  mkSrv (s_version s) (if is_garbled s then Garbled else Gone) (s_next s) None None (s_perm s) (s_done s) [] [] true.

(** The error a Read of the link reports when nothing will come: io.EOF if the server hung up,
    else the read deadline passes, which readWrite.Read turns into driver.ErrBadConn. *)
Definition silence (s : srv) : gerr :=
  if s_hung s then EBadConn else match s_mode s with Gone => EEOF | _ => EBadConn end.

(** A write to a server that hung up is swallowed. Garbled stands for "anything may happen from here
    on": a message was cut or merged, bytes of a response were lost, or a closed link was used. It is
    never left again. [looks]: whether a Read whose deadline has already passed still looks at the
    socket (the Go library has changed in this respect). *)
Definition ideal (J : judge) (looks : bool) : net srv := {|
  n_send v cs m s :=
    if s_hung s then (in_mode Garbled s, Some EBadConn)
    else match snd (encode v m) with
    | None => if sendable v cs m then (serve J (read_request (s_version s) (lower v m)) s, None)
              else (in_mode Garbled s, None)
    | Some e => if refused v cs m then (s, Some e) else (in_mode Garbled s, Some e)
    end;
  n_recv v s :=
    if is_garbled s then (s, Panic)
    else match s_out s with
    | m :: o => (set_out o s, Ok m)
    | [] => (s, Err (EWrap (Some (silence s)) 12))
    end;
  n_hang s := (hang_up s, None);
  n_dial s := (s, None);
  n_write b s :=
    if s_hung s || is_garbled s then (in_mode Garbled s, (0, Some EBadConn))
    else (serve_handshake J b s, (zlen b, None));
  n_read n s :=
    if is_garbled s then (s, ([], Some EBadConn))
    else match s_raw s with
    | [] => (s, ([], Some (silence s)))
    | b => (set_raw (skipn (Z.to_nat n) b) s, (firstn (Z.to_nat n) b, None))
    end;
  n_probe s :=
    if looks then
      match s_out s with
      | [] => (s, Some (if s_hung s then EIO 1 else match s_mode s with Gone => EEOF | _ => ETimeout end))
      | _ => (in_mode Garbled s, None)
      end
    else (s, Some ETimeout)
|}.

(** ** Histories of calls *)

(** One call with its outcome; the fuel is some number that suffices. *)
Definition does {St} (N : net St) (o : call) (w : conn * St) (w' : conn * St) (r : res answer) : Prop :=
  exists n, exec N (do_call n o) (fst w) (snd w) = (fst w', snd w', r) /\ r <> NoFuel.

(** A sequence of calls by one goroutine; [P] restricts the calls that may be made. *)
Inductive history {St} (N : net St) (P : conn -> call -> Prop) : conn * St -> list (call * res answer) -> conn * St -> Prop :=
| hist_nil w : history N P w [] w
| hist_snoc w l w1 o r w2 : history N P w l w1 -> P (fst w1) o -> does N o w1 w2 r -> history N P w (l ++ [(o, r)]) w2.

(** The request a call sends (besides PULL, COMMIT, ROLLBACK, RESET and GOODBYE, which are small). *)
Definition run_msg (c : conn) (q : bytes) (ps : gomap) (db : bytes) (inTx : bool) : gval :=
  get_run_message (c_proto c) q ps db (c_mode c) (negb inTx).
(** It arrives whole or is refused before a byte is sent. *)
Definition clean (c : conn) (m : gval) : Prop :=
  sendable (codec (c_proto c)) (c_chunk c) m = true \/ refused (codec (c_proto c)) (c_chunk c) m = true.
Definition clean_call (c : conn) (o : call) : Prop :=
  match o with
  | CQuery q ps db | CExec q ps db => clean c (run_msg c q ps db false)
  | CTxQuery _ q ps db | CTxExecDb _ q ps db => clean c (run_msg c q ps db true)
  | CTxExec _ q ps => clean c (run_msg c q ps [] false)
  | CBegin db => clean c (fst (get_begin_message (c_proto c) db (c_mode c)))
  | CSetChunk cs => 1 <= cs <= 65535
  | _ => True
  end.

(** Opening a connection (connection.go:92-104, 257-284). *)
Definition opens {St} (N : net St) (user password : bytes) (s : St) (w' : conn * St) (r : res unit) : Prop :=
  exists n, exec N (create_bolt_conn n) (fresh_conn user password) s = (fst w', snd w', r) /\ r <> NoFuel.
