(** Reading from the network with deadlines: connection.go:44-54 (readWrite.Read) below
    decoderV1.go:42-91, decoderV2.go:37-86; writing to it: connection.go:30-42 (readWrite.Write) below
    encoderV1.go:47-107, encoderV2.go:50-112; and dialling (connection.go:172-196).

    Simplifications: computing takes no time, so the clock moves only while a Read or a Write waits.
    Times and durations are in nanoseconds. *)
From Coq Require Import ZArith List Bool.
From Verif Require Import Bytes GoVal GoErr Encoder Decoder Client.
Import ListNotations.
Open Scope Z_scope.

(** What the peer sends: pieces with the time from which each can be read (a Read returns at most the
    rest of one piece, the pieces come in order), then, if it closes the connection, when. *)
Record incoming := mkIncoming { i_pieces : list (Z * bytes); i_close : option Z }.

(** A Read begun at [now] with the deadline now + timeout (connection.go:45), waiting for something
    that is there from [at] on: when it returns with it, if the deadline does not pass before. A
    deadline that is not in the future has passed already, whatever there is to read. *)
Definition returns_at (timeout now at_ : Z) : option Z :=
  if timeout <=? 0 then None else if at_ <=? now + timeout then Some (Z.max now at_) else None.
(** When the deadline has passed. *)
Definition gives_up_at (timeout now : Z) : Z := now + Z.max timeout 0.
(** The error of a Read when no piece comes in time, and when it returns: io.EOF is handed on, a missed
    deadline becomes driver.ErrBadConn (connection.go:49-52). *)
Definition read_error (timeout now : Z) (pieces : list (Z * bytes)) (close : option Z) : gerr * Z :=
  match pieces, close with
  | [], Some t => match returns_at timeout now t with Some t' => (EEOF, t') | None => (EBadConn, gives_up_at timeout now) end
  | _, _ => (EBadConn, gives_up_at timeout now)
  end.

(** io.ReadFull (Go library: ReadAtLeast) over readWrite.Read; as [Decoder.read_full], with the time and
    the pieces left at the end. *)
Fixpoint timed_full (timeout : Z) (n : nat) (now : Z) (ps : list (Z * bytes)) (close : option Z) (got : bytes)
  : (bytes + gerr) * Z * list (Z * bytes) :=
  match n with
  | O => (inl got, now, ps)
  | _ =>
      let failed := let '(e, t) := read_error timeout now ps close in
                    (inr (match got, e with _ :: _, EEOF => EUnexpectedEOF | _, _ => e end), t, ps) in
      match ps with
      | [] => failed
      | (a, f) :: ps' =>
          match returns_at timeout now a with
          | None => failed
          | Some t =>
              if Nat.leb (length f) n then timed_full timeout (n - length f) t ps' close (got ++ f)
              else (inl (got ++ firstn n f), t, (a, skipn n f) :: ps')
          end
      end
  end.

(** readData (decoderV1.go:71-91, decoderV2.go:66-86); as [Decoder.read_data]. *)
Fixpoint timed_data (timeout : Z) (n : nat) (now : Z) (ps : list (Z * bytes)) (close : option Z) (got : bytes)
  : (bytes + gerr) * Z * list (Z * bytes) :=
  match n with
  | O => (inl got, now, ps)
  | _ =>
      let failed := let '(e, t) := read_error timeout now ps close in (inr (EWrap (Some e) 10), t, ps) in
      match ps with
      | [] => failed
      | (a, f) :: ps' =>
          match returns_at timeout now a with
          | None => failed
          | Some t =>
              match f with
              | [] => (inr (EWrap None 11), t, ps')
              | _ =>
                  if Nat.leb (length f) n then timed_data timeout (n - length f) t ps' close (got ++ f)
                  else (inl (got ++ firstn n f), t, (a, skipn n f) :: ps')
              end
          end
      end
  end.

(** read (decoderV1.go:42-69, decoderV2.go:37-64); as [Decoder.read_loop]. *)
Fixpoint timed_loop (fuel : nat) (timeout now : Z) (ps : list (Z * bytes)) (close : option Z) (out : bytes)
  : res bytes * Z * list (Z * bytes) :=
  match fuel with
  | O => (NoFuel, now, ps)
  | S fuel' =>
      match timed_full timeout 2 now ps close [] with
      | (inr e, t, ps1) => (Err (EWrap (Some e) 12), t, ps1)
      | (inl hd, t, ps1) =>
          let messageLen := unbe hd in
          if messageLen =? 0 then (Ok out, t, ps1)
          else
            match timed_data timeout (Z.to_nat messageLen) t ps1 close [] with
            | (inr e, t2, ps2) => (Err (EWrap (Some e) 13), t2, ps2)
            | (inl data, t2, ps2) => timed_loop fuel' timeout t2 ps2 close (out ++ data)
            end
      end
  end.
Definition timed_bytes (ps : list (Z * bytes)) : bytes := concat (map snd ps).
(** One message read from the time [now] on: the outcome, when, and what has not been read. *)
Definition timed_read (timeout now : Z) (i : incoming) : res bytes * Z * incoming :=
  let '(r, t, ps) := timed_loop (S (length (timed_bytes (i_pieces i)))) timeout now (i_pieces i) (i_close i) [] in
  (r, t, mkIncoming ps (i_close i)).

(** ** Writing *)

(** The sending side of the socket: the time, from when on there is room for each further byte (in order;
    beyond the list there never is), all that was taken, and the number of Writes so far (not in the
    code: for the statements). *)
Record sender := mkSender { t_now : Z; t_room : list Z; t_out : bytes; t_calls : nat }.

(** net.Conn.Write (Go library: it writes what there is room for and waits for more until the deadline)
    begun before [deadline]: whether all was taken, when it returns, the room left and the bytes taken. *)
Fixpoint taking (deadline now : Z) (p : bytes) (room : list Z) : bool * Z * list Z * bytes :=
  match p with
  | [] => (true, now, room, [])
  | b :: p' =>
      match room with
      | [] => (false, deadline, [], [])
      | a :: room' =>
          if a <=? deadline then
            let '(ok, t, r, q) := taking deadline (Z.max now a) p' room' in (ok, t, r, b :: q)
          else (false, deadline, room, [])
      end
  end.
(** readWrite.Write (connection.go:30-42): a new deadline for every Write; every error becomes
    driver.ErrBadConn. A deadline that is not in the future has passed already. *)
Definition timed_write (timeout : Z) (s : sender) (p : bytes) : sender * option gerr :=
  if timeout <=? 0 then (mkSender (t_now s) (t_room s) (t_out s) (S (t_calls s)), Some EBadConn)
  else
    let '(ok, t, room, q) := taking (t_now s + timeout) (t_now s) p (t_room s) in
    (mkSender t room (t_out s ++ q) (S (t_calls s)), if ok then None else Some EBadConn).

(** An Encoder over it; [timed_enc_write], [timed_flush], [timed_run_writes] and [timed_encode] are
    [Encoder.enc_write], [flush], [run_writes] and [encoder_encode] with [timed_write] in the place of
    [w_write]. *)
Record timed_encoder := mkTimed { te_w : sender; te_buf : bytes; te_chunk : Z }.
(** Write (encoderV1.go:47-73, encoderV2.go:50-76) *)
Definition timed_enc_write (timeout : Z) (e : timed_encoder) (p : bytes) : timed_encoder * option gerr :=
  let buf := te_buf e ++ p in
  let cs := te_chunk e in
  if zlen buf >=? cs then
    let '(w1, r1) := timed_write timeout (te_w e) (be 2 cs) in
    match r1 with
    | Some err => (mkTimed w1 buf cs, Some (EWrap (Some err) 1))
    | None =>
        let '(w2, r2) := timed_write timeout w1 (firstn (Z.to_nat cs) buf) in
        let e2 := mkTimed w2 (skipn (Z.to_nat cs) buf) cs in
        match r2 with
        | Some err => (e2, Some (EWrap (Some err) 2))
        | None => (e2, None)
        end
    end
  else (mkTimed (te_w e) buf cs, None).
(** flush (encoderV1.go:76-95, encoderV2.go:79-100) *)
Definition timed_flush (timeout : Z) (e : timed_encoder) : timed_encoder * option gerr :=
  let n := zlen (te_buf e) in
  let finish (w : sender) (buf : bytes) :=
    let '(w', r) := timed_write timeout w EndMessage in
    match r with
    | Some err => (mkTimed w' buf (te_chunk e), Some (EWrap (Some err) 5))
    | None => (mkTimed w' [] (te_chunk e), None)
    end in
  if n >? 0 then
    let '(w1, r1) := timed_write timeout (te_w e) (be 2 (uint16 n)) in
    match r1 with
    | Some err => (mkTimed w1 (te_buf e) (te_chunk e), Some (EWrap (Some err) 3))
    | None =>
        let '(w2, r2) := timed_write timeout w1 (te_buf e) in
        match r2 with
        | Some err =>
            (mkTimed w2 (skipn (length (t_out w2) - length (t_out w1)) (te_buf e)) (te_chunk e),
             Some (EWrap (Some err) 4))
        | None => finish w2 []
        end
    end
  else finish (te_w e) (te_buf e).
(** The Writes of one encode call, in order until one fails. *)
Fixpoint timed_run_writes (timeout : Z) (e : timed_encoder) (ws : list bytes) : timed_encoder * option gerr :=
  match ws with
  | [] => (e, None)
  | p :: ws' =>
      let '(e', r) := timed_enc_write timeout e p in
      match r with
      | Some err => (e', Some err)
      | None => timed_run_writes timeout e' ws'
      end
  end.
(** Encode (encoderV1.go:98-107, encoderV2.go:103-112) on a new Encoder (connection.go:533-538) *)
Definition timed_encode (timeout : Z) (v : ver) (cs : Z) (s : sender) (x : gval) : sender * option gerr :=
  let '(ws, fin) := encode v x in
  let '(e1, r) := timed_run_writes timeout (mkTimed s [] cs) ws in
  match r with
  | Some err => (te_w e1, Some err)
  | None =>
      match fin with
      | Some err => (te_w e1, Some err)
      | None => let '(e2, r2) := timed_flush timeout e1 in (te_w e2, r2)
      end
  end.

(** ** Dialling *)

(** createConnection (connection.go:172-196) begun at [now], when the peer would be connected (with TLS:
    have finished its handshake) at [up], None: never. Whether the connection is made and when; None: the
    call does not return. tls.Dial (line 180) has no deadline; net.DialTimeout (line 185) has none if the
    timeout is 0, and fails at once if it is negative. The operating system's own limits are not
    modelled. *)
Definition dial_time (d : dialing) (now : Z) (up : option Z) : option (bool * Z) :=
  let whenever := match up with Some t => Some (true, Z.max now t) | None => None end in
  match d with
  | DialTLS _ _ => whenever
  | DialTCP _ timeout =>
      if timeout =? 0 then whenever
      else match up with
           | Some t => match returns_at timeout now t with Some t' => Some (true, t') | None => Some (false, gives_up_at timeout now) end
           | None => Some (false, gives_up_at timeout now)
           end
  end.
