(** Several goroutines on the receiving side of one socket: one inside a query, which reads a message
    (decoderV1.go:42-91, decoderV2.go:37-86) through readWrite.Read (connection.go:44-54), others inside
    ValidateOpen (connection.go:307-327), which does not take the connection's mutex. Setting the deadline
    and reading are separate steps; the deadline belongs to the socket.

    Simplifications: as in Timing.v computing takes no time, and a Read returns at most the rest of one
    piece; setting a deadline does not fail. *)
From Coq Require Import ZArith List Bool.
From Verif Require Import Bytes GoVal GoErr Decoder Timing Concurrency.
Import ListNotations.
Open Scope Z_scope.

(** What a goroutine has still to do with the socket: [TArm]: SetReadDeadline(time.Now().Add(d));
    [TRead]: Read into a slice of [n] bytes. *)
Inductive talk (A : Type) :=
| TRet (r : res A)
| TArm (d : Z) (k : talk A)
| TRead (n : nat) (k : bytes + gerr -> talk A).
Arguments TRet {A} r.
Arguments TArm {A} d k.
Arguments TRead {A} n k.
Fixpoint tbind {A B} (p : talk A) (f : res A -> talk B) : talk B :=
  match p with
  | TRet r => f r
  | TArm d k => TArm d (tbind k f)
  | TRead n k => TRead n (fun r => tbind (k r) f)
  end.

(** readWrite.Read (connection.go:44-54) *)
Definition sock_read {A} (timeout : Z) (n : nat) (k : bytes + gerr -> talk A) : talk A :=
  TArm timeout (TRead n (fun r => k (match r with inl b => inl b | inr EEOF => inr EEOF | inr _ => inr EBadConn end))).
(** io.ReadFull (Go library), as [Timing.timed_full]; one unit of fuel per Read *)
Fixpoint sock_full (fuel : nat) (timeout : Z) (n : nat) (got : bytes) : talk bytes :=
  match n with
  | O => TRet (Ok got)
  | _ =>
      match fuel with
      | O => TRet NoFuel
      | S fuel' =>
          sock_read timeout n (fun r =>
            match r with
            | inl b => sock_full fuel' timeout (n - length b) (got ++ b)
            | inr e => TRet (Err (match got, e with _ :: _, EEOF => EUnexpectedEOF | _, _ => e end))
            end)
      end
  end.
(** readData (decoderV1.go:71-91, decoderV2.go:66-86), as [Timing.timed_data] *)
Fixpoint sock_data (fuel : nat) (timeout : Z) (n : nat) (got : bytes) : talk bytes :=
  match n with
  | O => TRet (Ok got)
  | _ =>
      match fuel with
      | O => TRet NoFuel
      | S fuel' =>
          sock_read timeout n (fun r =>
            match r with
            | inl [] => TRet (Err (EWrap None 11))
            | inl b => sock_data fuel' timeout (n - length b) (got ++ b)
            | inr e => TRet (Err (EWrap (Some e) 10))
            end)
      end
  end.
(** read (decoderV1.go:42-69, decoderV2.go:37-64), as [Timing.timed_loop] *)
Fixpoint sock_loop (fuel : nat) (timeout : Z) (out : bytes) : talk bytes :=
  match fuel with
  | O => TRet NoFuel
  | S fuel' =>
      tbind (sock_full 2 timeout 2 []) (fun r =>
        match r with
        | Ok hd =>
            let messageLen := unbe hd in
            if messageLen =? 0 then TRet (Ok out)
            else
              tbind (sock_data (Z.to_nat messageLen) timeout (Z.to_nat messageLen) []) (fun r =>
                match r with
                | Ok data => sock_loop fuel' timeout (out ++ data)
                | Err e => TRet (Err (EWrap (Some e) 13))
                | Panic => TRet Panic
                | NoFuel => TRet NoFuel
                end)
        | Err e => TRet (Err (EWrap (Some e) 12))
        | Panic => TRet Panic
        | NoFuel => TRet NoFuel
        end)
  end.
(** What goroutines end with. *)
Inductive ending := GotMessage (r : res bytes) | ToldOpen (b : bool).
(** Receiving one message inside a query; [fuel] bounds the number of chunks. *)
Definition receiver (fuel : nat) (timeout : Z) : talk ending := tbind (sock_loop fuel timeout []) (fun r => TRet (Ok (GotMessage r))).
(** ValidateOpen (connection.go:307-327) of a connection that is not closed *)
Definition prober : talk ending :=
  TArm 0 (TRead 1 (fun r => TRet (Ok (ToldOpen (match r with inr EEOF => false | _ => true end))))).

(** The socket: the time, the deadline for reading, and what the peer sends. *)
Record socket := mkSocket { z_now : Z; z_deadline : Z; z_in : incoming }.
(** SetReadDeadline: a deadline that is not in the future has passed at once. *)
Definition arm (d : Z) (z : socket) : socket :=
  mkSocket (z_now z) (if d <=? 0 then z_now z - 1 else z_now z + d) (z_in z).
(** Read, None: it waits. After the deadline it fails without looking at what has come (Go library:
    internal/poll). At the deadline itself what has come is still read, as in Timing.v. *)
Definition attempt (n : nat) (z : socket) : option (bytes + gerr) * socket :=
  let i := z_in z in
  let late := if z_deadline z <=? z_now z then (Some (inr ETimeout), z) else (None, z) in
  if z_deadline z <? z_now z then (Some (inr ETimeout), z)
  else
    match i_pieces i with
    | (a, f) :: ps =>
        if a <=? z_now z then
          (Some (inl (firstn n f)), mkSocket (z_now z) (z_deadline z) (mkIncoming (match skipn n f with [] => ps | f' => (a, f') :: ps end) (i_close i)))
        else late
    | [] => match i_close i with Some t => if t <=? z_now z then (Some (inr EEOF), z) else late | None => late end
    end.

(** The socket and its goroutines. *)
Record crowd := mkCrowd { w_sock : socket; w_gos : list (talk ending) }.
(** Goroutine [i] moves; None: it has finished or waits. *)
Definition crowd_step (i : nat) (x : crowd) : option crowd :=
  match nth_error (w_gos x) i with
  | None | Some (TRet _) => None
  | Some (TArm d k) => Some (mkCrowd (arm d (w_sock x)) (put_nth i k (w_gos x)))
  | Some (TRead n k) =>
      match attempt n (w_sock x) with
      | (None, _) => None
      | (Some r, z) => Some (mkCrowd z (put_nth i (k r) (w_gos x)))
      end
  end.
(** One unit of time passes; only while every goroutine waits or has finished. *)
Definition quiet (x : crowd) : bool :=
  forallb (fun i => match crowd_step i x with None => true | Some _ => false end) (seq 0 (length (w_gos x))).
Definition tick (x : crowd) : option crowd :=
  if quiet x then Some (mkCrowd (mkSocket (z_now (w_sock x) + 1) (z_deadline (w_sock x)) (z_in (w_sock x))) (w_gos x)) else None.
(** A course of events: Some i: goroutine i moves, None: time passes. *)
Fixpoint course (es : list (option nat)) (x : crowd) : option crowd :=
  match es with
  | [] => Some x
  | e :: es' => match (match e with Some i => crowd_step i x | None => tick x end) with Some x' => course es' x' | None => None end
  end.
