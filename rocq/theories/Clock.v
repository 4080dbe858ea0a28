(** Whole calls on a connection whose Reads and Writes have deadlines: Connection.v over Timing.v. *)
From Coq Require Import ZArith List Bool.
From Verif Require Import Bytes GoVal GoErr Encoder Decoder Messages Connection Timing.
Import ListNotations.
Open Scope Z_scope.

(** The client's side of the socket: what it sends, with the time, and what it has still to receive. *)
Record clock := mkClock { k_send : sender; k_in : incoming }.
Definition k_now (k : clock) : Z := t_now (k_send k).
Definition at_time (t : Z) (s : sender) : sender := mkSender t (t_room s) (t_out s) (t_calls s).

(** One Read (connection.go:44-54) of at most [n] bytes begun at [now]: what it returns, when, and what is left. *)
Definition timed_once (timeout : Z) (n : nat) (now : Z) (i : incoming) : bytes * option gerr * Z * incoming :=
  let failed := let '(e, t) := read_error timeout now (i_pieces i) (i_close i) in ([], Some e, t, i) in
  match i_pieces i with
  | [] => failed
  | (a, f) :: ps =>
      match returns_at timeout now a with
      | None => failed
      | Some t => (firstn n f, None, t, mkIncoming (match skipn n f with [] => ps | f' => (a, f') :: ps end) (i_close i))
      end
  end.

(** The network of a connection (connection.go:26-54, 533-547) with the timeout [timeout]. What the peer
    sends, and when, is fixed beforehand; the statements quantify over it. Simplifications: net.Conn's Close
    takes no time and does not fail; dialling takes no time (it is in Timing.v); a Read whose deadline is
    the present (ValidateOpen, connection.go:312-318) reports the timeout at once. *)
Definition timed (timeout : Z) (tz : zones) : net clock := {|
  n_send v cs m k := let '(s, r) := timed_encode timeout v cs (k_send k) m in (mkClock s (k_in k), r);
  n_recv v k :=
    let '(r, t, i) := timed_read timeout (k_now k) (k_in k) in
    (mkClock (at_time t (k_send k)) i,
     match r with
     | Ok data => match decode v tz data with Ok (x, _) => Ok x | Err e => Err e | Panic => Panic | NoFuel => NoFuel end
     | Err e => Err e
     | Panic => Panic
     | NoFuel => NoFuel
     end);
  n_hang k := (k, None);
  n_dial k := (k, None);
  n_write b k :=
    let '(s, r) := timed_write timeout (k_send k) b in
    (mkClock s (k_in k), (zlen (t_out s) - zlen (t_out (k_send k)), r));
  n_read n k :=
    let '(b, e, t, i) := timed_once timeout (Z.to_nat n) (k_now k) (k_in k) in
    (mkClock (at_time t (k_send k)) i, (b, e));
  n_probe k := (k, Some ETimeout)
|}.
