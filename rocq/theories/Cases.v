(** Concrete servers and statements for the examples and counterexamples of the Props files. *)
From Coq Require Import String ZArith List Bool.
From Verif Require Import Bytes GoVal GoErr SpecServer Messages Connection Errors Link Wire SpecSession Demo.
Import ListNotations.
Open Scope Z_scope.

(** The server that decides as listed, for version [p]. *)
Definition server (p : proto) (l : list outcome) (strict : bool) : peer :=
  demo (codec p) (script (proto_number p) l strict) true.
Definition fault : list (bytes * gval) := [(str "code", GStr (str "Neo.ClientError.Statement.SyntaxError"))].
Definition done : outcome := Produced [] [] [].
Definition oops : outcome := Refused fault.
Definition row1 : list gval := [GInt KInt64 1; GStr (str "a")].
Definition row2 : list gval := [GInt KInt64 2; GStr (str "b")].
Definition summary : list (bytes * gval) := [(str "type", GStr (str "r"))].
Definition rows : outcome := Produced [(str "fields", GStr (str "n"))] [row1; row2] summary.
(** One row, then a failure. *)
Definition halfway : outcome := Broken [] [row1] fault.

Definition q1 : bytes := str "MATCH (n) RETURN n".
Definition q2 : bytes := str "CREATE (n)".
Definition ps : gomap := [(str "name", GStr (str "Ann")); (str "age", GInt KInt 41)].
Definition login (calls : list call) (P : peer) : option (list (call * res answer) * (conn * wire)) :=
  play_session P 50 clean_call_b (str "neo4j") (str "secret") calls.
(** The same with calls of any kind. *)
Definition login_any (calls : list call) (P : peer) : option (list (call * res answer) * (conn * wire)) :=
  play_session P 50 (fun _ _ => true) (str "neo4j") (str "secret") calls.
(** What is left of a play. *)
Definition results (x : option (list (call * res answer) * (conn * wire))) : list (res answer) :=
  match x with Some (l, _) => map snd l | None => [] end.
Definition final (x : option (list (call * res answer) * (conn * wire))) : conn * wire :=
  match x with Some (_, w) => w | None => (fresh_conn [] [], new_wire) end.

(** Links that misbehave once: at the client's [n]-th operation only [k] bytes arrive before the
    deadline, or the link carries only [k] more bytes. *)
Definition late_at (n k : nat) (P : peer) : peer :=
  mkPeer (p_judge P) (p_say P) (p_cut P) (fun m => if Nat.eqb m n then Some k else p_late P m) (p_left P) (p_looks P) (p_zones P).
Definition break_at (n k : nat) (P : peer) : peer :=
  mkPeer (p_judge P) (p_say P) (p_cut P) (p_late P) (fun m => if Nat.eqb m n then Some k else p_left P m) (p_looks P) (p_zones P).
(** A network whose peer answers every request with [g]. *)
Definition parrot (g : gval) : net unit := {|
  n_send _ _ _ s := (s, None);
  n_recv _ s := (s, Ok g);
  n_hang s := (s, None);
  n_dial s := (s, None);
  n_write b s := (s, (zlen b, None));
  n_read _ s := (s, ([x00; x00; x00; x04], None));
  n_probe s := (s, Some ETimeout)
|}.
(** A parameter of a type that cannot be sent, after one that fills a chunk. *)
Definition unsendable : gomap := [(str "a", GStr (str "0123456789")); (str "x", GOther)].
(** Results with the innermost error only. *)
Definition brief (x : option (list (call * res answer) * (conn * wire))) : list (res answer) :=
  map (fun r => match r with Err e => Err (inner_most e) | _ => r end) (results x).
