(** The client's network at the level of bytes, when the peer is a conforming server (SpecServer.v)
    behind a link that delivers bytes in order, in arbitrary fragments, possibly late, and that may
    break. The client side runs the modelled Encoder and Decoder; the server side reads the byte
    stream with the reference reader (SpecParse.v) and is free in how it represents its responses. *)
From Coq Require Import String ZArith List Bool.
From Verif Require Import Bytes GoVal GoErr Encoder Decoder SpecPack SpecValues SpecCodec SpecParse SpecServer
  Messages Connection Link.
Import ListNotations.
Open Scope Z_scope.

(** What the environment decides. [p_say n g]: the bytes by which the server sends its n-th response.
    [p_cut n b]: the fragments in which the bytes waiting at the client's n-th operation arrive.
    [p_late n]: how many of them arrive before the read deadline (None: all). [p_left n]: how many
    bytes the link still carries from the client's n-th operation on (None: it does not break).
    [p_looks]: see Link.v. [p_zones]: the time zone database (Decoder.v). *)
Record peer := mkPeer {
  p_judge : judge;
  p_say : nat -> gval -> bytes;
  p_cut : nat -> bytes -> list bytes;
  p_late : nat -> option nat;
  p_left : nat -> option nat;
  p_looks : bool;
  p_zones : zones
}.

(** [w_in]: received by the server, not yet a complete message. [w_down]: sent by the server, not
    yet read by the client. [w_said]: responses sent so far. [w_ops]: client operations so far.
    [w_dead]: the link broke. *)
Record wire := mkWire {
  w_srv : srv;
  w_in : bytes;
  w_down : bytes;
  w_said : nat;
  w_ops : nat;
  w_dead : bool
}.
Definition new_wire : wire := mkWire new_session [] [] 0 0 false.

Section Peer.
Variable P : peer.
Notation J := (p_judge P).

Fixpoint utter (n : nat) (l : list gval) : bytes :=
  match l with [] => [] | g :: l' => p_say P n g ++ utter (S n) l' end.

(** The server puts what it has to say on the link. *)
Definition speak (s : srv) (rest : bytes) (w : wire) : wire :=
  mkWire (set_raw [] (set_out [] s)) rest (w_down w ++ s_raw s ++ utter (w_said w) (s_out s))
         (w_said w + length (s_out s)) (w_ops w) (w_dead w).

(** The server handles the complete messages it has received; after hanging up it reads nothing. *)
Fixpoint absorb (fuel : nat) (w : wire) : wire :=
  match fuel with
  | O => w
  | S f =>
      match s_mode (w_srv w) with
      | Gone => mkWire (w_srv w) [] (w_down w) (w_said w) (w_ops w) (w_dead w)
      | _ =>
          match parse_message (w_in w) with
          | None => w
          | Some (p, rest) =>
              let q := match p with Some p => read_request (s_version (w_srv w)) p | None => QBad end in
              absorb f (speak (serve J q (w_srv w)) rest w)
          end
      end
  end.
Definition hear (b : bytes) (w : wire) : wire :=
  let b' := w_in w ++ b in
  absorb (S (length b')) (mkWire (w_srv w) b' (w_down w) (w_said w) (w_ops w) (w_dead w)).

Definition tick (dead : bool) (w : wire) : wire :=
  mkWire (w_srv w) (w_in w) (w_down w) (w_said w) (S (w_ops w)) (w_dead w || dead).
Definition with_down (b : bytes) (w : wire) : wire :=
  mkWire (w_srv w) (w_in w) b (w_said w) (w_ops w) (w_dead w).

Definition budget (w : wire) : option nat :=
  if s_hung (w_srv w) || w_dead w then Some O else p_left P (w_ops w).
Definition spent (w : writer) : bool := match w_left w with Some O => true | _ => false end.

(** What a reader of the link sees now, and what arrives too late for it. *)
Definition seen (w : wire) : bytes :=
  match p_late P (w_ops w) with None => w_down w | Some k => firstn k (w_down w) end.
Definition unseen (w : wire) : bytes :=
  match p_late P (w_ops w) with None => [] | Some k => skipn k (w_down w) end.
(** The error once that is used up, as readWrite.Read reports it. *)
Definition end_error (w : wire) : gerr :=
  if s_hung (w_srv w) || w_dead w then EBadConn
  else match p_late P (w_ops w), s_mode (w_srv w) with None, Gone => EEOF | _, _ => EBadConn end.

Definition wired : net wire := {|
  n_send v cs m w :=
    let '(e, r) := encoder_encode v (encoder_on [] (budget w) cs) m in
    (hear (w_out (e_w e)) (tick (spent (e_w e)) w), r);
  n_recv v w :=
    let r := mkReader (p_cut P (w_ops w) (seen w)) (end_error w) in
    match decoder_decode v (p_zones P) r with
    | Ok (x, r') => (with_down (r_bytes r' ++ unseen w) (tick false w), Ok x)
    | Err e => (with_down (match read_message r with Ok (_, fs) => concat fs | _ => [] end ++ unseen w) (tick false w), Err e)
    | Panic => (with_down (unseen w) (tick false w), Panic)
    | NoFuel => (w, NoFuel)
    end;
  n_hang w := (mkWire (hang_up (w_srv w)) [] [] (w_said w) (w_ops w) (w_dead w), None);
  n_dial w := (w, None);
  n_write b w :=
    let '(w', r) := w_write (mkWriter [] (budget w)) b in
    match r with
    | None => (speak (serve_handshake J b (w_srv w)) [] (tick (spent w') w), (zlen b, None))
    | Some e => (tick true w, (zlen (w_out w'), Some e))
    end;
  n_read n w :=
    match p_cut P (w_ops w) (seen w) with
    | [] => (tick false w, ([], Some (end_error w)))
    | f :: fs =>
        let k := Z.to_nat n in
        (with_down (skipn k f ++ concat fs ++ unseen w) (tick false w), (firstn k f, None))
    end;
  n_probe w :=
    if p_looks P then
      match w_down w with
      | [] => (w, Some (if s_hung (w_srv w) then EIO 1 else match s_mode (w_srv w) with Gone => EEOF | _ => ETimeout end))
      | _ :: b => (with_down b w, None)
      end
    else (w, Some ETimeout)
|}.
End Peer.

(** ** Well-behaved environments *)

(** The responses a server with this judge may send. *)
Inductive utterance (J : judge) : gval -> Prop :=
| u_ok : utterance J (GSuccess [])
| u_ignored : utterance J GIgnored
| u_breach : utterance J (GFailure (j_breach J))
| u_refused n md : j_outcome J n = Refused md -> utterance J (GFailure md)
| u_run n : utterance J (GSuccess (run_md (j_outcome J n)))
| u_broken n rm l md : j_outcome J n = Broken rm l md -> utterance J (GFailure md)
| u_produced n rm l md : j_outcome J n = Produced rm l md -> utterance J (GSuccess md)
| u_row n rm l md r : (j_outcome J n = Broken rm l md \/ j_outcome J n = Produced rm l md) -> In r l -> utterance J (GRecord r).

(** [b] is one message that means [g] in version [v] of the codec. The size fields stay below the
    limits the decoder can read (C06). *)
Definition expresses (v : ver) (b : bytes) (g : gval) : Prop :=
  exists p body, meaning v p = Some g /\ packs signed_limits p body /\ frames body b.

(** The server's messages are valid, the link delivers everything in time and does not break. *)
Record sound (v : ver) (P : peer) : Prop := mkSound {
  so_say : forall n g, utterance (p_judge P) g -> expresses v (p_say P n g) g;
  so_cut : forall n b, concat (p_cut P n b) = b /\ Forall (fun f => f <> []) (p_cut P n b);
  so_late : forall n, p_late P n = None;
  so_left : forall n, p_left P n = None
}.
