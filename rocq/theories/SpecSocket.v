(** Statement-level vocabulary for the life of a connection's socket. *)
From Coq Require Import String ZArith List Bool.
From Verif Require Import Bytes GoVal GoErr Messages SpecDialect SpecSession.
Import ListNotations.

(** The event is a socket being dialled or closed. *)
Definition dials (v : event) : bool := match v with VDial _ => true | _ => false end.
Definition hangs_up (v : event) : bool := match v with VHang _ => true | _ => false end.
(** Whatever happens here happens on a socket that is already there, and leaves it there. *)
Definition traffic (tr : list event) : Prop := forall v, In v tr -> dials v = false /\ hangs_up v = false.

(** The life of one socket: it is dialled, with the outcome [e], and used, and [over] tells whether it has
    been closed; that is then the last thing that happened to it. *)
Definition life (e : option gerr) (over : bool) (tr : list event) : Prop :=
  exists use, traffic use
    /\ if over then exists e', tr = VDial e :: use ++ [VHang e'] else tr = VDial e :: use.

(** What a connection without a transaction does to close its socket itself: it says GOODBYE, in the versions
    that have it, and closes. *)
Definition leave (p : proto) (e : option gerr) : list event :=
  (if has_transactions (proto_number p) then [VSend (GStructure 2 []) None] else []) ++ [VHang e].
(** The events after the login was sent, if the client retreats: the answer is neither SUCCESS nor FAILURE, or
    it is FAILURE and then RESET is answered with something other than SUCCESS. *)
Inductive retreat (p : proto) : list event -> Prop :=
| retreat_odd m e : (forall md, m <> GSuccess md) -> (forall md, m <> GFailure md) ->
    retreat p (VRecv (Ok m) :: leave p e)
| retreat_reset md k m e : (forall md, m <> GSuccess md) -> m <> GIgnored ->
    retreat p (VRecv (Ok (GFailure md)) :: VSend GReset None :: repeat (VRecv (Ok GIgnored)) k ++ VRecv (Ok m) :: leave p e).
