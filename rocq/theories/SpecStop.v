(** Statement-level vocabulary: calls that stop at the first error of the network. *)
From Coq Require Import ZArith List Bool.
From Verif Require Import Bytes GoVal GoErr Messages Connection SpecSession.
Import ListNotations.
Open Scope Z_scope.

(** Sending, receiving, dialling or hanging up went wrong. A look at the socket (ValidateOpen) reports a
    timeout when all is well; it does not count. *)
Definition failed (v : event) : bool :=
  match v with
  | VSend _ e | VHang e | VDial e | VWrite _ (_, e) | VRead (_, e) => match e with Some _ => true | None => false end
  | VRecv (Ok _) => false
  | VRecv _ => true
  | VProbe _ => false
  end.
(** Nothing went wrong, or the last thing that happened did, nothing before it, and the call does not
    succeed. *)
Definition gives_up {A} (tr : list event) (r : res A) : Prop :=
  (forall v, In v tr -> failed v = false)
  \/ exists before v, tr = before ++ [v] /\ failed v = true /\ (forall u, In u before -> failed u = false) /\ forall a, r <> Ok a.
