(** The time during which a connection of a driver pool is lent to someone. *)
From Coq Require Import String ZArith List Bool.
From Verif Require Import Bytes GoVal GoErr SpecValues SpecServer Messages Connection Link Wire SpecSession SpecShare.
From Verif Require DriverPool SpecDriver.
Import ListNotations.

(** Somebody holds [c]. [tenure c s own s']: from the state [s] to the state [s'] they made the calls
    [own] on it and got these answers, while anybody did anything with the pool and with the connections they
    held. A state is the log of the pool's events, the pool and the world. *)
Section Tenure.
Context {W : Type}.
Variables (N : DriverPool.net W) (made : W -> list nat) (P : nat -> peer) (cell : W -> nat -> conn * wire) (c : nat).
Definition pstate := (list (DriverPool.devent * DriverPool.dres) * DriverPool.dpool * W)%type.
Inductive tenure (s : pstate) : list (call * res answer) -> pstate -> Prop :=
| tn_start : tenure s [] s
| tn_event own l d w e r d' w' : tenure s own (l, d, w) -> e <> DriverPool.EvReclaim (Some c) ->
    match e with DriverPool.EvReclaim (Some x) => In x (SpecDriver.held l) | _ => True end ->
    DriverPool.do_event N e d w = (d', w', r) -> tenure s own (l ++ [(e, r)], d', w')
| tn_other own l d w x w' : tenure s own (l, d, w) -> In x (SpecDriver.held l) -> x <> c ->
    session_use polite made P cell x w w' -> tenure s own (l, d, w')
| tn_own own l d w o r w' : tenure s own (l, d, w) -> made w' = made w -> (forall x, x <> c -> cell w' x = cell w x) ->
    polite (fst (cell w c)) o -> does (wired (P c)) o (cell w c) (cell w' c) r -> tenure s (own ++ [(o, r)]) (l, d, w').
End Tenure.

(** The statements the server behind [c] has made permanent. *)
Definition permanent {W} (cell : W -> nat -> conn * wire) (w : W) (c : nat) : list stmt := s_perm (w_srv (snd (cell w c))).
