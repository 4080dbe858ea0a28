(** Statement-level vocabulary for the theorems about the driver pool. *)
From Coq Require Import String ZArith List Bool.
From Verif Require Import Bytes GoVal GoErr Messages DriverPool.
Import ListNotations.
Open Scope Z_scope.

(** ** Watching the pool *)
Inductive nevent :=
| NMake (r : res nat)
| NValid (c : nat) (b : bool)
| NClose (c : nat) (r : res unit)
| NIdle (c : nat) (r : res unit).
(** The same connections, noting what the pool does with them, the latest first. *)
Definition watch_net {W} (N : net W) : net (W * list nevent) :=
  mkNet
    (fun w => let '(w', r) := n_make N (fst w) in (w', NMake r :: snd w, r))
    (fun c w => let '(w', b) := n_valid N c (fst w) in (w', NValid c b :: snd w, b))
    (fun c w => let '(w', r) := n_close N c (fst w) in (w', NClose c r :: snd w, r))
    (fun c w => let '(w', r) := n_idle N c (fst w) in (w', NIdle c r :: snd w, r)).

(** Every new connection is a new object; [made] are those there have been. *)
Record fresh_net {W} (N : net W) (made : W -> list nat) : Prop := mkFreshNet {
  fn_make w : incl (made w) (made (fst (n_make N w)));
  fn_new w w' c : n_make N w = (w', Ok c) -> ~ In c (made w) /\ In c (made w');
  fn_valid c w : incl (made w) (made (fst (n_valid N c w)));
  fn_close c w : incl (made w) (made (fst (n_close N c w)));
  fn_idle c w : incl (made w) (made (fst (n_idle N c w)))
}.

(** ** Histories *)

(** A pool of [max] connections was made and used. The history lists what happened and what came of it. *)
Definition driver_history {W} (N : net W) (max : Z) (w0 : W) (l : list (devent * dres)) (d : dpool) (w : W) : Prop :=
  do_events N (map fst l) (new_driver_pool max) w0 = (d, w, map snd l).
(** The connections lent and not given back. *)
Definition drop (c : nat) (l : list nat) : list nat := filter (fun x => negb (Nat.eqb x c)) l.
Definition held_after (x : devent * dres) (held : list nat) : list nat :=
  match x with
  | (EvReclaim (Some c), _) => drop c held
  | (_, DLent c) => c :: held
  | _ => held
  end.
Definition held (l : list (devent * dres)) : list nat := fold_left (fun acc x => held_after x acc) l [].
(** Everyone gives back only what they hold. *)
Fixpoint fair (h : list nat) (l : list (devent * dres)) : Prop :=
  match l with
  | [] => True
  | x :: l' => match fst x with EvReclaim (Some c) => In c h | _ => True end /\ fair (held_after x h) l'
  end.
(** No connection is lent while someone holds it. *)
Fixpoint one_holder (h : list nat) (l : list (devent * dres)) : Prop :=
  match l with
  | [] => True
  | x :: l' => match snd x with DLent c => ~ In c h | _ => True end /\ one_holder (held_after x h) l'
  end.
(** No connection was found dead. *)
Definition no_deaths (tr : list nevent) : Prop := forall c, ~ In (NValid c false) tr.
(** Making a connection idle always came to an end. *)
Definition no_hangs (tr : list nevent) : Prop := forall c, ~ In (NIdle c Panic) tr /\ ~ In (NIdle c NoFuel) tr.
(** The connections that were given back and refused. *)
Definition refused_after (x : devent * dres) (rf : list nat) : list nat :=
  match x with
  | (EvReclaim (Some c), DErr _) => c :: rf
  | _ => rf
  end.
Definition refused (l : list (devent * dres)) : list nat := fold_left (fun acc x => refused_after x acc) l [].
(** Someone waits in Open. *)
Definition waiting_after (x : devent * dres) (b : bool) : bool :=
  match x with
  | (EvOpen, DWait) => true
  | (EvWake, DWait) => b
  | (EvWake, _) => false
  | _ => b
  end.
Definition waiting (l : list (devent * dres)) : bool := fold_left (fun acc x => waiting_after x acc) l false.
(** Making a connection idle never failed. *)
Definition no_idle_errors (tr : list nevent) : Prop := forall c e, ~ In (NIdle c (Err e)) tr.
(** The connection [c] was made right after another had been found dead. *)
Definition replacement (c : nat) (tr : list nevent) : Prop := exists tr1 c' tr0, tr = tr1 ++ NMake (Ok c) :: NValid c' false :: tr0.
