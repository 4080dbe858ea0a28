(** Vocabulary for the settings of connections: C132. *)
From Coq Require Import ZArith List Bool.
From Verif Require Import Bytes GoVal GoErr Messages Connection Link Settings.
From Verif Require DriverPool SpecDriver Pool SpecPool.
Import ListNotations.
Open Scope Z_scope.

(** The timeout and the chunk size of a connection. *)
Definition settings {St} (x : tuned St) : Z * Z := (fst x, c_chunk (fst (snd x))).
(** What the calls make of them. *)
Definition set_by (s : Z * Z) (o : tcall) : Z * Z :=
  match o with
  | TSetTimeout t => (t, snd s)
  | TCall (CSetChunk cs) => (fst s, cs)
  | TCall _ => s
  end.
Definition after_calls (s : Z * Z) (l : list tcall) : Z * Z := fold_left set_by l s.
(** A call that returns. *)
Definition tuned_does {St} (Net : Z -> net St) (o : tcall) (x x' : tuned St) (r : res answer) : Prop :=
  exists n, tuned_exec Net n o x = (x', r) /\ r <> NoFuel.
(** Calls one after the other on a connection opened with the timeout [t0]. *)
Inductive tuned_life {St} (Net : Z -> net St) (t0 : Z) (user password : bytes) : list (tcall * res answer) -> tuned St -> Prop :=
| tl_open s w : opens (Net t0) user password s w (Ok tt) -> tuned_life Net t0 user password [] (t0, w)
| tl_call l x o x' r : tuned_life Net t0 user password l x -> tuned_does Net o x x' r -> tuned_life Net t0 user password (l ++ [(o, r)]) x'.

(** A driver pool whose connections are such: [cell w c] is the connection [c], [Net c] its network. An operation that does
    not return changes nothing. *)
Section DriverPool.
Context {W St : Type}.
Variables (N : DriverPool.net W) (made : W -> list nat) (Net : nat -> Z -> net St) (t0 : Z) (user password : bytes) (cell : W -> nat -> tuned St).
Definition only_call (c : nat) (o : call) (w w' : W) : Prop :=
  made w' = made w /\ (forall d, d <> c -> cell w' d = cell w d)
  /\ (cell w' c = cell w c \/ exists r, tuned_does (Net c) (TCall o) (cell w c) (cell w' c) r).
Record over_tuned : Prop := mkOverTuned {
  ot_make w w' r : DriverPool.n_make N w = (w', r) ->
    (forall c, In c (made w') -> In c (made w) \/ r = Ok c) /\ (forall c, In c (made w) -> cell w' c = cell w c)
    /\ forall c, r = Ok c -> exists s x, opens (Net c t0) user password s x (Ok tt) /\ cell w' c = (t0, x);
  ot_valid c w w' b : In c (made w) -> DriverPool.n_valid N c w = (w', b) -> only_call c CValidate w w';
  ot_close c w w' r : In c (made w) -> DriverPool.n_close N c w = (w', r) -> only_call c CClose w w';
  ot_idle c w w' r : In c (made w) -> DriverPool.n_idle N c w = (w', r) -> only_call c CMakeIdle w w'
}.
(** The same with a record of the calls of all holders. *)
Definition with_calls : DriverPool.net (W * list (nat * tcall)) :=
  DriverPool.mkNet
    (fun w => let '(w', r) := DriverPool.n_make N (fst w) in (w', snd w, r))
    (fun c w => let '(w', r) := DriverPool.n_valid N c (fst w) in (w', snd w, r))
    (fun c w => let '(w', r) := DriverPool.n_close N c (fst w) in (w', snd w, r))
    (fun c w => let '(w', r) := DriverPool.n_idle N c (fst w) in (w', snd w, r)).
Definition tuned_use (c : nat) (w w' : W * list (nat * tcall)) : Prop :=
  made (fst w') = made (fst w) /\ (forall d, d <> c -> cell (fst w') d = cell (fst w) d)
  /\ exists o r, tuned_does (Net c) o (cell (fst w) c) (cell (fst w') c) r /\ snd w' = snd w ++ [(c, o)].
End DriverPool.
(** The calls on [c]. *)
Definition calls_on (c : nat) (l : list (nat * tcall)) : list tcall := map snd (filter (fun x => Nat.eqb (fst x) c) l).

(** A cluster whose connections are such. *)
Record cluster_tuned {W St} (K : Pool.cluster W) (opened : W -> list nat) (Net : nat -> Z -> net St) (cell : W -> nat -> tuned St) : Prop := mkClusterTuned {
  ct_dial s w h : In h (opened w) -> cell (fst (Pool.k_dial K s w)) h = cell w h;
  ct_valid h w : only_call opened Net cell h CValidate w (fst (Pool.k_valid K h w));
  ct_close h w : only_call opened Net cell h CClose w (fst (Pool.k_close K h w));
  ct_query h w : exists q db, only_call opened Net cell h (CQuery q [] db) w (fst (Pool.k_query K h w));
  ct_name w : opened (fst (Pool.k_name K w)) = opened w /\ forall h, cell (fst (Pool.k_name K w)) h = cell w h
}.
