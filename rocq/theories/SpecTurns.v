(** Specification for C122: calls of several goroutines that have the effect of the same calls one after another, and
    callers that see to it themselves with a mutex of their own. *)
From Coq Require Import String ZArith List Bool.
From Verif Require Import Bytes GoVal GoErr SpecServer Messages Connection Link SpecSession Concurrency.
Import ListNotations.

(** One goroutine that made the calls of all, each goroutine's in their order, would have got the same results and left
    the same state. *)
Definition in_some_order {St} (N : net St) (w : conn * St) (gs : list (list call)) (results : list (list (call * res answer)))
    (w' : conn * St) : Prop :=
  exists order : list (nat * (call * res answer)),
    history N (fun _ _ => True) w (map snd order) w'
    /\ (forall y, In y order -> (fst y < length gs)%nat) /\ length results = length gs
    /\ forall i calls, nth_error gs i = Some calls -> nth_error results i = Some (mine i order) /\ map fst (mine i order) = calls.

(** A program without the connection's mutex (connection.go:373-375). *)
Fixpoint unlocked {A} (p : prog A) : prog A :=
  match p with
  | Ret r => Ret r
  | Get k => Get (fun c => unlocked (k c))
  | Upd f k => Upd f (unlocked k)
  | Send v cs m k => Send v cs m (fun r => unlocked (k r))
  | Recv v k => Recv v (fun r => unlocked (k r))
  | Hang k => Hang (fun r => unlocked (k r))
  | Dial k => Dial (fun r => unlocked (k r))
  | RawWrite b k => RawWrite b (fun r => unlocked (k r))
  | RawRead n k => RawRead n (fun r => unlocked (k r))
  | Probe k => Probe (fun r => unlocked (k r))
  | Lock k => unlocked k
  | Unlock k => unlocked k
  end.
(** A goroutine that takes the callers' mutex for each call. The mutex of [sys] is here the callers'; nobody waits for the
    connection's own, which only the goroutine that has the callers' can take. *)
Fixpoint turns (n : nat) (calls : list call) (acc : list (call * res answer)) : prog (list (call * res answer)) :=
  match calls with
  | [] => Ret (Ok acc)
  | o :: calls' => Lock (bindr (unlocked (do_call n o)) (fun r => Unlock (turns n calls' (acc ++ [(o, r)]))))
  end.
Definition take_turns {St} (n : nat) (c : conn) (s : St) (gs : list (list call)) : sys St (list (call * res answer)) :=
  mkSys c s false (map (fun calls => turns n calls []) gs).
