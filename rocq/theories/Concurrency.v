(** Several goroutines using one Connection (connection.go:62 mutex, 373-375). *)
From Coq Require Import String ZArith List Bool.
From Verif Require Import Bytes GoVal GoErr SpecServer Messages Connection SpecSession.
Import ListNotations.
Open Scope Z_scope.

(** The shared Connection, its network, whether the mutex is held, and what each goroutine still has
    to do. A step is one effect of one goroutine. Simplification: a Send is one step (the Encoder
    writes its chunks one by one; inside the mutex this makes no difference). *)
Record sys (St A : Type) := mkSys {
  sy_conn : conn;
  sy_net : St;
  sy_locked : bool;
  sy_threads : list (prog A)
}.
Arguments mkSys {St A}.
Arguments sy_conn {St A}.
Arguments sy_net {St A}.
Arguments sy_locked {St A}.
Arguments sy_threads {St A}.

Section Steps.
Context {St A : Type}.
Variable N : net St.

(** One effect; None: finished, or waiting for the mutex (sync.Mutex). *)
Definition tstep (p : prog A) (c : conn) (s : St) (locked : bool) : option (conn * St * bool * prog A) :=
  match p with
  | Ret _ => None
  | Get k => Some (c, s, locked, k c)
  | Upd f k => Some (f c, s, locked, k)
  | Send v cs m k => let '(s', r) := n_send N v cs m s in Some (c, s', locked, k r)
  | Recv v k => let '(s', r) := n_recv N v s in Some (c, s', locked, k r)
  | Hang k => let '(s', r) := n_hang N s in Some (c, s', locked, k r)
  | Dial k => let '(s', r) := n_dial N s in Some (c, s', locked, k r)
  | RawWrite b k => let '(s', r) := n_write N b s in Some (c, s', locked, k r)
  | RawRead n k => let '(s', r) := n_read N n s in Some (c, s', locked, k r)
  | Probe k => let '(s', r) := n_probe N s in Some (c, s', locked, k r)
  | Lock k => if locked then None else Some (c, s, true, k)
  | Unlock k => Some (c, s, false, k)
  end.

Fixpoint put_nth {B} (i : nat) (b : B) (l : list B) : list B :=
  match l, i with
  | [], _ => []
  | _ :: l', O => b :: l'
  | a :: l', S i' => a :: put_nth i' b l'
  end.

(** Goroutine [i] moves. *)
Definition sys_step (i : nat) (x : sys St A) : option (sys St A) :=
  match nth_error (sy_threads x) i with
  | None => None
  | Some p =>
      match tstep p (sy_conn x) (sy_net x) (sy_locked x) with
      | None => None
      | Some (c, s, b, p') => Some (mkSys c s b (put_nth i p' (sy_threads x)))
      end
  end.

(** A schedule: the goroutines that move, in order. *)
Fixpoint schedule (is : list nat) (x : sys St A) : option (sys St A) :=
  match is with
  | [] => Some x
  | i :: is' => match sys_step i x with Some x' => schedule is' x' | None => None end
  end.
End Steps.

(** A goroutine that makes calls one after another and collects their results. *)
Fixpoint serial (n : nat) (calls : list call) (acc : list (call * res answer)) : prog (list (call * res answer)) :=
  match calls with
  | [] => Ret (Ok acc)
  | o :: calls' => bindr (do_call n o) (fun r => serial n calls' (acc ++ [(o, r)]))
  end.

(** All goroutines start on the connection [c]. *)
Definition start {St} (n : nat) (c : conn) (s : St) (goroutines : list (list call)) : sys St (list (call * res answer)) :=
  mkSys c s false (map (fun calls => serial n calls []) goroutines).

(** All have finished, with these results. *)
Definition finished {St} (x : sys St (list (call * res answer))) (results : list (list (call * res answer))) : Prop :=
  sy_threads x = map (fun l => Ret (Ok l)) results.

(** ** Specification *)

(** What the server decided because of one statement call, and whether the caller was told just that:
    nothing was decided and the call failed (or was one of the control texts of versions 1 and 2), or
    the server decided on this statement and the caller got the decision. *)
Definition served (p : proto) (x : call * res answer) (piece : list (stmt * outcome)) : Prop :=
  match statement_of (fst x) with
  | None => False
  | Some (q, ps) =>
      match piece with
      | [] => (exists e, snd x = Err e)
              \/ ordinary p q = false
                 /\ snd x = Ok (match fst x with CQuery _ _ _ | CTxQuery _ _ _ _ => ARows [] [] | _ => AMeta [] end)
      | [(st, verdict)] => ordinary p q = true /\ is_stmt (codec p) q ps st /\ told (fst x) verdict (snd x)
      | _ => False
      end
  end.
(** The results of goroutine [i] in a log of all. *)
Definition mine {X} (i : nat) (log : list (nat * X)) : list X := map snd (filter (fun x => Nat.eqb (fst x) i) log).
