(** The goroutine that refreshes a routing pool (routing/pool.go:345-358, started by line 400), together
    with calls of the pool's methods. One step after the other; what overlapping borrowers and returners
    do is in PoolRace.v. *)
From Coq Require Import String ZArith List Bool.
From Verif Require Import Bytes GoVal GoErr Decoder Messages GoStr Routing Pool.
Import ListNotations.
Open Scope Z_scope.

Section Life.
Context {W : Type}.
Variable K : cluster W.

(** [l_test] refreshers are about to test whether the pool is running (line 346), [l_wait] are waiting
    for the interval (line 348). *)
Record life := mkLife { l_pool : pool; l_world : W; l_test : nat; l_wait : nat }.
Inductive levent := LDo (o : pop) (r : presult) | LTest | LWake (r : presult).

(** pool.go:400: a Start that reaches its end starts a refresher. *)
Definition starts (o : pop) (r : presult) : nat := match o, r with OStart, RDone => 1 | _, _ => 0 end.
(** [LDo]: a method is called. [LTest]: a refresher tests isRunning (346) and waits or ends. [LWake]: a
    refresher has waited, makes its round with the lock held (349-356), and is about to test again. A
    round that panics ends the process. *)
Inductive lstep : life -> levent -> life -> Prop :=
| step_do s o p' w' r : o <> ORefresh -> do_pop K o (l_pool s) (l_world s) = (p', w', r) ->
    lstep s (LDo o r) (mkLife p' w' (starts o r + l_test s) (l_wait s))
| step_test s n : l_test s = S n ->
    lstep s LTest (mkLife (l_pool s) (l_world s) n (if p_running (l_pool s) then S (l_wait s) else l_wait s))
| step_wake s n p' w' : l_wait s = S n -> do_pop K ORefresh (l_pool s) (l_world s) = (p', w', RDone) ->
    lstep s (LWake RDone) (mkLife p' w' (S (l_test s)) n).
Inductive lruns : life -> list levent -> life -> Prop :=
| runs_nil s : lruns s [] s
| runs_cons s e s1 l s2 : lstep s e s1 -> lruns s1 l s2 -> lruns s (e :: l) s2.
(** A pool was made and used. *)
Definition life_of (n : Z) (auth tls : bytes) (w0 : W) (l : list levent) (s : life) : Prop :=
  exists leader p0, new_routing_pool leader n auth tls = Ok p0 /\ lruns (mkLife p0 w0 0 0) l s.
End Life.
Arguments life W : clear implicits.
