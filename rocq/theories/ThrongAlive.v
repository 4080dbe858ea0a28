(** How many connections a routing pool has open over sessions. *)
From Coq Require Import String ZArith List Bool Lia.
From Verif Require Import Bytes GoVal GoErr SpecServer Messages Connection Link Wire SpecSession SpecShare RestFacts SpecManners MannersFacts SpecBooks AliveFacts.
From Verif Require Import Pool.
From Verif Require SpecPool ThrongFacts.
From Verif Require Import SpecThrong.
Import SpecPool(kevent(..), watch, fresh, no_restart).
Import ListNotations.
Open Scope Z_scope.

Section Alive.
Context {W : Type}.
Variables (K : cluster W) (opened : W -> list nat) (named : W -> list bytes) (p : nat -> proto) (P : nat -> peer) (cell : W -> nat -> conn * wire).
Hypothesis Fr : fresh K opened named.
Hypothesis Cl : cluster_sessions K opened p P cell.
Hypothesis Ao : asks_overview K opened P cell.
Lemma thronged_any q0 w0 os q w tr : thronged K (holder_use opened named P cell) q0 w0 os q w tr -> thronged K (any_use opened named) q0 w0 os q w tr.
Proof.
  induction 1 as [|os q w tr o q' w' tr' r B IH E|os q w tr h w' B IH (U1 & U2 & _)]; [constructor|exact (th_op _ _ _ _ _ _ _ _ _ _ _ _ _ IH E)|].
  apply (th_use _ _ _ _ _ _ _ _ h _ IH). split; [exact U2|exact U1].
Qed.
Lemma thronged_sincere q0 w0 os q w tr : thronged K (holder_use opened named P cell) q0 w0 os q w tr -> proper opened p P cell (w, tr) /\ sincere P cell (w, tr).
Proof.
  induction 1 as [|os q w tr o q' w' tr' r B [H1 H2] E|os q w tr h w' B [H1 H2] (U1 & U2 & U3 & o & r & Hc & Hd)].
  - split; [intros h [s []]|]. constructor; intros h; cbn.
    + intros (a & b & s & E & _). destruct a; discriminate E.
    + intros (a & b & s & E & _). destruct a; discriminate E.
  - exact (candid_pop K opened named p P cell Fr Cl Ao _ _ _ _ _ _ E H1 H2).
  - split.
    + intros d Hdd. destruct (H1 d Hdd) as (Hi & u & pw & ll & Hl). cbn [fst] in *. rewrite U2. split; [exact Hi|].
      destruct (Nat.eq_dec d h) as [->|N]; [|rewrite U3 by exact N; eauto]. exists u, pw, (ll ++ [(o, r)]). exact (session_more _ _ _ _ _ _ _ _ _ _ Hl Hc Hd).
    + destruct H2 as [S1 S2]. constructor; cbn [fst snd] in *; [|exact S2]. intros d X. destruct (Nat.eq_dec d h) as [->|N]; [|rewrite U3 by exact N; auto].
      destruct (H1 h (found_dialled (w, tr) h X)) as (_ & u & pw & ll & Hl). exact (dead_stays _ _ _ _ _ _ _ _ _ Hl Hc Hd (S1 h X)).
Qed.
Theorem no_throng_sessions auth tls leader n q0 w0 os q w tr L : 2 <= n -> new_routing_pool leader n auth tls = Ok q0 ->
  thronged K (holder_use opened named P cell) q0 w0 os q w tr -> no_restart false os ->
  NoDup L -> (forall h, In h L -> left_open tr h) -> Z.of_nat (length L) <= n.
Proof.
  intros Hn En B Ho Hd HL. destruct (thronged_sincere _ _ _ _ _ _ B) as [_ [_ S]].
  apply (ThrongFacts.no_throng K opened named Fr auth tls leader n q0 w0 os q w tr L Hn En (thronged_any _ _ _ _ _ _ B) Ho Hd). intros h Hh. split; [now apply HL|apply S].
Qed.
End Alive.
