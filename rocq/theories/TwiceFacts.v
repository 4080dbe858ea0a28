(** Connections that are given back to the routing pool by someone who does not hold them (C110). *)
From Coq Require Import String ZArith List Bool Lia.
From Verif Require Import Bytes GoVal GoErr Decoder Messages GoStr Routing Pool SpecPool BytesFacts RoutingFacts PoolFacts LendFacts SteadyFacts
  WatchPoolFacts DemoPool DemoPoolFacts PoolCases.
Import ListNotations.
Open Scope Z_scope.

Lemma before_more l : forall before x, In x before -> In x (before_of before l).
Proof. induction l as [|[o r] l IH]; intros before x H; cbn [before_of]; [exact H|]. destruct r; apply IH; try exact H. now right. Qed.
Lemma before_lent l : forall before o id h, In (o, RLent id h) l -> In (id, h) (before_of before l).
Proof.
  induction l as [|[o' r] l IH]; intros before o id h H; [destruct H|]. destruct H as [[= -> ->]|H].
  - cbn [before_of]. apply before_more. now left.
  - cbn [before_of]. destruct r; eapply IH; exact H.
Qed.
Section Twice.
Context {W : Type}.
Variables (K : cluster W) (opened : W -> list nat) (named : W -> list bytes).
Hypothesis Fr : fresh K opened named.

(** A connection the pool has not lent, or not under this identifier, is closed. *)
Lemma unknown_closed id h p w tr : p_running p = true -> map_get (p_borrowed p) id = None ->
  exists w' e e', do_pop (watch K) (OReclaim id h) p (w, tr) = (p, (w', KClose h e :: tr), RFail e').
Proof.
  intros Hr Hb. cbn [do_pop]. unfold reclaim, get. rewrite Hr, Hb. cbn [negb]. unfold mbind, close_conn.
  cbn [watch k_close fst snd]. destruct (k_close K h w) as [w' [e|]]; unfold fail; cbn [result_of]; eauto.
Qed.
Theorem given_back_twice n auth tls w0 l p w tr o id h :
  pool_history (watch K) n auth tls (w0, []) l p (w, tr) -> honest [] l -> p_running p = true ->
  In (o, RLent id h) l -> ~ In h (lent l) ->
  exists w' e e', do_pop (watch K) (OReclaim id h) p (w, tr) = (p, (w', KClose h e :: tr), RFail e').
Proof.
  intros (leader & p0 & En & Er) Ho Hr Hl Hn. apply unknown_closed; [exact Hr|].
  destruct (inv_run' K opened named Fr _ _ _ _ _ _ _ _ _ Er Ho (inv_new _ _ _ _ _ _ _ (w0, []) En)) as (iss & I).
  destruct (map_get (p_borrowed p) id) as [c|] eqn:Eg; [|reflexivity]. exfalso. apply Hn.
  destruct I. assert (Hin := map_get_in _ _ _ Eg). destruct (i_out _ _ Hin) as [Hb Hlt].
  replace h with (pw_conn c); [exact Hlt|]. eapply NoDup_map_fst; [exact i_ids| |]; apply i_before; [exact Hb|]. eapply before_lent. exact Hl.
Qed.
(** One that was never lent by this pool. *)
Theorem given_foreign n auth tls w0 l p w tr id h :
  pool_history (watch K) n auth tls (w0, []) l p (w, tr) -> honest [] l -> p_running p = true ->
  (forall o h', ~ In (o, RLent id h') l) ->
  exists w' e e', do_pop (watch K) (OReclaim id h) p (w, tr) = (p, (w', KClose h e :: tr), RFail e').
Proof.
  intros (leader & p0 & En & Er) Ho Hr Hl. apply unknown_closed; [exact Hr|].
  destruct (inv_run' K opened named Fr _ _ _ _ _ _ _ _ _ Er Ho (inv_new _ _ _ _ _ _ _ (w0, []) En)) as (iss & I).
  destruct (map_get (p_borrowed p) id) as [c|] eqn:Eg; [|reflexivity]. exfalso.
  destruct I. assert (Hin := map_get_in _ _ _ Eg). destruct (i_out _ _ Hin) as [Hb _].
  assert (X : forall l before, In (id, pw_conn c) (before_of before l) -> In (id, pw_conn c) before \/ exists o, In (o, RLent id (pw_conn c)) l).
  { clear. induction l as [|[o r] l IH]; intros before H; cbn [before_of] in H; [now left|].
    destruct r; apply IH in H; destruct H as [H|[o' H]]; try (right; exists o'; now right); try (now left).
    destruct H as [[= -> ->]|H]; [right; exists o; now left|now left]. }
  apply X in Hb. destruct Hb as [[]|[o H]]. exact (Hl _ _ H).
Qed.
End Twice.

(** The first borrower gives it back once more while the second has it, and the third gets it too. *)
Definition handed_on := [OStart; OBorrow WriteMode; OReclaim (str "1-aaaa") 1; OBorrow WriteMode; OReclaim (str "1-aaaa") 1; OBorrow WriteMode].
Theorem shared_by_two : exists K l p w tr id h, fresh K d_opened d_named
  /\ pool_history (watch K) 2 (str "neo4j:secret") [] (d_start, []) l p (w, tr) /\ honest [] l
  /\ l = [(OStart, RDone); (OBorrow WriteMode, RLent id h); (OReclaim id h, RDone); (OBorrow WriteMode, RLent id h); (OReclaim id h, RDone); (OBorrow WriteMode, RLent id h)].
Proof.
  set (r := demo_run (calm 1000) 2 handed_on).
  exists (calm 1000), (the_log r), (the_pool r), (the_world r), (the_trace r), (str "1-aaaa"), 1%nat.
  split; [apply demo_fresh|]. split; [apply demo_start; reflexivity|]. split; [vm_compute; tauto|reflexivity].
Qed.
(** Nothing dies, but the pool is left without a connection for writing. *)
Definition given_twice := [OStart; OBorrow WriteMode; OReclaim (str "1-aaaa") 1; OReclaim (str "1-aaaa") 1; OBorrow WriteMode].
Theorem none_left : exists l p w tr id h e e', fresh (calm 1000) d_opened d_named
  /\ pool_history (watch (calm 1000)) 2 (str "neo4j:secret") [] (d_start, []) l p (w, tr) /\ honest [] l
  /\ l = [(OStart, RDone); (OBorrow WriteMode, RLent id h); (OReclaim id h, RDone); (OReclaim id h, RFail e); (OBorrow WriteMode, RFail e')]
  /\ p_wq p = [].
Proof.
  set (r := demo_run (calm 1000) 2 given_twice).
  exists (the_log r), (the_pool r), (the_world r), (the_trace r), (str "1-aaaa"), 1%nat, (EFmt None (TMsg 229)), (EFmt None (TMsg 226)).
  split; [apply demo_fresh|]. split; [apply demo_start; reflexivity|]. split; [vm_compute; tauto|]. split; reflexivity.
Qed.
