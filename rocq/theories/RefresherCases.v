(** Lives of routing pools with no refresher, with two, and with one that outlives the pool; the address
    lists of a routing table. *)
From Coq Require Import String ZArith List Bool Lia.
From Verif Require Import Bytes GoVal GoErr Decoder Messages GoStr Routing Pool SpecPool Refresher SpecLife RoutingFacts RefresherFacts DemoPool DemoPoolFacts PoolCases LifeCases.
Import ListNotations.
Open Scope Z_scope.

(** A schedule carried out. *)
Inductive lcmd := CDo (o : pop) | CTest | CWake.
Fixpoint live {W} (K : cluster W) (cs : list lcmd) (s : life W) : option (list levent * life W) :=
  match cs with
  | [] => Some ([], s)
  | c :: cs' =>
      match c with
      | CDo ORefresh => None
      | CDo o => let '(p', w', r) := do_pop K o (l_pool s) (l_world s) in
                 option_map (fun x => (LDo o r :: fst x, snd x)) (live K cs' (mkLife p' w' (starts o r + l_test s) (l_wait s)))
      | CTest => match l_test s with
                 | O => None
                 | S n => option_map (fun x => (LTest :: fst x, snd x)) (live K cs' (mkLife (l_pool s) (l_world s) n (if p_running (l_pool s) then S (l_wait s) else l_wait s)))
                 end
      | CWake => match l_wait s, do_pop K ORefresh (l_pool s) (l_world s) with
                 | S n, (p', w', RDone) => option_map (fun x => (LWake RDone :: fst x, snd x)) (live K cs' (mkLife p' w' (S (l_test s)) n))
                 | _, _ => None
                 end
      end
  end.
Lemma live_runs {W} (K : cluster W) cs : forall s l s', live K cs s = Some (l, s') -> lruns K s l s'.
Proof.
  induction cs as [|c cs IH]; cbn [live]; intros s l s' E; [injection E as <- <-; constructor|].
  destruct c as [o| |].
  - destruct o; try discriminate E;
      match type of E with context[do_pop K ?o _ _] => destruct (do_pop K o (l_pool s) (l_world s)) as [[p' w'] r] eqn:Ed end;
      match type of E with context[live K cs ?t] => destruct (live K cs t) as [[l1 s1]|] eqn:El end; try discriminate E;
      injection E as <- <-; econstructor; [apply step_do; [discriminate|exact Ed]|apply IH; exact El|apply step_do; [discriminate|exact Ed]|apply IH; exact El|apply step_do; [discriminate|exact Ed]|apply IH; exact El|apply step_do; [discriminate|exact Ed]|apply IH; exact El].
  - destruct (l_test s) as [|n] eqn:Et; [discriminate E|].
    match type of E with context[live K cs ?t] => destruct (live K cs t) as [[l1 s1]|] eqn:El end; [|discriminate E].
    injection E as <- <-. econstructor; [apply step_test; exact Et|apply IH; exact El].
  - destruct (l_wait s) as [|n] eqn:Ew; [discriminate E|]. destruct (do_pop K ORefresh (l_pool s) (l_world s)) as [[p' w'] r] eqn:Ed. destruct r; try discriminate E.
    match type of E with context[live K cs ?t] => destruct (live K cs t) as [[l1 s1]|] eqn:El end; [|discriminate E].
    injection E as <- <-. econstructor; [eapply step_wake; [exact Ew|exact Ed]|apply IH; exact El].
Qed.
Definition at_birth (n : Z) : life (dworld * list kevent) := mkLife (demo_pool n) (d_start, []) 0 0.
Definition the_life (x : option (list levent * life (dworld * list kevent))) : life (dworld * list kevent) :=
  match x with Some (_, s) => s | None => at_birth 2 end.
Definition the_events (x : option (list levent * life (dworld * list kevent))) : list levent := match x with Some (l, _) => l | None => [] end.
Definition demo_live (K : cluster dworld) (cs : list lcmd) := live (watch K) cs (at_birth 2).
Definition possible (x : option (list levent * life (dworld * list kevent))) : bool := match x with Some _ => true | None => false end.
Lemma possible_some x : possible x = true -> x = Some (the_events x, the_life x).
Proof. destruct x as [[l s]|]; [reflexivity|discriminate]. Qed.
Lemma demo_life K cs : possible (demo_live K cs) = true ->
  life_of (watch K) 2 (str "neo4j:secret") [] (d_start, []) (the_events (demo_live K cs)) (the_life (demo_live K cs)).
Proof. intros E. exists leader_string, (demo_pool 2). split; [reflexivity|]. apply live_runs with (cs := cs). apply possible_some. exact E. Qed.

(** ** None *)
Theorem no_refresher : exists K l s, fresh K d_opened d_named
  /\ life_of (watch K) 2 (str "neo4j:secret") [] (d_start, []) l s
  /\ l = [LDo OStart (RFail (ENew (TMsg 223)))] /\ p_running (l_pool s) = true /\ refreshers s = 0%nat.
Proof.
  set (r := demo_live (unready 2) [CDo OStart]). exists (unready 2), (the_events r), (the_life r).
  split; [apply demo_fresh|]. split; [apply demo_life; vm_compute; reflexivity|]. vm_compute. auto.
Qed.
(** ** Two *)
Theorem two_refreshers : exists K l s, fresh K d_opened d_named
  /\ life_of (watch K) 2 (str "neo4j:secret") [] (d_start, []) l s
  /\ l = [LDo OStart RDone; LTest; LDo OStop RDone; LDo OStart RDone; LTest] /\ l_wait s = 2%nat.
Proof.
  set (r := demo_live (calm 1000) [CDo OStart; CTest; CDo OStop; CDo OStart; CTest]). exists (calm 1000), (the_events r), (the_life r).
  split; [apply demo_fresh|]. split; [apply demo_life; vm_compute; reflexivity|]. vm_compute. auto.
Qed.
(** ** One after the end *)
Theorem dials_after_stop : exists K l s s' new, fresh K d_opened d_named
  /\ life_of (watch K) 2 (str "neo4j:secret") [] (d_start, []) l s
  /\ l = [LDo OStart RDone; LTest; LDo OStop RDone]
  /\ lruns (watch K) s [LWake RDone; LTest] s' /\ snd (l_world s') = new ++ snd (l_world s) /\ dialled new = [str "bolt://one:7687"].
Proof.
  set (r := demo_live (calm 1000) [CDo OStart; CTest; CDo OStop]). set (r' := live (watch (calm 1000)) [CWake; CTest] (the_life r)).
  exists (calm 1000), (the_events r), (the_life r), (the_life r').
  exists (firstn 3 (snd (l_world (the_life r')))).
  split; [apply demo_fresh|]. split; [apply demo_life; vm_compute; reflexivity|].
  split; [vm_compute; reflexivity|]. split; [apply live_runs with (cs := [CWake; CTest]); vm_compute; reflexivity|]. split; vm_compute; reflexivity.
Qed.

(** ** Address lists *)
Lemma lists_of_table bolt v rows t : table_of bolt v rows t -> exists ms, Forall2 (member bolt v) rows ms
  /\ get_write_connection_strings t = map n_bolt (of_kind Leader ms)
  /\ get_read_only_connection_strings t = map n_bolt (of_kind Follower ms ++ of_kind ReadReplica ms)
  /\ get_read_connection_strings t = map n_bolt (of_kind ReadReplica ms ++ of_kind Follower ms ++ of_kind ReadReplica ms).
Proof.
  intros (ms & F & A & B & C). exists ms. split; [exact F|]. unfold get_write_connection_strings, get_read_only_connection_strings, get_read_connection_strings.
  rewrite A, B, C, !map_app. auto.
Qed.
