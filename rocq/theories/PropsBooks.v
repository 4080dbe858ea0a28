(** Theorem C137: what becomes of the connections a routing pool opens. *)
From Coq Require Import String ZArith List Bool.
From Verif Require Import Bytes GoVal GoErr Messages Pool SpecPool DemoPool DemoPoolFacts SpecShare SpecManners SpecBooks BooksFacts BooksCases.
From Verif Require DemoShare MannersCases AliveFacts.
Import ListNotations.
Open Scope Z_scope.

(** ** C137: true of pools that are not stopped, if ValidateOpen does not contradict itself *)
Theorem C137_accounted_partial W (K : cluster W) opened named leader n auth tls q0 w0 l stopped q w tr s h :
  fresh K opened named -> new_routing_pool leader n auth tls = Ok q0 ->
  booked K (any_use opened named) q0 w0 l stopped q w tr -> In (KDial s (Ok h)) tr ->
  told_to_close tr h \/ In h (idle q) \/ In h (lent l) \/ wavered tr h \/ In h stopped.
Proof.
  intros F En B Hd. destruct (accounted K opened named F auth tls leader n q0 w0 l stopped q w tr En B s h Hd) as [[X|X]|[X|[X|X]]]; auto.
Qed.
Print Assumptions C137_accounted_partial.
(** Over conforming servers ValidateOpen does not contradict itself: only stopping loses connections. *)
Theorem C137_sessions_partial W (K : cluster W) opened named p P cell leader n auth tls q0 w0 l stopped q w tr s h :
  fresh K opened named -> cluster_sessions K opened p P cell -> asks_overview K opened P cell -> new_routing_pool leader n auth tls = Ok q0 ->
  booked K (holder_use opened named P cell) q0 w0 l stopped q w tr -> In (KDial s (Ok h)) tr ->
  told_to_close tr h \/ In h (idle q) \/ In h (lent l) \/ In h stopped.
Proof. intros F C A En. exact (AliveFacts.accounted_sessions K opened named p P cell F C A auth tls leader n q0 w0 l stopped q w tr s h En). Qed.
Print Assumptions C137_sessions_partial.
Example C137_sessions_case : fresh DemoShare.town_cluster DemoShare.opened_cells DemoShare.named_cells
  /\ cluster_sessions DemoShare.town_cluster DemoShare.opened_cells (fun _ => P4) DemoShare.town DemoShare.cell_of
  /\ asks_overview DemoShare.town_cluster DemoShare.opened_cells DemoShare.town DemoShare.cell_of
  /\ booked DemoShare.town_cluster (holder_use DemoShare.opened_cells DemoShare.named_cells DemoShare.town DemoShare.cell_of) (demo_pool 2) ([], 0%nat)
       MannersCases.care_log [] (fst (fst MannersCases.town_next)) (fst (snd (fst MannersCases.town_next))) (snd (snd (fst MannersCases.town_next)))
  /\ lent MannersCases.care_log = [1]%nat /\ idle (fst (fst MannersCases.town_next)) = [2]%nat.
Proof.
  split; [apply DemoShare.session_cluster_fresh|]. split; [apply DemoShare.session_cluster_over; [exact DemoShare.town_conforms|vm_compute; discriminate..]|].
  split; [apply MannersCases.session_cluster_asks|]. split; [|vm_compute; auto].
  refine (AliveFacts.courteous_booked _ _ _ _ _ _ _ _ _ MannersCases.care_courteous _). vm_compute. intuition discriminate.
Qed.
(** Connections that were idle when the pool was stopped are forgotten. *)
Theorem C137_stopped_refuted : exists K q0 l st q w tr s h, fresh K d_opened d_named /\ new_routing_pool leader_string 2 (str "neo4j:secret") [] = Ok q0
  /\ booked K (any_use d_opened d_named) q0 d_start l st q w tr /\ map fst l = [OStart; OStop] /\ In (KDial s (Ok h)) tr
  /\ ~ told_to_close tr h /\ ~ wavered tr h /\ ~ In h (idle q) /\ ~ In h (lent l).
Proof. exact stopped_lost. Qed.
Print Assumptions C137_stopped_refuted.
(** A borrower looks twice, and forgets the connection if the second look finds it open. *)
Theorem C137_wavering_refuted : exists K q0 l q w tr s h, fresh K d_opened d_named /\ new_routing_pool leader_string 2 (str "neo4j:secret") [] = Ok q0
  /\ booked K (any_use d_opened d_named) q0 d_start l [] q w tr /\ map fst l = [OStart; OBorrow WriteMode] /\ In (KDial s (Ok h)) tr
  /\ wavered tr h /\ ~ told_to_close tr h /\ ~ In h (idle q) /\ ~ In h (lent l).
Proof. exact wavering_lost. Qed.
Print Assumptions C137_wavering_refuted.
(** Five connections and the one the first overview was read from: all cases but wavering occur. *)
Example C137_case : fresh book_cluster d_opened d_named /\ new_routing_pool leader_string 4 (str "neo4j:secret") [] = Ok (demo_pool 4)
  /\ booked book_cluster (any_use d_opened d_named) (demo_pool 4) d_start book_log [1; 3; 4]%nat (the_pool book_run) (the_world book_run) (the_trace book_run)
  /\ d_closed (the_world book_run) = [1; 1; 5; 0]%nat /\ lent book_log = [2]%nat /\ idle (the_pool book_run) = [].
Proof. split; [apply demo_fresh|]. split; [reflexivity|]. split; [exact book_booked|]. vm_compute. auto. Qed.
