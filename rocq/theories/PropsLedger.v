(** Theorem C143: what becomes of the connections a routing pool opens while goroutines use it. *)
From Coq Require Import String ZArith List Bool.
From Verif Require Import Bytes GoVal GoErr Messages Pool SpecPool SpecManners SpecBooks PoolRace SpecCrew SpecLeave SpecLedger LedgerRun FirmFacts DemoPool DemoPoolFacts StartCases LedgerCases.
Import ListNotations.
Open Scope Z_scope.

(** ** C143: true if nobody starts or stops the pool at the same time, but for connections that stop loses, and those that ValidateOpen calls closed and later open *)
(** A history of the pool in which only borrowers give back; then goroutines that borrow, use, give back and refresh, in any order of their steps, until all are done. *)
Theorem C143_accounted_partial W (K : cluster W) opened named leader n auth tls q0 w0 l stopped q w tr ts is x s h :
  fresh K opened named -> new_routing_pool leader n auth tls = Ok q0 -> booked K (any_use opened named) q0 w0 l stopped q w tr ->
  Forall shares ts -> gschedule (watch K) is (mkG q (w, tr) (mkRW false 0) (map work ts)) = Some x -> Forall over (g_threads x) ->
  In (KDial s (Ok h)) (snd (g_world x)) ->
  told_to_close (snd (g_world x)) h \/ In h (idle (g_pool x)) \/ In h (lent_out (g_pool x)) \/ rose (snd (g_world x)) h \/ In h stopped.
Proof. intros F En B Hs E O H. exact (ledger_balanced K opened named F auth tls leader n q0 w0 l stopped q w tr ts is x h En B Hs E O (ex_intro _ s H)). Qed.
Print Assumptions C143_accounted_partial.
(** Eleven connections: 0, 5, 6 and 10 were told to close, 9 is idle, 7 is borrowed, 1 to 4 were lost by Stop, 8 was called closed and later open. *)
Example C143_case : fresh patchy d_opened d_named /\ new_routing_pool leader_string 4 (str "neo4j:secret") [] = Ok (demo_pool 4)
  /\ booked patchy (any_use d_opened d_named) (demo_pool 4) d_start [(OStart, RDone); (OStop, RDone); (OStart, RDone)] [1; 2; 3; 4]%nat (the_pool patchy_run) (the_world patchy_run) (the_trace patchy_run)
  /\ Forall shares [TBorrow 9 WriteMode; TClient 9 [ReadMode]; TRound 1]
  /\ gschedule (watch patchy) patchy_order (mkG (the_pool patchy_run) (the_world patchy_run, the_trace patchy_run) (mkRW false 0) (map work [TBorrow 9 WriteMode; TClient 9 [ReadMode]; TRound 1])) = Some patchy_end
  /\ Forall over (g_threads patchy_end) /\ d_opened (fst (g_world patchy_end)) = seq 0 11 /\ d_closed (fst (g_world patchy_end)) = [10; 6; 5; 0]%nat
  /\ idle (g_pool patchy_end) = [9]%nat /\ lent_out (g_pool patchy_end) = [7]%nat.
Proof.
  split; [apply demo_fresh|]. split; [reflexivity|]. split; [exact patchy_booked|]. split; [repeat constructor|]. split; [exact patchy_ends|].
  split; [vm_compute; repeat constructor|]. vm_compute. auto.
Qed.
(** If what ValidateOpen has called closed stays closed, all but what Stop loses is told to close, idle or borrowed. *)
Theorem C143_firm_partial W (K : cluster W) opened named gone leader n auth tls q0 w0 l stopped q w tr ts is x s h :
  fresh K opened named -> firm K gone -> new_routing_pool leader n auth tls = Ok q0 -> booked K (firm_use opened named gone) q0 w0 l stopped q w tr ->
  Forall shares ts -> gschedule (watch K) is (mkG q (w, tr) (mkRW false 0) (map work ts)) = Some x -> Forall over (g_threads x) ->
  In (KDial s (Ok h)) (snd (g_world x)) ->
  told_to_close (snd (g_world x)) h \/ In h (idle (g_pool x)) \/ In h (lent_out (g_pool x)) \/ In h stopped.
Proof. intros F Fm En B Hs E O H. exact (firm_balanced K opened named gone Fm auth tls leader n q0 w0 l stopped q w tr ts is x h F En B Hs E O (ex_intro _ s H)). Qed.
Print Assumptions C143_firm_partial.
(** Eleven connections: 0, 5, 6 and 10 were told to close, 8 and 9 are idle, 7 is borrowed, 1 to 4 were lost by Stop. *)
Example C143_firm_case : fresh mended d_opened d_named /\ firm mended mended_gone /\ new_routing_pool leader_string 4 (str "neo4j:secret") [] = Ok (demo_pool 4)
  /\ booked mended (firm_use d_opened d_named mended_gone) (demo_pool 4) d_start [(OStart, RDone); (OStop, RDone); (OStart, RDone)] [1; 2; 3; 4]%nat (the_pool mended_run) (the_world mended_run) (the_trace mended_run)
  /\ Forall shares [TBorrow 9 WriteMode; TClient 9 [ReadMode]; TRound 1]
  /\ gschedule (watch mended) mended_order (mkG (the_pool mended_run) (the_world mended_run, the_trace mended_run) (mkRW false 0) (map work [TBorrow 9 WriteMode; TClient 9 [ReadMode]; TRound 1])) = Some mended_end
  /\ Forall over (g_threads mended_end) /\ d_opened (fst (g_world mended_end)) = seq 0 11 /\ d_closed (fst (g_world mended_end)) = [10; 6; 5; 0]%nat
  /\ idle (g_pool mended_end) = [9; 8]%nat /\ lent_out (g_pool mended_end) = [7]%nat.
Proof.
  split; [apply demo_fresh|]. split; [apply demo_firm|]. split; [reflexivity|]. split; [exact mended_booked|]. split; [repeat constructor|]. split; [exact mended_ends|].
  split; [vm_compute; repeat constructor|]. vm_compute. auto.
Qed.
(** At any moment no more connections are nowhere than goroutines still have something to do. *)
Theorem C143_moment_partial W (K : cluster W) opened named leader n auth tls q0 w0 l stopped q w tr ts is x L :
  fresh K opened named -> new_routing_pool leader n auth tls = Ok q0 -> booked K (any_use opened named) q0 w0 l stopped q w tr ->
  Forall shares ts -> gschedule (watch K) is (mkG q (w, tr) (mkRW false 0) (map work ts)) = Some x -> NoDup L ->
  (forall h, In h L -> adrift (g_pool x) (snd (g_world x)) h /\ ~ In h stopped) -> (length L <= length (filter busy (g_threads x)))%nat.
Proof. intros F. exact (ledger_moment K opened named F auth tls leader n q0 w0 l stopped q w tr ts is x L). Qed.
Print Assumptions C143_moment_partial.
(** Two goroutines have taken a connection each. *)
Example C143_moment_case : fresh patchy d_opened d_named /\ new_routing_pool leader_string 4 (str "neo4j:secret") [] = Ok (demo_pool 4)
  /\ booked patchy (any_use d_opened d_named) (demo_pool 4) d_start [(OStart, RDone); (OStop, RDone); (OStart, RDone)] [1; 2; 3; 4]%nat (the_pool patchy_run) (the_world patchy_run) (the_trace patchy_run)
  /\ Forall shares [TBorrow 9 WriteMode; TBorrow 9 ReadMode]
  /\ gschedule (watch patchy) (repeat 0 3 ++ repeat 1 3)%nat (mkG (the_pool patchy_run) (the_world patchy_run, the_trace patchy_run) (mkRW false 0) (map work [TBorrow 9 WriteMode; TBorrow 9 ReadMode])) = Some patchy_middle
  /\ (forall h, In h [6; 8]%nat -> adrift (g_pool patchy_middle) (snd (g_world patchy_middle)) h /\ ~ In h [1; 2; 3; 4]%nat) /\ length (filter busy (g_threads patchy_middle)) = 2%nat.
Proof.
  split; [apply demo_fresh|]. split; [reflexivity|]. split; [exact patchy_booked|]. split; [repeat constructor|]. split; [exact patchy_midst|]. split; [exact two_adrift|vm_compute; reflexivity].
Qed.
(** Of the two looks at a connection that is forgotten the second need not follow the first at once, as it does without goroutines (C137). *)
Theorem C143_wavering_refuted : exists K q0 l q w tr st is x s h, fresh K d_opened d_named /\ new_routing_pool leader_string 4 (str "neo4j:secret") [] = Ok q0
  /\ booked K (any_use d_opened d_named) q0 d_start l st q w tr
  /\ gschedule (watch K) is (mkG q (w, tr) (mkRW false 0) (map work [TBorrow 9 WriteMode; TClient 9 [ReadMode]; TRound 1])) = Some x /\ Forall over (g_threads x)
  /\ In (KDial s (Ok h)) (snd (g_world x)) /\ rose (snd (g_world x)) h
  /\ ~ told_to_close (snd (g_world x)) h /\ ~ In h (idle (g_pool x)) /\ ~ In h (lent_out (g_pool x)) /\ ~ wavered (snd (g_world x)) h /\ ~ In h st.
Proof. exact rose_lost. Qed.
Print Assumptions C143_wavering_refuted.
(** If Start overlaps a round of the refresher, all it has opened may be nowhere. *)
Theorem C143_start_refuted : exists K q0 l q w tr st x, fresh K d_opened d_named /\ new_routing_pool leader_string 4 (str "neo4j:secret") [] = Ok q0
  /\ booked K (any_use d_opened d_named) q0 d_start l st q w tr /\ l = [(OStart, RDone); (OStop, RDone)]
  /\ gschedule (watch K) round_over (mkG q (w, tr) (mkRW false 0) (map work [TStart; TRound 1])) = Some x /\ Forall over (g_threads x)
  /\ forall h, In h [7; 8; 9; 10]%nat -> (exists s, In (KDial s (Ok h)) (snd (g_world x)))
       /\ ~ told_to_close (snd (g_world x)) h /\ ~ In h (idle (g_pool x)) /\ ~ In h (lent_out (g_pool x)) /\ ~ rose (snd (g_world x)) h /\ ~ In h st.
Proof. exact start_unaccounted. Qed.
Print Assumptions C143_start_refuted.
