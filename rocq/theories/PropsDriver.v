(** Theorems C68-C73, C111, C124: the driver pool. *)
From Coq Require Import String ZArith List Bool Lia.
From Verif Require Import Bytes GoVal GoErr Messages DriverPool SpecDriver DriverHistory DemoDriver DriverUsers SpecUsers UserFacts.
Import ListNotations.
Open Scope Z_scope.

(** ** C68 *)
Theorem C68_closed W (N : net W) max w0 l d w : driver_history N max w0 l d w -> In (EvClose, DDone) l ->
  (exists e, do_event N EvOpen d w = (d, w, DErr e))
  /\ (exists n, do_event N EvClose d w = (d, w, DErr (EWrap (Some (ESentinel 4)) n)))
  /\ forall l' d' w' rs, do_events N l' d w = (d', w', rs) -> forall c, ~ In (DLent c) rs.
Proof. exact (closed_pool N max w0 l d w). Qed.
Print Assumptions C68_closed.
Example C68_case : map snd (demo_log 2 [] [EvOpen; EvClose; EvOpen; EvReclaim (Some 0%nat); EvClose])
  = [DLent 0; DDone; DErr (ENew (TMsg 335)); DDone; DErr (EWrap (Some (ESentinel 4)) 336)].
Proof. vm_compute. reflexivity. Qed.

(** ** C69 *)
Theorem C69_exclusive W (N : net W) made max w0 l d w : fresh_net N made -> driver_history (watch_net N) max (w0, []) l d w -> fair [] l ->
  one_holder [] l /\ NoDup (held l).
Proof. intros F. exact (exclusive N made max F w0 l d w). Qed.
Print Assumptions C69_exclusive.
Definition two_users : list devent := [EvOpen; EvOpen; EvOpen; EvReclaim (Some 0%nat); EvWake; EvReclaim (Some 1%nat); EvOpen].
Example C69_case : map snd (demo_log 2 [] two_users) = [DLent 0; DLent 1; DWait; DDone; DLent 0; DDone; DLent 1]
  /\ fair [] (demo_log 2 [] two_users) /\ held (demo_log 2 [] two_users) = [1; 0]%nat
  /\ fresh_net demo_net t_made
  /\ driver_history (watch_net demo_net) 2 (t_start []) (demo_log 2 [] two_users) (fst (fst (demo_events 2 [] two_users))) (snd (fst (demo_events 2 [] two_users))).
Proof. split; [vm_compute; reflexivity|]. split; [vm_compute; tauto|]. split; [vm_compute; reflexivity|]. split; [apply demo_fresh_net|apply demo_history]. Qed.
(** Fairness is needed: giving the same connection back twice lets two goroutines hold the one that has
    replaced it. *)
Example C69_unfair : map snd (demo_log 1 stuck_script [EvOpen; EvReclaim (Some 0%nat); EvOpen; EvReclaim (Some 0%nat); EvOpen])
  = [DLent 0; DDone; DLent 1; DDone; DLent 1].
Proof. vm_compute. reflexivity. Qed.

(** ** C70 *)
Theorem C70_limit W (N : net W) made max w0 l d w : fresh_net N made -> driver_history (watch_net N) max (w0, []) l d w -> fair [] l ->
  0 <= max -> Z.of_nat (length (held l)) <= max.
Proof. intros F. exact (limited N made max F w0 l d w). Qed.
Print Assumptions C70_limit.
Example C70_case : length (held (demo_log 2 [] [EvOpen; EvOpen; EvOpen])) = 2%nat /\ map snd (demo_log 2 [] [EvOpen; EvOpen; EvOpen]) = [DLent 0; DLent 1; DWait].
Proof. vm_compute. auto. Qed.

(** ** C71 *)
(** The whole claim, that a connection that is held can be given back, is not true: a connection that
    replaced a dead one is refused. *)
Theorem C71_reclaim_refuted : exists W (N : net W) made max w0 l d w c d' w' e, fresh_net N made
  /\ driver_history (watch_net N) max (w0, []) l d w /\ fair [] l /\ In c (held l)
  /\ do_event (watch_net N) (EvReclaim (Some c)) d w = (d', w', DErr e) /\ d' = d /\ n_valid N c (fst w) = (fst w, true).
Proof. exact cannot_give_back. Qed.
Print Assumptions C71_reclaim_refuted.
(** It is true as long as no connection is found dead. *)
Theorem C71_reclaim_partial W (N : net W) made max w0 l d w c d' w' r : fresh_net N made ->
  driver_history (watch_net N) max (w0, []) l d w -> fair [] l -> In c (held l) ->
  do_event (watch_net N) (EvReclaim (Some c)) d w = (d', w', r) -> no_deaths (snd w') -> no_hangs (snd w') -> r = DDone.
Proof. intros F. exact (reclaimed N made max F w0 l d w c d' w' r). Qed.
Print Assumptions C71_reclaim_partial.
(** And it is true of every connection that was not made right after another had been found dead, whatever
    has died meanwhile: only such replacements are ever refused. *)
Theorem C71_reclaim_original_partial W (N : net W) made max w0 l d w c : fresh_net N made ->
  driver_history (watch_net N) max (w0, []) l d w -> fair [] l ->
  (In c (refused l) -> replacement c (snd w))
  /\ (forall d' w' r, In c (held l) -> ~ replacement c (snd w) -> do_event (watch_net N) (EvReclaim (Some c)) d w = (d', w', r) ->
      ~ In (NIdle c Panic) (snd w') -> ~ In (NIdle c NoFuel) (snd w') -> r = DDone).
Proof. intros F H Hf. exact (conj (refused_replacement N made max F w0 l d w c H Hf) (fun d' w' r Hc => reclaimed_original N made max F w0 l d w c d' w' r H Hf Hc)). Qed.
Print Assumptions C71_reclaim_original_partial.
Example C71_case_original : map snd (demo_log 2 mixed_script (mixed_day ++ [EvReclaim (Some 1%nat)])) = [DLent 0; DLent 1; DDone; DLent 2; DErr (EIO 332); DWait; DDone]
  /\ held (demo_log 2 mixed_script mixed_day) = [1]%nat /\ refused (demo_log 2 mixed_script mixed_day) = [2]%nat
  /\ ~ replacement 1 (snd (snd (fst (demo_events 2 mixed_script mixed_day)))).
Proof. split; [vm_compute; reflexivity|]. split; [vm_compute; reflexivity|]. split; [vm_compute; reflexivity|]. exact mixed_original. Qed.
Example C71_case : let w := snd (fst (demo_events 2 [] (two_users ++ [EvReclaim (Some 0%nat)]))) in
  map snd (demo_log 2 [] (two_users ++ [EvReclaim (Some 0%nat)])) = [DLent 0; DLent 1; DWait; DDone; DLent 0; DDone; DLent 1; DDone]
  /\ filter (fun e => match e with NValid _ false | NIdle _ Panic | NIdle _ NoFuel => true | _ => false end) (snd w) = [].
Proof. vm_compute. auto. Qed.

(** ** C72 *)
(** The whole claim, that Open does not wait for ever while nobody holds a connection, is not true. *)
Theorem C72_served_refuted : exists W (N : net W) made max w0 l d w, fresh_net N made
  /\ driver_history (watch_net N) max (w0, []) l d w /\ fair [] l /\ held l = [] /\ 0 < max /\ waiting l = true
  /\ forall l' d' w', fair [] l' -> do_events (watch_net N) (map fst l') d w = (d', w', map snd l') ->
     forall x, In x l' -> x = (EvOpen, DWait) \/ x = (EvClose, DWait) \/ x = (EvWake, DWait) \/ exists e, x = (EvReclaim None, DErr e).
Proof. exact waits_for_ever. Qed.
Print Assumptions C72_served_refuted.
(** As long as no connection is found dead, Open waits only when all connections are held, and a goroutine
    that waits is served when one is given back. *)
Theorem C72_served_partial W (N : net W) made max w0 l d w : fresh_net N made ->
  driver_history (watch_net N) max (w0, []) l d w -> fair [] l ->
  (forall d' w', do_event (watch_net N) EvOpen d w = (d', w', DWait) -> no_deaths (snd w') -> no_hangs (snd w') ->
     waiting l = true \/ 0 <= max /\ Z.of_nat (length (held l)) = max)
  /\ (forall c d1 w1 r1 d2 w2 r2, waiting l = true -> In c (held l) ->
     do_event (watch_net N) (EvReclaim (Some c)) d w = (d1, w1, r1) -> do_event (watch_net N) EvWake d1 w1 = (d2, w2, r2) ->
     no_deaths (snd w2) -> no_hangs (snd w2) -> no_idle_errors (snd w2) -> exists c', r2 = DLent c').
Proof. intros F H Hf. exact (conj (fun d' w' => waits N made max F w0 l d w d' w' H Hf) (fun c d1 w1 r1 d2 w2 r2 => served N made max F w0 l d w c d1 w1 r1 d2 w2 r2 H Hf)). Qed.
Print Assumptions C72_served_partial.
(** Whatever has died: Open waits only when every place is taken by a connection that is held, was refused,
    was found dead or hung; and a goroutine that waits is served with the very connection that is given
    back, unless that one replaced another, is found dead or cannot be made idle. *)
Theorem C72_served_original_partial W (N : net W) made max w0 l d w : fresh_net N made ->
  driver_history (watch_net N) max (w0, []) l d w -> fair [] l ->
  (forall d' w', do_event (watch_net N) EvOpen d w = (d', w', DWait) ->
     waiting l = true \/ exists L, NoDup L /\ Z.of_nat (length L) = max
       /\ forall c, In c L -> In c (held l) \/ In c (refused l) \/ In (NValid c false) (snd w') \/ In (NIdle c Panic) (snd w') \/ In (NIdle c NoFuel) (snd w'))
  /\ (forall c d1 w1 r1 d2 w2 r2, waiting l = true -> In c (held l) -> ~ replacement c (snd w) ->
     do_event (watch_net N) (EvReclaim (Some c)) d w = (d1, w1, r1) -> do_event (watch_net N) EvWake d1 w1 = (d2, w2, r2) ->
     ~ In (NValid c false) (snd w2) -> (forall x, In (NIdle c x) (snd w2) -> x = Ok tt) -> r2 = DLent c).
Proof. intros F H Hf. exact (conj (fun d' w' => used_up N made max F w0 l d w d' w' H Hf) (fun c d1 w1 r1 d2 w2 r2 => served_original N made max F w0 l d w c d1 w1 r1 d2 w2 r2 H Hf)). Qed.
Print Assumptions C72_served_original_partial.
Example C72_case_original : map snd (demo_log 2 mixed_script (mixed_day ++ [EvReclaim (Some 1%nat); EvWake])) = [DLent 0; DLent 1; DDone; DLent 2; DErr (EIO 332); DWait; DDone; DLent 1]
  /\ waiting (demo_log 2 mixed_script mixed_day) = true /\ held (demo_log 2 mixed_script mixed_day) = [1]%nat.
Proof. vm_compute. auto. Qed.
(** Every Open returns, or waits for a connection to be given back. *)
Theorem C72_ends W (N : net W) d w d' w' : (forall w, snd (n_make N w) <> NoFuel) ->
  do_event N EvOpen d w <> (d', w', DNoFuel) /\ do_event N EvWake d w <> (d', w', DNoFuel).
Proof. intros H. exact (open_enough N H d w d' w'). Qed.
Print Assumptions C72_ends.
Example C72_case : waiting (demo_log 2 [] [EvOpen; EvOpen; EvOpen]) = true
  /\ map snd (demo_log 2 [] [EvOpen; EvOpen; EvOpen; EvWake; EvReclaim (Some 0%nat); EvWake]) = [DLent 0; DLent 1; DWait; DWait; DDone; DLent 0].
Proof. vm_compute. auto. Qed.

(** ** C73 *)
(** The whole claim, that closing the pool when nobody holds a connection leaves none open, is not true. *)
Theorem C73_closes_refuted : exists W (N : net W) made max w0 l d w c, fresh_net N made
  /\ driver_history (watch_net N) max (w0, []) l d w /\ fair [] l /\ held l = [] /\ In (EvClose, DDone) l /\ In (NMake (Ok c)) (snd w)
  /\ (forall r, ~ In (NClose c r) (snd w)) /\ n_valid N c (fst w) = (fst w, true).
Proof. exact left_open. Qed.
Print Assumptions C73_closes_refuted.
(** Everything the pool opened was closed, found dead, is held, or was refused. *)
Theorem C73_closes_partial W (N : net W) made max w0 l d w c : fresh_net N made ->
  driver_history (watch_net N) max (w0, []) l d w -> fair [] l -> In (EvClose, DDone) l -> In (NMake (Ok c)) (snd w) ->
  (exists r, In (NClose c r) (snd w)) \/ In (NValid c false) (snd w) \/ In c (held l) \/ In c (refused l)
  \/ In (NIdle c Panic) (snd w) \/ In (NIdle c NoFuel) (snd w).
Proof. intros F. exact (accounted N made max F w0 l d w c). Qed.
Print Assumptions C73_closes_partial.
(** So what is left open, held by nobody, had replaced another, was found dead or hung. *)
Theorem C73_closes_original_partial W (N : net W) made max w0 l d w c : fresh_net N made ->
  driver_history (watch_net N) max (w0, []) l d w -> fair [] l -> In (EvClose, DDone) l -> In (NMake (Ok c)) (snd w) ->
  ~ In c (held l) -> ~ replacement c (snd w) -> ~ In (NValid c false) (snd w) -> ~ In (NIdle c Panic) (snd w) -> ~ In (NIdle c NoFuel) (snd w) ->
  exists r, In (NClose c r) (snd w).
Proof. intros F. exact (closed_original N made max F w0 l d w c). Qed.
Print Assumptions C73_closes_original_partial.
Example C73_case_original : let l := mixed_day ++ [EvReclaim (Some 1%nat); EvWake; EvReclaim (Some 1%nat); EvClose] in
  map snd (demo_log 2 mixed_script l) = [DLent 0; DLent 1; DDone; DLent 2; DErr (EIO 332); DWait; DDone; DLent 1; DDone; DDone]
  /\ filter (fun e => match e with NMake _ | NClose _ _ => true | _ => false end) (snd (snd (fst (demo_events 2 mixed_script l))))
     = [NClose 1 (Ok tt); NMake (Ok 2%nat); NMake (Ok 1%nat); NMake (Ok 0%nat)].
Proof. vm_compute. auto. Qed.
Theorem C73_closes_all_partial W (N : net W) made max w0 l d w c : fresh_net N made ->
  driver_history (watch_net N) max (w0, []) l d w -> fair [] l -> In (EvClose, DDone) l -> held l = [] ->
  no_deaths (snd w) -> no_hangs (snd w) -> In (NMake (Ok c)) (snd w) -> exists r, In (NClose c r) (snd w).
Proof. intros F. exact (all_closed N made max F w0 l d w c). Qed.
Print Assumptions C73_closes_all_partial.
Example C73_case : let l := [EvOpen; EvOpen; EvReclaim (Some 0%nat); EvClose; EvReclaim (Some 1%nat)] in
  map snd (demo_log 2 [] l) = [DLent 0; DLent 1; DDone; DDone; DDone]
  /\ filter (fun e => match e with NMake _ | NClose _ _ => true | _ => false end) (snd (snd (fst (demo_events 2 [] l))))
     = [NClose 1 (Ok tt); NClose 0 (Ok tt); NMake (Ok 1%nat); NMake (Ok 0%nat)].
Proof. vm_compute. auto. Qed.

(** ** C111 *)
(** The whole claim, that giving back what one does not hold is refused and touches nothing, is not true:
    the identity of a connection that died and was replaced still stands for the place in the pool, so that
    giving it back a second time takes its successor from whoever uses it, and lends it to someone else. *)
Theorem C111_twice_refuted : exists W (N : net W) made max w0 l d w, fresh_net N made /\ driver_history (watch_net N) max (w0, []) l d w
  /\ l = [(EvOpen, DLent 0); (EvReclaim (Some 0%nat), DDone); (EvOpen, DLent 1); (EvReclaim (Some 0%nat), DDone); (EvOpen, DLent 1)].
Proof. exact taken_from_another. Qed.
Print Assumptions C111_twice_refuted.
(** It is true of every connection that has not been found dead. *)
Theorem C111_twice_partial W (N : net W) made max w0 l d w c : fresh_net N made ->
  driver_history (watch_net N) max (w0, []) l d w -> fair [] l -> ~ In c (held l) -> ~ In (NValid c false) (snd w) ->
  exists e, do_event (watch_net N) (EvReclaim (Some c)) d w = (d, w, DErr e).
Proof. intros F. exact (not_taken_back N made max F w0 l d w c). Qed.
Print Assumptions C111_twice_partial.
(** Given back twice, and never lent at all. *)
Example C111_case : let l := [EvOpen; EvOpen; EvReclaim (Some 0%nat)] in
  map snd (demo_log 2 [] (l ++ [EvReclaim (Some 0%nat); EvReclaim (Some 7%nat); EvOpen])) = [DLent 0; DLent 1; DDone; DErr (EIO 333); DErr (EIO 332); DLent 0]
  /\ fair [] (demo_log 2 [] l) /\ held (demo_log 2 [] l) = [1]%nat
  /\ existsb (fun e => match e with NValid _ b => negb b | _ => false end) (snd (snd (fst (demo_events 2 [] l)))) = false.
Proof. vm_compute. tauto. Qed.

(** ** C124 *)
(** Goroutines that take a connection, use it and give it back before they take another, and goroutines that close the pool. As long as no
    connection is found dead and each can be made idle, they do not wait for each other for ever: while one has something left to do, one
    can go on; *)
Theorem C124_go_on_partial W (N : net W) made max w0 us is d w us' : fresh_net N made -> max <> 0 -> (forall u, In u us -> begins u) ->
  users_run (watch_net N) is (new_driver_pool max) (w0, []) us = Some (d, w, us') -> well (snd w) ->
  (exists u, In u us' /\ at_rest u = false) -> exists i x, users_run (watch_net N) [i] d w us' = Some x.
Proof. intros F. exact (users_go_on N made max F w0 us is d w us'). Qed.
Print Assumptions C124_go_on_partial.
(** no schedule goes on for ever; *)
Theorem C124_ends_partial W (N : net W) made max w0 us is d w us' : fresh_net N made -> (forall u, In u us -> begins u) ->
  users_run (watch_net N) is (new_driver_pool max) (w0, []) us = Some (d, w, us') -> well (snd w) -> (length is <= all_left us)%nat.
Proof. intros F. exact (users_end N made max F w0 us is d w us'). Qed.
Print Assumptions C124_ends_partial.
(** and unless the pool is closed or a connection cannot be made, every Open lends one and every Reclaim is accepted. *)
Theorem C124_served_partial W (N : net W) made max w0 us is d w us' r : fresh_net N made -> (forall u, In u us -> exists k, u = URest k) ->
  users_run (watch_net N) is (new_driver_pool max) (w0, []) us = Some (d, w, us') -> well (snd w) ->
  (forall x, In (NMake x) (snd w) -> exists c, x = Ok c) -> ~ In (UFail r) us'.
Proof. intros F. exact (users_served N made max F w0 us is d w us' r). Qed.
Print Assumptions C124_served_partial.
(** Three goroutines and two connections: the third waits for the first, then a fourth closes the pool while the others still hold theirs. *)
Example C124_case :
  let run is := match users_run (watch_net demo_net) is (new_driver_pool 2) (t_start []) [URest 1; URest 2; URest 1; UClose] with Some (_, _, us) => us | None => [] end in
  run [0; 1; 2]%nat = [UHold 0 0; UHold 1 1; UWait 0; UClose] /\ run [0; 1; 2; 3]%nat = []
  /\ run [0; 1; 2; 0; 2; 3; 2; 1]%nat = [URest 0; URest 1; URest 0; URest 0]
  /\ run [0; 1; 2; 0; 2; 3; 2; 1; 1]%nat = [URest 0; UFail (DErr (ENew (TMsg 335))); URest 0; URest 0].
Proof. vm_compute. auto. Qed.
(** A pool of size 0 is made without an error. Whoever opens first waits for ever, and so does everyone else. *)
Theorem C124_size_refuted W (N : net W) w us k i : nth_error us i = Some (URest (S k)) -> (forall u, In u us -> begins u) ->
  exists d us', users_run N [i] (new_driver_pool 0) w us = Some (d, w, us') /\ nth_error us' i = Some (UWait k)
  /\ forall j, users_run N [j] d w us' = None.
Proof. exact (size_zero N w us k i). Qed.
Print Assumptions C124_size_refuted.
(** A connection that is given back cannot be made idle and no other can be made at that moment: nobody holds a connection, and the one who
    waits waits for ever, whatever the network does afterwards. *)
Theorem C124_forgotten_refuted : exists W (N : net W) made w0 is d w us', fresh_net N made
  /\ users_run (watch_net N) is (new_driver_pool 1) (w0, []) [URest 1; URest 1] = Some (d, w, us')
  /\ no_deaths (snd w) /\ no_hangs (snd w) /\ us' = [URest 0; UWait 0] /\ forall w j, users_run (watch_net N) [j] d w us' = None.
Proof. exact waits_forgotten. Qed.
Print Assumptions C124_forgotten_refuted.
