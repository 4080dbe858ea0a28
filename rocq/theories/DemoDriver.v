(** Connections for the examples about the driver pool. *)
From Coq Require Import String ZArith List Bool Lia.
From Verif Require Import Bytes GoVal GoErr Messages DriverPool SpecDriver DriverHistory.
Import ListNotations.
Open Scope Z_scope.

(** The number of the next connection, the connections that are dead or closed, and the ones that die
    before each of the next looks at a connection. *)
Record tworld := mkT { t_next : nat; t_dead : list nat; t_script : list (list nat) }.
Definition t_gone (c : nat) (w : tworld) : bool := existsb (Nat.eqb c) (t_dead w).
Definition t_valid (c : nat) (w : tworld) : tworld * bool :=
  let w := mkT (t_next w) (hd [] (t_script w) ++ t_dead w) (tl (t_script w)) in (w, negb (t_gone c w)).
Definition demo_net : net tworld :=
  mkNet (fun w => (mkT (S (t_next w)) (t_dead w) (t_script w), Ok (t_next w))) t_valid
    (fun c w => (mkT (t_next w) (c :: t_dead w) (t_script w), Ok tt)) (fun _ w => (w, Ok tt)).
Definition t_start (script : list (list nat)) : tworld * list nevent := (mkT 0 [] script, []).
Definition t_made (w : tworld) : list nat := seq 0 (t_next w).
Definition demo_events (max : Z) (script : list (list nat)) (l : list devent) : dpool * (tworld * list nevent) * list dres :=
  do_events (watch_net demo_net) l (new_driver_pool max) (t_start script).
Definition demo_log (max : Z) (script : list (list nat)) (l : list devent) : list (devent * dres) := combine l (snd (demo_events max script l)).
Lemma demo_fresh_net : fresh_net demo_net t_made.
Proof.
  constructor; intros; cbn [demo_net n_make n_valid n_close n_idle t_valid fst] in *.
  - unfold t_made. cbn [t_next]. intros x H. apply in_seq in H. apply in_seq. lia.
  - injection H as <- <-. unfold t_made. cbn [t_next]. rewrite !in_seq. lia.
  - apply incl_refl.
  - apply incl_refl.
  - apply incl_refl.
Qed.
Lemma demo_history max script l : driver_history (watch_net demo_net) max (t_start script) (demo_log max script l) (fst (fst (demo_events max script l))) (snd (fst (demo_events max script l))).
Proof.
  unfold driver_history, demo_log. destruct (demo_events max script l) as [[d w] rs] eqn:E. cbn [fst snd]. unfold demo_events in E.
  pose proof (do_events_length _ _ _ _ _ _ _ E) as L. clear -E L.
  assert (A : forall (a : list devent) (b : list dres), length b = length a -> map fst (combine a b) = a /\ map snd (combine a b) = b).
  { induction a as [|x a IH]; intros [|y b] H; cbn in *; try discriminate; auto. injection H as H. destruct (IH b H) as [-> ->]. auto. }
  destruct (A l rs L) as [-> ->]. exact E.
Qed.

(** A pool of one connection that died while idle, and was replaced and given back. *)
Definition stuck_day : list devent := [EvOpen; EvReclaim (Some 0%nat); EvOpen; EvReclaim (Some 1%nat)].
Definition stuck_script : list (list nat) := [[]; []; []; []; [0%nat]].
Definition stuck_pool : dpool := fst (fst (demo_events 1 stuck_script (stuck_day ++ [EvOpen]))).
Definition stuck_world : tworld * list nevent := snd (fst (demo_events 1 stuck_script (stuck_day ++ [EvOpen]))).
Lemma stuck_forever l : fair [] l -> forall d w, do_events (watch_net demo_net) (map fst l) stuck_pool stuck_world = (d, w, map snd l) ->
  forall x, In x l -> x = (EvOpen, DWait) \/ x = (EvClose, DWait) \/ x = (EvWake, DWait) \/ exists e, x = (EvReclaim None, DErr e).
Proof.
  assert (S : forall e, match e with EvReclaim (Some c) => False | _ => True end -> do_event (watch_net demo_net) e stuck_pool stuck_world =
    (stuck_pool, stuck_world, match e with EvReclaim _ => DErr (ENew (TMsg 337)) | _ => DWait end)).
  { intros [| |[c|]|] H; try contradiction; vm_compute; reflexivity. }
  induction l as [|[e r] l IH]; intros Hf d w E x Hx; [destruct Hx|]. cbn [map fst snd do_events] in E. destruct Hf as [Hf1 Hf2]. cbn [fst] in Hf1.
  assert (He : match e with EvReclaim (Some c) => False | _ => True end) by (destruct e as [| |[c|]|]; auto).
  rewrite (S e He) in E. destruct (do_events (watch_net demo_net) (map fst l) stuck_pool stuck_world) as [[d2 w2] rs] eqn:Es. injection E as <- <- <- ->.
  destruct Hx as [<-|Hx].
  - destruct e as [| |[c|]|]; try contradiction; eauto 6.
  - eapply IH; [|reflexivity|exact Hx]. clear - Hf2 He. destruct e as [| |[c|]|]; try contradiction; exact Hf2.
Qed.

Lemma stuck_history l : driver_history (watch_net demo_net) 1 (fst (t_start stuck_script), []) (demo_log 1 stuck_script l) (fst (fst (demo_events 1 stuck_script l))) (snd (fst (demo_events 1 stuck_script l))).
Proof. exact (demo_history 1 stuck_script l). Qed.
Lemma cannot_give_back : exists W (N : net W) made max w0 l d w c d' w' e, fresh_net N made
  /\ driver_history (watch_net N) max (w0, []) l d w /\ fair [] l /\ In c (held l)
  /\ do_event (watch_net N) (EvReclaim (Some c)) d w = (d', w', DErr e) /\ d' = d /\ n_valid N c (fst w) = (fst w, true).
Proof.
  eexists tworld, demo_net, t_made, 1, (fst (t_start stuck_script)), _, _, _, 1%nat, _, _, _.
  split; [exact demo_fresh_net|]. split; [exact (stuck_history [EvOpen; EvReclaim (Some 0%nat); EvOpen])|].
  split; [vm_compute; tauto|]. split; [vm_compute; tauto|]. split; [vm_compute; reflexivity|]. split; vm_compute; reflexivity.
Qed.
Lemma waits_for_ever : exists W (N : net W) made max w0 l d w, fresh_net N made
  /\ driver_history (watch_net N) max (w0, []) l d w /\ fair [] l /\ held l = [] /\ 0 < max /\ waiting l = true
  /\ forall l' d' w', fair [] l' -> do_events (watch_net N) (map fst l') d w = (d', w', map snd l') ->
     forall x, In x l' -> x = (EvOpen, DWait) \/ x = (EvClose, DWait) \/ x = (EvWake, DWait) \/ exists e, x = (EvReclaim None, DErr e).
Proof.
  exists tworld, demo_net, t_made, 1, (fst (t_start stuck_script)), (demo_log 1 stuck_script (stuck_day ++ [EvOpen])), stuck_pool, stuck_world.
  split; [exact demo_fresh_net|]. split; [exact (stuck_history (stuck_day ++ [EvOpen]))|].
  split; [vm_compute; tauto|]. split; [vm_compute; reflexivity|]. split; [reflexivity|]. split; [vm_compute; reflexivity|].
  intros l' d' w' Hf E. exact (stuck_forever l' Hf d' w' E).
Qed.
Lemma left_open : exists W (N : net W) made max w0 l d w c, fresh_net N made
  /\ driver_history (watch_net N) max (w0, []) l d w /\ fair [] l /\ held l = [] /\ In (EvClose, DDone) l /\ In (NMake (Ok c)) (snd w)
  /\ (forall r, ~ In (NClose c r) (snd w)) /\ n_valid N c (fst w) = (fst w, true).
Proof.
  exists tworld, demo_net, t_made, 1, (fst (t_start stuck_script)), (demo_log 1 stuck_script (stuck_day ++ [EvClose])),
    (fst (fst (demo_events 1 stuck_script (stuck_day ++ [EvClose])))), (snd (fst (demo_events 1 stuck_script (stuck_day ++ [EvClose])))), 1%nat.
  split; [exact demo_fresh_net|]. split; [exact (stuck_history (stuck_day ++ [EvClose]))|].
  split; [vm_compute; tauto|]. split; [vm_compute; reflexivity|]. split; [vm_compute; tauto|]. split; [vm_compute; tauto|].
  split; [|vm_compute; reflexivity]. intros r H. vm_compute in H. repeat (destruct H as [H|H]; [discriminate H|]). exact H.
Qed.
(** A pool of two connections: one died while idle and was replaced, and its replacement was refused. *)
Definition mixed_day : list devent := [EvOpen; EvOpen; EvReclaim (Some 0%nat); EvOpen; EvReclaim (Some 2%nat); EvOpen].
Definition mixed_script : list (list nat) := [[]; []; []; []; []; []; []; [0%nat]].
Lemma mixed_original : ~ replacement 1 (snd (snd (fst (demo_events 2 mixed_script mixed_day)))).
Proof.
  intros (a & c & b & E). match type of E with ?x = ?y => let z := eval vm_compute in x in change (z = y) in E end.
  repeat (destruct a as [|? a]; [cbn [app] in E; discriminate E|cbn [app] in E; injection E as _ E]). destruct a; cbn [app] in E; discriminate E.
Qed.

(** The connection died while idle, the next user got another, and the first gives the dead one back once more. *)
Definition unfair_day : list devent := [EvOpen; EvReclaim (Some 0%nat); EvOpen; EvReclaim (Some 0%nat); EvOpen].
Lemma taken_from_another : exists W (N : net W) made max w0 l d w, fresh_net N made /\ driver_history (watch_net N) max (w0, []) l d w
  /\ l = [(EvOpen, DLent 0); (EvReclaim (Some 0%nat), DDone); (EvOpen, DLent 1); (EvReclaim (Some 0%nat), DDone); (EvOpen, DLent 1)].
Proof.
  exists tworld, demo_net, t_made, 1, (fst (t_start stuck_script)), (demo_log 1 stuck_script unfair_day).
  do 2 eexists. split; [apply demo_fresh_net|]. split; [apply stuck_history|]. vm_compute. reflexivity.
Qed.
