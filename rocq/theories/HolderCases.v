(** A holder of a connection of a driver pool: cases. *)
From Coq Require Import String ZArith List Bool Lia.
From Verif Require Import Bytes GoVal GoErr SpecValues SpecServer Messages Connection Link Wire SpecSession SpecShare SpecHolder
  Demo DemoFacts Cases CaseFacts DemoShare.
From Verif Require DriverPool SpecDriver.
Import ListNotations.
Open Scope Z_scope.

(** The second holder of the connection of [home_log] executes a statement, while somebody else is lent
    another connection. *)
Definition home_log3 := home_log ++ [(DriverPool.EvOpen, DriverPool.DLent 0)].
Definition home_more := DriverPool.do_event home_net DriverPool.EvOpen (fst (fst home_again)) (snd (fst home_again)).
Definition home_wrote : cells := use_cell homes 50 (CExec q2 [] []) 0 (snd (fst home_more)).
Lemma home_tenure : tenure home_net cells_made homes cell 0
  (home_log3, fst (fst home_again), snd (fst home_again)) [(CExec q2 [] [], Ok (AMeta []))]
  (home_log3 ++ [(DriverPool.EvOpen, DriverPool.DLent 1)], fst (fst home_more), home_wrote).
Proof.
  change [(CExec q2 [] [], Ok (AMeta []))] with ([] ++ [(CExec q2 [] [], Ok (AMeta []))]).
  apply tn_own with (w := snd (fst home_more)).
  - eapply tn_event; [apply tn_start|discriminate|exact Logic.I|vm_compute; reflexivity].
  - vm_compute. reflexivity.
  - intros x Hx. exact (on_cell_other homes 50 (CExec q2 [] []) 0 (snd (fst home_more)) x Hx).
  - split; [apply clean_call_true; vm_compute; reflexivity|vm_compute; reflexivity].
  - exists 50%nat. split; [vm_compute; reflexivity|discriminate].
Qed.

(** Version 1 of the protocol: the first holder executed the statement BEGIN and nothing else. The second
    executes a statement and is told that it succeeded; it is not permanent. *)
Definition hut_wrote : cells := use_cell huts 50 (CExec q2 [] []) 0 (snd (fst hut_again)).
Lemma held_in_anothers : exists N p P l d w d1 w1 c own l2 d2 w2, SpecDriver.fresh_net N cells_made
  /\ over_sessions N cells_made p P (str "neo4j") (str "secret") cell
  /\ shared N (session_use clean_call cells_made P cell) 2 [] l d w
  /\ DriverPool.do_event N DriverPool.EvOpen d w = (d1, w1, DriverPool.DLent c)
  /\ tenure N cells_made P cell c (l ++ [(DriverPool.EvOpen, DriverPool.DLent c)], d1, w1) own (l2, d2, w2)
  /\ all_disciplined (p c) own /\ lg_perm (ledger_of own) = [(q2, [])] /\ permanent cell w2 c = [].
Proof.
  exists hut_net, (fun _ => P1), huts, home_log, (fst (fst hut_back)), (snd (fst hut_back)), (fst (fst hut_again)), (snd (fst hut_again)), 0%nat,
    ([] ++ [(CExec q2 [] [], Ok (AMeta []))]), (home_log ++ [(DriverPool.EvOpen, DriverPool.DLent 0)]), (fst (fst hut_again)), hut_wrote.
  split; [apply session_net_fresh|]. split; [apply session_net_over; [exact huts_conform|vm_compute; discriminate..]|].
  split; [|split; [vm_compute; reflexivity|split; [|split; [|split; vm_compute; reflexivity]]]].
  - change home_log with (([] ++ [(DriverPool.EvOpen, DriverPool.DLent 0)]) ++ [(DriverPool.EvReclaim (Some 0%nat), DriverPool.DDone)]).
    eapply sh_event with (w := hut_used) (d := fst (fst hut_lent)); [|vm_compute; auto|vm_compute; reflexivity].
    apply sh_use with (c := 0%nat) (w := snd (fst hut_lent)); [|vm_compute; auto|].
    + eapply sh_event; [apply sh_new|exact Logic.I|vm_compute; reflexivity].
    + apply use_cell_ok; [vm_compute; auto| |vm_compute; discriminate]. apply clean_call_true; vm_compute; reflexivity.
  - apply tn_own with (w := snd (fst hut_again)); [apply tn_start|vm_compute; reflexivity| | |].
    + intros x Hx. exact (on_cell_other huts 50 (CExec q2 [] []) 0 (snd (fst hut_again)) x Hx).
    + split; [apply clean_call_true; vm_compute; reflexivity|vm_compute; reflexivity].
    + exists 50%nat. split; [vm_compute; reflexivity|discriminate].
  - apply ad_snoc; [constructor|]. vm_compute. auto.
Qed.
