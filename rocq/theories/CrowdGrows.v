(** A driver pool of one connection has any number open. *)
From Coq Require Import String ZArith List Bool Lia.
From Verif Require Import Bytes GoVal GoErr SpecValues SpecServer Messages Connection Link ExecFacts Wire SpecSession SpecShare Demo DemoFacts Cases CaseFacts DemoShare.
From Verif Require DriverPool SpecDriver.
From Verif Require Import SpecCrowd CrowdCases.
Import DriverPool(devent(..), dres(..), dpool, mkDPool, opool, mkOPool, pobj, mkObj, ostate(..), put_obj, n_make, n_valid, new_driver_pool, do_event).
Import SpecDriver(nevent(..), watch_net).
Import ListNotations.
Open Scope Z_scope.

Lemma put_last (l : list pobj) x y : put_obj (length l) y (l ++ [x]) = l ++ [y].
Proof. induction l as [|a l IH]; cbn; [reflexivity|now rewrite IH]. Qed.
Lemma nth_last (l : list pobj) x y : nth (length l) (l ++ [x]) y = x.
Proof. induction l as [|a l IH]; cbn; [reflexivity|exact IH]. Qed.
(** A pool of one that counts no connection. *)
Definition vacant (objs : list pobj) : dpool := mkDPool 1 false (mkOPool objs [] [] 0 false false).
Definition lent_out (objs : list pobj) (c : nat) : dpool := mkDPool 1 false (mkOPool (objs ++ [mkObj c Allocated]) [(c, length objs)] [] 1 false false).
Lemma open_vacant {W} (N : DriverPool.net W) objs w w1 w2 w3 w4 c tr : n_make N w = (w1, Ok c) -> n_valid N c w1 = (w2, true) -> n_valid N c w2 = (w3, true) ->
  n_valid N c w3 = (w4, true) ->
  do_event (watch_net N) EvOpen (vacant objs) (w, tr) = (lent_out objs c, (w4, NValid c true :: NValid c true :: NValid c true :: NMake (Ok c) :: tr), DLent c).
Proof.
  intros E1 E2 E3 E4. cbn [do_event DriverPool.pool_open vacant DriverPool.d_pool DriverPool.q_waiting DriverPool.d_closed].
  unfold DriverPool.lend. cbn -[put_obj nth app length]. rewrite E1. cbn -[put_obj nth app length]. unfold DriverPool.obj, DriverPool.set_obj. cbn -[put_obj nth app length].
  rewrite nth_last. cbn -[put_obj nth app length]. unfold DriverPool.activate_object. cbn -[put_obj nth app length]. rewrite put_last, nth_last. cbn -[put_obj nth app length].
  rewrite E2. cbn -[put_obj nth app length]. rewrite E3. cbn -[put_obj nth app length]. rewrite E4. rewrite put_last. reflexivity.
Qed.
Lemma back_dead {W} (N : DriverPool.net W) objs w w1 w2 c tr : n_valid N c w = (w1, false) -> n_valid N c w1 = (w2, false) ->
  do_event (watch_net N) (EvReclaim (Some c)) (lent_out objs c) (w, tr) = (vacant (objs ++ [mkObj c Invalid]), (w2, NValid c false :: NValid c false :: tr), DDone).
Proof.
  intros E1 E2. cbn -[put_obj nth app length]. unfold DriverPool.return_object. cbn -[put_obj nth app length]. rewrite Nat.eqb_refl. unfold DriverPool.obj, DriverPool.set_obj. cbn -[put_obj nth app length].
  rewrite nth_last. cbn -[put_obj nth app length]. rewrite put_last. rewrite ?nth_last. cbn -[put_obj nth app length]. rewrite E1. cbn -[put_obj nth app length].
  unfold DriverPool.destroy, DriverPool.destroy_object, DriverPool.obj. cbn -[put_obj nth app length]. rewrite nth_last. cbn -[put_obj nth app length]. rewrite E2. cbn -[put_obj nth app length].
  rewrite put_last, Nat.eqb_refl. reflexivity.
Qed.

(** ** Sessions *)
Lemma cell_last w x : cell (w ++ [x]) (length w) = x.
Proof. unfold cell. rewrite app_nth2 by lia. now rewrite Nat.sub_diag. Qed.
Lemma set_last w x y : set_cell (length w) y (w ++ [x]) = w ++ [y].
Proof. induction w as [|a w IH]; cbn; [reflexivity|now rewrite IH]. Qed.
Lemma on_last P n o w x x' r : exec (wired (P (length w))) (do_call n o) (fst x) (snd x) = (fst x', snd x', r) -> r <> NoFuel ->
  on_cell P n o (length w) (w ++ [x]) = (w ++ [x'], Some r).
Proof. intros E Hr. unfold on_cell. rewrite cell_last, E. destruct x' as [k v]. cbn [fst snd] in *. destruct r; rewrite ?(set_last w x (k, v)); try reflexivity. now elim Hr. Qed.
Definition pair_of {A B C} (x : A * B * C) : A * B := fst x.
Definition shed_peer : peer := server P4 [done; done; oops] true.
Definition y0 : conn * wire := pair_of (exec (wired shed_peer) (create_bolt_conn 50) (fresh_conn (str "neo4j") (str "secret")) new_wire).
Definition after_call (o : call) (x : conn * wire) : conn * wire := pair_of (exec (wired shed_peer) (do_call 50 o) (fst x) (snd x)).
Definition y1 := after_call (CBegin []) y0.
Definition y2 := after_call (CTxQuery 0 q1 ps []) y1.
Definition y3 := after_call (CCommit 0) y2.
Lemma dial_last w : dial_cell sheds 50 (str "neo4j") (str "secret") w = (w ++ [y0], Ok (length w)).
Proof.
  assert (E : exec (wired shed_peer) (create_bolt_conn 50) (fresh_conn (str "neo4j") (str "secret")) new_wire = (y0, Ok tt)) by (vm_compute; reflexivity).
  unfold dial_cell. change (sheds (length w)) with shed_peer. rewrite E. now destruct y0.
Qed.
Lemma looked_open w : n_valid shed_net (length w) (w ++ [y0]) = (w ++ [y0], true).
Proof.
  assert (E : exec (wired shed_peer) (do_call 50 CValidate) (fst y0) (snd y0) = (fst y0, snd y0, Ok (ABool true))) by (vm_compute; reflexivity).
  cbn [shed_net session_net n_valid]. now rewrite (on_last sheds 50 CValidate w y0 y0 _ E ltac:(discriminate)).
Qed.
Lemma looked_dead w : n_valid shed_net (length w) (w ++ [y3]) = (w ++ [y3], false).
Proof.
  assert (E : exec (wired shed_peer) (do_call 50 CValidate) (fst y3) (snd y3) = (fst y3, snd y3, Ok (ABool false))) by (vm_compute; reflexivity).
  cbn [shed_net session_net n_valid]. now rewrite (on_last sheds 50 CValidate w y3 y3 _ E ltac:(discriminate)).
Qed.

Lemma used_last (w : cells) o x : polite (fst x) o -> snd (exec (wired shed_peer) (do_call 50 o) (fst x) (snd x)) <> NoFuel ->
  session_use polite cells_made sheds cell (length w) (w ++ [x]) (w ++ [after_call o x]).
Proof.
  intros Hp Hn. assert (Hi : In (length w) (cells_made (w ++ [x]))) by (unfold cells_made; apply in_seq; rewrite app_length; cbn; lia).
  destruct (exec (wired shed_peer) (do_call 50 o) (fst x) (snd x)) as [[k v] r] eqn:E.
  assert (Ho : on_cell sheds 50 o (length w) (w ++ [x]) = (w ++ [(k, v)], Some r)) by (apply on_last; [exact E|exact Hn]).
  assert (Ea : after_call o x = (k, v)) by (unfold after_call; now rewrite E). rewrite Ea.
  assert (U := use_cell_ok polite sheds 50 o (length w) (w ++ [x]) Hi). unfold use_cell in U. rewrite Ho in U. cbn [fst snd] in U. rewrite cell_last in U.
  apply U; [exact Hp|discriminate].
Qed.
(** So many connections are open that the pool has not asked to close, and it counts none. *)
Theorem any_number k : exists tr objs w, mingled shed_net (session_use polite cells_made sheds cell) 1 [] tr (vacant objs) w
  /\ length w = k /\ (forall c r, ~ In (NClose c r) tr) /\ (forall c, (c < k)%nat -> In (NMake (Ok c)) tr /\ cell w c = y3).
Proof.
  induction k as [|k (tr & objs & w & M & Hk & Hc & H)].
  - exists [], [], []. split; [exact (mi_new _ _ _ _)|]. split; [reflexivity|]. split; [intros c r []|]. intros c Hc. lia.
  - eexists _, _, (w ++ [y3]). split; [|split; [rewrite app_length; cbn; lia|]].
    + refine (mi_event _ _ _ _ _ _ _ (EvReclaim (Some (length w))) _ _ _ _ _ (back_dead shed_net objs _ _ _ (length w) _ (looked_dead w) (looked_dead w))).
      apply mi_use with (c := length w) (w := w ++ [y2]).
      * apply mi_use with (c := length w) (w := w ++ [y1]).
        -- apply mi_use with (c := length w) (w := w ++ [y0]).
           ++ refine (mi_event _ _ _ _ _ _ _ EvOpen _ _ _ _ M (open_vacant shed_net objs _ _ _ _ _ (length w) tr (dial_last w) (looked_open w) (looked_open w) (looked_open w))).
           ++ apply used_last; [|vm_compute; discriminate]. split; [apply clean_call_true; vm_compute; reflexivity|exact Logic.I].
        -- apply used_last; [|vm_compute; discriminate]. split; [apply clean_call_true; vm_compute; reflexivity|vm_compute; reflexivity].
      * apply used_last; [|vm_compute; discriminate]. split; [apply clean_call_true; vm_compute; reflexivity|exact Logic.I].
    + split.
      * intros c r X. cbn in X. destruct X as [X|[X|[X|[X|[X|[X|X]]]]]]; try discriminate X. exact (Hc c r X).
      * intros c Hl. destruct (Nat.eq_dec c k) as [->|N].
        -- rewrite <- Hk. split; [cbn; tauto|apply cell_last].
        -- destruct (H c ltac:(lia)) as [H1 H2]. split; [cbn; tauto|]. rewrite <- H2. unfold cell. apply app_nth1. lia.
Qed.
Theorem no_limit k : exists N p P tr d w, SpecDriver.fresh_net N cells_made /\ over_sessions N cells_made p P (str "neo4j") (str "secret") cell
  /\ mingled N (session_use polite cells_made P cell) 1 [] tr d w
  /\ forall c, (c < k)%nat -> not_closed tr c /\ c_closed (fst (cell w c)) = false.
Proof.
  destruct (any_number k) as (tr & objs & w & M & Hk & Hc & H). exists shed_net, (fun _ => P4), sheds, tr, (vacant objs), w.
  split; [apply session_net_fresh|]. split; [apply session_net_over; [intros c; apply demo_conforming; plain_all|vm_compute; discriminate..]|].
  split; [exact M|]. intros c Hl. destruct (H c Hl) as [H1 ->]. split; [split; [exact H1|apply Hc]|vm_compute; reflexivity].
Qed.
