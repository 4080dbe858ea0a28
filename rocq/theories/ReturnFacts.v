(** What becomes of a dead connection that is returned (C51). *)
From Coq Require Import String ZArith List Bool Lia ZifyBool Permutation.
From Verif Require Import Bytes GoVal GoErr Decoder Messages GoStr Routing Pool SpecPool BytesFacts RoutingFacts PoolFacts LendFacts SteadyFacts WatchPoolFacts RouteFacts SizeFacts.
Import ListNotations.
Open Scope Z_scope.

Section Returning.
Context {W : Type}.
Variable K : cluster W.
Variable opened : W -> list nat.
Variable named : W -> list bytes.
Hypothesis Fr : fresh K opened named.

Lemma reclaim_trace id h p w tr p' w' tr' : reclaim (watch K) id h p (w, tr) = (p', (w', tr'), Ok tt) ->
  exists c x, map_get (p_borrowed p) id = Some c
  /\ let p1 := set_held x (set_borrowed (map_del id (p_borrowed p)) p) in
     (p' = back c p1 /\ exists new, tr' = new ++ tr /\ forall g e, In (KClose g e) new -> g = pw_conn c /\ e = None)
     \/ (exists w1 e, incl (opened w) (opened w1) /\ add_conn (watch K) (if pw_mode c =? WriteMode then WriteMode else ReadMode) p1
           (w1, [KClose (pw_conn c) (Some e); KValid (pw_conn c) false; KValid (pw_conn c) false] ++ tr) = (p', (w', tr'), Ok tt)).
Proof.
  unfold reclaim, get. destruct (p_running p); cbn [negb]; [|discriminate].
  destruct (map_get (p_borrowed p) id) as [c|] eqn:Em.
  2: { unfold mbind, close_conn. destruct (k_close (watch K) h (w, tr)) as [? [?|]]; discriminate. }
  intros E. exists c. unfold bind at 1, mbind at 1, upd at 1 in E. unfold bind, mbind, valid in E. cbn [watch k_valid fst snd] in E.
  set (q1 := set_held (map_set id c (p_held p)) (set_borrowed (map_del id (p_borrowed p)) p)) in E.
  destruct (k_valid K (pw_conn c) w) as [w0 ok] eqn:Ev. destruct ok.
  - unfold upd in E. injection E as <- _ <-. exists (map_set id c (p_held p)). split; [reflexivity|]. left. split; [reflexivity|].
    exists [KValid (pw_conn c) true]. split; [reflexivity|]. intros g e [H|[]]. discriminate.
  - destruct (remove_conn (watch K) (Some c) q1 (w0, KValid (pw_conn c) false :: tr)) as [[p2 [w2 tr2]] r2] eqn:E2.
    pose proof (remove_trace _ _ _ _ _ _ _ _ _ E2) as (new & -> & D).
    pose proof (remove_eff _ longer longer_trans (longer_valid K) (longer_close K) _ _ _ _ _ _ E2) as ([x Hs] & _ & _).
    destruct D as [[-> D]|(e & -> & ->)].
    + unfold upd in E. injection E as <- _ <-. exists x. split; [reflexivity|]. left. split.
      * subst p2. unfold back, enqueue. destruct (pw_mode c =? WriteMode); reflexivity.
      * exists (new ++ [KValid (pw_conn c) false]). split; [now rewrite <- app_assoc|]. intros g e H. apply in_app_or in H.
        destruct H as [H|[H|[]]]; [|discriminate]. destruct D as [-> | ->]; cbn in H; intuition congruence.
    + exists (map_set id c (p_held p)). split; [reflexivity|]. right. exists w2, e. fold q1.
      assert (Hp : p2 = q1).
      { unfold remove_conn, bind, mbind, valid in E2. destruct (k_valid (watch K) (pw_conn c) _) as [wa [|]]; [discriminate|].
        unfold close_conn in E2. destruct (k_close (watch K) (pw_conn c) wa) as [wb [?|]]; [|discriminate]. now injection E2. }
      pose proof (remove_eff _ (grows (fun a => opened (fst a)) (fun a => named (fst a))) (grows_trans _ _)
        (grows_valid _ _ _ (fresh_watch _ _ _ Fr)) (grows_close _ _ _ (fresh_watch _ _ _ Fr)) _ _ _ _ _ _ E2) as (_ & [G _] & _).
      split; [cbn in G; eapply incl_tran; [|exact G]; pose proof (f_valid _ _ _ Fr (pw_conn c) w) as [V _]; now rewrite Ev in V|].
      rewrite Hp in E. cbn [app]. destruct (pw_mode c =? WriteMode); exact E.
Qed.

Theorem returned_dead n auth tls w0 l p w tr id h p' w' new :
  pool_history (watch K) n auth tls (w0, []) l p (w, tr) -> honest [] (l ++ [(OReclaim id h, RDone)]) ->
  do_pop (watch K) (OReclaim id h) p (w, tr) = (p', (w', new ++ tr), RDone) ->
  (In (KClose h None) new -> In h (idle p'))
  /\ (forall e, In (KClose h (Some e)) new -> ~ In h (idle p') /\ exists s h', In (KDial s (Ok h')) new /\ In h' (idle p')).
Proof.
  intros (leader & p0 & En & Er) Ho E. apply honest_app in Ho. destruct Ho as [H1 [H2 _]].
  destruct (inv_run' K opened named Fr _ _ _ _ _ _ _ _ _ Er H1 (inv_new _ _ _ _ _ _ _ (w0, []) En)) as (iss & I).
  cbn [do_pop] in E. destruct (reclaim (watch K) id h p (w, tr)) as [[p1 [w1 tr1]] r1] eqn:Es. destruct r1 as [[]|e| |]; try discriminate. injection E as <- <- ->.
  apply reclaim_trace in Es. destruct Es as (c & x & Eg & D).
  pose proof I as I0. destruct I0. assert (Hin := map_get_in _ _ _ Eg). destruct (i_out _ _ Hin) as [Hb Hl].
  assert (Hh : pw_conn c = h).
  { destruct H2 as [Hon|Hon]; [|destruct Hon; change id with (fst (id, pw_conn c)); now apply in_map].
    eapply NoDup_map_fst; [exact i_ids| |]; apply i_before; eauto. }
  cbv zeta in D. set (q := set_held x _) in D. set (m := if pw_mode c =? WriteMode then WriteMode else ReadMode) in *.
  destruct D as [(-> & new' & En' & Hc)|(wa & e0 & Ga & Ea)].
  - apply app_inv_tail in En'. subst new'. split.
    + intros _. unfold back. fold m. apply (Permutation_in _ (Permutation_sym (idle_perm m _))). rewrite queue_set, queue_set_other, map_app, map_app.
      rewrite <- Hh. apply in_or_app. left. apply in_or_app. right. now left.
    + intros e He. apply Hc in He. now destruct He.
  - pose proof (add_trace _ _ _ _ _ _ _ _ Ea) as (d & Et & Q1 & Q2 & _).
    change (KDial (pw_str d) (Ok (pw_conn d)) :: [KClose (pw_conn c) (Some e0); KValid (pw_conn c) false; KValid (pw_conn c) false] ++ tr)
      with ([KDial (pw_str d) (Ok (pw_conn d)); KClose (pw_conn c) (Some e0); KValid (pw_conn c) false; KValid (pw_conn c) false] ++ tr) in Et.
    apply app_inv_tail in Et. subst new. split.
    + cbn. intros [H|[H|[H|[H|[]]]]]; discriminate.
    + intros e _.
      assert (Ip : Permutation (idle p1) (pw_conn d :: idle p)).
      { rewrite (idle_perm m p1). rewrite Q1, Q2. rewrite <- app_assoc. cbn [app]. rewrite <- Permutation_middle. cbn [map].
        constructor. symmetry. rewrite (idle_perm m p). reflexivity. }
      split.
      * rewrite <- Hh. intros Hi. apply (Permutation_in _ Ip) in Hi. destruct Hi as [Hi|Hi].
        -- assert (Hd : In (pw_conn d) (opened wa)) by (rewrite Hi; apply Ga; now apply (i_lent _ Hl)).
           eapply (add_eff (watch K) longer) in Ea; eauto using longer_refl, longer_trans, longer_dial, longer_valid, longer_close, longer_name.
           destruct Ea as [(s & d' & i & y & _ & (wb & name & Ed & Ek & Ec) & _ & Ep)|(_ & N & _)]; [|congruence].
           destruct (f_new _ _ _ (fresh_watch _ _ _ Fr) _ _ _ _ Ed) as [New _]. apply New. cbn [fst].
           assert (d' = d).
           { rewrite Ep in Q1. change (queue_of m (set_held ?a ?b)) with (queue_of m b) in Q1. rewrite queue_set in Q1.
             apply app_inv_head in Q1. now injection Q1. }
           now subst d'.
        -- now apply (i_lent _ Hl).
      * exists (pw_str d), (pw_conn d). split; [now left|]. apply (Permutation_in _ (Permutation_sym Ip)). now left.
Qed.
End Returning.
