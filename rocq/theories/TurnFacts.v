(** Calls of several goroutines on one connection, one after another or not: C122. *)
From Coq Require Import String ZArith List Bool Lia.
From Verif Require Import Bytes GoVal GoErr Encoder Decoder SpecPack SpecValues SpecCodec SpecServer
  Messages Connection Errors Link ExecFacts CallFacts Wire SpecSession Demo DemoFacts Cases CaseFacts Concurrency ConcurFacts UnguardedFacts SpecTurns.
Import ListNotations.
Open Scope Z_scope.

Lemma unlocked_exec {St A} (N : net St) (p : prog A) : forall c s, exec N (unlocked p) c s = exec N p c s.
Proof.
  induction p; intros c s; cbn [unlocked exec]; auto;
    match goal with |- (let '(_, _) := ?x in _) = _ => destruct x; auto end.
Qed.
Lemma unlocked_lockless {A} (p : prog A) : lockless (unlocked p).
Proof. induction p; cbn; auto. Qed.

(** One step of a program without the mutex, in front of anything. *)
Lemma lockless_step {St A B} (N : net St) (q : prog A) (f : res A -> prog B) c s b : lockless q ->
  (exists r, q = Ret r) \/
  exists c' s' q', tstep N (bindr q f) c s b = Some (c', s', b, bindr q' f) /\ lockless q' /\ exec N q' c' s' = exec N q c s.
Proof.
  destruct q; cbn [lockless]; intro L; try contradiction; [left; eauto|right..]; cbn [bindr tstep exec].
  - eauto 8.
  - eauto 8.
  - destruct (n_send N _ _ _ _) as [s' r]. eauto 8.
  - destruct (n_recv N _ _) as [s' r]. eauto 8.
  - destruct (n_hang N _) as [s' r]. eauto 8.
  - destruct (n_dial N _) as [s' r]. eauto 8.
  - destruct (n_write N _ _) as [s' r]. eauto 8.
  - destruct (n_read N _ _) as [s' r]. eauto 8.
  - destruct (n_probe N _) as [s' r]. eauto 8.
Qed.

Section Turns.
Context {St : Type}.
Variable N : net St.
Variable n : nat.
Variable c0 : conn.
Variable s0 : St.
Variable gs : list (list call).

Notation log := (list (nat * (call * res answer))).
Notation prg := (prog (list (call * res answer))).

(** Where goroutine [i] stands: between calls, or having its turn. *)
Definition at_turn (l : log) (owner : option nat) (x : sys St (list (call * res answer))) (cs : conn) (ss : St) (i : nat) (p : prg) : Prop :=
  owner <> Some i /\ (exists todo, nth_error gs i = Some (map fst (mine i l) ++ todo) /\ p = turns n todo (mine i l))
  \/ owner = Some i /\ exists o todo q, nth_error gs i = Some (map fst (mine i l) ++ o :: todo)
       /\ p = bindr q (fun r => Unlock (turns n todo (mine i l ++ [(o, r)]))) /\ lockless q
       /\ exec N q (sy_conn x) (sy_net x) = exec N (do_call n o) cs ss.
Definition turn_inv (l : log) (x : sys St (list (call * res answer))) : Prop :=
  exists owner cs ss,
    replay N n c0 s0 l cs ss /\ (forall y, In y l -> (fst y < length gs)%nat)
    /\ length (sy_threads x) = length gs
    /\ match owner with
       | None => sy_locked x = false /\ sy_conn x = cs /\ sy_net x = ss
       | Some i => sy_locked x = true /\ (i < length gs)%nat
       end
    /\ forall i p, nth_error (sy_threads x) i = Some p -> at_turn l owner x cs ss i p.

Lemma turn_start : turn_inv [] (take_turns n c0 s0 gs).
Proof.
  exists None, c0, s0. unfold take_turns, replay. cbn. rewrite map_length. repeat split; auto; try contradiction.
  intros i p H. rewrite nth_error_map in H. destruct (nth_error gs i) as [calls|] eqn:E; [|discriminate].
  injection H as <-. left. split; [discriminate|]. exists calls. cbn. auto.
Qed.
Lemma at_turn_other l l' owner owner' x x' cs ss cs' ss' i p : mine i l' = mine i l -> owner <> Some i -> owner' <> Some i ->
  at_turn l owner x cs ss i p -> at_turn l' owner' x' cs' ss' i p.
Proof. intros Hm H H' [[_ X]|[X _]]; [|contradiction]. left. rewrite Hm. auto. Qed.

Lemma turn_step l x i x' : turn_inv l x -> sys_step N i x = Some x' -> exists l', turn_inv l' x'.
Proof.
  intros (owner & cs & ss & Hr & Hin & Hlen & Hown & Hth) Hst.
  unfold sys_step in Hst. destruct (nth_error (sy_threads x) i) as [p|] eqn:Hi; [|discriminate].
  assert (Hlt : (i < length gs)%nat). { rewrite <- Hlen. apply nth_error_Some. congruence. }
  destruct (Hth i p Hi) as [(Ho & todo & Ht & Hp)|(Ho & o & todo & q & Ht & Hp & Hl & He)].
  - destruct todo as [|o todo]; cbn [turns] in Hp; subst p; cbn [tstep] in Hst; [discriminate|].
    destruct (sy_locked x) eqn:Elock; [discriminate|]. injection Hst as <-.
    destruct owner as [k|]; [destruct Hown; discriminate|]. destruct Hown as (_ & Ec & Es).
    exists l, (Some i), cs, ss. cbn [sy_conn sy_net sy_locked sy_threads]. rewrite put_nth_length.
    refine (conj Hr (conj Hin (conj Hlen (conj (conj eq_refl Hlt) _)))). intros j q Hj.
    destruct (Nat.eq_dec i j) as [<-|Hne].
    + rewrite (nth_put_same _ _ _ _ Hi) in Hj. injection Hj as <-. right. split; [reflexivity|].
      exists o, todo, (unlocked (do_call n o)). split; [exact Ht|]. split; [reflexivity|]. split; [apply unlocked_lockless|].
      cbn [sy_conn sy_net]. rewrite unlocked_exec, Ec, Es. reflexivity.
    + rewrite (nth_put_other _ _ _ _ Hne) in Hj. eapply at_turn_other; [reflexivity| | |exact (Hth j q Hj)]; [discriminate|congruence].
  - subst owner. destruct Hown as [Elock _]. rewrite Elock in Hst. subst p.
    destruct (lockless_step N q (fun r => Unlock (turns n todo (mine i l ++ [(o, r)]))) (sy_conn x) (sy_net x) true Hl) as [(r & ->)|(c' & s' & q' & Et & Hl' & He')].
    + cbn [bindr tstep] in Hst. injection Hst as <-. cbn [exec] in He.
      exists (l ++ [(i, (o, r))]), None, (sy_conn x), (sy_net x). cbn [sy_conn sy_net sy_locked sy_threads]. rewrite put_nth_length.
      split; [|split; [|split; [exact Hlen|split; [auto|]]]].
      * unfold replay. rewrite !map_app. cbn [map fst snd]. apply serial_snoc with (1 := Hr). now rewrite <- He.
      * intros y Hy. apply in_app_or in Hy as [Hy|[<-|[]]]; [now apply Hin|exact Hlt].
      * intros j q Hj. destruct (Nat.eq_dec i j) as [<-|Hne].
        -- rewrite (nth_put_same _ _ _ _ Hi) in Hj. injection Hj as <-. left. split; [discriminate|]. exists todo.
           rewrite mine_snoc_same, map_app. cbn [map fst]. rewrite <- app_assoc. split; [exact Ht|reflexivity].
        -- rewrite (nth_put_other _ _ _ _ Hne) in Hj.
           eapply at_turn_other; [| | |exact (Hth j q Hj)]; [apply mine_snoc_other; congruence|congruence|discriminate].
    + rewrite Et in Hst. injection Hst as <-. exists l, (Some i), cs, ss. cbn [sy_conn sy_net sy_locked sy_threads]. rewrite put_nth_length.
      refine (conj Hr (conj Hin (conj Hlen (conj (conj eq_refl Hlt) _)))). intros j p Hj.
      destruct (Nat.eq_dec i j) as [<-|Hne].
      * rewrite (nth_put_same _ _ _ _ Hi) in Hj. injection Hj as <-. right. split; [reflexivity|].
        exists o, todo, q'. cbn [sy_conn sy_net]. rewrite He'. auto.
      * rewrite (nth_put_other _ _ _ _ Hne) in Hj. eapply at_turn_other; [reflexivity| | |exact (Hth j p Hj)]; congruence.
Qed.
Lemma turn_schedule is : forall l x x', turn_inv l x -> schedule N is x = Some x' -> exists l', turn_inv l' x'.
Proof.
  induction is as [|i is IH]; intros l x x' H E; cbn in E; [injection E as <-; eauto|].
  destruct (sys_step N i x) as [x1|] eqn:E1; [|discriminate].
  destruct (turn_step _ _ _ _ H E1) as (l1 & H1). eauto.
Qed.

Lemma turn_serial is x results : schedule N is (take_turns n c0 s0 gs) = Some x -> finished x results ->
  exists order : log,
    exec N (serial n (map (fun x => fst (snd x)) order) []) c0 s0 = (sy_conn x, sy_net x, Ok (map snd order))
    /\ (forall y, In y order -> (fst y < length gs)%nat) /\ length results = length gs
    /\ forall i calls, nth_error gs i = Some calls -> nth_error results i = Some (mine i order) /\ map fst (mine i order) = calls.
Proof.
  intros Hs Hf. destruct (turn_schedule _ _ _ _ turn_start Hs) as (l & owner & cs & ss & Hr & Hin & Hlen & Hown & Hth).
  exists l. unfold finished in Hf. rewrite Hf, map_length in Hlen.
  assert (Hret : forall i r, nth_error results i = Some r -> owner <> Some i /\ r = mine i l /\ nth_error gs i = Some (map fst (mine i l))).
  { intros i r Hi. assert (Hi' : nth_error (sy_threads x) i = Some (Ret (Ok r))) by now rewrite Hf, nth_error_map, Hi.
    destruct (Hth i _ Hi') as [(H1 & todo & H2 & H3)|(H1 & o & todo & q & H2 & H3 & H4 & _)].
    - destruct todo; cbn [turns] in H3; [|discriminate]. injection H3 as ->. rewrite app_nil_r in H2. auto.
    - destruct q; try discriminate H3; contradiction. }
  destruct owner as [i|].
  { destruct Hown as [_ Hi]. rewrite <- Hlen in Hi. destruct (nth_error results i) as [r|] eqn:E.
    - destruct (Hret i r E) as [H _]. now elim H.
    - apply nth_error_None in E. lia. }
  destruct Hown as (_ & Ec & Es). rewrite Ec, Es. split; [exact Hr|]. split; [exact Hin|]. split; [exact Hlen|].
  intros i calls Hi. assert (Hlt : (i < length results)%nat). { rewrite Hlen. apply nth_error_Some. congruence. }
  destruct (nth_error results i) as [r|] eqn:E; [|apply nth_error_None in E; lia].
  destruct (Hret i r E) as (_ & -> & H). rewrite Hi in H. injection H as ->. auto.
Qed.

Lemma turn_moves is x : schedule N is (take_turns n c0 s0 gs) = Some x ->
  (exists results, finished x results) \/ exists i x', sys_step N i x = Some x'.
Proof.
  intros Hs. destruct (turn_schedule _ _ _ _ turn_start Hs) as (l & owner & cs & ss & Hr & Hin & Hlen & Hown & Hth).
  destruct owner as [i|].
  - right. destruct Hown as [Hlk Hi]. rewrite <- Hlen in Hi.
    destruct (nth_error (sy_threads x) i) as [p|] eqn:Ei; [|apply nth_error_None in Ei; lia].
    destruct (Hth i p Ei) as [(H1 & _)|(_ & o & todo & q & _ & -> & H4 & _)]; [now elim H1|].
    exists i. unfold sys_step. rewrite Ei.
    destruct (lockless_step N q (fun r => Unlock (turns n todo (mine i l ++ [(o, r)]))) (sy_conn x) (sy_net x) (sy_locked x) H4) as [(r & ->)|(c' & s' & q' & Et & _)].
    + cbn. eauto.
    + rewrite Et. eauto.
  - destruct Hown as [Hlk _].
    assert (L : forall ts : list prg, (forall i p, nth_error ts i = Some p -> (exists r, p = Ret (Ok r)) \/ exists k, p = Lock k) ->
      (exists results, ts = map (fun l => Ret (Ok l)) results) \/ exists i k, nth_error ts i = Some (Lock k)).
    { clear. induction ts as [|p ts IH]; intro H; [left; now exists []|].
      destruct (H 0%nat p eq_refl) as [(r & ->)|(k & ->)]; [|right; now exists 0%nat, k].
      destruct IH as [(rs & ->)|(i & k & E)]; [|left; now exists (r :: rs)|right; now exists (S i), k]. intros i q Hi. exact (H (S i) q Hi). }
    destruct (L (sy_threads x)) as [H|(i & k & E)].
    + intros i p Hi. destruct (Hth i p Hi) as [(_ & todo & _ & ->)|(H1 & _)]; [|discriminate].
      destruct todo; cbn [turns]; eauto.
    + left. exact H.
    + right. exists i. unfold sys_step. rewrite E. cbn. rewrite Hlk. eauto.
Qed.
End Turns.

Theorem turns_finish {St} (N : net St) n c s gs is x : schedule N is (take_turns n c s gs) = Some x ->
  Acc (moves N) x /\ exists js y results, schedule N (is ++ js) (take_turns n c s gs) = Some y /\ finished y results.
Proof.
  intros H. split; [apply moves_wf|]. revert is H. induction (moves_wf N x) as [x _ IH]. intros is H.
  destruct (turn_moves N n c s gs is x H) as [(results & Hf)|(i & x' & E)].
  - exists [], x, results. rewrite app_nil_r. auto.
  - destruct (IH x' (ex_intro _ i E) (is ++ [i])) as (js & y & results & H1 & H2).
    { rewrite schedule_app, H. cbn. now rewrite E. }
    exists (i :: js), y, results. split; [|exact H2]. now rewrite <- app_assoc in H1.
Qed.

Lemma serial_did {St} (N : net St) n : forall calls acc c s c' s' out,
  exec N (serial n calls acc) c s = (c', s', Ok out) ->
  exists l, out = acc ++ l /\ ((forall x, In x l -> snd x <> NoFuel) -> history N (fun _ _ => True) (c, s) l (c', s')).
Proof.
  induction calls as [|o calls IH]; intros acc c s c' s' out E.
  - cbn in E. injection E as <- <- <-. exists []. rewrite app_nil_r. split; [reflexivity|]. intros _. constructor.
  - cbn [serial] in E. rewrite exec_bindr in E. destruct (exec N (do_call n o) c s) as [[c1 s1] r] eqn:E1.
    destruct (IH _ _ _ _ _ _ E) as (l & -> & Hh). exists ((o, r) :: l). rewrite <- app_assoc. split; [reflexivity|]. intro Hf.
    apply (history_cons N _ (c, s) o r (c1, s1)); [exact I| |apply Hh; intros x Hx; apply Hf; now right].
    exists n. split; [exact E1|]. apply (Hf (o, r)). now left.
Qed.

Lemma ordered {St} (N : net St) n c s gs (x : sys St (list (call * res answer))) results order :
  exec N (serial n (map (fun x => fst (snd x)) order) []) c s = (sy_conn x, sy_net x, Ok (map snd order)) ->
  (forall y, In y order -> (fst y < length gs)%nat) -> length results = length gs ->
  (forall i calls, nth_error gs i = Some calls -> nth_error results i = Some (mine i order) /\ map fst (mine i order) = calls) ->
  (forall l y, In l results -> In y l -> snd y <> NoFuel) -> in_some_order N (c, s) gs results (sy_conn x, sy_net x).
Proof.
  intros E Hin Hlen Hm Hf. exists order. split; [|auto].
  destruct (serial_did N n _ _ _ _ _ _ _ E) as (l & El & Hh). cbn in El. subst l. apply Hh.
  intros y Hy. apply in_map_iff in Hy as ([i z] & <- & Hy). cbn [snd].
  destruct (nth_error gs i) as [calls|] eqn:Ei; [|apply nth_error_None in Ei; pose proof (Hin _ Hy); cbn in *; lia].
  destruct (Hm i calls Ei) as [H1 _]. apply (Hf (mine i order)); [now apply nth_error_In with i|].
  unfold mine. apply in_map_iff. exists (i, z). split; [reflexivity|]. apply filter_In. split; [exact Hy|]. cbn. apply Nat.eqb_refl.
Qed.

Theorem turns_ordered {St} (N : net St) n c s gs is x results :
  schedule N is (take_turns n c s gs) = Some x -> finished x results -> (forall l y, In l results -> In y l -> snd y <> NoFuel) ->
  in_some_order N (c, s) gs results (sy_conn x, sy_net x).
Proof.
  intros Hs Hf Hn. destruct (turn_serial N n c s gs is x results Hs Hf) as (order & H1 & H2 & H3 & H4). eapply ordered; eauto.
Qed.
Theorem statements_ordered {St} (N : net St) n c s gs is x results :
  (forall calls o, In calls gs -> In o calls -> statement_of o <> None) ->
  schedule N is (start n c s gs) = Some x -> finished x results -> (forall l y, In l results -> In y l -> snd y <> NoFuel) ->
  in_some_order N (c, s) gs results (sy_conn x, sy_net x).
Proof.
  intros Hg Hs Hf Hn. destruct (serializable N n c s gs Hg is x results Hs Hf) as (order & H1 & H2 & H3 & H4). eapply ordered; eauto.
Qed.

(** A Begin that looks while the connection has a transaction is refused at once, whoever else is about. *)
Theorem begin_sees {St} (N : net St) n db rest acc t (x : sys St (list (call * res answer))) i :
  nth_error (sy_threads x) i = Some (serial n (CBegin db :: rest) acc) -> c_transaction (sy_conn x) = Some t ->
  exists e, sys_step N i x = Some (mkSys (sy_conn x) (sy_net x) (sy_locked x)
    (put_nth i (serial n rest (acc ++ [(CBegin db, Err e)])) (sy_threads x))).
Proof.
  intros Hi Ht. unfold sys_step. rewrite Hi. cbn [serial do_call pmap begin_db bind bindr tstep]. rewrite Ht. cbn. eexists. reflexivity.
Qed.

(** ** The witness *)

Lemma does_once {St} (N : net St) o w w1 r1 w2 r2 : does N o w w1 r1 -> does N o w w2 r2 -> w1 = w2 /\ r1 = r2.
Proof.
  intros (n & E1 & H1) (m & E2 & H2). destruct w1 as [c1 s1], w2 as [c2 s2]. cbn [fst snd] in *.
  pose proof (less_do_call n (Nat.max n m) o ltac:(lia) _ N (fst w) (snd w)) as X.
  pose proof (less_do_call m (Nat.max n m) o ltac:(lia) _ N (fst w) (snd w)) as Y.
  rewrite E1 in X. rewrite E2 in Y. cbn [snd] in *. specialize (X H1). specialize (Y H2). rewrite X in Y. injection Y as -> -> ->. auto.
Qed.
Lemma history_once {St} (N : net St) C C' w l w1 : history N C w l w1 -> forall l' w2, history N C' w l' w2 -> map fst l = map fst l' ->
  l = l' /\ w1 = w2.
Proof.
  induction 1 as [w|w l w1 o r w2 H IH HC Hd]; intros l' w3 H' E.
  - destruct H' as [|? l' ? ? ? ? ? ? ?]; [auto|]. destruct l'; discriminate.
  - destruct H' as [|w l' w1' o' r' w3 H' HC' Hd'].
    + destruct l; discriminate.
    + rewrite !map_app in E. cbn in E. apply app_inj_tail in E as [E1 E2]. cbn in E2. subst o'.
      destruct (IH _ _ H' E1) as [<- <-]. destruct (does_once N o w1 w2 r w3 r' Hd Hd') as [<- <-]. auto.
Qed.

Lemma mine_0 {X} z (o : list (nat * X)) : mine 0 ((0%nat, z) :: o) = z :: mine 0 o /\ mine 1 ((0%nat, z) :: o) = mine 1 o. Proof. split; reflexivity. Qed.
Lemma mine_1 {X} z (o : list (nat * X)) : mine 0 ((1%nat, z) :: o) = mine 0 o /\ mine 1 ((1%nat, z) :: o) = z :: mine 1 o. Proof. split; reflexivity. Qed.
Lemma merges0 {X} (order : list (nat * X)) : (forall y, In y order -> (fst y < 2)%nat) -> forall l, mine 0 order = l -> mine 1 order = [] -> map snd order = l.
Proof.
  induction order as [|[[|[|k]] z] o IH]; intros Hin l H0 H1.
  - exact H0.
  - destruct (mine_0 z o) as [E0 E1]. rewrite E0 in H0. rewrite E1 in H1. subst l. cbn. f_equal. apply IH; auto. intros y Hy. apply Hin. now right.
  - destruct (mine_1 z o) as [E0 E1]. rewrite E1 in H1. discriminate.
  - pose proof (Hin _ (or_introl eq_refl)). cbn in *. lia.
Qed.
Lemma merges {X} (d : X) (order : list (nat * X)) : (forall y, In y order -> (fst y < 2)%nat) -> forall l, mine 0 order = l -> mine 1 order = [d] ->
  exists l1 l2, l = l1 ++ l2 /\ map snd order = l1 ++ d :: l2.
Proof.
  induction order as [|[[|[|k]] z] o IH]; intros Hin l H0 H1.
  - discriminate.
  - destruct (mine_0 z o) as [E0 E1]. rewrite E0 in H0. rewrite E1 in H1. subst l.
    destruct (IH (fun y Hy => Hin y (or_intror Hy)) _ eq_refl H1) as (l1 & l2 & E & F). exists (z :: l1), l2. cbn. now rewrite E, F.
  - destruct (mine_1 z o) as [E0 E1]. rewrite E0 in H0. rewrite E1 in H1. injection H1 as -> H1. exists [], l. split; [reflexivity|].
    cbn. f_equal. apply merges0; auto. intros y Hy. apply Hin. now right.
  - pose proof (Hin _ (or_introl eq_refl)). cbn in *. lia.
Qed.

Definition crossing :=
  let P := server P4 [done; done; done; rows] false in
  let '(c, w) := final (login [] P) in
  schedule (wired P) ([1] ++ repeat 0 8 ++ repeat 1 8 ++ repeat 0 20)%nat (start 50 c w [[CBegin []; CTxExecDb 0 q2 [] []; CRollback 0]; [CBegin []]]).

(** Two goroutines, the second with one call: every place for it gives other successes. *)
Definition success (y : call * res answer) : bool := match snd y with Ok _ => true | _ => false end.
Definition elsewhere {St} (N : net St) (n : nat) (w : conn * St) (l : list (call * res answer)) (d : call * res answer) (k : nat) : bool :=
  let l' := firstn k l ++ d :: skipn k l in
  match play N n (fun _ _ => true) (map fst l') w with
  | Some (h, _) => negb (if list_eq_dec Bool.bool_dec (map success h) (map success l') then true else false)
  | None => false
  end.
Lemma play_calls {St} (N : net St) n : forall calls w h w', play N n (fun _ _ => true) calls w = Some (h, w') -> map fst h = calls.
Proof.
  induction calls as [|o calls IH]; intros w h w'; cbn [play].
  - intro X. now injection X as <- _.
  - destruct (exec _ _ _ _) as [[c s] r]. destruct r; try discriminate;
      (destruct (play _ _ _ calls _) as [[l1 w3]|] eqn:Ep; [|discriminate]; intro X; injection X as <- _; cbn; f_equal; eapply IH; exact Ep).
Qed.
Lemma unordered {St} (N : net St) n w l d w' : forallb (elsewhere N n w l d) (seq 0 (S (length l))) = true ->
  ~ in_some_order N w [map fst l; [fst d]] [l; [d]] w'.
Proof.
  intros H (order & Hh & Hin & _ & Hm).
  destruct (Hm 0%nat _ eq_refl) as [H0 _]. destruct (Hm 1%nat _ eq_refl) as [H1 _]. cbn [nth_error] in H0, H1.
  injection H0 as H0. injection H1 as H1. symmetry in H0, H1.
  destruct (merges _ order Hin _ H0 H1) as (l1 & l2 & E & F). rewrite F in Hh.
  rewrite forallb_forall in H. specialize (H (length l1)). unfold elsewhere in H.
  assert (E1 : firstn (length l1) l = l1). { rewrite E, firstn_app, firstn_all, Nat.sub_diag. cbn. apply app_nil_r. }
  assert (E2 : skipn (length l1) l = l2). { rewrite E, skipn_app, skipn_all, Nat.sub_diag. reflexivity. }
  rewrite E1, E2 in H.
  destruct (play N n (fun _ _ => true) (map fst (l1 ++ d :: l2)) w) as [[h w2]|] eqn:Hp; [|discriminate H].
  - pose proof (play_history _ _ _ (fun _ _ => True) (fun _ _ _ => I) _ _ _ _ Hp) as H2.
    destruct (history_once _ _ _ _ _ _ Hh _ _ H2) as [<- _]; [now rewrite (play_calls _ _ _ _ _ _ Hp)|].
    destruct (list_eq_dec _ _ _) as [_|X]; [|now elim X].
    discriminate H. apply in_seq. rewrite E, app_length. lia.
  - apply in_seq. rewrite E, app_length. lia.
Qed.

Lemma crossed : exists P c w x e1 e2,
  let gs := [[CBegin []; CTxExecDb 0 q2 [] []; CRollback 0]; [CBegin []]] in
  let results := [[(CBegin [], Ok (ATx 0)); (CTxExecDb 0 q2 [] [], Ok (AMeta [])); (CRollback 0, Err e1)]; [(CBegin [], Err e2)]] in
  session clean_call P4 P (str "neo4j") (str "secret") [] (c, w)
  /\ (exists is, schedule (wired P) is (start 50 c w gs) = Some x) /\ finished x results
  /\ map st_text (s_perm (w_srv (sy_net x))) = [q2]
  /\ ~ in_some_order (wired P) (c, w) gs results (sy_conn x, sy_net x).
Proof.
  exists (server P4 [done; done; done; rows] false).
  let x := eval vm_compute in (login [] (server P4 [done; done; done; rows] false)) in
  match x with Some (_, (?c, ?w)) => exists c, w end.
  let y := eval vm_compute in crossing in match y with Some ?x => exists x end.
  eexists. eexists. cbv zeta. split; [session_of P4 [done; done; done; rows] false (@nil call)|].
  split; [exists ([1] ++ repeat 0 8 ++ repeat 1 8 ++ repeat 0 20)%nat; vm_compute; reflexivity|].
  split; [split; vm_compute; reflexivity|]. split; [reflexivity|].
  match goal with |- ~ in_some_order ?N ?w _ [?l; [?d]] ?w' => refine (unordered N 50 w l d w' _) end. vm_compute. reflexivity.
Qed.
