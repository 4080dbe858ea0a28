(** Counterexamples about opening, giving up, telling a dead connection and making a connection idle. *)
From Coq Require Import String ZArith List Bool Lia.
From Verif Require Import Bytes GoVal GoErr Encoder Decoder SpecPack SpecValues SpecCodec SpecServer
  Messages Connection Errors Link ExecFacts CallFacts Wire SpecSession Demo DemoFacts Cases CaseFacts SpecShare RestFacts.
Import ListNotations.
Open Scope Z_scope.

(** A link that delivers the first byte of the version reply on its own. *)
Definition dribble (P : peer) : peer :=
  mkPeer (p_judge P) (p_say P)
    (fun n b => match n, b with 1%nat, x :: y :: b' => [[x]; y :: b'] | _, _ => p_cut P n b end)
    (p_late P) (p_left P) (p_looks P) (p_zones P).
Lemma dribble_sound v P : sound v P -> sound v (dribble P).
Proof.
  intros [H1 H2 H3 H4]. constructor; auto. intros n b. cbn [p_cut dribble].
  destruct n as [|[|n]]; try apply H2. destruct b as [|x [|y b]]; try apply H2.
  cbn. rewrite app_nil_r. split; [reflexivity|]. repeat constructor; discriminate.
Qed.
Lemma dribbled : exists P c w e,
  negotiated (p_judge P) = Some P4 /\ sound V2 P /\ j_outcome (p_judge P) 0 = done
  /\ opens (wired P) (str "neo4j") (str "secret") new_wire (c, w) (Err e).
Proof.
  eexists (dribble (server P4 [done] false)), _, _, _. split; [reflexivity|]. split; [apply dribble_sound, demo_sound; plain_all|].
  split; [reflexivity|]. exists 50%nat. split; [vm_compute; reflexivity|discriminate].
Qed.

(** A refused login. *)
Lemma socket_left : exists P c w tr e,
  conforming P4 P /\ opens (watched (wired P)) (str "neo4j") (str "secret") (new_wire, []) (c, (w, tr)) (Err e)
  /\ inner_most e = EFailure fault /\ socket_open tr = true.
Proof.
  eexists (server P4 [oops] false), _, _, _, _. split; [apply demo_conforming; plain_all|]. split; [|split].
  - exists 50%nat. split; [vm_compute; reflexivity|discriminate].
  - reflexivity.
  - reflexivity.
Qed.

(** A peer that accepts two requests and reports failures from then on. *)
Definition hostile : net nat := {|
  n_send _ _ _ s := (s, None);
  n_recv _ s := match s with O => (O, Ok (GFailure [])) | S s' => (s', Ok (GSuccess [])) end;
  n_hang s := (s, None);
  n_dial s := (s, None);
  n_write b s := (s, (zlen b, None));
  n_read _ s := (s, ([x00; x00; x00; x04], None));
  n_probe s := (s, Some ETimeout)
|}.
Definition in_trouble : conn := mkConn P4 (str "neo4j") (str "secret") ReadMode 65535 false (Some O) [false].
Lemma hostile_loops : forall n, snd (exec hostile (rollback n 0) in_trouble O) = NoFuel.
Proof.
  assert (G : forall n m, (m <= n)%nat -> snd (exec hostile (rollback m 0) in_trouble O) = NoFuel).
  { induction n as [|n IH]; intros m Hm.
    - replace m with O by lia. reflexivity.
    - destruct m as [|[|[|[|[|m]]]]]; try reflexivity. specialize (IH m ltac:(lia)).
      cbn [rollback]. unfold tx_end. rewrite exec_get. change (tx_closed in_trouble 0) with false. cbv iota.
      change (get_rollback_message (c_proto in_trouble)) with (rollback_message, true). cbv iota.
      rewrite exec_bind. change (exec hostile (send_message rollback_message) in_trouble O) with (in_trouble, O, Ok tt : res unit). cbv iota.
      rewrite exec_bind. change (exec hostile ok_unit in_trouble O) with (in_trouble, O, Ok tt : res unit). cbv iota. rewrite exec_bind.
      assert (X : exists c s, exec hostile (consume (S (S (S (S m))))) in_trouble O = (c, s, NoFuel)).
      { cbn [consume]. rewrite exec_bind. change (exec hostile recv_message in_trouble O) with (in_trouble, O, Ok (GFailure [])). cbv iota.
        rewrite exec_bindr. cbn [reset]. rewrite exec_bind.
        change (exec hostile (pwrap 22 (send_message reset_message)) in_trouble O) with (in_trouble, O, Ok tt : res unit). cbv iota.
        cbn [reset_loop]. rewrite exec_bind. change (exec hostile (pwrap 23 recv_message) in_trouble O) with (in_trouble, O, Ok (GFailure [])). cbv iota.
        rewrite exec_bindr. cbn [close]. unfold close_with. rewrite exec_get. change (c_closed in_trouble) with false. cbv iota.
        rewrite exec_bind. change (c_transaction in_trouble) with (Some O). cbv iota.
        destruct (exec hostile (rollback m 0) in_trouble O) as [[c s] r]. cbn [snd] in IH. subst r. eexists _, _. reflexivity. }
      destruct X as (c & s & ->). reflexivity. }
  intro n. exact (G n n (le_n _)).
Qed.
Lemma never_returns : exists (N : net nat) l w, used N l w
  /\ map snd l = [Ok (ATx 0)] /\ tx_closed (fst w) 0 = false
  /\ forall w' r, ~ does N (CRollback 0) w w' r.
Proof.
  exists hostile, [(CBegin [], Ok (ATx 0))], (in_trouble, O). split; [|split; [reflexivity|split; [reflexivity|]]].
  - exists (str "neo4j"), (str "secret"), 2%nat, (set_proto P4 (fresh_conn (str "neo4j") (str "secret")), 1%nat). split.
    + exists 5%nat. split; [vm_compute; reflexivity|discriminate].
    + eapply (hist_snoc hostile _ _ [] _ (CBegin []) (Ok (ATx 0))); [constructor|exact Logic.I|].
      exists 5%nat. split; [vm_compute; reflexivity|discriminate].
  - intros w' r (n & E & Hr). cbn [do_call fst snd] in E. unfold pmap in E. rewrite exec_bind in E.
    pose proof (hostile_loops n) as H. destruct (exec hostile (rollback n 0) in_trouble O) as [[c s] x]. cbn [snd] in H. subst x.
    injection E as _ _ <-. now elim Hr.
Qed.

(** A server that hung up, on a connection that is said to be fine. *)
Lemma not_told : exists P l c w c' w' e,
  session clean_call P4 P (str "neo4j") (str "secret") l (c, w)
  /\ c_closed c = false /\ s_mode (w_srv w) = Gone
  /\ does (wired P) CValidate (c, w) (c, w) (Ok (ABool true))
  /\ does (wired P) (CQuery q1 [] []) (c, w) (c', w') (Err e).
Proof.
  pose (P := demo V2 (script 4 [done; done; oops] true) false).
  pose (calls := [CBegin []; CTxQuery 0 q1 ps []; CCommit 0]).
  let x := eval vm_compute in (login calls P) in match x with Some (?h, (?c, ?w)) => exists P, h, c, w end.
  match goal with |- context [session _ _ ?P _ _ _ (?c, ?w)] =>
    let y := eval vm_compute in (exec (wired P) (do_call 50 (CQuery q1 [] [])) c w) in
    match y with (?c', ?w', Err ?e) => exists c', w', e end end.
  split; [|split; [reflexivity|split; [reflexivity|split]]].
  - apply (play_session_ok P4 [done; done; oops] true false 50) with (calls := calls); [plain_all|reflexivity|vm_compute; reflexivity].
  - apply (then_does _ 50); [vm_compute; reflexivity|discriminate].
  - apply (then_does _ 50); [vm_compute; reflexivity|discriminate].
Qed.

(** A transaction begun by statement. *)
Lemma not_rested : exists P l c w c' w',
  session clean_call P1 P (str "neo4j") (str "secret") l (c, w)
  /\ does (wired P) CMakeIdle (c, w) (c', w') (Ok ADone)
  /\ c_closed c' = false /\ s_tx (w_srv w') = Some (None, []).
Proof.
  pose (calls := [CQuery (str "BEGIN") [] []]).
  played P1 [done; done] false calls.
  match goal with |- context [session _ _ ?P _ _ _ (?c, ?w)] =>
    let y := eval vm_compute in (exec (wired P) (do_call 50 CMakeIdle) c w) in
    match y with (?c', ?w', Ok ?a) => exists c', w' end end.
  split; [|split; [|split; reflexivity]].
  - apply (play_session_ok P1 [done; done] false true 50) with (calls := calls); [plain_all|reflexivity|vm_compute; reflexivity].
  - apply (then_does _ 50); [vm_compute; reflexivity|discriminate].
Qed.

(** A transaction is undone. *)
Lemma polite_history {St} (N : net St) w l w' : history N clean_call w l w' -> Forall (fun x => forall p, ordinary_call p (fst x)) l -> history N polite w l w'.
Proof.
  induction 1 as [|w l w1 o r w2 H IH Hc Hd]; intros Hf; [constructor|]. apply Forall_app in Hf. destruct Hf as [Hf Ho]. inversion Ho; subst.
  econstructor; [now apply IH| |exact Hd]. split; auto.
Qed.
Lemma polite_session p P user password l x : session clean_call p P user password l x -> Forall (fun x => forall p, ordinary_call p (fst x)) l ->
  session polite p P user password l x.
Proof.
  intros (H1 & H2 & H3 & w0 & H4 & H5) Hf. split; [exact H1|]. split; [exact H2|]. split; [exact H3|]. exists w0.
  split; [exact H4|now apply polite_history].
Qed.
Lemma idle_case : exists P l c w c' w', session polite P3 P (str "neo4j") (str "secret") l (c, w) /\ s_tx (w_srv w) <> None
  /\ does (wired P) CMakeIdle (c, w) (c', w') (Ok ADone) /\ s_tx (w_srv w') = None.
Proof.
  pose (calls := [CBegin []; CTxExecDb 0 q2 ps []]).
  played P3 [done; done; rows; done] false calls.
  match goal with |- context [session _ _ ?P _ _ _ (?c, ?w)] =>
    let y := eval vm_compute in (exec (wired P) (do_call 50 CMakeIdle) c w) in
    match y with (?c', ?w', Ok ?a) => exists c', w' end end.
  split; [|split; [discriminate|split; [|reflexivity]]].
  - apply polite_session; [|repeat constructor; intros []; vm_compute; reflexivity].
    apply (play_session_ok P3 [done; done; rows; done] false true 50) with (calls := calls); [plain_all|reflexivity|vm_compute; reflexivity].
  - apply (then_does _ 50); [vm_compute; reflexivity|discriminate].
Qed.
