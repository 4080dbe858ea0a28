(** Counterexamples, computed on the servers of Cases.v. *)
From Coq Require Import String ZArith List Bool Lia.
From Verif Require Import Bytes GoVal GoErr Encoder Decoder SpecPack SpecValues SpecCodec SpecServer
  Messages Connection Errors Link ExecFacts CallFacts ServeFacts Wire WireFacts SpecSession OpenFacts SessionFacts TxFacts AnyNetFacts Demo DemoFacts MessageFacts Cases Concurrency.
Import ListNotations.
Open Scope Z_scope.

Lemma open_fails P user password w r : negotiated (p_judge P) = None -> greets_whole P ->
  (forall n, p_left P n = None) -> (forall n, p_late P n = None) ->
  opens (wired P) user password new_wire w r -> exists e, r = Err e.
Proof.
  intros H1 H2 H3 H4 (n & E & Hr). destruct (open_none P user password H1 H2 H3 H4) as (m & E' & _).
  assert (E1 : exec (wired P) (create_bolt_conn (Nat.max n m)) (fresh_conn user password) new_wire = (fst w, snd w, r)).
  { rewrite <- E. apply less_create; [lia|]. now rewrite E. }
  rewrite (less_create m (Nat.max n m) ltac:(lia)) in E1; [|rewrite E'; discriminate].
  rewrite E' in E1. injection E1 as _ _ <-. eauto.
Qed.
Lemma begin_carries p P user password l c w db c' w' a :
  session clean_call p P user password l (c, w) -> ready w -> asks c (CBegin db) KBegin -> s_tx (w_srv w) = None ->
  does (wired P) (CBegin db) (c, w) (c', w') (Ok a) ->
  s_tx (w_srv w') = Some (match p with P3 | P4 => name_of db | _ => None end, []).
Proof.
  intros Hs Hr Ha Ht Hd. assert (Al : allows KBegin (w_srv w)) by (unfold allows; now rewrite Ht).
  destruct (control_judged p P user password l c w (CBegin db) KBegin c' w' (Ok a) Hs Hr Ha Al Hd) as (_ & _ & _ & H).
  destruct (j_outcome (p_judge P) (s_next (w_srv w))).
  - destruct H as (_ & _ & _ & e & He & _). discriminate.
  - destruct H as (_ & H & _). rewrite H. destruct p; reflexivity.
  - destruct H as (_ & H & _). rewrite H. destruct p; reflexivity.
Qed.

(** One more call after a play, at a given amount of fuel. *)
Lemma then_does {St} (N : net St) n o c s c' s' r : exec N (do_call n o) c s = (c', s', r) -> r <> NoFuel ->
  does N o (c, s) (c', s') r.
Proof. intros E H. exists n. auto. Qed.

Ltac played p l strict calls :=
  let x := eval vm_compute in (login calls (server p l strict)) in
  match x with
  | Some (?h, (?c, ?w)) =>
      exists (server p l strict), h, c, w
  end.
Ltac one_more o :=
  match goal with
  | |- context [session _ _ ?P _ _ _ (?c, ?w)] =>
      let y := eval vm_compute in (exec (wired P) (do_call 50 o) c w) in
      match y with (?c', ?w', Ok ?a) => exists c', w', a | (?c', ?w', Err ?a) => exists c', w', a end
  end.
Ltac session_played p l strict :=
  apply (play_session_ok p l strict true 50) with (calls := _); [plain_all|reflexivity|vm_compute; reflexivity].

Lemma begin_drops : exists P l c w c' w' a,
  session clean_call P2 P (str "neo4j") (str "secret") l (c, w)
  /\ does (wired P) (CBegin (str "movies")) (c, w) (c', w') (Ok a)
  /\ s_tx (w_srv w') = Some (None, []) /\ multi_database (c_proto c) = false.
Proof.
  played P2 [done; rows] false [CQuery q1 ps []]. one_more (CBegin (str "movies")).
  split; [|split; [|split; reflexivity]].
  - apply (play_session_ok P2 [done; rows] false true 50) with (calls := [CQuery q1 ps []]); [plain_all|reflexivity|vm_compute; reflexivity].
  - apply (then_does _ 50); [vm_compute; reflexivity|discriminate].
Qed.
Lemma tx_query_drops : exists P l c w c' w' a st,
  session clean_call P4 P (str "neo4j") (str "secret") l (c, w)
  /\ does (wired P) (CTxQuery 0 q1 [] (str "movies")) (c, w) (c', w') (Ok a)
  /\ s_done (w_srv w') = s_done (w_srv w) ++ [st] /\ st_db (fst st) = None.
Proof.
  played P4 [done; rows] false [CBegin []]. one_more (CTxQuery 0 q1 [] (str "movies")).
  eexists. split; [|split; [|split]].
  - apply (play_session_ok P4 [done; rows] false true 50) with (calls := [CBegin []]); [plain_all|reflexivity|vm_compute; reflexivity].
  - apply (then_does _ 50); [vm_compute; reflexivity|discriminate].
  - vm_compute. reflexivity.
  - reflexivity.
Qed.

Ltac played_any p l strict calls :=
  let x := eval vm_compute in (login_any calls (server p l strict)) in
  match x with
  | Some (?h, (?c, ?w)) => exists (server p l strict), h, c, w
  end.
Ltac session_of p l strict calls0 :=
  apply (play_session_ok p l strict true 50) with (calls := calls0); [plain_all|reflexivity|vm_compute; reflexivity].
Ltac any_session_of p l strict calls0 :=
  apply (play_any_ok p l strict true 50) with (calls := calls0); [plain_all|reflexivity|vm_compute; reflexivity].
Ltac does_it := apply (then_does _ 50); [vm_compute; reflexivity|discriminate].

(** ** C31 *)
Lemma out_of_step : exists P l c w c' w' e,
  session (fun _ _ => True) P4 P (str "neo4j") (str "secret") l (c, w) /\ c_closed c = false
  /\ w_in w <> []
  /\ does (wired P) (CQuery q1 [] []) (c, w) (c', w') (Err e)
  /\ inner_most e = EFailure (j_breach (p_judge P)) /\ s_done (w_srv w') = s_done (w_srv w).
Proof.
  played_any P4 [done; rows] false [CSetChunk 4; CQuery q1 unsendable []]. one_more (CQuery q1 [] []).
  split; [any_session_of P4 [done; rows] false [CSetChunk 4; CQuery q1 unsendable []]|].
  split; [reflexivity|]. split; [discriminate|]. split; [does_it|]. split; reflexivity.
Qed.

(** ** C33 *)
Lemma not_recovered : exists P l c w,
  session clean_call P4 P (str "neo4j") (str "secret") l (c, w) /\ ready w /\ s_tx (w_srv w) = None
  /\ c_closed c = false /\ exists e, map snd l = [Ok (ATx 0); Err e] /\ inner_most e = EFailure fault.
Proof.
  played P4 [done; done; oops] false [CBegin []; CTxQuery 0 q1 [] []].
  split; [session_of P4 [done; done; oops] false [CBegin []; CTxQuery 0 q1 [] []]|].
  split; [repeat split|]. split; [reflexivity|]. split; [reflexivity|]. eexists. split; reflexivity.
Qed.
Lemma not_recovered_tx : exists P l c w,
  session clean_call P4 P (str "neo4j") (str "secret") l (c, w) /\ c_closed c = false
  /\ tx_closed c 0 = false /\ s_tx (w_srv w) = None.
Proof.
  played P4 [done; done; oops] false [CBegin []; CTxQuery 0 q1 [] []].
  split; [session_of P4 [done; done; oops] false [CBegin []; CTxQuery 0 q1 [] []]|]. repeat split.
Qed.
Lemma hangs_up : exists P l c w c' w' e,
  session clean_call P4 P (str "neo4j") (str "secret") l (c, w) /\ c_closed c = false
  /\ does (wired P) (CQuery q2 [] []) (c, w) (c', w') (Err e) /\ inner_most e = EEOF
  /\ exists e1 e2, map snd l = [Ok (ATx 0); Err e1; Err e2] /\ inner_most e1 = EFailure fault.
Proof.
  played P4 [done; done; oops] true [CBegin []; CTxQuery 0 q1 [] []; CRollback 0]. one_more (CQuery q2 [] []).
  split; [session_of P4 [done; done; oops] true [CBegin []; CTxQuery 0 q1 [] []; CRollback 0]|].
  split; [reflexivity|]. split; [does_it|]. split; [reflexivity|]. do 2 eexists. split; reflexivity.
Qed.

(** ** C36, C37 *)
Lemma not_atomic : exists P l c w,
  session clean_call P4 P (str "neo4j") (str "secret") l (c, w)
  /\ lg_perm (ledger_of l) = []
  /\ map fst l = [CBegin []; CTxQuery 0 q1 [] []; CTxQuery 0 q2 [] []; CRollback 0]
  /\ exists st, s_perm (w_srv w) = [st] /\ st_text st = q2.
Proof.
  played P4 [done; done; oops] false [CBegin []; CTxQuery 0 q1 [] []; CTxQuery 0 q2 [] []; CRollback 0].
  split; [session_of P4 [done; done; oops] false [CBegin []; CTxQuery 0 q1 [] []; CTxQuery 0 q2 [] []; CRollback 0]|].
  split; [reflexivity|]. split; [reflexivity|]. eexists. split; reflexivity.
Qed.
Lemma finished_runs : exists P l c w c' w' a,
  session clean_call P4 P (str "neo4j") (str "secret") l (c, w)
  /\ l = [(CBegin [], Ok (ATx 0)); (CTxQuery 0 q1 [] [], Ok (ARows [] [])); (CRollback 0, Ok ADone)]
  /\ does (wired P) (CTxQuery 0 q2 [] []) (c, w) (c', w') (Ok a)
  /\ exists st, s_perm (w_srv w') = s_perm (w_srv w) ++ [st] /\ st_text st = q2.
Proof.
  played P4 (@nil outcome) false [CBegin []; CTxQuery 0 q1 [] []; CRollback 0]. one_more (CTxQuery 0 q2 [] []).
  split; [session_of P4 (@nil outcome) false [CBegin []; CTxQuery 0 q1 [] []; CRollback 0]|].
  split; [reflexivity|]. split; [does_it|]. eexists. split; reflexivity.
Qed.

(** ** C39 *)
Lemma cannot_close : exists P l c w,
  session clean_call P4 P (str "neo4j") (str "secret") l (c, w) /\ c_closed c = false
  /\ forall l' c' w', history (wired P) clean_call (c, w) l' (c', w') ->
     c_closed c' = false /\ forall r, In (CClose, r) l' -> exists e, r = Err e.
Proof.
  destruct not_recovered_tx as (P & l & c & w & Hs & Hc & Ht & Htx). exists P, l, c, w.
  split; [exact Hs|]. split; [exact Hc|]. intros l' c' w' Hh.
  destruct (stuck_forever _ _ _ _ _ _ _ 0%nat l' c' w' Hs (or_intror eq_refl) Ht Htx Hh) as (H1 & _ & H2).
  split; [exact H1|]. intros r Hr. rewrite Forall_forall in H2. exact (H2 _ Hr).
Qed.

(** ** C40 *)
Lemma accepted_open p P user password c w : conforming p P -> zlen user <= 65535 -> zlen password <= 65535 ->
  opens (wired P) user password new_wire (c, w) (Ok tt) ->
  (forall md, j_outcome (p_judge P) 0 <> Refused md) /\ ready w /\ c_closed c = false.
Proof.
  intros HC Hu Hp Ho.
  assert (Hs : session clean_call p P user password [] (c, w)).
  { split; [exact HC|]. split; [exact Hu|]. split; [exact Hp|]. exists (c, w). split; [exact Ho|constructor]. }
  destruct HC as [Hv Hsd Hw]. destruct (open_does P p user password c w (Ok tt) Hv Hsd Hw Hu Hp Ho) as [Hc H].
  assert (Hc' : c_closed c = false) by (subst c; reflexivity).
  destruct (j_outcome (p_judge P) 0) eqn:E; destruct H as [H1 H2]; try discriminate;
    (split; [discriminate|]); (split; [|exact Hc']);
    destruct (linked_quiet _ _ _ _ _ H2 Hc') as [Q _]; (split; [exact Q|]);
    rewrite (m_srv _ _ _ _ (l_mirrors _ _ _ _ _ H2)); reflexivity.
Qed.
Lemma odd_reply : exists c, opens (parrot GIgnored) (str "neo4j") (str "secret") tt (c, tt) (Ok tt) /\ c_closed c = true.
Proof. eexists. split; [exists 50%nat; split; [vm_compute; reflexivity|discriminate]|reflexivity]. Qed.

(** ** C43 *)
Lemma failure_masks : exists P l c w c' w' e, 
  used (wired P) l (c, w) /\ conforming P4 (server P4 [done; oops] false) /\ P = break_at 7 0 (server P4 [done; oops] false)
  /\ does (wired P) (CQuery q1 [] []) (c, w) (c', w') (Err e) /\ w_dead w' = true /\ inner_most e = EFailure fault.
Proof.
  exists (break_at 7 0 (server P4 [done; oops] false)), [].
  pose (x := exec (wired (break_at 7 0 (server P4 [done; oops] false))) (create_bolt_conn 50) (fresh_conn (str "neo4j") (str "secret")) new_wire).
  let y := eval vm_compute in x in
  match y with (?c, ?w, _) => exists c, w;
    let z := eval vm_compute in (exec (wired (break_at 7 0 (server P4 [done; oops] false))) (do_call 50 (CQuery q1 [] [])) c w) in
    match z with (?c', ?w', Err ?e) => exists c', w', e end end.
  clear x. split; [|split; [|split; [reflexivity|split; [does_it|split; reflexivity]]]].
  - exists (str "neo4j"), (str "secret"), new_wire. eexists. split; [|constructor].
    exists 50%nat. split; [vm_compute; reflexivity|discriminate].
  - apply demo_conforming. plain_all.
Qed.

(** ** C44 *)
Lemma stale_rows : exists P l c w c' w' e, 
  used (wired P) l (c, w) /\ conforming P4 (server P4 [done; rows] false) /\ P = late_at 6 0 (server P4 [done; rows] false)
  /\ l = [(CQuery q1 [] [], Err e)]
  /\ does (wired P) (CQuery q2 [] []) (c, w) (c', w') (Ok (ARows [row1; row2] summary))
  /\ map (fun x => (st_text (fst x), snd x)) (s_done (w_srv w')) = [(q1, rows); (q2, done)].
Proof.
  exists (late_at 6 0 (server P4 [done; rows] false)).
  pose (x := login [CQuery q1 [] []] (late_at 6 0 (server P4 [done; rows] false))).
  let y := eval vm_compute in x in
  match y with Some (?l, (?c, ?w)) => exists l, c, w;
    let z := eval vm_compute in (exec (wired (late_at 6 0 (server P4 [done; rows] false))) (do_call 50 (CQuery q2 [] [])) c w) in
    match z with (?c', ?w', _) => exists c', w' end end.
  clear x. eexists. split; [|split; [|split; [reflexivity|split; [reflexivity|split; [does_it|reflexivity]]]]].
  - exists (str "neo4j"), (str "secret"), new_wire.
    let y := eval vm_compute in (exec (wired (late_at 6 0 (server P4 [done; rows] false))) (create_bolt_conn 50) (fresh_conn (str "neo4j") (str "secret")) new_wire) in
    match y with (?c, ?w, _) => exists (c, w) end.
    split; [exists 50%nat; split; [vm_compute; reflexivity|discriminate]|].
    apply (play_history _ 50 (fun _ _ => true) (fun _ _ => True)) with (calls := [CQuery q1 [] []]); [auto|vm_compute; reflexivity].
  - apply demo_conforming. plain_all.
Qed.

(** ** What the theorems of PropsConnection.v say, from the lemmas *)
Lemma in_step p P user password l c w : session clean_call p P user password l (c, w) -> c_closed c = false -> quiet w.
Proof.
  intros Hs Hc. destruct (session_linked _ _ _ _ _ _ _ Hs) as (s & _ & L & _). now destruct (linked_quiet _ _ _ _ _ L Hc).
Qed.
Lemma call_returns p P user password l c w o : session clean_call p P user password l (c, w) -> clean_call c o ->
  exists c' w' r, does (wired P) o (c, w) (c', w') r.
Proof.
  intros Hs Ho. destruct (session_linked _ _ _ _ _ _ _ Hs) as (s & _ & L & _ & HP & _). exact (wire_returns P (codec p) HP o c w s L Ho).
Qed.
Lemma one_at_a_time {St} (N : net St) l c s t db : used N l (c, s) -> tx_closed c t = false -> refuses N (CBegin db) (c, s).
Proof. intros H Ht. exact (refuse_begin N c s t db (used_decent N l (c, s) H) Ht). Qed.
Lemma begin_opens {St} (N : net St) l c s db c' s' t : used N l (c, s) -> does N (CBegin db) (c, s) (c', s') (Ok (ATx t)) ->
  tx_closed c' t = false.
Proof. intros H Hd. exact (proj1 (begun_open N db c s c' s' t (used_decent N l (c, s) H) Hd)). Qed.
Lemma all_ended {St} (N : net St) l c s o t c' s' a : used N l (c, s) -> ends o t -> does N o (c, s) (c', s') (Ok a) ->
  forall u, tx_closed c' u = true.
Proof.
  intros U Ho Hd u. pose proof (used_decent N l (c, s) U) as D. cbn [fst] in D.
  destruct (ended_closed N o t c s c' s' a D Ho Hd) as (H1 & H2 & _). destruct Hd as (n & E & _). cbn [fst snd] in E.
  destruct (call_decent N n o c s c' s' (Ok a) D E) as [D' _].
  destruct (tx_closed c' u) eqn:Eu; [reflexivity|exfalso]. apply (d_txs _ D') in Eu.
  assert (Hp : plain_call o) by (destruct Ho as [-> | ->]; exact I).
  pose proof (fine_call n o Hp St N c s (d_txs _ D)) as A. rewrite E in A. cbn [fst] in A.
  destruct A as (_ & _ & _ & _ & [[A1 A2]|(v & A1 & A2 & _)]); [|congruence].
  unfold tx_closed in H1, H2. rewrite A1 in H2. congruence.
Qed.
(** After an end the session is ready, and the next Begin is judged by the database alone. *)
Lemma end_ready p P user password l c w o t c' w' a :
  session clean_call p P user password l (c, w) -> ends o t -> does (wired P) o (c, w) (c', w') (Ok a) ->
  ready w' /\ s_tx (w_srv w') = None.
Proof.
  intros Hs Ho Hd. destruct (session_linked _ _ _ _ _ _ _ Hs) as (s & _ & L & Hp & HP & _).
  assert (Hcl : clean_call c o) by (destruct Ho as [-> | ->]; exact I).
  destruct (wire_does P (codec p) HP o c w s c' w' (Ok a) L Hcl Hd) as (s' & E & L').
  assert (X : exists k, k <> KBegin /\ a_end (p_judge P) k c s t = (c', s', Ok tt)).
  { destruct Ho as [-> | ->]; cbn [astep] in E; [exists KCommit|exists KRollback]; (split; [discriminate|]);
      destruct (a_end (p_judge P) _ c s t) as [[c1 s1] []]; cbn in E; try discriminate; injection E as -> -> _; now destruct a0. }
  destruct X as (k & Hk & X). unfold a_end in X. destruct (tx_closed c t) eqn:Et; [discriminate|].
  destruct (s_mode s) eqn:Em; try discriminate.
  assert (Hc : c_closed c = false).
  { destruct (c_closed c) eqn:Hc; [|reflexivity]. destruct (i_closed _ _ (l_inv _ _ _ _ _ L) Hc) as (_ & _ & Z). congruence. }
  destruct (control_error (p_judge P) k (native (c_proto c)) s) eqn:Ee; [discriminate|]. injection X as <- <-.
  assert (Hc' : c_closed (end_tx t c) = false) by exact Hc.
  destruct (linked_quiet _ _ _ _ _ L' Hc') as [Q _]. unfold ready.
  assert (Es' : w_srv w' = bare (after_control (p_judge P) k None (native (c_proto c)) s)) by apply L'.
  rewrite Es' in *. unfold control_error, after_control in *.
  destruct (control_fits k s) eqn:Ef; [|discriminate].
  destruct (j_outcome (p_judge P) (s_next s)); [discriminate| |]; (split; [split; [exact Q|reflexivity]|]);
    cbn; destruct k; try reflexivity; now elim Hk.
Qed.
Lemma history_weaken {St} (N : net St) (C D : conn -> call -> Prop) : (forall c o, C c o -> D c o) ->
  forall w l w', history N C w l w' -> history N D w l w'.
Proof. intros H w l w' Hh. induction Hh; [constructor|]. eapply hist_snoc; eauto. Qed.
Lemma begins_again p P user password l c w o t c1 w1 a db c2 w2 r :
  session clean_call p P user password l (c, w) -> ends o t -> does (wired P) o (c, w) (c1, w1) (Ok a) ->
  sendable (codec (c_proto c1)) (c_chunk c1) (fst (get_begin_message (c_proto c1) db (c_mode c1))) = true ->
  does (wired P) (CBegin db) (c1, w1) (c2, w2) r ->
  match j_outcome (p_judge P) (s_next (w_srv w1)) with
  | Refused md => exists e, r = Err e /\ inner_most e = EFailure md
  | _ => exists t', r = Ok (ATx t') /\ tx_closed c2 t' = false
  end.
Proof.
  intros Hs Ho Hd Hm Hb. destruct (end_ready _ _ _ _ _ _ _ _ _ _ _ _ Hs Ho Hd) as [Hr Ht].
  assert (Hcl : clean_call c o) by (destruct Ho as [-> | ->]; exact I).
  pose proof Hs as (HC & Hu & Hpw & w0 & Hop & Hh).
  assert (U : used (wired P) l (c, w)).
  { exists user, password, new_wire, w0. split; [exact Hop|]. revert Hh. now apply history_weaken. }
  assert (Hs1 : session clean_call p P user password (l ++ [(o, Ok a)]) (c1, w1)).
  { split; [exact HC|]. split; [exact Hu|]. split; [exact Hpw|]. exists w0. split; [exact Hop|]. eapply hist_snoc; eassumption. }
  assert (U1 : used (wired P) (l ++ [(o, Ok a)]) (c1, w1)).
  { exists user, password, new_wire, w0. split; [exact Hop|]. eapply hist_snoc; [|exact I|exact Hd]. revert Hh. now apply history_weaken. }
  assert (Ha : asks c1 (CBegin db) KBegin) by (split; [exact (all_ended _ _ _ _ _ _ _ _ _ U Ho Hd)|exact Hm]).
  assert (Al : allows KBegin (w_srv w1)) by (unfold allows; now rewrite Ht).
  destruct (control_judged _ _ _ _ _ _ _ _ _ _ _ _ Hs1 Hr Ha Al Hb) as (_ & _ & _ & X).
  assert (T : forall b, r = Ok b -> exists t', b = ATx t').
  { intros b ->. destruct Hb as (n & E & _). cbn [do_call fst snd] in E. unfold pmap in E. rewrite exec_bind in E.
    destruct (exec (wired P) (begin_db n db) c1 w1) as [[c3 w3] []]; try discriminate. cbn in E. injection E as _ _ <-. eauto. }
  destruct (j_outcome (p_judge P) (s_next (w_srv w1))).
  - now destruct X as (_ & _ & _ & X).
  - destruct X as [[b Hb'] _]. destruct (T b Hb') as [t' ->]. exists t'. split; [exact Hb'|]. subst r. exact (begin_opens _ _ _ _ _ _ _ _ U1 Hb).
  - destruct X as [[b Hb'] _]. destruct (T b Hb') as [t' ->]. exists t'. split; [exact Hb'|]. subst r. exact (begin_opens _ _ _ _ _ _ _ _ U1 Hb).
Qed.
Lemma closed_refuses {St} (N : net St) l w a w1 l' w2 o : used N l w -> does N CClose w w1 (Ok a) ->
  history N (fun _ _ => True) w1 l' w2 -> statement_of o <> None \/ (exists db, o = CBegin db) -> refuses N o w2.
Proof.
  intros H Hd Hh Ho. pose proof (closed_for_good N l w a w1 l' w2 H Hd Hh) as Hc. destruct w2 as [c2 s2].
  destruct Ho as [Ho|[db ->]]; [now apply refuse_closed_query|now apply refuse_closed_begin].
Qed.
Lemma closed_closes {St} (N : net St) l w a w1 l' w2 w3 r : used N l w -> does N CClose w w1 (Ok a) ->
  history N (fun _ _ => True) w1 l' w2 -> does N CClose w2 w3 r -> w3 = w2 /\ r = Err (ESentinel 4).
Proof.
  intros H Hd Hh H3. pose proof (closed_for_good N l w a w1 l' w2 H Hd Hh) as Hc. destruct w2 as [c2 s2].
  now apply (close_again N c2 s2).
Qed.

(** ** C42 *)
Definition stealing : option (sys wire (list (call * res answer))) :=
  let P := server P4 [done; rows] false in
  let '(c, w) := final (login [] P) in
  schedule (wired P) (repeat 0%nat 9 ++ repeat 1%nat 5 ++ repeat 0%nat 5) (start 50 c w [[CQuery q1 [] []]; [CBegin []]]).
Lemma stolen : exists P c w x e,
  session clean_call P4 P (str "neo4j") (str "secret") [] (c, w)
  /\ (exists is, schedule (wired P) is (start 50 c w [[CQuery q1 [] []]; [CBegin []]]) = Some x)
  /\ finished x [[(CQuery q1 [] [], Ok (ARows [row2] summary))]; [(CBegin [], Err e)]]
  /\ map (fun y => (st_text (fst y), snd y)) (s_done (w_srv (sy_net x))) = [(q1, rows)]
  /\ w_down (sy_net x) <> [].
Proof.
  exists (server P4 [done; rows] false).
  let x := eval vm_compute in (login [] (server P4 [done; rows] false)) in
  match x with Some (_, (?c, ?w)) => exists c, w end.
  let y := eval vm_compute in stealing in match y with Some ?x => exists x end.
  eexists. split; [session_of P4 [done; rows] false (@nil call)|].
  split; [exists (repeat 0%nat 9 ++ repeat 1%nat 5 ++ repeat 0%nat 5); vm_compute; reflexivity|].
  split; [split; vm_compute; reflexivity|]. split; [reflexivity|discriminate].
Qed.
