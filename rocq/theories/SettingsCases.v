(** A driver pool of connections with deadlines: cases of C132. *)
From Coq Require Import String ZArith List Bool Lia.
From Verif Require Import Bytes GoVal GoErr Encoder Decoder Messages Connection Link ExecFacts Errors SpecTime Timing Clock SendFacts Cases Settings SpecSettings SettingsFacts.
From Verif Require DriverPool SpecDriver SpecShare Pool SpecPool DemoPool.
Import ListNotations.
Open Scope Z_scope.

(** ** With no patience *)
Lemma no_patience T tz c k q ps db x r : T <= 0 -> c_closed c = false -> (multi_database (c_proto c) = true \/ db = []) ->
  snd (encode (codec (c_proto c)) (run_msg c q ps db false)) = None -> does (timed T tz) (CQuery q ps db) (c, k) x r ->
  exists e, r = Err e /\ inner_most e = EBadConn /\ fst x = c /\ k_in (snd x) = k_in k /\ k_now (snd x) = k_now k /\ t_out (k_send (snd x)) = t_out (k_send k).
Proof.
  intros HT Hc Hd He (n & E & _). destruct (send_no_patience T _ (c_chunk c) (k_send k) _ HT He) as (e & s' & S1 & S2 & S3 & S4).
  destruct x as [c1 k1]. cbn [do_call fst snd] in E. unfold pmap, Connection.bind in E. rewrite exec_bindr in E. unfold query_db in E. cbn [exec] in E.
  assert (G : negb (multi_database (c_proto c)) && negb (bytes_eqb db []) = false) by (destruct Hd as [-> | ->]; [reflexivity|cbn; apply andb_false_r]).
  rewrite G in E. unfold run_query in E. cbn [exec] in E. rewrite exec_bindr in E. cbn [exec] in E. rewrite Hc in E. unfold Connection.bind at 1 in E. rewrite exec_bindr in E.
  unfold send_message at 1 in E. cbn [exec timed n_send] in E. unfold run_msg in S1. rewrite S1 in E. cbn in E. injection E as <- <- <-.
  exists e. cbn [fst snd k_in k_send]. unfold k_now. cbn [k_send]. auto 10.
Qed.

(** ** The pool *)
Definition tcells := list (tuned clock).
Definition silent_clock : clock := mkClock (mkSender 0 [] [] 0) (mkIncoming [] None).
Definition tcell (w : tcells) (c : nat) : tuned clock := nth c w (0, (fresh_conn [] [], silent_clock)).
Fixpoint set_tcell (c : nat) (x : tuned clock) (w : tcells) : tcells :=
  match w, c with
  | [], _ => []
  | _ :: w', O => x :: w'
  | y :: w', S c' => y :: set_tcell c' x w'
  end.
Definition tcells_made (w : tcells) : list nat := seq 0 (length w).
Section Demo.
Variables (tz : zones) (start : nat -> clock) (n : nat) (t0 : Z) (user password : bytes).
Definition on_tcell (o : tcall) (c : nat) (w : tcells) : tcells * option (res answer) :=
  match tuned_exec (fun T => timed T tz) n o (tcell w c) with
  | (_, NoFuel) => (w, None)
  | (x, r) => (set_tcell c x w, Some r)
  end.
Definition dial_tcell (w : tcells) : tcells * res nat :=
  match exec (timed t0 tz) (create_bolt_conn n) (fresh_conn user password) (start (length w)) with
  | (k, v, Ok tt) => (w ++ [(t0, (k, v))], Ok (length w))
  | (_, _, Err e) => (w, Err e)
  | (_, _, Panic) => (w, Panic)
  | (_, _, NoFuel) => (w, NoFuel)
  end.
Definition tdone {A} (a : A) (r : option (res answer)) : res A :=
  match r with Some (Ok _) => Ok a | Some (Err e) => Err e | Some Panic => Panic | Some NoFuel | None => NoFuel end.
Definition tuned_net : DriverPool.net tcells :=
  DriverPool.mkNet dial_tcell
    (fun c w => let '(w', r) := on_tcell (TCall CValidate) c w in (w', match r with Some (Ok (ABool b)) => b | _ => false end))
    (fun c w => let '(w', r) := on_tcell (TCall CClose) c w in (w', tdone tt r))
    (fun c w => let '(w', r) := on_tcell (TCall CMakeIdle) c w in (w', tdone tt r)).
Lemma set_tcell_length c x w : length (set_tcell c x w) = length w.
Proof. revert c. induction w as [|y w IH]; intros [|c]; cbn; auto. Qed.
Lemma set_tcell_same c x w : In c (tcells_made w) -> tcell (set_tcell c x w) c = x.
Proof.
  unfold tcells_made, tcell. rewrite in_seq. revert c. induction w as [|y w IH]; intros [|c]; cbn [length nth set_tcell]; intros H; try lia; try reflexivity.
  apply IH. lia.
Qed.
Lemma set_tcell_other c x w d : d <> c -> tcell (set_tcell c x w) d = tcell w d.
Proof. unfold tcell. revert c d. induction w as [|y w IH]; intros [|c] [|d] H; cbn [nth set_tcell]; auto; congruence. Qed.
Notation Net := (fun (_ : nat) T => timed T tz).
Lemma on_tcell_only o c w w' r : In c (tcells_made w) -> on_tcell o c w = (w', r) ->
  tcells_made w' = tcells_made w /\ (forall d, d <> c -> tcell w' d = tcell w d)
  /\ match r with Some r => tuned_does (Net c) o (tcell w c) (tcell w' c) r | None => tcell w' c = tcell w c end.
Proof.
  intros Hc. unfold on_tcell. destruct (tuned_exec _ n o (tcell w c)) as [x [a|e| |]] eqn:E; intros [= <- <-]; (split; [unfold tcells_made; now rewrite ?set_tcell_length|]);
    (split; [intros d Hd; auto using set_tcell_other|]); [..|reflexivity]; rewrite (set_tcell_same _ _ _ Hc); exists n; (split; [exact E|discriminate]).
Qed.
Lemma on_tcell_call o c w w' r : In c (tcells_made w) -> on_tcell (TCall o) c w = (w', r) -> only_call tcells_made Net tcell c o w w'.
Proof.
  intros Hc E. destruct (on_tcell_only _ _ _ _ _ Hc E) as (A & B & C). split; [exact A|]. split; [exact B|]. destruct r as [r|]; [right; now exists r|now left].
Qed.
Lemma on_tcell_made o c w : tcells_made (fst (on_tcell o c w)) = tcells_made w.
Proof. unfold on_tcell, tcells_made. destruct (tuned_exec _ _ _ _) as [x [a|e| |]]; cbn [fst]; now rewrite ?set_tcell_length. Qed.
Lemma tuned_net_fresh : SpecDriver.fresh_net tuned_net tcells_made.
Proof.
  constructor.
  - intros w c Hc. cbn [tuned_net DriverPool.n_make]. unfold dial_tcell, tcells_made in *. apply in_seq in Hc.
    destruct (exec _ _ _ _) as [[k v] [[]|e| |]]; cbn [fst]; rewrite ?app_length; apply in_seq; cbn [length]; lia.
  - intros w w' c. cbn. unfold dial_tcell, tcells_made. destruct (exec _ _ _ _) as [[k v] [[]|e| |]]; try discriminate. intros [= <- <-]. rewrite app_length, !in_seq. cbn [length]. lia.
  - intros c w. cbn. pose proof (on_tcell_made (TCall CValidate) c w) as H. destruct (on_tcell _ _ _). cbn in *. rewrite H. apply incl_refl.
  - intros c w. cbn. pose proof (on_tcell_made (TCall CClose) c w) as H. destruct (on_tcell _ _ _). cbn in *. rewrite H. apply incl_refl.
  - intros c w. cbn. pose proof (on_tcell_made (TCall CMakeIdle) c w) as H. destruct (on_tcell _ _ _). cbn in *. rewrite H. apply incl_refl.
Qed.
Lemma tuned_net_over : over_tuned tuned_net tcells_made Net t0 user password tcell.
Proof.
  constructor.
  - intros w w' r. cbn. unfold dial_tcell. destruct (exec _ _ _ _) as [[k v] [[]|e| |]] eqn:E; intros [= <- <-]; [|split; [auto|split; [auto|discriminate]]..].
    unfold tcells_made, tcell. rewrite app_length. cbn [length]. split; [|split].
    + intros c. rewrite !in_seq. intros Hc. destruct (Nat.eq_dec c (length w)) as [->|]; [now right|left; lia].
    + intros c Hc. apply in_seq in Hc. now rewrite app_nth1 by lia.
    + intros c [= <-]. exists (start (length w)), (k, v). split; [exists n; split; [exact E|discriminate]|]. rewrite app_nth2, Nat.sub_diag by lia. reflexivity.
  - intros c w w' b Hc. cbn. destruct (on_tcell (TCall CValidate) c w) as [w1 r1] eqn:E. intros [= <- <-]. exact (on_tcell_call _ _ _ _ _ Hc E).
  - intros c w w' b Hc. cbn. destruct (on_tcell (TCall CClose) c w) as [w1 r1] eqn:E. intros [= <- <-]. exact (on_tcell_call _ _ _ _ _ Hc E).
  - intros c w w' b Hc. cbn. destruct (on_tcell (TCall CMakeIdle) c w) as [w1 r1] eqn:E. intros [= <- <-]. exact (on_tcell_call _ _ _ _ _ Hc E).
Qed.
Definition tcell_use (o : tcall) (c : nat) (w : tcells * list (nat * tcall)) : tcells * list (nat * tcall) := (fst (on_tcell o c (fst w)), snd w ++ [(c, o)]).
Lemma tcell_use_ok o c w : In c (tcells_made (fst w)) -> snd (on_tcell o c (fst w)) <> None -> tuned_use tcells_made Net tcell c w (tcell_use o c w).
Proof.
  intros Hc Hr. unfold tcell_use. destruct (on_tcell o c (fst w)) as [w' r] eqn:E. cbn [fst snd] in *. destruct (on_tcell_only _ _ _ _ _ Hc E) as (A & B & C).
  split; [exact A|]. split; [exact B|]. destruct r as [r|]; [|now elim Hr]. exists o, r. auto.
Qed.
(** For the routing pool; names are runs of the letter a. *)
Definition overview_tcall (w : tcells) (c : nat) : call :=
  CQuery (str "call dbms.cluster.overview()") [] (match c_proto (fst (snd (tcell w c))) with P4 => str "system" | _ => [] end).
Definition tuned_cluster : Pool.cluster (tcells * nat) :=
  Pool.mkCluster
    (fun _ w => let '(w', r) := dial_tcell (fst w) in (w', snd w, r))
    (fun c w => let '(w', r) := on_tcell (TCall CValidate) c (fst w) in (w', snd w, match r with Some (Ok (ABool b)) => b | _ => false end))
    (fun c w => let '(w', r) := on_tcell (TCall CClose) c (fst w) in
                (w', snd w, match tdone tt r with Ok _ => None | Err e => Some e | _ => Some (ENew (TMsg 1)) end))
    (fun c w => let '(w', r) := on_tcell (TCall (overview_tcall (fst w) c)) c (fst w) in
                (w', snd w, (proto_number (c_proto (fst (snd (tcell (fst w) c)))), match r with Some (Ok (ARows l _)) => Ok l | Some (Err e) => Err e | Some Panic => Panic | _ => NoFuel end)))
    (fun w => (fst w, S (snd w), repeat "a"%byte (snd w))).
Definition opened_tcells (w : tcells * nat) : list nat := tcells_made (fst w).
Definition named_tcells (w : tcells * nat) : list bytes := map (repeat "a"%byte) (seq 0 (snd w)).
Definition tcell_of (w : tcells * nat) (c : nat) : tuned clock := tcell (fst w) c.
Lemma tuned_cluster_fresh : SpecPool.fresh tuned_cluster opened_tcells named_tcells.
Proof.
  assert (O : forall o c w, incl (opened_tcells w) (opened_tcells (fst (on_tcell o c (fst w)), snd w)) /\ incl (named_tcells w) (named_tcells (fst (on_tcell o c (fst w)), snd w))).
  { intros o c w. unfold opened_tcells, named_tcells. cbn [fst snd]. rewrite on_tcell_made. split; apply incl_refl. }
  constructor; cbn [tuned_cluster Pool.k_dial Pool.k_valid Pool.k_close Pool.k_query Pool.k_name].
  - intros s w. pose proof (SpecDriver.fn_make _ _ tuned_net_fresh (fst w)) as H. cbn in H. destruct (dial_tcell (fst w)) as [w' r]. split; [exact H|apply incl_refl].
  - intros s w w' h. pose proof (SpecDriver.fn_new _ _ tuned_net_fresh (fst w)) as H. cbn in H. destruct (dial_tcell (fst w)) as [w1 r]. intros [= <- ->]. now apply H.
  - intros h w. specialize (O (TCall CValidate) h w). now destruct (on_tcell (TCall CValidate) h (fst w)).
  - intros h w. specialize (O (TCall CClose) h w). now destruct (on_tcell (TCall CClose) h (fst w)).
  - intros h w. specialize (O (TCall (overview_tcall (fst w) h)) h w). now destruct (on_tcell (TCall (overview_tcall (fst w) h)) h (fst w)).
  - intros w. split; [apply incl_refl|]. unfold named_tcells. cbn [fst snd]. rewrite seq_S, map_app. apply incl_appl, incl_refl.
  - intros w w' s [= <- <-]. unfold named_tcells. cbn [snd]. split.
    + rewrite in_map_iff. intros (k & Hk & Hin). apply in_seq in Hin. apply (f_equal (@length _)) in Hk. rewrite !repeat_length in Hk. lia.
    + apply in_map, in_seq. lia.
Qed.
Lemma set_tcell_out c x w : (length w <= c)%nat -> set_tcell c x w = w.
Proof. revert c. induction w as [|y w IH]; intros [|c] H; cbn [set_tcell length] in *; try reflexivity; try lia. now rewrite IH by lia. Qed.
Lemma on_tcell_any o c w w' r : on_tcell (TCall o) c w = (w', r) -> only_call tcells_made Net tcell c o w w'.
Proof.
  intros E. destruct (in_dec Nat.eq_dec c (tcells_made w)) as [Hc|Hc]; [exact (on_tcell_call _ _ _ _ _ Hc E)|].
  assert (L : (length w <= c)%nat) by (unfold tcells_made in Hc; rewrite in_seq in Hc; lia). unfold on_tcell in E.
  assert (X : w' = w) by (destruct (tuned_exec _ n (TCall o) (tcell w c)) as [x [a|e| |]]; injection E as <- _; auto using set_tcell_out). subst w'. split; [reflexivity|]. split; [reflexivity|now left].
Qed.
Lemma tuned_cluster_over : cluster_tuned tuned_cluster opened_tcells Net tcell_of.
Proof.
  constructor; cbn [tuned_cluster Pool.k_dial Pool.k_valid Pool.k_close Pool.k_query Pool.k_name].
  - intros s w h Hh. unfold opened_tcells, tcells_made, tcell_of, tcell in *. apply in_seq in Hh. unfold dial_tcell.
    destruct (exec _ _ _ _) as [[k v] [[]|e| |]]; cbn [fst]; try reflexivity. now rewrite app_nth1 by lia.
  - intros h w. destruct (on_tcell (TCall CValidate) h (fst w)) as [w1 r1] eqn:E. exact (on_tcell_any _ _ _ _ _ E).
  - intros h w. destruct (on_tcell (TCall CClose) h (fst w)) as [w1 r1] eqn:E. exact (on_tcell_any _ _ _ _ _ E).
  - intros h w. eexists _, _. destruct (on_tcell (TCall (overview_tcall (fst w) h)) h (fst w)) as [w1 r1] eqn:E. exact (on_tcell_any _ _ _ _ _ E).
  - intros w. split; reflexivity.
Qed.
End Demo.

(** A server of protocol version 4 that takes what it is sent at once and has its answers ready from the beginning: the
    version, then [l]. *)
Definition ready (l : list gval) : clock :=
  mkClock (mkSender 0 (repeat 0 600) [] 0) (mkIncoming ((0, [x00; x00; x00; x04]) :: map (fun m => (0, fst (marshal (codec P4) m))) l) None).
Definition two_answers : list gval := [GSuccess []; GSuccess []; GRecord [GStr (str "Ann")]; GSuccess []; GSuccess []; GRecord [GStr (str "Bob")]; GSuccess []].
Definition no_zones : zones := fun _ => None.
Definition inn := tuned_net no_zones (fun _ => ready two_answers) 50 30000000000 (str "neo4j") (str "secret").
Definition inn_use := tcell_use no_zones 50.
Definition inn_says (o : call) (w : tcells) : option (res answer) := snd (on_tcell no_zones 50 (TCall o) 0 w).
Definition inn_lent := DriverPool.do_event (with_calls inn) DriverPool.EvOpen (DriverPool.new_driver_pool 1) ([], []).
Definition inn_asked := inn_use (TCall (CQuery q1 [] [])) 0 (snd (fst inn_lent)).
Definition inn_spoilt := inn_use (TCall (CSetChunk 100)) 0 (inn_use (TSetTimeout 0) 0 inn_asked).
Definition inn_back := DriverPool.do_event (with_calls inn) (DriverPool.EvReclaim (Some 0%nat)) (fst (fst inn_lent)) inn_spoilt.
Definition inn_again := DriverPool.do_event (with_calls inn) DriverPool.EvOpen (fst (fst inn_back)) (snd (fst inn_back)).
Definition inn_log : list (DriverPool.devent * DriverPool.dres) :=
  [(DriverPool.EvOpen, DriverPool.DLent 0); (DriverPool.EvReclaim (Some 0%nat), DriverPool.DDone)].
Lemma inn_shared : SpecShare.shared (with_calls inn) (tuned_use tcells_made (fun _ T => timed T no_zones) tcell) 1 ([], []) inn_log (fst (fst inn_back)) (snd (fst inn_back)).
Proof.
  change inn_log with (([] ++ [(DriverPool.EvOpen, DriverPool.DLent 0)]) ++ [(DriverPool.EvReclaim (Some 0%nat), DriverPool.DDone)]).
  eapply SpecShare.sh_event with (w := inn_spoilt) (d := fst (fst inn_lent)); [|vm_compute; auto|vm_compute; reflexivity].
  apply SpecShare.sh_use with (c := 0%nat) (w := inn_use (TSetTimeout 0) 0 inn_asked); [|vm_compute; auto|].
  - apply SpecShare.sh_use with (c := 0%nat) (w := inn_asked); [|vm_compute; auto|].
    + apply SpecShare.sh_use with (c := 0%nat) (w := snd (fst inn_lent)); [|vm_compute; auto|].
      * eapply SpecShare.sh_event; [apply SpecShare.sh_new|exact Logic.I|vm_compute; reflexivity].
      * apply (tcell_use_ok no_zones (fun _ => silent_clock) 50); [vm_compute; auto|vm_compute; discriminate].
    + apply (tcell_use_ok no_zones (fun _ => silent_clock) 50); [vm_compute; auto|vm_compute; discriminate].
  - apply (tcell_use_ok no_zones (fun _ => silent_clock) 50); [vm_compute; auto|vm_compute; discriminate].
Qed.
Lemma inn_lends : DriverPool.do_event (with_calls inn) DriverPool.EvOpen (fst (fst inn_back)) (snd (fst inn_back)) = (fst (fst inn_again), snd (fst inn_again), DriverPool.DLent 0).
Proof. vm_compute. reflexivity. Qed.
Lemma inn_fresh : SpecDriver.fresh_net inn tcells_made. Proof. apply tuned_net_fresh. Qed.
Lemma inn_over : over_tuned inn tcells_made (fun _ T => timed T no_zones) 30000000000 (str "neo4j") (str "secret") tcell.
Proof. apply tuned_net_over. Qed.
(** A routing pool: the first connection is the one that asks for the members. *)
Definition village_start (c : nat) : clock :=
  match c with O => ready (GSuccess [] :: GSuccess [] :: map GRecord DemoPool.usual ++ [GSuccess []; GSuccess []]) | _ => ready two_answers end.
Definition village := tuned_cluster no_zones village_start 50 30000000000 (str "neo4j") (str "secret").
Definition village_lent := Pool.run_pool village [Pool.OStart; Pool.OBorrow Messages.WriteMode] (DemoPool.demo_pool 2) ([], 0%nat).
Definition village_spoilt : tcells * nat := (fst (on_tcell no_zones 50 (TSetTimeout 0) 1 (fst (snd (fst village_lent)))), snd (snd (fst village_lent))).
Definition village_again := Pool.run_pool village [Pool.OReclaim (str "1-") 1; Pool.OBorrow Messages.WriteMode] (fst (fst village_lent)) village_spoilt.
Lemma village_case : exists W St (K : Pool.cluster W) opened named (Net : nat -> Z -> net St) cell w0 l q w w1 q' w' h id,
  SpecPool.fresh K opened named /\ cluster_tuned K opened Net cell /\ SpecPool.pool_history K 2 (str "neo4j:secret") [] w0 l q w
  /\ l = [(Pool.OStart, Pool.RDone); (Pool.OBorrow WriteMode, Pool.RLent id h)]
  /\ (forall d, d <> h -> cell w1 d = cell w d) /\ tuned_does (Net h) (TSetTimeout 0) (cell w h) (cell w1 h) (Ok ADone)
  /\ Pool.run_pool K [Pool.OReclaim id h; Pool.OBorrow WriteMode] q w1 = (q', w', [(Pool.OReclaim id h, Pool.RDone); (Pool.OBorrow WriteMode, Pool.RLent id h)])
  /\ settings (cell w h) = (30000000000, 65535) /\ settings (cell w' h) = (0, 65535).
Proof.
  exists (tcells * nat)%type, clock, village, opened_tcells, named_tcells, (fun _ T => timed T no_zones), tcell_of, ([], 0%nat), (snd village_lent), (fst (fst village_lent)), (snd (fst village_lent)),
    village_spoilt, (fst (fst village_again)), (snd (fst village_again)), 1%nat, (str "1-").
  split; [apply tuned_cluster_fresh|]. split; [apply tuned_cluster_over|]. split; [exists DemoPool.leader_string, (DemoPool.demo_pool 2); split; [reflexivity|vm_compute; reflexivity]|].
  split; [vm_compute; reflexivity|]. split; [intros d Hd; unfold village_spoilt, tcell_of, on_tcell; exact (set_tcell_other 1 _ _ d Hd)|].
  split; [exists 0%nat; split; [vm_compute; reflexivity|discriminate]|]. split; [vm_compute; reflexivity|]. split; vm_compute; reflexivity.
Qed.
(** A connection of its own. *)
Definition hermit_open := exec (timed 30000000000 no_zones) (create_bolt_conn 50) (fresh_conn (str "neo4j") (str "secret")) (ready (firstn 4 two_answers)).
Definition hermit (o : tcall) (x : tuned clock) : tuned clock := fst (tuned_exec (fun T => timed T no_zones) 50 o x).
Definition hermit_end : tuned clock := hermit (TCall (CExec q2 [] [])) (hermit (TCall (CSetChunk 100)) (hermit (TSetTimeout 5) (hermit (TCall (CQuery q1 [] [])) (30000000000, fst hermit_open)))).
Lemma hermit_step l x o r : tuned_life (fun T => timed T no_zones) 30000000000 (str "neo4j") (str "secret") l x -> snd (tuned_exec (fun T => timed T no_zones) 50 o x) = r -> r <> NoFuel ->
  tuned_life (fun T => timed T no_zones) 30000000000 (str "neo4j") (str "secret") (l ++ [(o, r)]) (hermit o x).
Proof. intros H E Hr. eapply tl_call; [exact H|]. exists 50%nat. split; [|exact Hr]. unfold hermit. rewrite <- E. now destruct (tuned_exec _ 50 o x). Qed.
Lemma last_case : exists x, tuned_life (fun T => timed T no_zones) 30000000000 (str "neo4j") (str "secret")
    [(TCall (CQuery q1 [] []), Ok (ARows [[GStr (str "Ann")]] [])); (TSetTimeout 5, Ok ADone); (TCall (CSetChunk 100), Ok ADone); (TCall (CExec q2 [] []), Err (EWrap (Some EBadConn) 12))] x
  /\ settings x = (5, 100).
Proof.
  exists hermit_end. split; [|vm_compute; reflexivity].
  change [(TCall (CQuery q1 [] []), Ok (ARows [[GStr (str "Ann")]] [])); (TSetTimeout 5, Ok ADone); (TCall (CSetChunk 100), Ok ADone); (TCall (CExec q2 [] []), Err (EWrap (Some EBadConn) 12))]
    with (((([] ++ [(TCall (CQuery q1 [] []), Ok (ARows [[GStr (str "Ann")]] []))]) ++ [(TSetTimeout 5, Ok ADone)]) ++ [(TCall (CSetChunk 100), Ok ADone)]) ++ [(TCall (CExec q2 [] []), Err (EWrap (Some EBadConn) 12))]).
  apply hermit_step; [|vm_compute; reflexivity|discriminate]. apply hermit_step; [|vm_compute; reflexivity|discriminate]. apply hermit_step; [|vm_compute; reflexivity|discriminate].
  apply hermit_step; [|vm_compute; reflexivity|discriminate]. apply (tl_open _ _ _ _ (ready (firstn 4 two_answers)) (fst hermit_open)). exists 50%nat. split; [vm_compute; reflexivity|discriminate].
Qed.
