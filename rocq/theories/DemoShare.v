(** Pools whose connections are sessions with servers, byte for byte. *)
From Coq Require Import String ZArith List Bool Lia.
From Verif Require Import Bytes GoVal GoErr SpecValues SpecServer Messages Connection Link ExecFacts Wire SpecSession SpecShare Demo DemoFacts Cases CaseFacts.
From Verif Require DriverPool SpecDriver DemoDriver Pool SpecPool DemoPool.
Import ListNotations.
Open Scope Z_scope.

(** The connections made so far, with their links. *)
Definition cells := list (conn * wire).
Definition cell (w : cells) (c : nat) : conn * wire := nth c w (fresh_conn [] [], new_wire).
Fixpoint set_cell (c : nat) (x : conn * wire) (w : cells) : cells :=
  match w, c with
  | [], _ => []
  | _ :: w', O => x :: w'
  | y :: w', S c' => y :: set_cell c' x w'
  end.
Definition cells_made (w : cells) : list nat := seq 0 (length w).
(** A call on one of them; None, and no change, if it does not return within the fuel. *)
Definition on_cell (P : nat -> peer) (n : nat) (o : call) (c : nat) (w : cells) : cells * option (res answer) :=
  match exec (wired (P c)) (do_call n o) (fst (cell w c)) (snd (cell w c)) with
  | (_, _, NoFuel) => (w, None)
  | (k, v, r) => (set_cell c (k, v) w, Some r)
  end.
Definition dial_cell (P : nat -> peer) (n : nat) (user password : bytes) (w : cells) : cells * res nat :=
  match exec (wired (P (length w))) (create_bolt_conn n) (fresh_conn user password) new_wire with
  | (k, v, Ok tt) => (w ++ [(k, v)], Ok (length w))
  | (_, _, Err e) => (w, Err e)
  | (_, _, Panic) => (w, Panic)
  | (_, _, NoFuel) => (w, NoFuel)
  end.
Definition done_with {A} (a : A) (r : option (res answer)) : res A :=
  match r with Some (Ok _) => Ok a | Some (Err e) => Err e | Some Panic => Panic | Some NoFuel | None => NoFuel end.
Definition is_true (r : option (res answer)) : bool := match r with Some (Ok (ABool b)) => b | _ => false end.

(** For the driver pool. *)
Definition session_net (P : nat -> peer) (n : nat) (user password : bytes) : DriverPool.net cells :=
  DriverPool.mkNet (dial_cell P n user password)
    (fun c w => let '(w', r) := on_cell P n CValidate c w in (w', is_true r))
    (fun c w => let '(w', r) := on_cell P n CClose c w in (w', done_with tt r))
    (fun c w => let '(w', r) := on_cell P n CMakeIdle c w in (w', done_with tt r)).

(** For the routing pool; names are runs of the letter a. The user and password of the connection
    string are not read. *)
Definition rows_of (r : option (res answer)) : res (list (list gval)) :=
  match r with Some (Ok (ARows l _)) => Ok l | Some (Err e) => Err e | Some Panic => Panic | _ => NoFuel end.
Definition overview_call (c : conn) : call :=
  CQuery (str "call dbms.cluster.overview()") [] (match c_proto c with P4 => str "system" | _ => [] end).
Definition session_cluster (P : nat -> peer) (n : nat) (user password : bytes) : Pool.cluster (cells * nat) :=
  Pool.mkCluster
    (fun _ w => let '(w', r) := dial_cell P n user password (fst w) in (w', snd w, r))
    (fun c w => let '(w', r) := on_cell P n CValidate c (fst w) in (w', snd w, is_true r))
    (fun c w => let '(w', r) := on_cell P n CClose c (fst w) in
                (w', snd w, match done_with tt r with Ok _ => None | Err e => Some e | _ => Some (ENew (TMsg 1)) end))
    (fun c w => let '(w', r) := on_cell P n (overview_call (fst (cell (fst w) c))) c (fst w) in
                (w', snd w, (proto_number (c_proto (fst (cell (fst w) c))), rows_of r)))
    (fun w => (fst w, S (snd w), repeat "a"%byte (snd w))).

(** ** They are what they are said to be *)
Lemma set_cell_length c x w : length (set_cell c x w) = length w.
Proof. revert c. induction w as [|y w IH]; intros [|c]; cbn; auto. Qed.
Lemma set_cell_same c x w : In c (cells_made w) -> cell (set_cell c x w) c = x.
Proof.
  unfold cells_made, cell. rewrite in_seq. revert c. induction w as [|y w IH]; intros [|c]; cbn [length nth set_cell]; intros H; try lia; try reflexivity.
  apply IH. lia.
Qed.
Lemma set_cell_other c x w d : d <> c -> cell (set_cell c x w) d = cell w d.
Proof.
  unfold cell. revert c d. induction w as [|y w IH]; intros [|c] [|d] H; cbn [nth set_cell]; auto; congruence.
Qed.
Lemma on_cell_made P n o c w : cells_made (fst (on_cell P n o c w)) = cells_made w.
Proof. unfold on_cell, cells_made. destruct (exec _ _ _ _) as [[k v] [a|e| |]]; cbn [fst]; now rewrite ?set_cell_length. Qed.
Lemma on_cell_other P n o c w d : d <> c -> cell (fst (on_cell P n o c w)) d = cell w d.
Proof. intros H. unfold on_cell. destruct (exec _ _ _ _) as [[k v] [a|e| |]]; cbn [fst]; auto using set_cell_other. Qed.
Lemma on_cell_does P n o c w w' r : In c (cells_made w) -> on_cell P n o c w = (w', r) ->
  match r with Some r => does (wired (P c)) o (cell w c) (cell w' c) r | None => w' = w end.
Proof.
  intros Hc. unfold on_cell. destruct (exec _ _ _ _) as [[k v] [a|e| |]] eqn:E; intros [= <- <-]; [..|reflexivity];
    rewrite (set_cell_same _ _ _ Hc); destruct (cell w c) as [k0 v0]; exists n; (split; [exact E|discriminate]).
Qed.
Lemma dial_cell_keeps P n user password w w' r : dial_cell P n user password w = (w', r) ->
  (forall c, In c (cells_made w) -> cell w' c = cell w c /\ In c (cells_made w'))
  /\ (forall c, In c (cells_made w') -> In c (cells_made w) \/ r = Ok c)
  /\ forall c, r = Ok c -> ~ In c (cells_made w) /\ In c (cells_made w') /\ opens (wired (P c)) user password new_wire (cell w' c) (Ok tt).
Proof.
  unfold dial_cell. destruct (exec _ _ _ _) as [[k v] [[]|e| |]] eqn:E; intros [= <- <-].
  - unfold cells_made. rewrite app_length. cbn [length]. split; [|split].
    + intros c Hc. apply in_seq in Hc. unfold cell. rewrite app_nth1 by lia. rewrite in_seq. split; [reflexivity|lia].
    + intros c. rewrite !in_seq. intros Hc. destruct (Nat.eq_dec c (length w)) as [->|]; [now right|left; lia].
    + intros c [= <-]. rewrite !in_seq. split; [lia|]. split; [lia|]. unfold cell. rewrite app_nth2 by lia. rewrite Nat.sub_diag. cbn [nth].
      exists n. split; [exact E|discriminate].
  - split; [auto|]. split; [auto|discriminate].
  - split; [auto|]. split; [auto|discriminate].
  - split; [auto|]. split; [auto|discriminate].
Qed.
(** Looking always answers. *)
Lemma validate_answers {St} (N : net St) n c s : exists c' s' b, exec N (do_call n CValidate) c s = (c', s', Ok (ABool b)).
Proof.
  cbn [do_call]. unfold pmap, validate_open. cbn [exec Connection.bind bindr]. destruct (c_closed c); cbn; [eauto|].
  destruct (n_probe N s). eauto.
Qed.
Lemma on_cell_valid P n c w w' r : In c (cells_made w) -> on_cell P n CValidate c w = (w', r) ->
  does (wired (P c)) CValidate (cell w c) (cell w' c) (Ok (ABool (is_true r))).
Proof.
  intros Hc E. pose proof (on_cell_does _ _ _ _ _ _ _ Hc E) as H.
  destruct (validate_answers (wired (P c)) n (fst (cell w c)) (snd (cell w c))) as (k & v & b & X). unfold on_cell in E. rewrite X in E. injection E as <- <-. exact H.
Qed.
Lemma done_back (o : call) P n c w w' r : o = CClose \/ o = CMakeIdle -> In c (cells_made w) -> on_cell P n o c w = (w', r) ->
  if match done_with tt r with NoFuel => true | _ => false end then cell w' c = cell w c
  else does (wired (P c)) o (cell w c) (cell w' c) (SpecShare.back (done_with tt r)).
Proof.
  intros Ho Hc E. pose proof (on_cell_does _ _ _ _ _ _ _ Hc E) as H. destruct r as [r|]; [|cbn; congruence].
  assert (A : forall a, r = Ok a -> a = ADone).
  { intros a ->. destruct H as (m & H & _). destruct Ho as [-> | ->]; cbn [do_call] in H; unfold pmap in H; rewrite exec_bind in H;
      destruct (exec _ _ _ _) as [[? ?] [?|?| |]]; cbn in H; congruence. }
  destruct r as [a|e| |]; cbn; [rewrite (A a eq_refl) in H|..]; try exact H. destruct H as (m & _ & H). now elim H.
Qed.
Lemma session_net_fresh P n user password : SpecDriver.fresh_net (session_net P n user password) cells_made.
Proof.
  constructor.
  - intros w c Hc. cbn [session_net DriverPool.n_make]. destruct (dial_cell P n user password w) as [w' r] eqn:E. cbn. destruct (dial_cell_keeps _ _ _ _ _ _ _ E) as (H & _). now apply H.
  - intros w w' c E. destruct (dial_cell_keeps _ _ _ _ _ _ _ E) as (_ & _ & H). destruct (H c eq_refl) as (H1 & H2 & _). auto.
  - intros c w. cbn. pose proof (on_cell_made P n CValidate c w) as H. destruct (on_cell _ _ _ _ _). cbn in *. rewrite H. apply incl_refl.
  - intros c w. cbn. pose proof (on_cell_made P n CClose c w) as H. destruct (on_cell _ _ _ _ _). cbn in *. rewrite H. apply incl_refl.
  - intros c w. cbn. pose proof (on_cell_made P n CMakeIdle c w) as H. destruct (on_cell _ _ _ _ _). cbn in *. rewrite H. apply incl_refl.
Qed.
Lemma session_net_over p P n user password : (forall c, conforming (p c) (P c)) -> zlen user <= 65535 -> zlen password <= 65535 ->
  over_sessions (session_net P n user password) cells_made p P user password cell.
Proof.
  intros Hp Hu Hw. constructor; auto.
  - intros w w' r E. destruct (dial_cell_keeps _ _ _ _ _ _ _ E) as (H1 & H2 & H3). split; [exact H2|]. split.
    + intros c Hc. now apply H1.
    + intros c Hc. now apply H3.
  - intros c w w' b Hc. cbn. pose proof (on_cell_made P n CValidate c w) as H1. pose proof (on_cell_other P n CValidate c w) as H2.
    destruct (on_cell P n CValidate c w) as [w1 r1] eqn:E. intros [= <- <-]. split; [exact H1|]. split; [exact H2|]. now apply (on_cell_valid _ _ _ _ _ _ Hc E).
  - intros c w w' b Hc. cbn. pose proof (on_cell_made P n CClose c w) as H1. pose proof (on_cell_other P n CClose c w) as H2.
    destruct (on_cell P n CClose c w) as [w1 r1] eqn:E. intros [= <- <-]. split; [exact H1|]. split; [exact H2|]. apply (done_back CClose _ _ _ _ _ _ (or_introl eq_refl) Hc E).
  - intros c w w' b Hc. cbn. pose proof (on_cell_made P n CMakeIdle c w) as H1. pose proof (on_cell_other P n CMakeIdle c w) as H2.
    destruct (on_cell P n CMakeIdle c w) as [w1 r1] eqn:E. intros [= <- <-]. split; [exact H1|]. split; [exact H2|]. apply (done_back CMakeIdle _ _ _ _ _ _ (or_intror eq_refl) Hc E).
Qed.
Definition opened_cells (w : cells * nat) : list nat := cells_made (fst w).
Definition named_cells (w : cells * nat) : list bytes := map (repeat "a"%byte) (seq 0 (snd w)).
Definition cell_of (w : cells * nat) (c : nat) : conn * wire := cell (fst w) c.
Lemma session_cluster_fresh P n user password : SpecPool.fresh (session_cluster P n user password) opened_cells named_cells.
Proof.
  assert (O : forall o c w, incl (opened_cells w) (opened_cells (fst (on_cell P n o c (fst w)), snd w)) /\ incl (named_cells w) (named_cells (fst (on_cell P n o c (fst w)), snd w))).
  { intros o c w. unfold opened_cells, named_cells. cbn [fst snd]. rewrite on_cell_made. split; apply incl_refl. }
  constructor; cbn [session_cluster Pool.k_dial Pool.k_valid Pool.k_close Pool.k_query Pool.k_name].
  - intros s w. destruct (dial_cell P n user password (fst w)) as [w' r] eqn:E. cbn. destruct (dial_cell_keeps _ _ _ _ _ _ _ E) as (H1 & _).
    split; [intros c Hc; now apply H1|apply incl_refl].
  - intros s w w' h. destruct (dial_cell P n user password (fst w)) as [w1 r] eqn:E. intros [= <- ->]. destruct (dial_cell_keeps _ _ _ _ _ _ _ E) as (_ & _ & H).
    destruct (H h eq_refl) as (H1 & H2 & _). auto.
  - intros h w. specialize (O CValidate h w). now destruct (on_cell P n CValidate h (fst w)).
  - intros h w. specialize (O CClose h w). now destruct (on_cell P n CClose h (fst w)).
  - intros h w. specialize (O (overview_call (fst (cell (fst w) h))) h w). now destruct (on_cell P n (overview_call (fst (cell (fst w) h))) h (fst w)).
  - intros w. split; [apply incl_refl|]. unfold named_cells. cbn [fst snd]. rewrite seq_S, map_app. apply incl_appl, incl_refl.
  - intros w w' s [= <- <-]. unfold named_cells. cbn [snd]. split.
    + rewrite in_map_iff. intros (k & Hk & Hin). apply in_seq in Hin. apply (f_equal (@length _)) in Hk. rewrite !repeat_length in Hk. lia.
    + apply in_map, in_seq. lia.
Qed.
Lemma session_cluster_over p P n user password : (forall c, conforming (p c) (P c)) -> zlen user <= 65535 -> zlen password <= 65535 ->
  cluster_sessions (session_cluster P n user password) opened_cells p P cell_of.
Proof.
  intros Hp Hu Hw. constructor; auto; cbn [session_cluster Pool.k_dial Pool.k_valid Pool.k_close Pool.k_query Pool.k_name]; unfold opened_cells, cell_of.
  - intros s w w' r. destruct (dial_cell P n user password (fst w)) as [w1 r1] eqn:E. intros [= <- <-]. destruct (dial_cell_keeps _ _ _ _ _ _ _ E) as (H1 & _ & H3). cbn [fst]. split.
    + intros h Hh. now apply H1.
    + intros h Hh. exists user, password. split; [exact Hu|]. split; [exact Hw|]. now apply H3.
  - intros c w w' b. pose proof (on_cell_made P n CValidate c (fst w)) as H1. pose proof (on_cell_other P n CValidate c (fst w)) as H2.
    destruct (on_cell P n CValidate c (fst w)) as [w1 r1] eqn:E. intros [= <- <-]. split; [exact H1|]. split; [exact H2|]. intros Hc. now apply (on_cell_valid _ _ _ _ _ _ Hc E).
  - intros c w w' b. pose proof (on_cell_made P n CClose c (fst w)) as H1. pose proof (on_cell_other P n CClose c (fst w)) as H2.
    destruct (on_cell P n CClose c (fst w)) as [w1 r1] eqn:E. intros [= <- <-]. split; [exact H1|]. split; [exact H2|]. intros Hc. cbn [fst] in *.
    pose proof (done_back CClose _ _ _ _ _ _ (or_introl eq_refl) Hc E) as H. destruct (done_with tt r1) as [[]|e| |] eqn:Ed; [right|right|right|left; exact H];
      cbn in H; (eexists; split; [exact H|split; congruence]).
  - intros c w w' v r. set (o := overview_call _). pose proof (on_cell_made P n o c (fst w)) as H1. pose proof (on_cell_other P n o c (fst w)) as H2.
    destruct (on_cell P n o c (fst w)) as [w1 r1] eqn:E. intros [= <- <- <-]. split; [exact H1|]. split; [exact H2|]. intros Hc. cbn [fst] in *.
    pose proof (on_cell_does _ _ _ _ _ _ _ Hc E) as H. destruct r1 as [r1|]; [right|left; now rewrite H]. do 2 eexists. exists r1. exact H.
Qed.

(** ** Someone uses a connection *)
Definition use_cell (P : nat -> peer) (n : nat) (o : call) (c : nat) (w : cells) : cells := fst (on_cell P n o c w).
Lemma use_cell_ok (C : conn -> call -> Prop) P n o c w : In c (cells_made w) -> C (fst (cell w c)) o -> snd (on_cell P n o c w) <> None ->
  session_use C cells_made P cell c w (use_cell P n o c w).
Proof.
  intros Hc Ho Hr. unfold use_cell. split; [apply on_cell_made|]. split; [intros; now apply on_cell_other|].
  pose proof (on_cell_does P n o c w (fst (on_cell P n o c w)) (snd (on_cell P n o c w)) Hc) as H.
  destruct (on_cell P n o c w) as [w' [r|]]; cbn [fst snd] in *; [|now elim Hr]. exists o, r. split; [exact Ho|]. now apply H.
Qed.

(** ** Cases *)

(** A driver pool: its first connection is lent, a transaction begun and a statement run in it, and
    the connection given back and lent again. *)
Definition homes (c : nat) : peer := server P4 [done; done; rows] true.
Definition home_net : DriverPool.net cells := session_net homes 50 (str "neo4j") (str "secret").
Definition home_lent := DriverPool.do_event home_net DriverPool.EvOpen (DriverPool.new_driver_pool 2) [].
Definition home_begun : cells := use_cell homes 50 (CBegin []) 0 (snd (fst home_lent)).
Definition home_used : cells := use_cell homes 50 (CTxExecDb 0 q2 ps []) 0 home_begun.
Definition home_back := DriverPool.do_event home_net (DriverPool.EvReclaim (Some 0%nat)) (fst (fst home_lent)) home_used.
Definition home_again := DriverPool.do_event home_net DriverPool.EvOpen (fst (fst home_back)) (snd (fst home_back)).
Definition home_log : list (DriverPool.devent * DriverPool.dres) :=
  [(DriverPool.EvOpen, DriverPool.DLent 0); (DriverPool.EvReclaim (Some 0%nat), DriverPool.DDone)].
Lemma homes_conform c : conforming P4 (homes c).
Proof. apply demo_conforming; plain_all. Qed.
Lemma home_over : over_sessions home_net cells_made (fun _ => P4) homes (str "neo4j") (str "secret") cell.
Proof. apply session_net_over; [exact homes_conform|vm_compute; discriminate..]. Qed.
Lemma clean_call_true c o : clean_call_b c o = true -> clean_call c o.
Proof.
  assert (B : forall m, clean_b c m = true -> clean c m) by (intros m; unfold clean_b, clean; apply orb_prop).
  destruct o; cbn; auto. lia.
Qed.
Lemma home_shared : shared home_net (session_use polite cells_made homes cell) 2 [] home_log (fst (fst home_back)) (snd (fst home_back)).
Proof.
  change home_log with (([] ++ [(DriverPool.EvOpen, DriverPool.DLent 0)]) ++ [(DriverPool.EvReclaim (Some 0%nat), DriverPool.DDone)]).
  eapply sh_event with (w := home_used) (d := fst (fst home_lent)); [|vm_compute; auto|vm_compute; reflexivity].
  apply sh_use with (c := 0%nat) (w := home_begun); [|vm_compute; auto|].
  - apply sh_use with (c := 0%nat) (w := snd (fst home_lent)); [|vm_compute; auto|].
    + eapply sh_event; [apply sh_new|exact Logic.I|vm_compute; reflexivity].
    + apply use_cell_ok; [vm_compute; auto| |vm_compute; discriminate]. split; [apply clean_call_true; vm_compute; reflexivity|exact Logic.I].
  - apply use_cell_ok; [vm_compute; auto| |vm_compute; discriminate]. split; [apply clean_call_true; vm_compute; reflexivity|vm_compute; reflexivity].
Qed.

(** The same with version 1 of the protocol, where a transaction can be begun by a statement. *)
Definition huts (c : nat) : peer := server P1 [done; done; done] true.
Definition hut_net : DriverPool.net cells := session_net huts 50 (str "neo4j") (str "secret").
Definition hut_lent := DriverPool.do_event hut_net DriverPool.EvOpen (DriverPool.new_driver_pool 2) [].
Definition hut_used : cells := use_cell huts 50 (CExec (str "BEGIN") [] []) 0 (snd (fst hut_lent)).
Definition hut_back := DriverPool.do_event hut_net (DriverPool.EvReclaim (Some 0%nat)) (fst (fst hut_lent)) hut_used.
Definition hut_again := DriverPool.do_event hut_net DriverPool.EvOpen (fst (fst hut_back)) (snd (fst hut_back)).
Lemma huts_conform c : conforming P1 (huts c).
Proof. apply demo_conforming; plain_all. Qed.
Lemma begun_by_statement : exists N p P l d w d' w' c, SpecDriver.fresh_net N cells_made
  /\ over_sessions N cells_made p P (str "neo4j") (str "secret") cell
  /\ shared N (session_use clean_call cells_made P cell) 2 [] l d w
  /\ DriverPool.do_event N DriverPool.EvOpen d w = (d', w', DriverPool.DLent c)
  /\ s_tx (w_srv (snd (cell w' c))) = Some (None, []).
Proof.
  exists hut_net, (fun _ => P1), huts, home_log, (fst (fst hut_back)), (snd (fst hut_back)), (fst (fst hut_again)), (snd (fst hut_again)), 0%nat.
  split; [apply session_net_fresh|]. split; [apply session_net_over; [exact huts_conform|vm_compute; discriminate..]|].
  split; [|split; vm_compute; reflexivity].
  change home_log with (([] ++ [(DriverPool.EvOpen, DriverPool.DLent 0)]) ++ [(DriverPool.EvReclaim (Some 0%nat), DriverPool.DDone)]).
  eapply sh_event with (w := hut_used) (d := fst (fst hut_lent)); [|vm_compute; auto|vm_compute; reflexivity].
  apply sh_use with (c := 0%nat) (w := snd (fst hut_lent)); [|vm_compute; auto|].
  - eapply sh_event; [apply sh_new|exact Logic.I|vm_compute; reflexivity].
  - apply use_cell_ok; [vm_compute; auto| |vm_compute; discriminate]. apply clean_call_true; vm_compute; reflexivity.
Qed.

(** A routing pool of two connections. *)
Definition town (c : nat) : peer :=
  match c with O => server P4 [done; Produced [] DemoPool.usual []] true | _ => server P4 [done; done; rows] true end.
Definition town_cluster : Pool.cluster (cells * nat) := session_cluster town 50 (str "neo4j") (str "secret").
Definition town_lent := Pool.run_pool town_cluster [Pool.OStart; Pool.OBorrow Messages.WriteMode] (DemoPool.demo_pool 2) ([], 0%nat).
Definition town_begun : cells * nat := (use_cell town 50 (CBegin []) 1 (fst (snd (fst town_lent))), snd (snd (fst town_lent))).
Definition town_again := Pool.run_pool town_cluster [Pool.OReclaim (str "1-") 1; Pool.OBorrow Messages.WriteMode] (fst (fst town_lent)) town_begun.
Definition town_written : conn * wire := cell (use_cell town 50 (CExec q2 [] []) 1 (fst (snd (fst town_again)))) 1.
Definition town_undone : conn * wire :=
  cell (use_cell town 50 (CRollback 0) 1 (use_cell town 50 (CExec q2 [] []) 1 (fst (snd (fst town_again))))) 1.
Lemma town_conforms c : conforming P4 (town c).
Proof. destruct c; apply demo_conforming; plain_all. Qed.
Lemma use_others P n o c w k d : d <> c -> cell_of (use_cell P n o c (fst w), k) d = cell_of w d.
Proof. exact (on_cell_other P n o c (fst w) d). Qed.
Lemma town_others d : d <> 1%nat -> cell_of town_begun d = cell_of (snd (fst town_lent)) d.
Proof. exact (use_others town 50 (CBegin []) 1 (snd (fst town_lent)) (snd (snd (fst town_lent))) d). Qed.
Lemma open_passed_on : exists K p P, SpecPool.fresh K opened_cells named_cells /\ cluster_sessions K opened_cells p P cell_of
  /\ exists l q w w1 q' w' h id t y z,
     SpecPool.pool_history K 2 (str "neo4j:secret") [] ([], 0%nat) l q w
     /\ l = [(Pool.OStart, Pool.RDone); (Pool.OBorrow Messages.WriteMode, Pool.RLent id h)]
     /\ (forall d, d <> h -> cell_of w1 d = cell_of w d) /\ does (wired (P h)) (CBegin []) (cell_of w h) (cell_of w1 h) (Ok (ATx t))
     /\ Pool.run_pool K [Pool.OReclaim id h; Pool.OBorrow Messages.WriteMode] q w1
        = (q', w', [(Pool.OReclaim id h, Pool.RDone); (Pool.OBorrow Messages.WriteMode, Pool.RLent id h)])
     /\ tx_closed (fst (cell_of w' h)) t = false /\ s_tx (w_srv (snd (cell_of w' h))) = Some (None, [])
     /\ does (wired (P h)) (CExec q2 [] []) (cell_of w' h) y (Ok (AMeta summary))
     /\ s_perm (w_srv (snd y)) = [] /\ s_tx (w_srv (snd y)) = Some (None, [mkStmt q2 [] None])
     /\ does (wired (P h)) (CRollback t) y z (Ok ADone) /\ s_perm (w_srv (snd z)) = [] /\ s_tx (w_srv (snd z)) = None.
Proof.
  exists town_cluster, (fun _ => P4), town. split; [apply session_cluster_fresh|].
  split; [apply session_cluster_over; [exact town_conforms|vm_compute; discriminate..]|].
  exists (snd town_lent), (fst (fst town_lent)), (snd (fst town_lent)), town_begun, (fst (fst town_again)), (snd (fst town_again)), 1%nat, (str "1-"), 0%nat, town_written, town_undone.
  split; [|split; [|split; [|split; [|split; [|split; [|split; [|split; [|split; [|split; [|split; [|split]]]]]]]]]]].
  - exists DemoPool.leader_string, (DemoPool.demo_pool 2). split; [reflexivity|]. vm_compute. reflexivity.
  - vm_compute. reflexivity.
  - exact town_others.
  - exists 50%nat. split; [vm_compute; reflexivity|discriminate].
  - vm_compute. reflexivity.
  - vm_compute. reflexivity.
  - vm_compute. reflexivity.
  - exists 50%nat. split; [vm_compute; reflexivity|discriminate].
  - vm_compute. reflexivity.
  - vm_compute. reflexivity.
  - exists 50%nat. split; [vm_compute; reflexivity|discriminate].
  - vm_compute. reflexivity.
  - vm_compute. reflexivity.
Qed.

(** A driver pool that notes what happens. *)
Lemma prepared_case : exists l d w d' w', SpecDriver.fresh_net DemoDriver.demo_net DemoDriver.t_made
  /\ shared (noted DemoDriver.demo_net) (noted_use DemoDriver.t_made) 2 (DemoDriver.mkT 0 [] [], []) l d w
  /\ DriverPool.do_event (noted DemoDriver.demo_net) DriverPool.EvOpen d w = (d', w', DriverPool.DLent 0)
  /\ snd w' = [WasIdled 0 true; WasUsed 0; WasUsed 0; WasMade 0].
Proof.
  pose (N := noted DemoDriver.demo_net).
  pose (x1 := DriverPool.do_event N DriverPool.EvOpen (DriverPool.new_driver_pool 2) (DemoDriver.mkT 0 [] [], [])).
  pose (u := fun w : DemoDriver.tworld * list cevent => (fst w, WasUsed 0 :: snd w)).
  pose (x2 := DriverPool.do_event N (DriverPool.EvReclaim (Some 0%nat)) (fst (fst x1)) (u (u (snd (fst x1))))).
  pose (x3 := DriverPool.do_event N DriverPool.EvOpen (fst (fst x2)) (snd (fst x2))).
  exists home_log, (fst (fst x2)), (snd (fst x2)), (fst (fst x3)), (snd (fst x3)).
  split; [apply DemoDriver.demo_fresh_net|]. split; [|split; vm_compute; reflexivity].
  change home_log with (([] ++ [(DriverPool.EvOpen, DriverPool.DLent 0)]) ++ [(DriverPool.EvReclaim (Some 0%nat), DriverPool.DDone)]).
  eapply sh_event with (w := u (u (snd (fst x1)))) (d := fst (fst x1)); [|vm_compute; auto|vm_compute; reflexivity].
  apply sh_use with (c := 0%nat) (w := u (snd (fst x1))); [|vm_compute; auto|split; [reflexivity|apply incl_refl]].
  apply sh_use with (c := 0%nat) (w := snd (fst x1)); [|vm_compute; auto|split; [reflexivity|apply incl_refl]].
  eapply sh_event; [apply sh_new|exact Logic.I|vm_compute; reflexivity].
Qed.
