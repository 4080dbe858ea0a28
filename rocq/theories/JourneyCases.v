(** A cluster whose servers are known by their addresses, byte for byte. *)
From Coq Require Import String ZArith List Bool Lia.
From Verif Require Import Bytes GoVal GoErr SpecValues SpecServer Messages Connection Link ExecFacts Wire SpecSession SpecShare Client SpecClient SpecDials Demo DemoFacts Cases CaseFacts
  DemoShare SpecJourney JourneyFacts DialFacts ClientFacts.
From Verif Require Pool SpecPool Routing DemoPool.
Import ListNotations.
Open Scope Z_scope.

(** The connections made so far, where they lead, and a supply of names. *)
Definition world : Type := cells * (nat -> bytes) * nat.
Definition w_cells (w : world) : cells := fst (fst w).
Definition w_site (w : world) (h : nat) : bytes := snd (fst w) h.
Definition w_cell (w : world) (h : nat) : conn * wire := cell (w_cells w) h.
Definition w_opened (w : world) : list nat := cells_made (w_cells w).
Definition w_named (w : world) : list bytes := map (repeat "a"%byte) (seq 0 (snd w)).
Definition at_cell (P : bytes -> peer) (n : nat) (o : call) (h : nat) (w : world) : world * option (res answer) :=
  let '(cs, r) := on_cell (fun d => P (w_site w d)) n o h (w_cells w) in ((cs, snd (fst w), snd w), r).
Definition dial_at (P : bytes -> peer) (n : nat) (s : bytes) (w : world) : world * res nat :=
  match conn_from_string s with
  | Ok cf =>
      let '(cs, r) := dial_cell (fun _ => P (cf_host_port cf)) n (cf_user cf) (cf_password cf) (w_cells w) in
      ((cs, fun d => if Nat.eqb d (length (w_cells w)) then cf_host_port cf else w_site w d, snd w), r)
  | Err e => (w, Err e)
  | Panic => (w, Panic)
  | NoFuel => (w, NoFuel)
  end.
Definition by_address (P : bytes -> peer) (n : nat) : Pool.cluster world :=
  Pool.mkCluster (dial_at P n)
    (fun h w => let '(w', r) := at_cell P n CValidate h w in (w', is_true r))
    (fun h w => let '(w', r) := at_cell P n CClose h w in
                (w', match done_with tt r with Ok _ => None | Err e => Some e | _ => Some (ENew (TMsg 1)) end))
    (fun h w => let '(w', r) := at_cell P n (overview_of (fst (w_cell w h))) h w in
                (w', (proto_number (c_proto (fst (w_cell w h))), match r with Some r => overview_rows r | None => NoFuel end)))
    (fun w => ((w_cells w, snd (fst w), S (snd w)), repeat "a"%byte (snd w))).

Lemma at_cell_frame P n o h w w' r : at_cell P n o h w = (w', r) ->
  w_opened w' = w_opened w /\ (forall d, w_site w' d = w_site w d) /\ (forall d, d <> h -> w_cell w' d = w_cell w d) /\ w_named w' = w_named w
  /\ (In h (w_opened w) -> match r with Some r => does (wired (P (w_site w h))) o (w_cell w h) (w_cell w' h) r | None => w_cell w' h = w_cell w h end).
Proof.
  unfold at_cell. pose proof (on_cell_made (fun d => P (w_site w d)) n o h (w_cells w)) as H1. pose proof (on_cell_other (fun d => P (w_site w d)) n o h (w_cells w)) as H2.
  destruct (on_cell _ n o h (w_cells w)) as [cs r'] eqn:E. intros [= <- <-]. cbn [fst] in *. split; [exact H1|]. split; [reflexivity|]. split; [exact H2|]. split; [reflexivity|].
  intros Hi. pose proof (on_cell_does _ _ _ _ _ _ _ Hi E) as H. destruct r'; [exact H|]. unfold w_cell. cbn. now rewrite H.
Qed.
Lemma dial_at_keeps P n s w w' r : dial_at P n s w = (w', r) ->
  (forall h, In h (w_opened w') -> In h (w_opened w) \/ r = Ok h)
  /\ (forall h, In h (w_opened w) -> In h (w_opened w') /\ w_site w' h = w_site w h /\ w_cell w' h = w_cell w h)
  /\ w_named w' = w_named w
  /\ forall h, r = Ok h -> ~ In h (w_opened w) /\ In h (w_opened w') /\ exists cf, conn_from_string s = Ok cf /\ w_site w' h = cf_host_port cf
     /\ opens (wired (P (cf_host_port cf))) (cf_user cf) (cf_password cf) new_wire (w_cell w' h) (Ok tt).
Proof.
  unfold dial_at. destruct (conn_from_string s) as [cf|e| |]; [|intros [= <- <-]; repeat split; auto; discriminate..].
  destruct (dial_cell _ n _ _ (w_cells w)) as [cs r'] eqn:E. destruct (dial_cell_keeps _ _ _ _ _ _ _ E) as (H1 & H2 & H3).
  assert (L : forall h, r' = Ok h -> h = length (w_cells w)).
  { intros h ->. unfold dial_cell in E. destruct (exec _ _ _ _) as [[k v] [[]|e| |]]; congruence. }
  intros [= <- <-]. unfold w_opened, w_cell, w_site, w_cells, w_named in *. cbn [fst snd]. split; [exact H2|]. split; [|split; [reflexivity|]].
  - intros h Hh. destruct (H1 h Hh) as [A B]. split; [exact B|]. split; [|exact A]. unfold cells_made in Hh. apply in_seq in Hh.
    destruct (Nat.eqb_spec h (length (fst (fst w)))); [lia|reflexivity].
  - intros h Eh. destruct (H3 h Eh) as (A & B & C). split; [exact A|]. split; [exact B|]. exists cf. split; [reflexivity|].
    rewrite (L h Eh), Nat.eqb_refl. rewrite (L h Eh) in C. auto.
Qed.
Lemma by_address_fresh P n : SpecPool.fresh (by_address P n) w_opened w_named.
Proof.
  assert (O : forall o h w, incl (w_opened w) (w_opened (fst (at_cell P n o h w))) /\ incl (w_named w) (w_named (fst (at_cell P n o h w)))).
  { intros o h w. destruct (at_cell P n o h w) as [w' r] eqn:E. destruct (at_cell_frame _ _ _ _ _ _ _ E) as (H1 & _ & _ & H2 & _). cbn. rewrite H1, H2. split; apply incl_refl. }
  constructor; cbn [by_address Pool.k_dial Pool.k_valid Pool.k_close Pool.k_query Pool.k_name].
  - intros s w. destruct (dial_at P n s w) as [w' r] eqn:E. destruct (dial_at_keeps _ _ _ _ _ _ E) as (_ & H & Hn & _). cbn. rewrite Hn. split; [intros h Hh; now apply H|apply incl_refl].
  - intros s w w' h E. destruct (dial_at_keeps _ _ _ _ _ _ E) as (_ & _ & _ & H). destruct (H h eq_refl) as (A & B & _). auto.
  - intros h w. specialize (O CValidate h w). now destruct (at_cell P n CValidate h w).
  - intros h w. specialize (O CClose h w). now destruct (at_cell P n CClose h w).
  - intros h w. specialize (O (overview_of (fst (w_cell w h))) h w). now destruct (at_cell P n (overview_of (fst (w_cell w h))) h w).
  - intros w. split; [apply incl_refl|]. unfold w_named. cbn [fst snd]. rewrite seq_S, map_app. apply incl_appl, incl_refl.
  - intros w w' s [= <- <-]. unfold w_named. cbn [snd]. split.
    + rewrite in_map_iff. intros (k & Hk & Hin). apply in_seq in Hin. apply (f_equal (@length _)) in Hk. rewrite !repeat_length in Hk. lia.
    + apply in_map, in_seq. lia.
Qed.
Lemma by_address_at p P n : (forall a, conforming (p a) (P a)) -> cluster_at (by_address P n) w_opened p P w_site w_cell.
Proof.
  intros Hp. constructor; auto; cbn [by_address Pool.k_dial Pool.k_valid Pool.k_close Pool.k_query Pool.k_name].
  - intros s w w' r E. destruct (dial_at_keeps _ _ _ _ _ _ E) as (H1 & H2 & _ & H3). split; [exact H1|]. split.
    + intros h Hh. now apply H2.
    + intros h Hh. now apply H3.
  - intros h w w' b. destruct (at_cell P n CValidate h w) as [w1 r] eqn:E. intros [= <- _]. destruct (at_cell_frame _ _ _ _ _ _ _ E) as (H1 & H2 & H3 & _ & H4).
    split; [exact H1|]. split; [exact H2|]. split; [exact H3|]. intros Hi. specialize (H4 Hi). destruct r as [r|]; eauto.
  - intros h w w' b. destruct (at_cell P n CClose h w) as [w1 r] eqn:E. intros [= <- _]. destruct (at_cell_frame _ _ _ _ _ _ _ E) as (H1 & H2 & H3 & _ & H4).
    split; [exact H1|]. split; [exact H2|]. split; [exact H3|]. intros Hi. specialize (H4 Hi). destruct r as [r|]; eauto.
  - intros h w w' v x. destruct (at_cell P n _ h w) as [w1 r] eqn:E. intros [= <- <- <-]. destruct (at_cell_frame _ _ _ _ _ _ _ E) as (H1 & H2 & H3 & _ & H4).
    split; [exact H1|]. split; [exact H2|]. split; [exact H3|]. intros Hi. split; [reflexivity|]. specialize (H4 Hi). destruct r as [r|]; [right; eauto|left; auto].
Qed.
Definition use_at (P : bytes -> peer) (n : nat) (o : call) (h : nat) (w : world) : world := fst (at_cell P n o h w).
Lemma use_at_ok P n o h w : In h (w_opened w) -> clean_call (fst (w_cell w h)) o -> snd (at_cell P n o h w) <> None ->
  call_at w_opened P w_site w_cell h w (use_at P n o h w).
Proof.
  intros Hi Hc Hr. unfold use_at. destruct (at_cell P n o h w) as [w' r] eqn:E. cbn [fst snd] in *. destruct (at_cell_frame _ _ _ _ _ _ _ E) as (H1 & H2 & H3 & _ & H4).
  split; [exact H1|]. split; [exact H2|]. split; [exact H3|]. specialize (H4 Hi). destruct r as [r|]; [|now elim Hr]. now exists o, r.
Qed.

(** A client of a cluster of four. *)
Definition realm (a : bytes) : peer :=
  if bytes_eqb a (str "one:7687") then server P4 [done; Produced [] DemoPool.usual []; done] true else server P4 [done; rows; rows] true.
Lemma realm_conforms a : conforming P4 (realm a).
Proof. unfold realm. destruct (bytes_eqb a (str "one:7687")); apply demo_conforming; plain_all. Qed.
Definition realm_opts : list copt := [OHostPort (str "one") 7687; ORouting; OBasicAuth (str "neo4j") (str "S3cret!")].
Definition realm_client : client := match new_client realm_opts with Ok c => c | _ => zero_client end.
Definition realm_pool : Pool.pool := match new_routing_driver realm_client 2 with Ok q => q | _ => DemoPool.demo_pool 2 end.
Definition realm_cluster : Pool.cluster world := by_address realm 50.
Definition realm_new : world := ([], fun _ => [], 0%nat).
Definition step_of (o : Pool.pop) (x : Pool.pool * world * list SpecPool.kevent) : Pool.pool * world * list SpecPool.kevent * Pool.presult :=
  let '(q, w, tr) := x in let '(q', (w', tr'), r) := Pool.do_pop (SpecPool.watch realm_cluster) o q (w, tr) in (q', w', tr', r).
(** The pool is started, a connection for reading is borrowed, and a statement run on it. *)
Definition realm1 := step_of Pool.OStart (realm_pool, realm_new, []).
Definition realm2 := step_of (Pool.OBorrow ReadMode) (fst realm1).
Definition realm3 := use_at realm 50 (CQuery q1 ps []) 2 (snd (fst (fst realm2))).
Definition realm_log : list (Pool.pop * Pool.presult) := [(Pool.OStart, Pool.RDone); (Pool.OBorrow ReadMode, Pool.RLent (str "0-a") 2)].
Lemma realm_journey : journey realm_cluster (call_at w_opened realm w_site w_cell) realm_pool realm_new realm_log (fst (fst (fst realm2))) realm3 (snd (fst realm2)).
Proof.
  apply jo_use with (w := snd (fst (fst realm2))) (h := 2%nat).
  - change realm_log with ([(Pool.OStart, Pool.RDone)] ++ [(Pool.OBorrow ReadMode, Pool.RLent (str "0-a") 2)]).
    apply jo_op with (p := fst (fst (fst realm1))) (w := snd (fst (fst realm1))) (tr := snd (fst realm1)); [|vm_compute; reflexivity].
    change [(Pool.OStart, Pool.RDone)] with ([] ++ [(Pool.OStart, Pool.RDone)]).
    apply jo_op with (p := realm_pool) (w := realm_new) (tr := []); [apply jo_new|vm_compute; reflexivity].
  - exists ReadMode, (str "0-a"). right. now left.
  - apply use_at_ok; [vm_compute; auto|apply clean_call_true; vm_compute; reflexivity|vm_compute; discriminate].
Qed.
(** The next statement. *)
Definition realm4 : conn * wire := w_cell (use_at realm 50 (CQuery q1 ps []) 2 realm3) 2.
Lemma realm_answers : does (wired (realm (w_site realm3 2))) (CQuery q1 ps []) (w_cell realm3 2) realm4 (Ok (ARows [row1; row2] summary)).
Proof. exists 50%nat. split; [vm_compute; reflexivity|discriminate]. Qed.
