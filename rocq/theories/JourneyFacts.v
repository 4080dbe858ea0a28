(** A routing client with conforming servers. *)
From Coq Require Import String ZArith List Bool Lia.
From Verif Require Import Bytes GoVal GoErr SpecValues SpecCodec SpecServer Messages Connection Link Wire SpecSession GoStr Routing Client SpecClient SpecDials
  UrlFacts ClientFacts ClientCases EraseFacts SettingsFacts RestFacts SessionFacts MessageFacts SpecJourney.
From Verif Require Import Pool.
From Verif Require SpecPool WatchPoolFacts RouteShare RouteFacts SteadyFacts DialFacts.
Import SpecPool(kevent(..), watch, fresh, goes_to, lists, dressed, latest_overview).
Import ListNotations.
Open Scope Z_scope.

(** On a connection just opened the question for the members arrives whole. *)
Lemma overview_clean c : c_chunk c = 65535 -> clean_call c (overview_of c).
Proof.
  intros E. unfold overview_of. cbn [clean_call]. left. rewrite E. unfold run_msg, get_run_message, autocommit_run, build_tx_metadata_db.
  destruct c as [pr u pw m cs cl tx txs]. cbn [c_proto c_mode]. destruct (m =? ReadMode); destruct pr; vm_compute; reflexivity.
Qed.

Section Journey.
Context {W : Type}.
Variables (K : cluster W) (opened : W -> list nat) (named : W -> list bytes) (p : bytes -> proto) (P : bytes -> peer)
  (site : W -> nat -> bytes) (cell : W -> nat -> conn * wire).
Hypothesis Fr : fresh K opened named.
Hypothesis Cl : cluster_at K opened p P site cell.
Notation WT := (W * list kevent)%type.

Definition brief_login (cf : config) : Prop := zlen (cf_user cf) <= 65535 /\ zlen (cf_password cf) <= 65535.
(** The connection [h] was opened with the connection string [s]. *)
Definition owes (w : W) (s : bytes) (h : nat) : Prop :=
  In h (opened w) /\ exists cf, conn_from_string s = Ok cf /\ site w h = cf_host_port cf
  /\ (brief_login cf -> exists l, session clean_call (p (site w h)) (P (site w h)) (cf_user cf) (cf_password cf) l (cell w h)).
Definition quoted (s : bytes) (v : Z) (rows : list (list gval)) : Prop :=
  exists cf, conn_from_string s = Ok cf /\ (brief_login cf -> said_at p P (cf_host_port cf) (cf_user cf) (cf_password cf) v rows).
Record true_to (x : WT) : Prop := mkTrueTo {
  t_cells s h : In (KDial s (Ok h)) (snd x) -> owes (fst x) s h;
  t_said tr1 s h v rows tr0 : snd x = tr1 ++ KQuery h v (Ok rows) :: KDial s (Ok h) :: tr0 -> quoted s v rows
}.
Definition tracks (a b : WT) : Prop := true_to a -> true_to b.
(** A call on [h] as part of its session. *)
Lemma owes_call w w' s h d o r : opened w' = opened w -> (forall d, site w' d = site w d) -> (forall d, d <> h -> cell w' d = cell w d) ->
  clean_call (fst (cell w h)) o -> does (wired (P (site w h))) o (cell w h) (cell w' h) r -> owes w s d -> owes w' s d.
Proof.
  intros Eo Es Ec Hc Hd (Hi & cf & E1 & E2 & E3). unfold owes. rewrite Eo, Es. split; [exact Hi|]. exists cf. split; [exact E1|]. split; [exact E2|].
  intros B. destruct (E3 B) as [l Hl]. destruct (Nat.eq_dec d h) as [->|N]; [|exists l; now rewrite Ec].
  exists (l ++ [(o, r)]). exact (session_more _ _ _ _ _ _ _ _ _ _ Hl Hc Hd).
Qed.
Lemma owes_same w w' s d : opened w' = opened w -> (forall d, site w' d = site w d) -> (forall d, cell w' d = cell w d) -> owes w s d -> owes w' s d.
Proof. intros Eo Es Ec H. unfold owes. rewrite Eo, Es, Ec. exact H. Qed.
Lemma owes_touch w w' s h d o : opened w' = opened w -> (forall d, site w' d = site w d) -> (forall d, d <> h -> cell w' d = cell w d) ->
  (forall c, clean_call c o) -> (In h (opened w) -> cell w' h = cell w h \/ exists r, does (wired (P (site w h))) o (cell w h) (cell w' h) r) -> owes w s d -> owes w' s d.
Proof.
  intros Eo Es Ec Hc Hd H. destruct (Nat.eq_dec d h) as [->|N].
  - destruct Hd as [E|[r Hd]]; [exact (proj1 H)|..].
    + unfold owes. rewrite Eo, Es, E. exact H.
    + exact (owes_call w w' s h h o r Eo Es Ec (Hc _) Hd H).
  - unfold owes. rewrite Eo, Es, (Ec d N). exact H.
Qed.
Lemma tracks_dial s x : tracks x (fst (k_dial (watch K) s x)).
Proof.
  destruct x as [w tr]. cbn. destruct (k_dial K s w) as [w' r] eqn:E. cbn. destruct (ca_dial _ _ _ _ _ _ Cl _ _ _ _ E) as (H1 & H2 & H3).
  intros [T1 T2]. constructor; cbn [fst snd] in *.
  - intros s' h [[= -> ->]|H].
    + destruct (H3 h eq_refl) as (cf & E1 & E2 & E3). split; [exact (proj2 (SpecPool.f_new _ _ _ Fr _ _ _ _ E))|]. exists cf. split; [exact E1|]. split; [exact E2|].
      intros [B1 B2]. exists []. rewrite E2. split; [apply (ca_peers _ _ _ _ _ _ Cl)|]. split; [exact B1|]. split; [exact B2|]. exists (cell w' h). split; [exact E3|constructor].
    + destruct (T1 _ _ H) as (Hi & cf & E1 & E2 & E3). destruct (H2 h Hi) as [S1 S2]. split.
      { pose proof (proj1 (SpecPool.f_dial _ _ _ Fr s w)) as I. rewrite E in I. now apply I. }
      exists cf. rewrite S1, S2. auto.
  - intros tr1 s' h v rows tr0 X. destruct tr1 as [|y tr1]; injection X as X Y; [discriminate X|]. exact (T2 _ _ _ _ _ _ Y).
Qed.
Lemma tracks_valid h x : tracks x (fst (k_valid (watch K) h x)).
Proof.
  destruct x as [w tr]. cbn. destruct (k_valid K h w) as [w' r] eqn:E. cbn. destruct (ca_valid _ _ _ _ _ _ Cl _ _ _ _ E) as (H1 & H2 & H3 & H4).
  intros [T1 T2]. constructor; cbn [fst snd] in *.
  - intros s d [X|H]; [discriminate X|]. exact (owes_touch w w' s h d CValidate H1 H2 H3 (fun _ => Logic.I) H4 (T1 _ _ H)).
  - intros tr1 s' d v rows tr0 X. destruct tr1 as [|y tr1]; injection X as X Y; [discriminate X|]. exact (T2 _ _ _ _ _ _ Y).
Qed.
Lemma tracks_close h x : tracks x (fst (k_close (watch K) h x)).
Proof.
  destruct x as [w tr]. cbn. destruct (k_close K h w) as [w' r] eqn:E. cbn. destruct (ca_close _ _ _ _ _ _ Cl _ _ _ _ E) as (H1 & H2 & H3 & H4).
  intros [T1 T2]. constructor; cbn [fst snd] in *.
  - intros s d [X|H]; [discriminate X|]. exact (owes_touch w w' s h d CClose H1 H2 H3 (fun _ => Logic.I) H4 (T1 _ _ H)).
  - intros tr1 s' d v rows tr0 X. destruct tr1 as [|y tr1]; injection X as X Y; [discriminate X|]. exact (T2 _ _ _ _ _ _ Y).
Qed.
Lemma tracks_name x : tracks x (fst (k_name (watch K) x)).
Proof.
  destruct x as [w tr]. cbn. pose proof (ca_name _ _ _ _ _ _ Cl w) as (H1 & H2 & H3). destruct (k_name K w) as [w' r] eqn:E. cbn in *.
  intros [T1 T2]. constructor; cbn [fst snd] in *; [|exact T2]. intros s d H. exact (owes_same w w' s d H1 H2 H3 (T1 _ _ H)).
Qed.
Lemma tracks_ask s x x1 h : k_dial (watch K) s x = (x1, Ok h) -> tracks x (fst (k_query (watch K) h x1)).
Proof.
  intros Ed T. pose proof (tracks_dial s x T) as T1. rewrite Ed in T1. cbn [fst] in T1. destruct x as [w tr]. cbn in Ed.
  destruct (k_dial K s w) as [w1 r1] eqn:E. injection Ed as <- ->. cbn.
  destruct (ca_dial _ _ _ _ _ _ Cl _ _ _ _ E) as (_ & _ & D). destruct (D h eq_refl) as (cf & E1 & E2 & E3).
  pose proof (proj2 (SpecPool.f_new _ _ _ Fr _ _ _ _ E)) as Hi. destruct (k_query K h w1) as [w2 [v rows]] eqn:Eq. cbn.
  destruct (ca_query _ _ _ _ _ _ Cl _ _ _ _ _ Eq) as (H1 & H2 & H3 & H4). destruct (H4 Hi) as [Hv H5].
  pose proof (overview_clean _ (open_settings _ _ _ _ _ _ E3)) as Hc. destruct T1 as [T1 T2]. cbn [fst snd] in T1, T2. constructor; cbn [fst snd].
  - intros s' d [X|H]; [discriminate X|]. destruct H5 as [[H5 _]|(r' & H5 & _)].
    + apply (owes_same w1 w2 s' d H1 H2); [|exact (T1 _ _ H)]. intros d'. destruct (Nat.eq_dec d' h) as [->|N]; auto.
    + exact (owes_call w1 w2 s' h d _ r' H1 H2 H3 Hc H5 (T1 _ _ H)).
  - intros tr1 s' d v' rows' tr0 X. destruct tr1 as [|y tr1]; [|injection X as _ Y; exact (T2 _ _ _ _ _ _ Y)].
    cbn [app] in X. assert (X' : h = d /\ v = v' /\ rows = Ok rows' /\ s = s' /\ tr = tr0) by (split; [|split; [|split; [|split]]]; congruence). destruct X' as (<- & <- & -> & <- & <-). clear X.
    exists cf. split; [exact E1|]. intros B. destruct H5 as [[_ H5]|(r' & H5 & Er)]; [discriminate H5|].
    destruct (T1 s h (or_introl eq_refl)) as (_ & cf' & E1' & E2' & E3'). rewrite E1 in E1'. injection E1' as <-. destruct (E3' B) as [l Hl]. rewrite E2 in *.
    destruct r' as [[]| | |]; try discriminate Er. injection Er as ->.
    destruct (cell w1 h) as [c k] eqn:Ec, (cell w2 h) as [c' k'] eqn:Ec'. cbn [fst] in *.
    pose proof (session_version _ _ _ _ _ _ _ Hl) as Hp. split; [now rewrite Hv, Hp|].
    pose proof (query_own_rows _ _ _ _ _ _ _ (overview_of c) _ _ _ _ _ Hl eq_refl Hc H5) as Q.
    assert (O : ordinary (p (cf_host_port cf)) (str "call dbms.cluster.overview()") = true) by (destruct (p (cf_host_port cf)); vm_compute; reflexivity).
    rewrite O in Q. destruct Q as (st & rm & rs & md' & Q1 & Q2 & Q3). cbn in Q3. injection Q3 as -> ->.
    exists (l ++ [(overview_of c, Ok (ARows rs md'))]), (c', k'), st, rm, md'. split; [exact (session_more _ _ _ _ _ _ _ _ _ _ Hl Hc H5)|].
    split; [|exact Q2]. cbn [snd]. rewrite Q1. apply in_or_app. right. now left.
Qed.
Lemma tracks_pop o q x q' x' r : do_pop (watch K) o q x = (q', x', r) -> tracks x x'.
Proof.
  apply (RouteShare.pop_R (watch K) tracks).
  - intros w H. exact H.
  - intros a b c H1 H2 H. auto.
  - exact tracks_dial.
  - exact tracks_valid.
  - exact tracks_close.
  - exact tracks_name.
  - exact tracks_ask.
Qed.

(** Along a journey. *)
Variables (home auth tls : bytes).
Notation kinds m := (if m =? ReadMode then [Follower; ReadReplica] else [Leader]).
Record abroad (l : list (pop * presult)) (q : pool) (w : W) (tr : list kevent) : Prop := mkAbroad {
  a_true : true_to (w, tr);
  a_lookup : p_lookup q = [];
  a_marked : p_marked q = [];
  a_routed : RouteFacts.routed auth tls q (w, tr);
  a_good : DialFacts.good home auth tls q tr;
  a_lent m id h : In (OBorrow m, RLent id h) l -> goes_to auth tls (kinds m) tr h
}.
Lemma journey_abroad leader n q0 w0 l q w tr : new_routing_pool leader n auth tls = Ok q0 -> p_leader q0 = home ->
  journey K (call_at opened P site cell) q0 w0 l q w tr -> abroad l q w tr.
Proof.
  intros En Eh. induction 1 as [|l q w tr o q' w' tr' r J IH E|l q w tr h w' J IH (m & id & Hi) (U1 & U2 & U3 & o & r & Hc & Hd)].
  - constructor; try easy.
    + split; [easy|]. intros [|] ? ? ? ? ? X; discriminate X.
    + unfold new_routing_pool in En. destruct (bytes_eqb leader []); [discriminate|]. destruct (_ || _); [discriminate|]. now injection En as <-.
    + unfold new_routing_pool in En. destruct (bytes_eqb leader []); [discriminate|]. destruct (_ || _); [discriminate|]. now injection En as <-.
    + eapply RouteFacts.routed_new; eauto.
    + eapply DialFacts.good_new; eauto.
  - destruct IH as [I1 I2 I3 I4 I5 I6]. pose proof (SteadyFacts.steady_step _ _ _ _ _ _ _ E I2 I3) as S. unfold SteadyFacts.steady in S.
    destruct (RouteFacts.routed_step _ _ _ _ _ _ _ _ _ E I2 I3 I4) as [R1 R2].
    assert (L : run_pool (watch K) [o] q (w, tr) = (q', (w', tr'), [(o, r)])) by (cbn [run_pool]; now rewrite E).
    destruct (WatchPoolFacts.run_longer _ _ _ _ _ _ _ L) as [new Hn]. cbn [snd] in Hn.
    constructor; try congruence.
    + exact (tracks_pop _ _ _ _ _ _ E I1).
    + exact (DialFacts.good_pop K home auth tls _ _ _ _ _ _ _ I5 E).
    + intros m id h Hi. apply in_app_or in Hi. destruct Hi as [Hi|[[= -> ->]|[]]]; [|exact R2]. rewrite Hn. apply RouteFacts.goes_kept. eauto.
  - destruct IH as [I1 I2 I3 I4 I5 I6]. constructor; auto.
    + destruct I1 as [T1 T2]. constructor; [|exact T2]. cbn [fst snd] in *. intros s d Hs. exact (owes_call w w' s h d o r U1 U2 U3 Hc Hd (T1 _ _ Hs)).
    + destruct I4 as [? ? ? ? ? ? ? ? ?]. constructor; assumption.
Qed.
End Journey.

(** From the client. *)
Section Client.
Context {W : Type}.
Variables (K : cluster W) (opened : W -> list nat) (named : W -> list bytes) (p : bytes -> proto) (P : bytes -> peer)
  (site : W -> nat -> bytes) (cell : W -> nat -> conn * wire).
Hypothesis Fr : fresh K opened named.
Hypothesis Cl : cluster_at K opened p P site cell.
Variables (c : client) (u pw hp : bytes).
Hypothesis Dl : DialFacts.dials_as c u pw hp.
Hypothesis Hu : u <> [].
Hypothesis Lu : zlen u <= 65535.
Hypothesis Lp : zlen pw <= 65535.

Lemma no_at b hh ds q : Forall host_char hh -> decimal q ds -> str "bolt://" ++ hh ++ str ":" ++ ds = str "bolt://" ++ b -> ~ In "@"%byte b.
Proof.
  intros Hh Hq E. apply app_inv_head in E. subst b. apply (avoids host_port_b); [reflexivity|].
  apply host_port_bs; [now apply host_bs|apply (decimal_digits _ _ Hq)].
Qed.
Lemma plain_nobody hh ds q : Forall host_char hh -> decimal q ds -> exists cf, conn_from_string (str "bolt://" ++ hh ++ str ":" ++ ds) = Ok cf /\ cf_user cf = [].
Proof.
  intros Hh Hq. change (str "bolt://" ++ hh ++ str ":" ++ ds) with (str "bolt" ++ str "://" ++ who_text None ++ hh ++ str ":" ++ ds).
  eexists. split; [apply (address_conn_with _ None (hh ++ str ":" ++ ds) []); apply address_plain with (p := q); try assumption; [now left|exact Logic.I]|reflexivity].
Qed.
Theorem journey_leads n q0 w0 l q w tr m id h : new_routing_driver c n = Ok q0 -> journey K (call_at opened P site cell) q0 w0 l q w tr ->
  In (OBorrow m, RLent id h) l ->
  leads_right p P site cell u pw hp m h w.
Proof.
  intros En J Hi. destruct Dl as [D1 D2].
  pose proof (journey_abroad K opened named p P site cell Fr Cl (p_leader q0) (get_username_password c) (get_tls_portion c) _ _ _ _ _ _ _ _ En eq_refl J) as [[T1 T2] _ _ _ G L].
  destruct (D1 _ (proj2 (EraseFacts.seed_new _ _ _ _ _ En))) as (cf0 & F1 & F2 & F3 & F4).
  destruct (L m id h Hi) as (tr1 & s & tr0 & v & rows & a & Etr & (ta & x & tb & Et0 & _) & Hl & Hs). exists v, rows, a. cbn [fst snd] in *. split; [|split; [exact Hl|]].
  - destruct (DialFacts.g_asks _ _ _ _ _ G (tr1 ++ KDial s (Ok h) :: ta) x v (Ok rows) tb) as [tc Htc]; [now rewrite <- app_assoc, Etr, Et0|].
    destruct (T2 (tr1 ++ KDial s (Ok h) :: ta) (p_leader q0) x v rows tc) as (cf & C1 & C2); [now rewrite <- app_assoc, Etr, Et0, Htc|].
    rewrite F1 in C1. injection C1 as <-. unfold brief_login in C2. rewrite F2, F3, F4 in C2. auto.
  - intros hh ds n' Ea Hh Hq. destruct (T1 s h) as (_ & cf & C1 & C2 & C3); [rewrite Etr; apply in_or_app; right; now left|].
    assert (Ed : s = add_auth_info (get_username_password c) (get_tls_portion c) a).
    { destruct Hs as [Hs|Hs]; [|now apply dressed_iff]. exfalso.
      destruct (plain_nobody hh ds n' Hh Hq) as (cfn & N1 & N2). rewrite <- Ea, <- Hs in N1.
      destruct (DialFacts.g_dials _ _ _ _ _ G tr1 s (Ok h) tr0 Etr) as [E|(b & _ & Hd)].
      - rewrite E, F1 in N1. injection N1 as <-. congruence.
      - destruct Hd as [E1 E2|host Hne _].
        + pose proof (D2 hh n' ds Hh Hq) as X. rewrite E1, E2 in X. unfold add_auth_info in X. rewrite <- Ea, <- Hs, N1 in X. injection X as ->. cbn in N2. congruence.
        + rewrite Ea in Hs. refine (no_at _ hh ds n' Hh Hq (eq_sym Hs) _). apply in_or_app. right. now left. }
    rewrite Ea in Ed. pose proof (D2 hh n' ds Hh Hq) as X. rewrite <- Ed, C1 in X. injection X as ->.
    cbn in C2, C3. split; [exact C2|]. rewrite C2 in C3. apply C3. split; assumption.
Qed.
(** What a statement on a borrowed connection is answered with. *)
Theorem journey_serves n q0 w0 l q w tr m id h : new_routing_driver c n = Ok q0 -> journey K (call_at opened P site cell) q0 w0 l q w tr ->
  In (OBorrow m, RLent id h) l ->
  serves_right p P site cell u pw hp m h w.
Proof.
  intros En J Hi. destruct (journey_leads _ _ _ _ _ _ _ _ _ _ En J Hi) as (v & rows & a & H1 & H2 & H3). exists v, rows, a. split; [exact H1|]. split; [exact H2|].
  intros hh ds n' o t ps x' ans Ea Hh Hq Ho Hc Hord Hd. destruct (H3 hh ds n' Ea Hh Hq) as (Es & lh & Hs). rewrite Es in Hd. split; [exact Es|].
  split; [eexists; exact (session_more _ _ _ _ _ _ _ _ _ _ Hs Hc Hd)|]. destruct (cell w h) as [c0 k0], x' as [c1 k1]. cbn [fst snd] in *.
  pose proof (query_own_rows _ _ _ _ _ _ _ _ _ _ _ _ _ Hs Ho Hc Hd) as Q. rewrite Hord in Q. exact Q.
Qed.
End Client.
