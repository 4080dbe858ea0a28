(** From the options of a client to the rows of its statements. *)
From Coq Require Import String ZArith List Bool Lia ZifyBool.
From Verif Require Import Bytes BytesFacts GoVal GoErr Encoder Decoder SpecPack SpecValues SpecCodec SpecServer
  Messages Connection Errors Link ExecFacts ServeFacts CallFacts Wire WireFacts SpecSession OpenFacts ShapeFacts SessionFacts WatchFacts
  MessageFacts RestFacts CaseFacts GoStr Url Client SpecClient ClientFacts ClientCases Refusal SpecRefusal RefusalFacts SpecWhole.
Import ListNotations.
Open Scope Z_scope.

Lemma opened_as p P u pw c w : conforming p P -> zlen u <= 65535 -> zlen pw <= 65535 ->
  opens (wired P) u pw new_wire (c, w) (Ok tt) ->
  c = set_proto p (fresh_conn u pw) /\ ready w /\ w_srv w = bare (after_login p).
Proof.
  intros [Hn Hs Hg] Hu Hp Ho. destruct (open_does P p u pw c w (Ok tt) Hn Hs Hg Hu Hp Ho) as [-> H].
  split; [reflexivity|].
  assert (L : linked P (codec p) (set_proto p (fresh_conn u pw)) w (after_login p)).
  { destruct (j_outcome (p_judge P) 0); destruct H as [E H]; try discriminate; exact H. }
  destruct (linked_quiet _ _ _ _ _ L eq_refl) as [Hq _]. assert (E : w_srv w = bare (after_login p)) by apply L.
  split; [split; [exact Hq|now rewrite E]|exact E].
Qed.

Lemma ask_out p u pw x : fits_in p x -> goes_out (set_proto p (fresh_conn u pw)) (ask x).
Proof. intros [_ H]. split; [now right|exact H]. Qed.

Lemma nth_snoc {A} (l : list A) x i y : nth_error (l ++ [x]) i = Some y -> (nth_error l i = Some y /\ (i < length l)%nat) \/ (i = length l /\ y = x).
Proof.
  intro H. destruct (Nat.lt_ge_cases i (length l)) as [Hi|Hi].
  - left. rewrite nth_error_app1 in H by exact Hi. auto.
  - right. rewrite nth_error_app2 in H by exact Hi. destruct (i - length l)%nat as [|[|k]] eqn:E; [|discriminate|discriminate].
    injection H as <-. split; [lia|reflexivity].
Qed.
Lemma nth_at {A} (l : list A) x : nth_error (l ++ [x]) (length l) = Some x.
Proof. now rewrite nth_error_app2, Nat.sub_diag by lia. Qed.
Lemma nth_before {A} (l : list A) x i y : nth_error l i = Some y -> nth_error (l ++ [x]) i = Some y.
Proof. intro H. rewrite nth_error_app1; [exact H|]. apply nth_error_Some. congruence. Qed.

(** A statement outside transactions. *)
Lemma judged_alone p P u pw l c w x c' w' r :
  session clean_call p P u pw l (c, w) -> ready w -> s_tx (w_srv w) = None -> goes_out c (ask x) -> ordinary p (fst x) = true ->
  does (wired P) (ask x) (c, w) (c', w') r ->
  let o := j_outcome (p_judge P) (s_next (w_srv w)) in
  c' = c /\ ready w' /\ told (ask x) o r /\ s_tx (w_srv w') = None /\ s_next (w_srv w') = S (s_next (w_srv w))
  /\ exists st, is_stmt (codec p) (fst x) (snd x) st /\ st_db st = None
     /\ s_done (w_srv w') = s_done (w_srv w) ++ [(st, o)] /\ s_perm (w_srv w') = s_perm (w_srv w) ++ granted [(st, o)].
Proof.
  intros Hs Hr Ht G Hq Hd o. destruct (session_linked _ _ _ _ _ _ _ Hs) as (s & _ & L & Hp & HP & _).
  destruct (ready_open _ _ _ _ _ L (proj2 Hr)) as [Hc Hm].
  destruct (wire_does P (codec p) HP (ask x) c w s c' w' r L (goes_clean c _ G) Hd) as (s' & E & L').
  rewrite <- Hp in Hq. destruct (stmt_step (p_judge P) (p_looks P) (ask x) c s (fst x) (snd x) (l_inv _ _ _ _ _ L) Hm Hc eq_refl G Hq) as [E' Hst].
  rewrite E' in E. injection E as <- <- <-. rewrite Hp in Hst. clear E'.
  destruct (linked_quiet _ _ _ _ _ L' Hc) as [Q _].
  assert (Es : w_srv w = bare s) by apply L. assert (Es' : w_srv w' = bare (after_stmt (p_judge P) (sent_stmt c s (fst x) (snd x) (database_of (ask x)) (in_tx (ask x))) s)) by apply L'.
  set (st := sent_stmt c s (fst x) (snd x) (database_of (ask x)) (in_tx (ask x))) in *.
  assert (Hdb : st_db st = match s_tx s with Some (d, _) => d | None => carried (ask x) end).
  { apply (sent_db c s); [reflexivity|exact G|]. apply (i_mode _ _ (l_inv _ _ _ _ _ L)). }
  assert (Hx : s_tx s = None) by (rewrite Es in Ht; exact Ht). rewrite Hx in Hdb.
  assert (Ho : o = j_outcome (p_judge P) (s_next s)) by (unfold o; now rewrite Es).
  rewrite Ho, Es, Es'. clearbody o. unfold after_stmt. rewrite Hx. cbn [bare set_raw set_out s_next s_tx s_done s_perm].
  split; [reflexivity|]. split; [split; [exact Q|now rewrite Es']|].
  split; [apply (told_rows _ (fst x) (snd x)); reflexivity|].
  split; [now destruct (j_outcome (p_judge P) (s_next s))|]. split; [reflexivity|].
  exists st. split; [exact Hst|]. split; [exact Hdb|]. split; [reflexivity|].
  unfold granted. cbn [filter map fst snd]. destruct (j_outcome (p_judge P) (s_next s)); cbn [map]; now rewrite ?app_nil_r.
Qed.
(** Where a session of statements stands. *)
Definition come_to p P u pw qs l c w : Prop :=
  session clean_call p P u pw l (c, w) /\ c = set_proto p (fresh_conn u pw) /\ ready w /\ s_tx (w_srv w) = None
  /\ s_next (w_srv w) = S (length qs) /\ answered (p_judge P) qs l /\ received (p_judge P) p qs (s_done (w_srv w))
  /\ s_perm (w_srv w) = granted (s_done (w_srv w)).

Lemma one_more p P u pw qs x l c w c' w' r : come_to p P u pw qs l c w -> fits_in p x ->
  does (wired P) (ask x) (c, w) (c', w') r -> come_to p P u pw (qs ++ [x]) (l ++ [(ask x, r)]) c' w'.
Proof.
  intros (Hs & -> & Hr & Ht & Hn & [La Ha] & [Lr Hd] & Hk) Hf Hx. pose proof (ask_out p u pw x Hf) as G.
  destruct (judged_alone p P u pw l _ w x c' w' r Hs Hr Ht G (proj1 Hf) Hx) as (Hc & Hr' & Ho & Ht' & En & st & Hst & Hdb & Ed & Ek).
  rewrite Hn in *. subst c'.
  split.
  { destruct Hs as (H1 & H2 & H3 & w0 & H4 & H5). split; [exact H1|]. split; [exact H2|]. split; [exact H3|].
    exists w0. split; [exact H4|]. eapply hist_snoc; [exact H5|exact (goes_clean _ _ G)|exact Hx]. }
  split; [reflexivity|]. split; [exact Hr'|]. split; [exact Ht'|]. split; [rewrite app_length; cbn [length]; lia|].
  split; [|split].
  - split; [rewrite !app_length; cbn [length]; lia|]. intros i y Hi. destruct (nth_snoc _ _ _ _ Hi) as [[H _]|[-> ->]].
    + destruct (Ha i y H) as (r' & E & T). exists r'. split; [now apply nth_before|exact T].
    + exists r. rewrite <- La. split; [apply nth_at|]. rewrite La. exact Ho.
  - rewrite Ed. split; [rewrite !app_length; cbn [length]; lia|]. intros i y Hi. destruct (nth_snoc _ _ _ _ Hi) as [[H _]|[-> ->]].
    + destruct (Hd i y H) as (st' & E & T). exists st'. split; [now apply nth_before|exact T].
    + exists st. split; [|auto]. rewrite <- Lr. apply nth_at.
  - rewrite Ek, Ed, Hk. unfold granted. now rewrite filter_app, map_app.
Qed.

Lemma come_start p P u pw c w : conforming p P -> zlen u <= 65535 -> zlen pw <= 65535 ->
  opens (wired P) u pw new_wire (c, w) (Ok tt) -> come_to p P u pw [] [] c w.
Proof.
  intros Hc Hu Hp Ho. destruct (opened_as p P u pw c w Hc Hu Hp Ho) as (-> & Hr & E).
  assert (F : (s_tx (w_srv w), s_next (w_srv w), s_done (w_srv w), s_perm (w_srv w)) = (None, 1%nat, [], [])) by (rewrite E; reflexivity).
  injection F as F1 F2 F3 F4.
  split; [split; [exact Hc|split; [exact Hu|split; [exact Hp|eexists; split; [exact Ho|constructor]]]]|].
  split; [reflexivity|]. split; [exact Hr|]. split; [exact F1|]. split; [exact F2|]. rewrite F3, F4.
  split; [|split]; [split; [reflexivity|now intros [|i]]|split; [reflexivity|now intros [|i]]|reflexivity].
Qed.

(** Whatever happens, the answers are the server's. *)
Lemma all_come p P u pw c w : conforming p P -> zlen u <= 65535 -> zlen pw <= 65535 ->
  opens (wired P) u pw new_wire (c, w) (Ok tt) -> forall qs l c' w', Forall (fits_in p) qs ->
  history (wired P) (fun _ _ => True) (c, w) l (c', w') -> map fst l = map ask qs -> come_to p P u pw qs l c' w'.
Proof.
  intros Hc Hu Hp Ho qs. induction qs as [|x qs IH] using rev_ind; intros l c' w' Hf Hh El.
  - destruct l as [|y l]; [|discriminate]. inversion Hh as [ |? ? ? ? ? ? ? ? ? E]; subst; [|now destruct l].
    now apply come_start.
  - apply Forall_app in Hf. destruct Hf as [Hf Hx]. inversion Hx as [|? ? Hx1 _]; subst. rewrite map_app in El. cbn [map] in El.
    inversion Hh as [z Ez|a l0 [c1 w1] o r w2 H0 _ H2 Ea]; subst.
    + now destruct (map ask qs).
    + rewrite map_app in El. cbn [map fst] in El. apply app_inj_tail in El. destruct El as [El ->].
      apply (one_more p P u pw qs x l0 c1 w1 c' w' r); [now apply IH|exact Hx1|exact H2].
Qed.
(** And it does happen. *)
Lemma some_come p P u pw c w : conforming p P -> zlen u <= 65535 -> zlen pw <= 65535 ->
  opens (wired P) u pw new_wire (c, w) (Ok tt) -> forall qs, Forall (fits_in p) qs ->
  exists l c' w', history (wired P) (fun _ _ => True) (c, w) l (c', w') /\ map fst l = map ask qs.
Proof.
  intros Hc Hu Hp Ho qs. induction qs as [|x qs IH] using rev_ind; intros Hf.
  - exists [], c, w. split; [constructor|reflexivity].
  - apply Forall_app in Hf. destruct Hf as [Hf Hx]. inversion Hx as [|? ? Hx1 _]; subst.
    destruct (IH Hf) as (l & c1 & w1 & Hh & El).
    pose proof (all_come p P u pw c w Hc Hu Hp Ho qs l c1 w1 Hf Hh El) as C. destruct C as (Hs & Ec & _).
    assert (G : goes_out c1 (ask x)) by (rewrite Ec; now apply ask_out).
    destruct (call_returns p P u pw l c1 w1 (ask x) Hs (goes_clean _ _ G)) as (c' & w' & r & Hd).
    exists (l ++ [(ask x, r)]), c', w'. split; [eapply hist_snoc; [exact Hh|exact I|exact Hd]|]. rewrite !map_app, El. reflexivity.
Qed.

(** The login. *)
Lemma login_seen p P u pw : conforming p P -> zlen u <= 65535 -> zlen pw <= 65535 -> (forall md, j_outcome (p_judge P) 0 <> Refused md) ->
  exists c w tr m, opens (watched (wired P)) u pw (new_wire, []) (c, (w, tr)) (Ok tt) /\ opens (wired P) u pw new_wire (c, w) (Ok tt)
  /\ (forall m', (exists e, In (VSend m' e) tr) <-> m' = m) /\ In (VSend m None) tr /\ arrives p 65535 m (login_of u pw).
Proof.
  intros Hc Hu Hp Ha. destruct (opens_accepted p P u pw Hc Hu Hp) as [(c & w & r & Ho) H].
  pose proof (H c w r Ho) as K.
  assert (Er : r = Ok tt) by (destruct (j_outcome (p_judge P) 0) as [md|rm rs md|rm rs md]; [destruct (Ha md eq_refl)|exact (proj1 K)|exact (proj1 K)]).
  subst r. destruct (opened_as p P u pw c w Hc Hu Hp Ho) as (Ec & _ & _).
  destruct Ho as (n & E & Nf). cbn [fst snd] in E.
  pose proof (watched_same (wired P) (create_bolt_conn n) (fresh_conn u pw) new_wire []) as X. rewrite E in X.
  destruct (exec (watched (wired P)) (create_bolt_conn n) (fresh_conn u pw) (new_wire, [])) as [[c' [w' tr]] r'] eqn:E'.
  cbn [fst] in X. injection X as <- <- <-.
  assert (Hw : opens (watched (wired P)) u pw (new_wire, []) (c, (w, tr)) (Ok tt)) by (exists n; split; [exact E'|discriminate]).
  destruct (open_events (wired P) u pw new_wire c w tr Hw) as (vb & p' & _ & Ep & [(md & Et & _)|(m & tr' & _ & _ & _ & Ecl)]).
  - assert (p' = p) by (rewrite <- Ep, Ec; reflexivity). subst p'.
    exists c, w, tr, (get_init_message p client_id (auth_basic u pw)).
    split; [exact Hw|]. split; [exists n; split; [exact E|discriminate]|]. rewrite Et, H0. split; [|split].
    + intro m'. cbn [app In]. split.
      * intros (e & [Q|[Q|[Q|[Q|[Q|[]]]]]]); try discriminate. congruence.
      * intros ->. exists None. do 3 right. now left.
    + cbn [app In]. do 3 right. now left.
    + intros o rest. destruct (login_arrives p u pw Hu Hp o rest) as (b & x & A & B & C). exists b, x. split; [exact A|]. split; [exact B|].
      destruct C as (q & C1 & C2 & C3 & C4 & _). exists q. auto.
  - rewrite Ec in Ecl. discriminate.
Qed.

(** ** C126 *)
Lemma whole_way os c h n u pw p P qs :
  new_client os = Ok c -> last_word string_opt os = None -> last_word host_opt os = Some (h, n) -> last_word auth_opt os = Some (u, pw) ->
  last_word tls_opt os = None -> Forall host_char h -> Forall user_char u -> Forall password_char pw ->
  zlen u <= 65535 -> zlen pw <= 65535 -> conforming p P -> (forall md, j_outcome (p_judge P) 0 <> Refused md) -> Forall (fits_in p) qs ->
  exists cf ds, driver_open (cl_conn_str c) = Ok cf /\ decimal n ds
  /\ (forall F, how_to_dial F cf = Ok (DialTCP (h ++ str ":" ++ ds) (cf_timeout cf)))
  /\ (exists cn w tr m, opens (watched (wired P)) (cf_user cf) (cf_password cf) (new_wire, []) (cn, (w, tr)) (Ok tt)
       /\ opens (wired P) (cf_user cf) (cf_password cf) new_wire (cn, w) (Ok tt)
       /\ (forall m', (exists e, In (VSend m' e) tr) <-> m' = m) /\ In (VSend m None) tr /\ arrives p 65535 m (login_of u pw)
       /\ exists l cn' w', history (wired P) (fun _ _ => True) (cn, w) l (cn', w') /\ map fst l = map ask qs)
  /\ forall cn w l cn' w', opens (wired P) (cf_user cf) (cf_password cf) new_wire (cn, w) (Ok tt) ->
     history (wired P) (fun _ _ => True) (cn, w) l (cn', w') -> map fst l = map ask qs ->
     answered (p_judge P) qs l /\ received (p_judge P) p qs (s_done (w_srv w')) /\ s_perm (w_srv w') = granted (s_done (w_srv w')) /\ ready w'.
Proof.
  intros E Hs Hh Ha Ht Hc Hu Hp Lu Lp Hf Hj Hq.
  destruct (client_plain_config os c h n u pw E Hs Hh Ha Hc Hu Hp) as (ds & D & Ecf); [rewrite Ht; intros; discriminate|].
  exists (plain_config u pw (h ++ str ":" ++ ds)), ds. split; [exact Ecf|]. split; [exact D|]. split; [reflexivity|].
  change (cf_user (plain_config u pw (h ++ str ":" ++ ds))) with u. change (cf_password (plain_config u pw (h ++ str ":" ++ ds))) with pw. split.
  - destruct (login_seen p P u pw Hf Lu Lp Hj) as (cn & w & tr & m & A & B & X & Y & Z).
    destruct (some_come p P u pw cn w Hf Lu Lp B qs Hq) as (l & cn' & w' & H1 & H2).
    exists cn, w, tr, m. split; [exact A|]. split; [exact B|]. split; [exact X|]. split; [exact Y|]. split; [exact Z|]. eauto.
  - intros cn w l cn' w' Ho Hh' El. destruct (all_come p P u pw cn w Hf Lu Lp Ho qs l cn' w' Hq Hh' El) as (_ & _ & Hr & _ & _ & An & Re & Ke). auto.
Qed.
Definition no_library : library := mkLibrary (fun _ => []) (fun _ => []) [].
Lemma never_opens os c h n u pw :
  new_client os = Ok c -> last_word string_opt os = None -> last_word tls_opt os = None ->
  last_word host_opt os = Some (h, n) -> last_word auth_opt os = Some (u, pw) ->
  Forall clear_char (u ++ pw ++ h) -> Forall (fun b => ~ ends_authority b) (u ++ pw) -> ~ In "#"%byte h ->
  (exists b, In b (u ++ pw) /\ ~ authority_char b) ->
  exists e, driver_open (cl_conn_str c) = Err e.
Proof.
  intros A B C D E F G H I. destruct (client_reveals no_library os c h n u pw A B C D E F G H I) as (e & t & X & _). eauto.
Qed.
