(** Sessions with a conforming server: what the calls do at the level of bytes. *)
From Coq Require Import String ZArith List Bool Lia.
From Coq Require Import ZifyBool.
From Verif Require Import Bytes BytesFacts GoVal GoErr Encoder Decoder SpecPack SpecValues SpecCodec SpecServer
  Messages Connection Errors Link ExecFacts ServeFacts CallFacts Wire WireFacts SpecSession OpenFacts ShapeFacts.
Import ListNotations.
Open Scope Z_scope.

(** ** Sessions at the level of messages *)

Lemma steps_proto P x l y : steps P x l y -> c_proto (fst y) = c_proto (fst x).
Proof.
  induction 1 as [x|x l c s o c' s' r H IH Hcl E]; [reflexivity|]. cbn [fst] in *. rewrite <- IH.
  pose proof (astep_proto P o c s) as X. now rewrite E in X.
Qed.

Lemma session_linked p P user password l c w : session clean_call p P user password l (c, w) ->
  exists s, steps P (set_proto p (fresh_conn user password), after_login p) l (c, s)
  /\ linked P (codec p) c w s /\ c_proto c = p /\ sound (codec p) P
  /\ (forall md, j_outcome (p_judge P) 0 <> Refused md).
Proof.
  intros ([Hn Hs Hg] & Hu & Hp & [c0 w0] & Ho & Hh).
  destruct (open_does P p user password c0 w0 (Ok tt) Hn Hs Hg Hu Hp Ho) as [-> H].
  destruct (j_outcome (p_judge P) 0) as [md|rm rows md|rm rows md] eqn:E0.
  - destruct H as [H _]. discriminate.
  - destruct H as [_ L]. destruct (wire_history P (codec p) Hs _ _ _ _ _ _ L Hh) as (s & S & L').
    exists s. split; [exact S|]. split; [exact L'|]. split; [exact (steps_proto _ _ _ _ S)|]. split; [exact Hs|discriminate].
  - destruct H as [_ L]. destruct (wire_history P (codec p) Hs _ _ _ _ _ _ L Hh) as (s & S & L').
    exists s. split; [exact S|]. split; [exact L'|]. split; [exact (steps_proto _ _ _ _ S)|]. split; [exact Hs|discriminate].
Qed.

(** ** C31 *)

Lemma linked_quiet P v c w s : linked P v c w s -> c_closed c = false ->
  quiet w /\ (s_mode (w_srv w) = Ready \/ s_mode (w_srv w) = Gone /\ s_tx (w_srv w) = None).
Proof.
  intros [Hi M _] Hc. destruct (i_open _ _ Hi Hc) as (_ & _ & (Ho & Hst & _ & Hm)).
  unfold quiet. rewrite (m_srv _ _ _ _ M). pose proof (m_down _ _ _ _ M) as Hd. rewrite Ho in Hd.
  inversion Hd as [|]. split; [|exact Hm]. split; [reflexivity|]. split; [apply M|exact Hst].
Qed.
Lemma ready_open P v c w s : linked P v c w s -> s_mode (w_srv w) = Ready -> c_closed c = false /\ s_mode s = Ready.
Proof.
  intros [Hi M _] Hm. rewrite (m_srv _ _ _ _ M) in Hm. change (s_mode s = Ready) in Hm. split; [|exact Hm].
  destruct (c_closed c) eqn:Hc; [|reflexivity]. destruct (i_closed _ _ Hi Hc) as (_ & _ & E). congruence.
Qed.

(** ** Statements *)

Lemma conveys_lower v ps : forallb (fun kv => go_typed (snd kv)) ps = true -> conveys v ps (lower_map v ps).
Proof.
  intro H. exists f32_to_f64. split; [exact widen_exact|].
  induction ps as [|[k x] ps IH]; [constructor|]. cbn [forallb fst snd] in H. apply andb_true_iff in H as [H1 H2].
  constructor; [|now apply IH]. cbn [fst snd]. split; [reflexivity|]. intro Hp. now apply lower_item.
Qed.
Lemma sendable_typed v cs m : sendable v cs m = true -> go_typed m = true.
Proof. unfold sendable. intro H. apply andb_true_iff in H as [H _]. now apply andb_true_iff in H as [H _]. Qed.
Lemma run_msg_params c q ps db inTx : go_typed (run_msg c q ps db inTx) = true -> forallb (fun kv => go_typed (snd kv)) ps = true.
Proof.
  unfold run_msg, get_run_message, run_message, autocommit_run, unmanaged_run, run_with_metadata.
  destruct (c_proto c), inTx; cbn [negb go_typed forallb]; intro H;
    apply andb_true_iff in H as [_ H]; apply andb_true_iff in H as [_ H]; apply andb_true_iff in H as [H _];
    now apply andb_true_iff in H as [_ H].
Qed.

Lemma control_ordinary c s q : inv c s -> c_closed c = false -> ordinary (c_proto c) q = true -> is_control s q = None.
Proof.
  intros Hi Hc Ho. destruct (i_open _ _ Hi Hc) as (Hv & _). unfold is_control. rewrite Hv. unfold ordinary in Ho.
  destruct (c_proto c); cbn; try reflexivity; destruct (control_of q); try discriminate; reflexivity.
Qed.

(** Which message and flags a statement call uses. *)
Definition in_tx (o : call) : bool := match o with CTxQuery _ _ _ _ | CTxExecDb _ _ _ _ => true | _ => false end.
Definition wrap_answer (o : call) (r : list (list gval) * gomap) : answer :=
  match o with CQuery _ _ _ | CTxQuery _ _ _ _ => rows_answer r | _ => meta_answer r end.
Lemma stmt_astep J looks o c s q ps : statement_of o = Some (q, ps) ->
  astep J looks o c s = on_query c (wrap_answer o) (a_query J c s q ps (database_of o) (in_tx o)).
Proof. destruct o; cbn; intro H; try discriminate; injection H as -> ->; reflexivity. Qed.
Lemma stmt_out c o q ps : statement_of o = Some (q, ps) -> goes_out c o ->
  (negb (multi_database (c_proto c)) && negb (bytes_eqb (database_of o) [])) = false
  /\ sendable (codec (c_proto c)) (c_chunk c) (run_msg c q ps (database_of o) (in_tx o)) = true.
Proof.
  intros H G. destruct o; cbn in H; try discriminate; injection H as <- <-; cbn in G; destruct G as [G1 G2]; (split; [|exact G2]);
    cbn [database_of]; (destruct G1 as [G1|G1]; [now rewrite G1|]); try rewrite G1; cbn; apply andb_false_r.
Qed.
Lemma goes_clean c o : goes_out c o -> clean_call c o.
Proof. destruct o; cbn; intro G; try contradiction; now left. Qed.

Lemma sent_db c s o q ps : statement_of o = Some (q, ps) -> goes_out c o -> c_mode c = ReadMode ->
  st_db (sent_stmt c s q ps (database_of o) (in_tx o)) = match s_tx s with Some (d, _) => d | None => carried o end.
Proof.
  intros H G Hm. cbn [sent_stmt st_db]. unfold run_db. destruct (s_tx s) as [[d ?]|]; [reflexivity|]. rewrite Hm.
  assert (X : forall db, (multi_database (c_proto c) = true \/ db = []) ->
    db_of (lower_map (codec (c_proto c)) (run_extra (c_proto c) db ReadMode true)) = name_of db).
  { intros db [Hd| ->]; [|now destruct (c_proto c)]. destruct (c_proto c); try discriminate. destruct db; reflexivity. }
  assert (Y : forall db, db_of (lower_map (codec (c_proto c)) (run_extra (c_proto c) db ReadMode false)) = None)
    by (intro db; destruct (c_proto c); reflexivity).
  destruct o; cbn in H; try discriminate; injection H as <- <-; cbn in G; destruct G as [G _];
    cbn [database_of in_tx negb carried]; auto. apply (X []). now right.
Qed.

Lemma stmt_step J looks o c s q ps : inv c s -> s_mode s = Ready -> c_closed c = false ->
  statement_of o = Some (q, ps) -> goes_out c o -> ordinary (c_proto c) q = true ->
  let st := sent_stmt c s q ps (database_of o) (in_tx o) in
  astep J looks o c s = (c, after_stmt J st s, ans (wrap_answer o) (rows_of (j_outcome J (s_next s))))
  /\ is_stmt (codec (c_proto c)) q ps st.
Proof.
  intros Hi Hm Hc Ho G Hq st. destruct (stmt_out c o q ps Ho G) as [Hdb Hs]. rewrite (stmt_astep J looks o c s q ps Ho).
  unfold a_query. rewrite Hdb, Hc, (sendable_encodes _ _ _ Hs), Hm, (control_ordinary c s q Hi Hc Hq).
  split; [reflexivity|]. split; [reflexivity|]. cbn [st sent_stmt st_params]. apply conveys_lower.
  eapply run_msg_params, sendable_typed, Hs.
Qed.

Lemma told_rows o q ps x : statement_of o = Some (q, ps) -> told o x (ans (wrap_answer o) (rows_of x)).
Proof.
  intro Ho. destruct x as [md|rm l md|rm l md]; cbn.
  - eexists. split; reflexivity.
  - eexists. split; reflexivity.
  - destruct o; reflexivity.
Qed.

(** C32, C33 for statements: the server judges exactly this statement, the caller learns exactly the verdict. *)
Lemma statement_judged p P user password l c w o q ps c' w' r :
  session clean_call p P user password l (c, w) -> ready w ->
  statement_of o = Some (q, ps) -> goes_out c o -> ordinary p q = true ->
  does (wired P) o (c, w) (c', w') r ->
  let x := j_outcome (p_judge P) (s_next (w_srv w)) in
  c' = c /\ ready w' /\ told o x r
  /\ (exists st, s_done (w_srv w') = s_done (w_srv w) ++ [(st, x)] /\ is_stmt (codec p) q ps st
      /\ st_db st = match s_tx (w_srv w) with Some (d, _) => d | None => carried o end)
  /\ s_next (w_srv w') = S (s_next (w_srv w)).
Proof.
  intros Hs Hr Ho G Hq Hd x. destruct (session_linked _ _ _ _ _ _ _ Hs) as (s & _ & L & Hp & HP & _).
  destruct (ready_open _ _ _ _ _ L (proj2 Hr)) as [Hc Hm].
  destruct (wire_does P (codec p) HP o c w s c' w' r L (goes_clean c o G) Hd) as (s' & E & L').
  rewrite <- Hp in Hq. destruct (stmt_step (p_judge P) (p_looks P) o c s q ps (l_inv _ _ _ _ _ L) Hm Hc Ho G Hq) as [E' Hst].
  rewrite E' in E. injection E as <- <- <-. rewrite Hp in Hst.
  destruct (linked_quiet _ _ _ _ _ L' Hc) as [Q _].
  assert (Es : w_srv w = bare s) by apply L. assert (Es' : w_srv w' = bare (after_stmt (p_judge P) (sent_stmt c s q ps (database_of o) (in_tx o)) s)) by apply L'.
  split; [reflexivity|]. split; [split; [exact Q|now rewrite Es']|].
  unfold x. rewrite Es, Es'. cbn [bare set_raw set_out s_next].
  split; [now apply told_rows with q ps|]. split; [|reflexivity].
  eexists. split; [reflexivity|]. split; [exact Hst|]. apply (sent_db c s); [exact Ho|exact G|]. apply (i_mode _ _ (l_inv _ _ _ _ _ L)).
Qed.

(** C32: a success is the server's verdict on this statement. *)
Lemma a_query_ok J c s q ps db inTx x : a_query J c s q ps db inTx = x -> forall rows md, snd x = Ok (rows, md) ->
  (negb (multi_database (c_proto c)) && negb (bytes_eqb db [])) = false /\ c_closed c = false
  /\ snd (encode (codec (c_proto c)) (run_msg c q ps db inTx)) = None /\ s_mode s = Ready
  /\ (is_control s q <> None -> rows = [] /\ md = []).
Proof.
  intros <- rows md. unfold a_query. destruct (negb _ && _); [discriminate|]. destruct (c_closed c); [discriminate|].
  destruct (snd (encode _ _)); [discriminate|]. destruct (s_mode s); try discriminate.
  destruct (is_control s q) eqn:E; cbn; intro H.
  - repeat split; destruct (control_error J c0 false s); try discriminate; now injection H.
  - repeat split; now elim H0.
Qed.
Lemma clean_goes c s o q ps J x a : statement_of o = Some (q, ps) -> clean_call c o ->
  a_query J c s q ps (database_of o) (in_tx o) = x -> ans (wrap_answer o) (snd x) = Ok a ->
  goes_out c o /\ c_closed c = false /\ s_mode s = Ready
  /\ (is_control s q <> None -> a = wrap_answer o ([], [])).
Proof.
  intros Ho Hcl Hx Ha. destruct (snd x) as [[rows md]| | |] eqn:Ex; try discriminate. injection Ha as <-.
  destruct (a_query_ok J c s q ps _ _ x Hx rows md Ex) as (H1 & H2 & H3 & H4 & H5).
  assert (Hdb : multi_database (c_proto c) = true \/ database_of o = []).
  { destruct (multi_database (c_proto c)); [now left|right]. cbn in H1. apply negb_false_iff in H1. now apply bytes_eqb_eq in H1. }
  assert (Hsend : sendable (codec (c_proto c)) (c_chunk c) (run_msg c q ps (database_of o) (in_tx o)) = true).
  { assert (Hc2 : clean c (run_msg c q ps (database_of o) (in_tx o)))
      by (destruct o; cbn in Ho; try discriminate; injection Ho as -> ->; exact Hcl).
    destruct Hc2 as [X|X]; [exact X|]. unfold refused in X. rewrite H3 in X. discriminate. }
  split; [|split; [exact H2|split; [exact H4|]]].
  - destruct o; cbn in Ho; try discriminate; injection Ho as <- <-; cbn; (split; [exact Hdb|exact Hsend]).
  - intro X. destruct (H5 X) as [-> ->]. reflexivity.
Qed.
Lemma query_own_rows p P user password l c w o q ps c' w' a :
  session clean_call p P user password l (c, w) ->
  statement_of o = Some (q, ps) -> clean_call c o ->
  does (wired P) o (c, w) (c', w') (Ok a) ->
  if ordinary p q then
    exists st rm rows md, s_done (w_srv w') = s_done (w_srv w) ++ [(st, Produced rm rows md)]
    /\ is_stmt (codec p) q ps st
    /\ a = match o with CQuery _ _ _ | CTxQuery _ _ _ _ => ARows rows md | _ => AMeta md end
  else s_done (w_srv w') = s_done (w_srv w)
    /\ a = match o with CQuery _ _ _ | CTxQuery _ _ _ _ => ARows [] [] | _ => AMeta [] end.
Proof.
  intros Hs Ho Hcl Hd. destruct (session_linked _ _ _ _ _ _ _ Hs) as (s & _ & L & Hp & HP & _).
  destruct (wire_does P (codec p) HP o c w s c' w' (Ok a) L Hcl Hd) as (s' & E & L').
  rewrite (stmt_astep _ _ o c s q ps Ho) in E. unfold on_query in E. injection E as <- Es' Ea.
  destruct (clean_goes c s o q ps _ _ a Ho Hcl eq_refl Ea) as (G & Hc & Hm & Hctl).
  assert (Hw : s_done (w_srv w') = s_done s' /\ s_done (w_srv w) = s_done s).
  { rewrite (m_srv _ _ _ _ (l_mirrors _ _ _ _ _ L)), (m_srv _ _ _ _ (l_mirrors _ _ _ _ _ L')). split; reflexivity. }
  destruct Hw as [-> ->].
  destruct (ordinary p q) eqn:Hq.
  - rewrite <- Hp in Hq. destruct (stmt_step (p_judge P) (p_looks P) o c s q ps (l_inv _ _ _ _ _ L) Hm Hc Ho G Hq) as [E' Hst].
    rewrite (stmt_astep _ _ o c s q ps Ho) in E'. unfold on_query in E'. injection E' as E1 E2. rewrite E1 in Es'. subst s'.
    rewrite E2 in Ea. rewrite Hp in Hst.
    destruct (j_outcome (p_judge P) (s_next s)) as [md|rm rows md|rm rows md] eqn:Ex; cbn in Ea; try discriminate.
    injection Ea as <-. exists (sent_stmt c s q ps (database_of o) (in_tx o)), rm, rows, md.
    split; [cbn; now rewrite Ex|]. split; [exact Hst|]. destruct o; reflexivity.
  - assert (Hk : is_control s q <> None).
    { destruct (i_open _ _ (l_inv _ _ _ _ _ L) Hc) as (Hv & _). unfold is_control. rewrite Hv, Hp. unfold ordinary in Hq.
      destruct p; cbn; try discriminate; destruct (control_of q); discriminate. }
    rewrite (Hctl Hk). split; [|destruct o; reflexivity].
    rewrite <- Es'. destruct (stmt_out c o q ps Ho G) as [Hdb Hsd]. unfold a_query.
    rewrite Hdb, Hc, (sendable_encodes _ _ _ Hsd), Hm. destruct (is_control s q) as [k|]; [|now elim Hk].
    unfold after_control. destruct (control_fits k s); [|reflexivity]. now destruct (j_outcome (p_judge P) (s_next s)).
Qed.
