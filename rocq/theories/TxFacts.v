(** Transactions in sessions with a conforming server: C33, C35, C36, C39. *)
From Coq Require Import String ZArith List Bool Lia.
From Coq Require Import ZifyBool.
From Verif Require Import Bytes BytesFacts GoVal GoErr Encoder Decoder SpecPack SpecValues SpecCodec SpecServer
  Messages Connection Errors Link ExecFacts ServeFacts CallFacts Wire WireFacts SpecSession OpenFacts ShapeFacts SessionFacts.
Import ListNotations.
Open Scope Z_scope.

Lemma no_tx c s : inv c s -> (forall t, tx_closed c t = true) -> c_transaction c = None.
Proof.
  intros Hi H. destruct (c_transaction c) as [t|] eqn:E; [|reflexivity]. apply (i_txs _ _ Hi) in E. rewrite H in E. discriminate.
Qed.

(** ** C33, C35: requests about transactions are judged *)

Lemma control_step J looks o k c s : inv c s -> s_mode s = Ready -> c_closed c = false -> asks c o k ->
  let nat := native (c_proto c) in
  snd (fst (astep J looks o c s)) = after_control J k (match o with CBegin db => begin_db_of c db | _ => None end) nat s
  /\ c_closed (fst (fst (astep J looks o c s))) = false
  /\ match control_error J k nat s with
     | Some e => snd (astep J looks o c s) = Err e /\ fst (fst (astep J looks o c s)) = c
     | None => exists a, snd (astep J looks o c s) = Ok a
     end.
Proof.
  intros Hi Hm Hc Ha nat.
  destruct o; cbn in Ha; try contradiction; destruct k; try contradiction; cbn [astep].
  - destruct Ha as [Ht Hs]. unfold a_begin. rewrite (no_tx c s Hi Ht), Hc, (sendable_encodes _ _ _ Hs), Hm. cbv zeta.
    fold nat. destruct (control_error J KBegin nat s); cbn; auto. split; [reflexivity|]. split; [exact Hc|]. eauto.
  - unfold a_end. rewrite Ha, Hm. cbv zeta. fold nat. destruct (control_error J KCommit nat s); cbn; auto.
    split; [reflexivity|]. split; [exact Hc|]. eauto.
  - unfold a_end. rewrite Ha, Hm. cbv zeta. fold nat. destruct (control_error J KRollback nat s); cbn; auto.
    split; [reflexivity|]. split; [exact Hc|]. eauto.
Qed.
Lemma begun_ok c o k : asks c o k -> c_mode c = ReadMode ->
  match o with CBegin db => begin_db_of c db | _ => None end = begun_with (c_proto c) o.
Proof.
  intros _ Hm. destruct o; try reflexivity. unfold begin_db_of, begun_with. rewrite Hm. destruct (c_proto c), db; reflexivity.
Qed.
Lemma asks_clean c o k : asks c o k -> clean_call c o.
Proof. destruct o; cbn; try exact (fun _ => Logic.I); destruct k; intro H; try contradiction. left. apply H. Qed.

Lemma control_judged p P user password l c w o k c' w' r :
  session clean_call p P user password l (c, w) -> ready w -> asks c o k -> allows k (w_srv w) ->
  does (wired P) o (c, w) (c', w') r ->
  ready w' /\ s_next (w_srv w') = S (s_next (w_srv w)) /\ s_done (w_srv w') = s_done (w_srv w)
  /\ match j_outcome (p_judge P) (s_next (w_srv w)) with
     | Refused md => c' = c /\ s_tx (w_srv w') = None /\ s_perm (w_srv w') = s_perm (w_srv w)
                     /\ exists e, r = Err e /\ inner_most e = EFailure md
     | _ => (exists a, r = Ok a)
            /\ match k, s_tx (w_srv w) with
               | KBegin, _ => s_tx (w_srv w') = Some (begun_with p o, []) /\ s_perm (w_srv w') = s_perm (w_srv w)
               | KCommit, Some (_, sts) => s_tx (w_srv w') = None /\ s_perm (w_srv w') = s_perm (w_srv w) ++ sts
               | _, _ => s_tx (w_srv w') = None /\ s_perm (w_srv w') = s_perm (w_srv w)
               end
     end.
Proof.
  intros Hs Hr Ha Hal Hd. destruct (session_linked _ _ _ _ _ _ _ Hs) as (s & _ & L & Hp & HP & _).
  destruct (ready_open _ _ _ _ _ L (proj2 Hr)) as [Hc Hm].
  destruct (wire_does P (codec p) HP o c w s c' w' r L (asks_clean c o k Ha) Hd) as (s' & E & L').
  destruct (control_step (p_judge P) (p_looks P) o k c s (l_inv _ _ _ _ _ L) Hm Hc Ha) as (E1 & E2 & E3).
  rewrite E in E1, E2, E3. cbn [fst snd] in E1, E2, E3.
  destruct (linked_quiet _ _ _ _ _ L' E2) as [Q _].
  assert (Es : w_srv w = bare s) by apply L. assert (Es' : w_srv w' = bare s') by apply L'.
  unfold ready. rewrite Es, Es' in *. clear Es Es'. unfold control_error, after_control in *.
  assert (Hf : control_fits k s = true).
  { unfold allows in Hal. change (s_tx (bare s)) with (s_tx s) in Hal. unfold control_fits.
    destruct k, (s_tx s); try contradiction; reflexivity. }
  rewrite Hf in *. change (s_next (bare s)) with (s_next s).
  destruct (j_outcome (p_judge P) (s_next s)) as [md|rm rows md|rm rows md]; subst s'.
  - destruct E3 as [-> ->]. cbn. repeat split; try apply Q. eexists. split; reflexivity.
  - split; [split; [exact Q|reflexivity]|]. split; [reflexivity|]. split; [reflexivity|]. split; [exact E3|].
    unfold allows in Hal. change (s_tx (bare s)) with (s_tx s) in *. cbn. destruct k; try contradiction.
    + split; [|apply app_nil_r]. rewrite (begun_ok c o KBegin Ha (i_mode _ _ (l_inv _ _ _ _ _ L))). now rewrite Hp.
    + destruct (s_tx s) as [[? ?]|]; [|contradiction]. split; reflexivity.
    + rewrite app_nil_r. split; reflexivity.
  - split; [split; [exact Q|reflexivity]|]. split; [reflexivity|]. split; [reflexivity|]. split; [exact E3|].
    unfold allows in Hal. change (s_tx (bare s)) with (s_tx s) in *. cbn. destruct k; try contradiction.
    + split; [|apply app_nil_r]. rewrite (begun_ok c o KBegin Ha (i_mode _ _ (l_inv _ _ _ _ _ L))). now rewrite Hp.
    + destruct (s_tx s) as [[? ?]|]; [|contradiction]. split; reflexivity.
    + rewrite app_nil_r. split; reflexivity.
Qed.

(** A request the session does not allow: the server's complaint reaches the caller. *)
Lemma control_breach p P user password l c w o k c' w' r :
  session clean_call p P user password l (c, w) -> ready w -> asks c o k -> ~ allows k (w_srv w) ->
  does (wired P) o (c, w) (c', w') r ->
  c' = c /\ s_tx (w_srv w') = None /\ exists e, r = Err e /\ inner_most e = EFailure (j_breach (p_judge P)).
Proof.
  intros Hs Hr Ha Hal Hd. destruct (session_linked _ _ _ _ _ _ _ Hs) as (s & _ & L & Hp & HP & _).
  destruct (ready_open _ _ _ _ _ L (proj2 Hr)) as [Hc Hm].
  destruct (wire_does P (codec p) HP o c w s c' w' r L (asks_clean c o k Ha) Hd) as (s' & E & L').
  destruct (control_step (p_judge P) (p_looks P) o k c s (l_inv _ _ _ _ _ L) Hm Hc Ha) as (E1 & E2 & E3).
  rewrite E in E1, E2, E3. cbn [fst snd] in E1, E2, E3.
  assert (Es : w_srv w = bare s) by apply L. assert (Es' : w_srv w' = bare s') by apply L'.
  rewrite Es in Hal. rewrite Es'. unfold control_error, after_control in *.
  assert (Hf : control_fits k s = false).
  { unfold allows in Hal. change (s_tx (bare s)) with (s_tx s) in Hal. unfold control_fits.
    destruct k, (s_tx s); try (now elim Hal); reflexivity. }
  rewrite Hf in *. subst s'. destruct E3 as [-> ->]. split; [reflexivity|]. split; [reflexivity|].
  eexists. split; [reflexivity|]. now destruct (native (c_proto c) && j_strict (p_judge P)).
Qed.

(** ** C39: Close *)

Lemma close_closes p P user password l c w c' w' r :
  session clean_call p P user password l (c, w) -> c_closed c = false ->
  (forall t, tx_closed c t = true)
  \/ (ready w /\ allows KRollback (w_srv w) /\ forall md, j_outcome (p_judge P) (s_next (w_srv w)) <> Refused md) ->
  does (wired P) CClose (c, w) (c', w') r ->
  r = Ok ADone /\ c_closed c' = true /\ s_hung (w_srv w') = true.
Proof.
  intros Hs Hc Hcase Hd. destruct (session_linked _ _ _ _ _ _ _ Hs) as (s & _ & L & Hp & HP & _).
  destruct (wire_does P (codec p) HP CClose c w s c' w' r L Logic.I Hd) as (s' & E & L').
  assert (Es : w_srv w = bare s) by apply L. assert (Es' : w_srv w' = bare s') by apply L'. rewrite Es' in *.
  cbn [astep] in E. unfold a_close, a_idle in E. rewrite Hc in E.
  destruct (c_transaction c) as [t|] eqn:Et.
  - destruct Hcase as [Hno|(Hr & Hal & Hj)].
    { rewrite (no_tx c s (l_inv _ _ _ _ _ L) Hno) in Et. discriminate. }
    destruct (ready_open _ _ _ _ _ L (proj2 Hr)) as [_ Hm]. unfold a_end in E.
    apply (i_txs _ _ (l_inv _ _ _ _ _ L)) in Et. rewrite Et, Hm in E. cbv zeta in E.
    assert (Hce : control_error (p_judge P) KRollback (native (c_proto c)) s = None).
    { unfold control_error, control_fits. unfold allows in Hal. rewrite Es in Hal, Hj. change (s_tx (bare s)) with (s_tx s) in Hal.
      change (s_next (bare s)) with (s_next s) in Hj. destruct (s_tx s); [|contradiction].
      destruct (j_outcome _ _) eqn:Ej; try reflexivity. now elim (Hj md). }
    rewrite Hce in E. cbn [put ans] in E. injection E as <- <- <-. repeat split.
  - cbn [put ans] in E. injection E as <- <- <-. repeat split.
Qed.

Lemma close_stuck p P user password l c w t c' w' r :
  session clean_call p P user password l (c, w) -> tx_closed c t = false -> s_tx (w_srv w) = None ->
  does (wired P) CClose (c, w) (c', w') r ->
  (exists e, r = Err e) /\ c' = c /\ c_closed c' = false.
Proof.
  intros Hs Ht Htx Hd. destruct (session_linked _ _ _ _ _ _ _ Hs) as (s & _ & L & Hp & HP & _).
  destruct (wire_does P (codec p) HP CClose c w s c' w' r L Logic.I Hd) as (s' & E & L').
  assert (Hc := open_tx_unclosed _ _ _ (l_inv _ _ _ _ _ L) Ht).
  assert (Es : w_srv w = bare s) by apply L. rewrite Es in Htx. change (s_tx s = None) in Htx.
  cbn [astep] in E. unfold a_close, a_idle in E. rewrite Hc in E.
  rewrite (proj1 (i_txs _ _ (l_inv _ _ _ _ _ L) t) Ht) in E. unfold a_end in E. rewrite Ht in E.
  unfold control_error, control_fits in E. rewrite Htx in E.
  destruct (s_mode s); cbn [put ans] in E; injection E as <- <- <-; eauto.
Qed.

(** Once the server has dropped the client's transaction, protocols 3 and 4 never get rid of it. *)
Definition stuck (t : nat) (c : conn) (s : srv) : Prop :=
  c_closed c = false /\ c_transaction c = Some t /\ s_tx s = None.
Lemma stuck_end J k c s t u : inv c s -> stuck t c s -> k <> KBegin ->
  stuck t (fst (fst (a_end J k c s u))) (snd (fst (a_end J k c s u))) /\ exists e, snd (a_end J k c s u) = Err e.
Proof.
  intros Hi (H1 & H2 & H3) Hk. unfold a_end. destruct (tx_closed c u); [split; [repeat split; assumption|cbn; eauto]|].
  unfold control_error, after_control, control_fits. rewrite H3.
  destruct (s_mode s); cbn [fst snd]; try (split; [repeat split; assumption|eauto]).
  destruct k; [now elim Hk| |]; cbn [fst snd]; (split; [repeat split; assumption|eauto]).
Qed.
Lemma stuck_step J looks o c s t : inv c s -> native (c_proto c) = true -> stuck t c s ->
  stuck t (fst (fst (astep J looks o c s))) (snd (fst (astep J looks o c s)))
  /\ match o with
     | CBegin _ | CCommit _ | CRollback _ | CClose | CMakeIdle => exists e, snd (astep J looks o c s) = Err e
     | _ => True
     end.
Proof.
  intros Hi Hn Hk.
  assert (Q : forall q ps db b, stuck t c (fst (a_query J c s q ps db b))).
  { intros q ps db b. destruct Hk as (H1 & H2 & H3). refine (conj H1 (conj H2 _)). unfold a_query.
    destruct (negb _ && _); [exact H3|]. destruct (c_closed c) eqn:Hc; [exact H3|].
    destruct (snd (encode _ _)); [exact H3|]. destruct (s_mode s); try exact H3.
    unfold is_control. destruct (i_open _ _ Hi Hc) as (Hv & _). rewrite Hv.
    replace (proto_number (c_proto c) <=? 2) with false by (destruct (c_proto c); try discriminate; reflexivity).
    cbn. rewrite H3. now destruct (j_outcome J (s_next s)). }
  destruct o; cbn [astep]; try (split; [apply Q|exact Logic.I]).
  - unfold a_begin. destruct Hk as (H1 & H2 & H3). rewrite H2. cbn. split; [repeat split; assumption|eauto].
  - destruct (stuck_end J KCommit c s t t0 Hi Hk ltac:(discriminate)) as [H1 [e H2]].
    destruct (a_end J KCommit c s t0) as [[? ?] ?]. cbn in *. subst. split; [exact H1|cbn; eauto].
  - destruct (stuck_end J KRollback c s t t0 Hi Hk ltac:(discriminate)) as [H1 [e H2]].
    destruct (a_end J KRollback c s t0) as [[? ?] ?]. cbn in *. subst. split; [exact H1|cbn; eauto].
  - unfold a_close, a_idle. destruct (stuck_end J KRollback c s t t Hi Hk ltac:(discriminate)) as [H1 [e H2]].
    destruct Hk as (H3 & H4 & H5). rewrite H3, H4.
    destruct (a_end J KRollback c s t) as [[? ?] ?]. cbn in *. subst. split; [exact H1|cbn; eauto].
  - unfold a_idle. destruct (stuck_end J KRollback c s t t Hi Hk ltac:(discriminate)) as [H1 [e H2]].
    destruct Hk as (H3 & H4 & H5). rewrite H4.
    destruct (a_end J KRollback c s t) as [[? ?] ?]. cbn in *. subst. split; [exact H1|cbn; eauto].
  - cbn. auto.
  - cbn. split; [exact Hk|exact Logic.I].
Qed.
Lemma stuck_forever p P user password l c w t l' c' w' :
  session clean_call p P user password l (c, w) -> (p = P3 \/ p = P4) -> tx_closed c t = false -> s_tx (w_srv w) = None ->
  history (wired P) clean_call (c, w) l' (c', w') ->
  c_closed c' = false /\ tx_closed c' t = false
  /\ Forall (fun x => match fst x with
                      | CBegin _ | CCommit _ | CRollback _ | CClose | CMakeIdle => exists e, snd x = Err e
                      | _ => True end) l'.
Proof.
  intros Hs Hp Ht Htx Hh. destruct (session_linked _ _ _ _ _ _ _ Hs) as (s & _ & L & Hpr & HP & _).
  assert (Hc := open_tx_unclosed _ _ _ (l_inv _ _ _ _ _ L) Ht).
  assert (Es : w_srv w = bare s) by apply L. rewrite Es in Htx. change (s_tx s = None) in Htx.
  assert (K : stuck t c s) by (repeat split; try assumption; now apply (i_txs _ _ (l_inv _ _ _ _ _ L))).
  assert (Hn : native (c_proto c) = true) by (rewrite Hpr; destruct Hp; now subst).
  assert (G : exists s', linked P (codec p) c' w' s' /\ stuck t c' s' /\ c_proto c' = c_proto c
    /\ Forall (fun x => match fst x with
                      | CBegin _ | CCommit _ | CRollback _ | CClose | CMakeIdle => exists e, snd x = Err e
                      | _ => True end) l').
  { clear Hs Ht Htx Hc Es Hpr Hp. remember (c, w) as x eqn:Ex. remember (c', w') as y eqn:Ey. revert c' w' Ey.
    induction Hh as [x|x l1 [c1 w1] o r y H IH Hcl Hd]; intros c' w' Ey; subst.
    - injection Ey as <- <-. exists s. auto.
    - destruct (IH eq_refl c1 w1 eq_refl) as (s1 & L1 & K1 & Hp1 & F1).
      destruct (wire_does P (codec p) HP o c1 w1 s1 c' w' r L1 Hcl Hd) as (s2 & E & L2).
      destruct (stuck_step (p_judge P) (p_looks P) o c1 s1 t (l_inv _ _ _ _ _ L1)) as [K2 R]; [congruence|exact K1|].
      pose proof (astep_proto P o c1 s1) as X. rewrite E in K2, R, X. cbn [fst snd] in K2, R, X.
      exists s2. split; [exact L2|]. split; [exact K2|]. split; [congruence|].
      apply Forall_app. split; [exact F1|]. constructor; [exact R|constructor]. }
  destruct G as (s' & L' & (K1 & K2 & _) & _ & F). split; [exact K1|]. split; [|exact F].
  now apply (i_txs _ _ (l_inv _ _ _ _ _ L')).
Qed.

(** ** C36: the ledger *)

Definition same_stmts (v : ver) (l : list (bytes * gomap)) (sts : list stmt) : Prop :=
  Forall2 (fun x st => is_stmt v (fst x) (snd x) st) l sts.

(** The same, after [base]. *)
Definition same_after (base : list stmt) (v : ver) (l : list (bytes * gomap)) (sts : list stmt) : Prop :=
  exists new, sts = base ++ new /\ same_stmts v l new.

Section Kept.
Variable base : list stmt.
Record kept (p : proto) (g : ledger) (c : conn) (s : srv) : Prop := mkKept {
  k_perm : same_after base (codec p) (lg_perm g) (s_perm s);
  k_tx : match lg_tx g with
         | None => c_transaction c = None /\ s_tx s = None
         | Some (t, l, failed) =>
             c_transaction c = Some t
             /\ match s_tx s with Some (_, sts) => same_stmts (codec p) l sts | None => failed = true end
         end
}.

Lemma same_snoc v l sts x st : same_stmts v l sts -> is_stmt v (fst x) (snd x) st -> same_stmts v (l ++ [x]) (sts ++ [st]).
Proof. intros H1 H2. apply Forall2_app; [exact H1|]. constructor; [exact H2|constructor]. Qed.
Lemma after_app v l sts l' sts' : same_after base v l sts -> same_stmts v l' sts' -> same_after base v (l ++ l') (sts ++ sts').
Proof. intros (new & -> & H) H'. exists (new ++ sts'). split; [now rewrite app_assoc|now apply Forall2_app]. Qed.
Lemma after_snoc v l sts x st : same_after base v l sts -> is_stmt v (fst x) (snd x) st -> same_after base v (l ++ [x]) (sts ++ [st]).
Proof. intros H1 H2. apply after_app; [exact H1|]. constructor; [exact H2|constructor]. Qed.

Lemma kept_stmt J looks p g c s o q ps c' s' r : inv c s -> c_proto c = p -> kept p g c s -> clean_call c o ->
  statement_of o = Some (q, ps) -> disciplined p g o -> astep J looks o c s = (c', s', r) ->
  kept p (record_call g (o, r)) c' s'.
Proof.
  intros Hi Hp [K1 K2] Hcl Ho Hd E. unfold disciplined in Hd. rewrite Ho in Hd. destruct Hd as (Hq & Hf & _).
  unfold record_call. rewrite Ho. rewrite (stmt_astep J looks o c s q ps Ho) in E. unfold on_query in E.
  assert (Same : s' = s -> c' = c -> (exists e, r = Err e) ->
    kept p match r, lg_tx g with
      | Ok _, None => mkLedger (lg_perm g ++ [(q, ps)]) None
      | Ok _, Some (t, l, b) => mkLedger (lg_perm g) (Some (t, l ++ [(q, ps)], b))
      | _, None => g
      | _, Some (t, l, _) => mkLedger (lg_perm g) (Some (t, l, true))
      end c' s').
  { intros -> -> [e ->]. destruct (lg_tx g) as [[[t l] b]|] eqn:Eg.
    - constructor; [exact K1|]. cbn [lg_tx]. destruct K2 as [K2 K3]. split; [exact K2|]. now destruct (s_tx s) as [[? ?]|].
    - constructor; [exact K1|]. now rewrite Eg. }
  injection E as <- E1 E2.
  unfold a_query in E1, E2. destruct (negb _ && _); [now apply Same; [symmetry|..|eexists; symmetry; exact E2]|].
  destruct (c_closed c) eqn:Hc; [now apply Same; [symmetry|..|eexists; symmetry; exact E2]|].
  destruct (snd (encode _ _)) eqn:Een; [now apply Same; [symmetry|..|eexists; symmetry; exact E2]|].
  destruct (settled_modes s (proj2 (proj2 (i_open _ _ Hi Hc)))) as [Hm|Hm]; rewrite Hm in E1, E2;
    [|now apply Same; [symmetry|..|eexists; symmetry; exact E2]].
  clear Same. rewrite <- Hp in Hq. rewrite (control_ordinary c s q Hi Hc Hq) in E1, E2. cbn [fst snd] in E1, E2.
  assert (Hst : is_stmt (codec p) q ps (sent_stmt c s q ps (database_of o) (in_tx o))).
  { split; [reflexivity|]. cbn [sent_stmt st_params]. rewrite Hp. apply conveys_lower.
    eapply run_msg_params, sendable_typed.
    assert (Hc2 : clean c (run_msg c q ps (database_of o) (in_tx o)))
      by (destruct o; cbn in Ho; try discriminate; injection Ho as -> ->; exact Hcl).
    destruct Hc2 as [X|X]; [exact X|]. unfold refused in X. rewrite Een in X. discriminate. }
  set (st := sent_stmt c s q ps (database_of o) (in_tx o)) in *.
  subst s' r. unfold after_stmt.
  destruct (j_outcome J (s_next s)) as [md|rm rows md|rm rows md]; cbn [rows_of ans].
  - destruct (lg_tx g) as [[[t l] b]|] eqn:Eg.
    + constructor; [exact K1|]. cbn. split; [apply K2|reflexivity].
    + constructor; [exact K1|]. rewrite Eg. cbn. split; [apply K2|reflexivity].
  - destruct (lg_tx g) as [[[t l] b]|] eqn:Eg.
    + constructor; [exact K1|]. cbn. split; [apply K2|reflexivity].
    + constructor; [exact K1|]. rewrite Eg. cbn. split; [apply K2|reflexivity].
  - destruct (lg_tx g) as [[[t l] b]|] eqn:Eg.
    + destruct K2 as [K2 K3]. subst b. destruct (s_tx s) as [[db sts]|]; [|discriminate].
      constructor; [exact K1|]. cbn. split; [exact K2|]. now apply same_snoc.
    + destruct K2 as [K2 K3]. rewrite K3. constructor; cbn; [now apply after_snoc|]. split; [exact K2|reflexivity].
Qed.

Lemma kept_end_ok p g c s t k J u : kept p g c s -> inv c s -> k <> KBegin ->
  a_end J k c s t = (end_tx t c, u, Ok tt) -> control_error J k (native (c_proto c)) s = None -> 
  tx_closed c t = false -> s_mode s = Ready ->
  exists l b, lg_tx g = Some (t, l, b)
  /\ kept p (mkLedger (lg_perm g ++ match k with KCommit => l | _ => [] end) None) (end_tx t c) u.
Proof.
  intros [K1 K2] Hi Hk E Hce Ht Hm. assert (Ht' := proj1 (i_txs _ _ Hi t) Ht).
  unfold a_end in E. rewrite Ht, Hm, Hce in E. cbv zeta in E. injection E as <-.
  destruct (lg_tx g) as [[[t' l] b]|]; [|destruct K2; congruence].
  destruct K2 as [K2 K3]. assert (t' = t) by congruence. subst t'. exists l, b. split; [reflexivity|].
  unfold control_error in Hce. unfold after_control. destruct (control_fits k s) eqn:Hf; [|discriminate].
  destruct (s_tx s) as [[db sts]|] eqn:Es; [|unfold control_fits in Hf; rewrite Es in Hf; destruct k; try discriminate; now elim Hk].
  destruct k; [now elim Hk| |]; destruct (j_outcome J (s_next s)); try discriminate;
    (constructor; cbn; [|split; reflexivity]); rewrite ?app_nil_r; try exact K1; now apply after_app.
Qed.

Lemma kept_end_err p g c s k J t : kept p g c s -> inv c s -> k <> KBegin ->
  forall u e, a_end J k c s t = (c, u, Err e) ->
  kept p (match lg_tx g with Some (t', l, b) => if Nat.eqb t t' then mkLedger (lg_perm g) (Some (t', l, true)) else g | None => g end) c u.
Proof.
  intros [K1 K2] Hi Hk u e E. unfold a_end in E. destruct (tx_closed c t) eqn:Et.
  - injection E as <- _. destruct (lg_tx g) as [[[t' l] b]|] eqn:Eg.
    + destruct (Nat.eqb t t') eqn:En.
      * constructor; [exact K1|]. cbn. destruct K2 as [K2 K3]. split; [exact K2|]. now destruct (s_tx s) as [[? ?]|].
      * constructor; [exact K1|]. now rewrite Eg.
    + constructor; [exact K1|]. now rewrite Eg.
  - assert (Et' := proj1 (i_txs _ _ Hi t) Et).
    destruct (lg_tx g) as [[[t' l] b]|] eqn:Eg; [|destruct K2; congruence].
    destruct K2 as [K2 K3]. assert (t' = t) by congruence. subst t'. rewrite Nat.eqb_refl.
    assert (Hc := open_tx_unclosed _ _ _ Hi Et).
    destruct (settled_modes s (proj2 (proj2 (i_open _ _ Hi Hc)))) as [Hm|Hm]; rewrite Hm in E.
    + cbv zeta in E. destruct (control_error J k (native (c_proto c)) s) eqn:Ece; [|discriminate]. injection E as <- _.
      unfold control_error in Ece. unfold after_control. destruct (control_fits k s).
      * destruct (j_outcome J (s_next s)); try discriminate. constructor; cbn; [exact K1|]. split; [exact K2|reflexivity].
      * constructor; cbn; [exact K1|]. split; [exact K2|reflexivity].
    + injection E as <- _. constructor; cbn; [exact K1|]. split; [exact K2|]. now destruct (s_tx s) as [[? ?]|].
Qed.

Lemma a_end_cases J k c s t : inv c s ->
  (exists u, a_end J k c s t = (end_tx t c, u, Ok tt) /\ control_error J k (native (c_proto c)) s = None
     /\ tx_closed c t = false /\ s_mode s = Ready)
  \/ (exists u e, a_end J k c s t = (c, u, Err e)).
Proof.
  intro Hi. unfold a_end. destruct (tx_closed c t) eqn:Et; [right; eauto|].
  assert (Hc := open_tx_unclosed _ _ _ Hi Et).
  destruct (settled_modes s (proj2 (proj2 (i_open _ _ Hi Hc)))) as [Hm|Hm]; rewrite Hm; [|right; eauto]. cbv zeta.
  destruct (control_error J k (native (c_proto c)) s); [right; eauto|left; eauto 10].
Qed.

Lemma kept_step J looks p g c s o c' s' r : inv c s -> c_proto c = p -> kept p g c s -> clean_call c o ->
  disciplined p g o -> astep J looks o c s = (c', s', r) -> kept p (record_call g (o, r)) c' s'.
Proof.
  intros Hi Hp K Hcl Hd E. destruct (statement_of o) as [[q ps]|] eqn:Ho; [eapply kept_stmt; eassumption|].
  clear Hd Hcl. destruct o; cbn in Ho; try discriminate; clear Ho; cbn [astep] in E; unfold record_call; cbn [statement_of].
  - (* Begin *) destruct K as [K1 K2]. unfold a_begin in E. destruct (c_transaction c) as [t|] eqn:Et.
    + injection E as <- <- <-. constructor; [exact K1|]. rewrite Et. exact K2.
    + assert (Eg : lg_tx g = None) by (destruct (lg_tx g) as [[[? ?] ?]|]; [destruct K2; discriminate|reflexivity]).
      rewrite Eg in *. destruct K2 as [_ K2].
      destruct (c_closed c); [injection E as <- <- <-; constructor; [exact K1|rewrite Eg; auto]|].
      destruct (snd (encode _ _)); [injection E as <- <- <-; constructor; [exact K1|rewrite Eg; auto]|].
      destruct (s_mode s); try (injection E as <- <- <-; constructor; [exact K1|rewrite Eg; auto]).
      cbv zeta in E. unfold control_error, after_control, control_fits in E. rewrite K2 in E.
      destruct (j_outcome J (s_next s)); injection E as <- <- <-; (constructor; cbn; rewrite ?app_nil_r, ?Eg; [exact K1|auto]);
        (split; [reflexivity|constructor]).
  - (* Commit *) destruct (a_end_cases J KCommit c s t Hi) as [(u & E1 & H1 & H2 & H3)|(u & e & E1)].
    + destruct (kept_end_ok p g c s t KCommit J u K Hi ltac:(discriminate) E1 H1 H2 H3) as (l & b & Eg & K').
      rewrite E1 in E. injection E as <- <- <-. now rewrite Eg.
    + pose proof (kept_end_err p g c s KCommit J t K Hi ltac:(discriminate) u e E1) as K'.
      rewrite E1 in E. injection E as <- <- <-. destruct (lg_tx g) as [[[t' l] b]|]; [|exact K']. exact K'.
  - (* Rollback *) destruct (a_end_cases J KRollback c s t Hi) as [(u & E1 & H1 & H2 & H3)|(u & e & E1)].
    + destruct (kept_end_ok p g c s t KRollback J u K Hi ltac:(discriminate) E1 H1 H2 H3) as (l & b & Eg & K').
      rewrite E1 in E. injection E as <- <- <-. rewrite app_nil_r in K'. exact K'.
    + pose proof (kept_end_err p g c s KRollback J t K Hi ltac:(discriminate) u e E1) as K'.
      rewrite E1 in E. injection E as <- <- <-. destruct (lg_tx g) as [[[t' l] b]|]; [|exact K']. exact K'.
  - (* Close *) unfold a_close, a_idle in E. destruct (c_closed c) eqn:Hc.
    { injection E as <- <- <-. destruct K as [K1 K2]. destruct (i_closed _ _ Hi Hc) as (_ & Ht & _).
      destruct (lg_tx g) as [[[t' l] b]|] eqn:Eg; [destruct K2; congruence|]. constructor; [exact K1|now rewrite Eg]. }
    destruct (c_transaction c) as [t|] eqn:Et.
    + destruct (a_end_cases J KRollback c s t Hi) as [(u & E1 & H1 & H2 & H3)|(u & e & E1)].
      * destruct (kept_end_ok p g c s t KRollback J u K Hi ltac:(discriminate) E1 H1 H2 H3) as (l & b & Eg & K').
        rewrite E1 in E. injection E as <- <- <-. rewrite app_nil_r in K'. destruct K' as [K1 K2].
        constructor; [exact K1|]. cbn in *. split; [apply K2|reflexivity].
      * pose proof (kept_end_err p g c s KRollback J t K Hi ltac:(discriminate) u e E1) as K'.
        rewrite E1 in E. injection E as <- <- <-. destruct K as [K1 K2].
        destruct (lg_tx g) as [[[t' l] b]|]; [|destruct K2; congruence].
        destruct K2 as [K2 _]. assert (t' = t) by congruence. subst t'. now rewrite Nat.eqb_refl in K'.
    + injection E as <- <- <-. destruct K as [K1 K2]. constructor; [exact K1|]. cbn. split; [exact Et|reflexivity].
  - (* MakeIdle *) unfold a_idle in E. destruct (c_transaction c) as [t|] eqn:Et.
    + destruct (a_end_cases J KRollback c s t Hi) as [(u & E1 & H1 & H2 & H3)|(u & e & E1)].
      * destruct (kept_end_ok p g c s t KRollback J u K Hi ltac:(discriminate) E1 H1 H2 H3) as (l & b & Eg & K').
        rewrite E1 in E. injection E as <- <- <-. rewrite app_nil_r in K'. exact K'.
      * pose proof (kept_end_err p g c s KRollback J t K Hi ltac:(discriminate) u e E1) as K'.
        rewrite E1 in E. injection E as <- <- <-. destruct K as [K1 K2].
        destruct (lg_tx g) as [[[t' l] b]|]; [|destruct K2; congruence].
        destruct K2 as [K2 _]. assert (t' = t) by congruence. subst t'. now rewrite Nat.eqb_refl in K'.
    + injection E as <- <- <-. destruct K as [K1 K2]. constructor; [exact K1|]. cbn.
      destruct (lg_tx g) as [[[t' l] b]|]; [destruct K2; congruence|]. exact K2.
  - injection E as <- <- <-. exact K.
  - injection E as <- <- <-. destruct K as [K1 K2]. constructor; assumption.
Qed.

End Kept.

Lemma ledger_snoc l x : ledger_of (l ++ [x]) = record_call (ledger_of l) x.
Proof. unfold ledger_of. now rewrite fold_left_app. Qed.
Lemma disciplined_snoc p l o r : all_disciplined p (l ++ [(o, r)]) -> all_disciplined p l /\ disciplined p (ledger_of l) o.
Proof.
  intro H. inversion H as [E|l' o' r' H1 H2 E].
  - now apply app_cons_not_nil in E.
  - apply app_inj_tail in E as [-> E]. injection E as -> ->. auto.
Qed.

(** From a moment at which no transaction is open. *)
Lemma kept_since P p l x y : steps P x l y -> all_disciplined p l -> inv (fst x) (snd x) -> c_proto (fst x) = p ->
  c_transaction (fst x) = None -> s_tx (snd x) = None -> kept (s_perm (snd x)) p (ledger_of l) (fst y) (snd y).
Proof.
  intros S Hd Hi Hp H1 H2.
  assert (G : kept (s_perm (snd x)) p (ledger_of l) (fst y) (snd y) /\ inv (fst y) (snd y) /\ c_proto (fst y) = p); [|apply G].
  induction S as [x|x l c1 s1 o c2 s2 r S IH Hcl E].
  - split; [|auto]. constructor; cbn; [|auto]. exists []. rewrite app_nil_r. split; [reflexivity|constructor].
  - destruct (disciplined_snoc _ _ _ _ Hd) as [Hd1 Hd2]. destruct (IH Hd1 Hi Hp H1 H2) as (K & Hi' & Hp'). cbn [fst snd] in *.
    rewrite ledger_snoc. split; [eapply kept_step; eassumption|]. split; [eapply astep_inv; eassumption|].
    pose proof (astep_proto P o c1 s1) as X. rewrite E in X. cbn in X. congruence.
Qed.

Lemma kept_session p P user password l c w : session clean_call p P user password l (c, w) -> all_disciplined p l ->
  exists s, linked P (codec p) c w s /\ kept [] p (ledger_of l) c s.
Proof.
  intros Hs Hd. destruct (session_linked _ _ _ _ _ _ _ Hs) as (s & S & L & Hp & HP & _). exists s. split; [exact L|].
  exact (kept_since P p l _ _ S Hd (login_inv _ _ _) eq_refl eq_refl eq_refl).
Qed.

Lemma permanent_ledger p P user password l c w : session clean_call p P user password l (c, w) -> all_disciplined p l ->
  Forall2 (fun x st => is_stmt (codec p) (fst x) (snd x) st) (lg_perm (ledger_of l)) (s_perm (w_srv w)).
Proof.
  intros Hs Hd. destruct (kept_session _ _ _ _ _ _ _ Hs Hd) as (s & L & [(new & E & K1) _]).
  assert (Es : w_srv w = bare s) by apply L. rewrite Es. change (s_perm (bare s)) with (s_perm s). rewrite E. exact K1.
Qed.
