(** What a routing pool dials. *)
From Coq Require Import String ZArith List Bool Lia.
From Verif Require Import Bytes GoVal GoErr Decoder Messages GoStr Routing Pool SpecPool Url Client SpecClient SpecDials BytesFacts RoutingFacts PoolFacts SteadyFacts EraseFacts RouteFacts
  UrlFacts ClientFacts ClientCases LifeFacts ClientSeedFacts.
Import ListNotations.
Open Scope Z_scope.

Lemma told_longer new tr a : told_of tr a -> told_of (new ++ tr) a.
Proof. intros (h & v & rows & H & L). exists h, v, rows. split; [apply in_or_app; now right|exact L]. Qed.
Lemma keeps_more home auth tls e tr : keeps_to home auth tls tr -> match e with KDial s _ => s = home \/ exists a, told_of tr a /\ dressed auth tls a s | _ => True end ->
  keeps_to home auth tls (e :: tr).
Proof. intros H He tr1 s r tr0 E. destruct tr1 as [|x tr1]; injection E as -> E; [subst tr0; exact He|eapply H; exact E]. Qed.

Section Dials.
Context {W : Type}.
Variables (K : cluster W) (home auth tls : bytes).
Notation WT := (W * list kevent)%type.

(** The pool, and what was dialled so far. *)
Record good (p : pool) (tr : list kevent) : Prop := mkGood {
  g_home : p_leader p = home;
  g_auth : p_auth p = auth;
  g_tls : p_tls p = tls;
  g_table : forall a, In a (get_write_connection_strings (p_handler p)) \/ In a (get_read_only_connection_strings (p_handler p)) -> told_of tr a;
  g_strings : forall s, In s (p_rw p) \/ In s (p_rs p) -> exists a, told_of tr a /\ dressed auth tls a s;
  g_dials : keeps_to home auth tls tr;
  g_asks : forall tr1 h v r tr0, tr = tr1 ++ KQuery h v r :: tr0 -> exists tr2, tr0 = KDial home (Ok h) :: tr2
}.
Lemma good_more p e tr : good p tr ->
  match e with KDial s _ => s = home \/ exists a, told_of tr a /\ dressed auth tls a s | KQuery h _ _ => exists tr2, tr = KDial home (Ok h) :: tr2 | _ => True end ->
  good p (e :: tr).
Proof.
  intros [] He. constructor; auto.
  - intros a H. apply (told_longer [e]). auto.
  - intros s H. destruct (g_strings0 s H) as (a & A & B). exists a. split; [now apply (told_longer [e])|exact B].
  - apply keeps_more; [assumption|]. destruct e; auto.
  - intros tr1 h v r tr0 E. destruct tr1 as [|x tr1]; injection E as -> E; [subst tr0; exact He|eapply g_asks0; exact E].
Qed.
Definition sets (p : pool) := (p_leader p, p_auth p, p_tls p, p_handler p, p_rw p, p_rs p).
Lemma good_sets p p' tr : sets p' = sets p -> good p tr -> good p' tr.
Proof. unfold sets. intros [= E1 E2 E3 E4 E5 E6] []. constructor; rewrite ?E1, ?E2, ?E3, ?E4, ?E5, ?E6; auto. Qed.

(** Operations that keep to it. *)
Definition safe {A} (m : M (W := WT) A) : Prop := forall p w tr p' x r, good p tr -> m p (w, tr) = (p', x, r) -> good p' (snd x).
Lemma safe_ret {A} (a : A) : safe (ret a).
Proof. intros p w tr p' x r G [= <- <- _]. exact G. Qed.
Lemma safe_fail {A} e : safe (@fail WT A e).
Proof. intros p w tr p' x r G [= <- <- _]. exact G. Qed.
Lemma safe_crash {A} : safe (@crash WT A).
Proof. intros p w tr p' x r G [= <- <- _]. exact G. Qed.
Lemma safe_stuck {A} : safe (fun p w => (p, w, @NoFuel A)).
Proof. intros p w tr p' x r G [= <- <- _]. exact G. Qed.
Lemma safe_give {A} (r0 : res A) : safe (fun p w => (p, w, r0)).
Proof. intros p w tr p' x r G [= <- <- _]. exact G. Qed.
Lemma safe_mbind {A B} (m : M A) (f : res A -> M B) : safe m -> (forall r, safe (f r)) -> safe (mbind m f).
Proof.
  intros Hm Hf p w tr p' x r G. unfold mbind. destruct (m p (w, tr)) as [[p1 [w1 tr1]] r1] eqn:E. intros E2.
  exact (Hf r1 p1 w1 tr1 p' x r (Hm _ _ _ _ _ _ G E) E2).
Qed.
Lemma safe_bind {A B} (m : M A) (f : A -> M B) : safe m -> (forall a, safe (f a)) -> safe (bind m f).
Proof. intros Hm Hf. apply safe_mbind; [exact Hm|]. intros [a|e| |]; auto using safe_fail, safe_crash, safe_stuck. Qed.
Lemma safe_upd f : (forall p, sets (f p) = sets p) -> safe (upd f).
Proof. intros Hf p w tr p' x r G [= <- <- _]. eapply good_sets; [apply Hf|exact G]. Qed.
Lemma safe_get {A} (f : pool -> M A) : (forall p, safe (f p)) -> safe (get f).
Proof. intros Hf p w tr p' x r G E. exact (Hf p p w tr p' x r G E). Qed.
Lemma safe_valid h : safe (valid (watch K) h).
Proof. intros p w tr p' x r G. unfold valid. cbn. destruct (k_valid K h w) as [w' b]. intros [= <- <- _]. now apply good_more. Qed.
Lemma safe_close h : safe (close_conn (watch K) h).
Proof. intros p w tr p' x r G. unfold close_conn. cbn. destruct (k_close K h w) as [w' b]. intros [= <- <- _]. now apply good_more. Qed.
Hint Resolve safe_ret safe_fail safe_crash safe_stuck safe_give safe_valid safe_close : core.
Lemma sets_queue m q p : sets (set_queue m q p) = sets p. Proof. unfold set_queue. destruct (m =? WriteMode); reflexivity. Qed.
Lemma sets_index m i p : sets (set_index m i p) = sets p. Proof. unfold set_index. destruct (m =? WriteMode); reflexivity. Qed.
Hint Resolve sets_queue sets_index : core.

Lemma safe_remove o : safe (remove_conn (watch K) o).
Proof.
  destruct o as [c|]; [|apply safe_fail]. apply safe_bind; [auto|]. intros ok. apply safe_bind; [destruct ok; auto|]. intros _. now apply safe_upd.
Qed.
Hint Resolve safe_remove : core.
Lemma safe_new mode s p w tr p' x r : good p tr -> (exists a, told_of tr a /\ dressed auth tls a s) -> new_connection (watch K) mode s p (w, tr) = (p', x, r) -> good p' (snd x).
Proof.
  intros G Hs. unfold new_connection, bind, mbind, dial. cbn. destruct (k_dial K s w) as [w1 r1].
  assert (G1 : good p (KDial s r1 :: tr)) by (apply good_more; auto). destruct r1 as [h|e| |]; try (intros [= <- <- _]; exact G1).
  cbn. destruct (k_name K w1) as [w2 name]. intros [= <- <- _]. eapply good_sets; [|exact G1]. reflexivity.
Qed.
Lemma safe_add mode : safe (add_conn (watch K) mode).
Proof.
  intros p w tr p' x r G. unfold add_conn, get. destruct (strings_for mode p) as [|s0 strs] eqn:Es; [now apply (safe_fail (A := unit))|].
  set (i := if _ =? _ then 0 else _). unfold bind at 1, mbind at 1, upd at 1.
  assert (G1 : good (set_index mode i p) tr) by (eapply good_sets; [apply sets_index|exact G]).
  destruct ((0 <=? i) && (i <? zlen (s0 :: strs))); [|intros [= <- <- _]; exact G1].
  destruct (nth_error (s0 :: strs) (Z.to_nat i)) as [s|] eqn:En; [|intros [= <- <- _]; exact G1].
  assert (Hs : exists a, told_of tr a /\ dressed auth tls a s).
  { apply nth_error_In in En. rewrite <- Es in En. apply (g_strings _ _ G). unfold strings_for in En. destruct (mode =? WriteMode); auto. }
  unfold bind, mbind. destruct (new_connection (watch K) mode s (set_index mode i p) (w, tr)) as [[p1 x1] r1] eqn:E1.
  pose proof (safe_new _ _ _ _ _ _ _ _ G1 Hs E1) as G2. destruct r1; intros [= <- <- _]; try exact G2.
  eapply good_sets; [apply sets_queue|exact G2].
Qed.
Hint Resolve safe_add : core.
Lemma good_merge p hd tr : good p tr -> (forall a, In a (get_write_connection_strings hd) \/ In a (get_read_only_connection_strings hd) -> told_of tr a) -> good (merge_strings (set_handler hd p)) tr.
Proof.
  intros [] Ht. constructor; auto. intros s H.
  assert (D : forall news old, (forall a, In a news -> told_of tr a) -> (forall s, In s old -> exists a, told_of tr a /\ dressed auth tls a s) ->
    In s (decorated auth tls news (filter (slice_contains news) old)) -> exists a, told_of tr a /\ dressed auth tls a s).
  { intros news old Hn Ho Hs. apply decorated_in in Hs. destruct Hs as [Hs|(a & Ha & ->)].
    - apply filter_In in Hs. apply Ho, Hs.
    - exists a. split; [auto|apply dressed_added]. }
  rewrite merge_rw, merge_rs in H. change (p_auth (set_handler hd p)) with (p_auth p) in H. change (p_tls (set_handler hd p)) with (p_tls p) in H. rewrite g_auth0, g_tls0 in H.
  destruct H as [H|H]; eapply D; try exact H; cbn; auto.
Qed.
Lemma safe_refresh : safe (refresh_connections (watch K)).
Proof.
  intros p w tr p' x r G. unfold refresh_connections, mbind at 1, get, dial. cbn. destruct (k_dial K (p_leader p) w) as [w1 rd].
  assert (G1 : good p (KDial (p_leader p) rd :: tr)) by (apply good_more; [exact G|left; apply G]).
  destruct rd as [h|e| |]; try (intros [= <- <- _]; exact G1). cbn. unfold mbind at 1. cbn. destruct (k_query K h w1) as [w2 [v rows]].
  set (tr2 := KQuery h v rows :: KDial (p_leader p) (Ok h) :: tr). assert (G2 : good p tr2) by (apply good_more; [exact G1|]; exists tr; now rewrite (g_home _ _ G)).
  destruct rows as [rows|e| |].
  - pose proof (refresh_cases (p_handler p) v rows) as RC. destruct (refresh_cluster_info (p_handler p) v (Ok rows)) as [hd y].
    intros E. refine (safe_mbind (close_conn (watch K) h) _ (safe_close h) _ _ w2 tr2 _ _ _ _ E); [auto|]. apply good_merge; [exact G2|].
    destruct RC as [(h' & [= -> ->] & T)|[[e' [= -> ->]] _]]; [|apply G2].
    intros a Ha. exists h, v, rows. split; [now left|]. destruct Ha as [Ha|Ha].
    + eapply lists_weaken; [|exact (write_lists v rows h' a T Ha)]. intros y [<-|[]]. now left.
    + eapply lists_weaken; [|exact (read_lists v rows h' a T Ha)]. intros y Hy. now right.
  - intros E. refine (safe_mbind (close_conn (watch K) h) _ (safe_close h) _ _ w2 tr2 _ _ _ _ E); [auto|]. apply good_merge; [exact G2|apply G2].
  - intros E. refine (safe_mbind (close_conn (watch K) h) _ (safe_close h) _ _ w2 tr2 _ _ _ _ E); [auto|exact G2].
  - intros E. refine (safe_mbind (close_conn (watch K) h) _ (safe_close h) _ _ w2 tr2 _ _ _ _ E); [auto|exact G2].
Qed.
Hint Resolve safe_refresh : core.
Lemma safe_prune_queue remove q : (forall c, safe (remove c)) -> safe (prune_queue remove q).
Proof.
  intros Hr. induction q as [|c q IH]; cbn [prune_queue]; [auto|]. apply safe_get. intros p. destruct (listed _ _).
  - now apply safe_mbind.
  - apply safe_bind; auto.
Qed.
Lemma safe_prune : safe (prune (watch K)).
Proof.
  apply safe_bind; [apply safe_get; intros p; now apply safe_prune_queue|]. intros reads.
  apply safe_bind; [apply safe_get; intros p; now apply safe_prune_queue|]. intros writes. now apply safe_upd.
Qed.
Lemma safe_while fuel mode bound body : safe body -> safe (while_size fuel mode bound body).
Proof. intros Hb. induction fuel as [|fuel IH]; cbn [while_size]; [auto|]. apply safe_get. intros p. destruct (_ =? _); [now apply safe_mbind|auto]. Qed.
Lemma safe_take_out mode : safe (take_out (watch K) mode).
Proof. apply safe_get. intros p. destruct (dequeue _) as [c q]. apply safe_bind; [apply safe_upd; auto|auto]. Qed.
Hint Resolve safe_take_out safe_while : core.
Lemma safe_balance fuel : safe (balance (watch K) fuel).
Proof.
  apply safe_bind; [apply safe_get; intros p; destruct (_ <? _); auto|]. intros _.
  apply safe_bind; [apply safe_get; intros p; destruct (_ <? _); [|destruct (_ <? _)]; auto|]. intros _.
  apply safe_get; intros p; destruct (_ <? _); [|destruct (_ <? _)]; auto.
Qed.
Lemma safe_times n m : safe m -> safe (times n m).
Proof. intros Hm. induction n; cbn [times]; [auto|]. now apply safe_bind. Qed.
Lemma safe_drain fuel mode : safe (drain (watch K) fuel mode).
Proof. induction fuel as [|fuel IH]; cbn [drain]; [auto|]. apply safe_get. intros p. destruct (_ =? _); [auto|]. apply safe_bind; auto. Qed.
Lemma safe_borrow fuel mode : safe (internal_borrow (watch K) fuel mode).
Proof.
  induction fuel as [|fuel IH]; cbn [internal_borrow]; [auto|]. apply safe_get. intros p. destruct (dequeue _) as [o q].
  apply safe_bind; [apply safe_upd; auto|]. intros _. destruct o as [c|]; [|auto]. destruct (listed _ _); [apply safe_bind; auto|].
  apply safe_bind; [auto|]. intros ok. destruct (negb ok); apply safe_bind; auto. now apply safe_upd.
Qed.
Lemma safe_reclaim id h : safe (reclaim (watch K) id h).
Proof.
  apply safe_get. intros p. destruct (negb _); [auto|]. destruct (map_get _ id) as [c|].
  - apply safe_bind; [now apply safe_upd|]. intros _. apply safe_bind; [auto|]. intros ok.
    assert (B : safe (upd (W := WT) (fun p0 => let m := if pw_mode c =? WriteMode then WriteMode else ReadMode in set_queue m (enqueue c (queue_of m p0)) p0)))
      by (apply safe_upd; intros; apply sets_queue).
    destruct ok; [exact B|]. apply safe_mbind; [auto|]. intros [[]|e| |]; auto. destruct (_ =? _); auto.
  - apply safe_mbind; [auto|]. intros [?|e| |]; auto.
Qed.
Lemma safe_start : safe (start_pool (watch K)).
Proof.
  apply safe_get. intros p. destruct (p_running p); [auto|]. apply safe_bind; [now apply safe_upd|]. intros _. apply safe_bind; [auto|]. intros _.
  apply safe_bind; [apply safe_get; intros; now apply safe_times|]. intros _. apply safe_get; intros; now apply safe_times.
Qed.
Lemma safe_stop : safe (stop_pool (watch K)).
Proof.
  apply safe_get. intros p. destruct (negb _); [auto|]. apply safe_bind; [now apply safe_upd|]. intros _. apply safe_bind; [apply safe_drain|]. intros _. apply safe_drain.
Qed.
Lemma good_pop o p w tr p' x r : good p tr -> do_pop (watch K) o p (w, tr) = (p', x, r) -> good p' (snd x).
Proof.
  intros G. destruct o as [| |m|id h|]; cbn [do_pop].
  - destruct (start_pool _ p (w, tr)) as [[p1 x1] r1] eqn:E. intros [= <- <- _]. exact (safe_start _ _ _ _ _ _ G E).
  - destruct (stop_pool _ p (w, tr)) as [[p1 x1] r1] eqn:E. intros [= <- <- _]. exact (safe_stop _ _ _ _ _ _ G E).
  - destruct (borrow _ _ p (w, tr)) as [[p1 x1] r1] eqn:E. intros [= <- <- _]. unfold borrow, get in E. exact (safe_borrow _ _ _ _ _ _ _ _ G E).
  - destruct (reclaim _ id h p (w, tr)) as [[p1 x1] r1] eqn:E. intros [= <- <- _]. exact (safe_reclaim _ _ _ _ _ _ _ _ G E).
  - destruct (refresh_round _ p (w, tr)) as [[p1 x1] r1] eqn:E. intros [= <- <- _].
    refine (safe_bind _ _ safe_refresh (fun _ => safe_bind _ _ safe_prune (fun _ => safe_balance 1)) _ _ _ _ _ _ G E).
Qed.
Lemma good_run os : forall p w tr p' w' tr' l, good p tr -> run_pool (watch K) os p (w, tr) = (p', (w', tr'), l) -> good p' tr'.
Proof.
  induction os as [|o os IH]; intros p w tr p' w' tr' l G; cbn [run_pool]; [intros [= <- _ <- _]; exact G|].
  destruct (do_pop (watch K) o p (w, tr)) as [[p1 [w1 tr1]] r1] eqn:E1. destruct (run_pool (watch K) os p1 (w1, tr1)) as [[p2 [w2 tr2]] l2] eqn:E2.
  intros [= <- _ <- _]. eapply IH; [exact (good_pop _ _ _ _ _ _ _ G E1)|exact E2].
Qed.
Lemma good_new leader n p : new_routing_pool leader n auth tls = Ok p -> p_leader p = home -> good p [].
Proof.
  unfold new_routing_pool. destruct (bytes_eqb leader []); [discriminate|]. destruct (_ || _); [discriminate|]. intros [= <-] E.
  constructor; cbn in *; auto; try (intros ? [[]|[]]). 1: intros [|] ? ? ? X; discriminate X. intros [|] ? ? ? ? X; discriminate X.
Qed.
End Dials.

(** The pool by itself. *)
Lemma pool_keeps_to {W} (K : cluster W) leader n auth tls p0 os w0 p w tr l : new_routing_pool leader n auth tls = Ok p0 ->
  run_pool (watch K) os p0 (w0, []) = (p, (w, tr), l) -> exists home, erased (str "+routing") leader home /\ keeps_to home auth tls tr.
Proof.
  intros E R. exists (p_leader p0). split; [apply (seed_new _ _ _ _ _ E)|].
  exact (g_dials _ _ _ _ _ (good_run K (p_leader p0) auth tls os p0 w0 [] p w tr l (good_new _ _ _ _ _ _ E eq_refl) R)).
Qed.

(** From the client. *)
Lemma as_told {W} (K : cluster W) c n p0 os w0 p w tr l u pw hp : new_routing_driver c n = Ok p0 -> run_pool (watch K) os p0 (w0, []) = (p, (w, tr), l) ->
  (forall s, erased (str "+routing") (cl_conn_str c) s -> leads_to s u pw hp) ->
  (forall h q ds, Forall host_char h -> decimal q ds ->
   conn_from_string (add_auth_info (get_username_password c) (get_tls_portion c) (str "bolt://" ++ h ++ str ":" ++ ds)) = Ok (plain_config u pw (h ++ str ":" ++ ds))) ->
  always_as u pw hp tr.
Proof.
  intros E R Hh Hm. destruct (pool_keeps_to K _ _ _ _ _ _ _ _ _ _ _ E R) as (home & He & Hk).
  intros tr1 s r tr0 X. destruct (Hk tr1 s r tr0 X) as [->|(a & Ha & Hd)]; [left; auto|right]. exists a. split; [exact Ha|].
  intros h q ds -> Hc Hq. apply dressed_iff in Hd. subst s. eexists. split; [exact (Hm h q ds Hc Hq)|auto].
Qed.
Lemma leads_home s x u pw hp l cf : address_of s (Some (u, pw)) hp l -> (forall a b, s = a ++ str "+routing" ++ b -> a = str "bolt") -> conn_from_string s = Ok cf ->
  erased (str "+routing") s x -> leads_to x u pw hp.
Proof.
  intros Ha Ho Ecf Hx. destruct (seed_address s _ hp l x Ha Ho Hx) as (A & _).
  assert (X : conn_from_string x = Ok cf) by now rewrite (address_conn_with _ _ _ _ A), <- (address_conn_with _ _ _ _ Ha).
  exists cf. split; [exact X|]. rewrite (address_conn_with _ _ _ _ A) in X. unfold rbind in X.
  match type of X with (match ?m with _ => _ end) = _ => destruct m; try discriminate X end. injection X as <-. auto.
Qed.
Lemma client_readable os c s who hp l : new_client os = Ok c -> last_word string_opt os = Some s -> address_of s who hp l -> exists cf, conn_from_string s = Ok cf.
Proof.
  intros E Hs Ha. assert (Hne : s <> []) by (intros ->; inversion Ha as [sc ? ? ? ? Hsc _ _ _ X|sc ? ? ? ? ? ? Hsc _ _ _ _ X]; destruct Hsc as [<-|[<-|[]]]; discriminate X).
  destruct (address_url _ _ _ _ Ha) as (x & Ex & Ek & Eh & Eq & Eu).
  unfold new_client in E. destruct os as [|o os]; [discriminate|]. set (os' := o :: os) in *. destruct (apply_opts os' zero_client) as [c0| | |] eqn:E0; try discriminate. cbn [rbind] in E.
  pose proof (opts_string _ _ _ E0) as H3. rewrite Hs in H3.
  destruct c0 as [cs h p r ng u pw v t ck tl ce ca ke nv gt lt]. cbn [cl_conn_str zero_client] in H3. subst cs.
  rewrite (bytes_eqb_nil_false s Hne), Ex, Ek in E. cbn [negb] in E. rewrite Eq, !query_get_first in E. rewrite (address_conn_with _ _ _ _ Ha).
  destruct (bytes_eqb (first_value (str "timeout") l) []); [eexists; reflexivity|]. destruct (atoi (first_value (str "timeout") l)); [eexists; reflexivity|].
  repeat (match type of E with context [rbind ?m _] => destruct m as [?z| | |]; cbn [rbind] in E; try discriminate end).
Qed.
(** A client whose pool dials as [u] with [pw], first to [hp]. *)
Definition dials_as (c : client) (u pw hp : bytes) : Prop :=
  (forall s, erased (str "+routing") (cl_conn_str c) s -> leads_to s u pw hp)
  /\ forall h q ds, Forall host_char h -> decimal q ds ->
   conn_from_string (add_auth_info (get_username_password c) (get_tls_portion c) (str "bolt://" ++ h ++ str ":" ++ ds)) = Ok (plain_config u pw (h ++ str ":" ++ ds)).
Lemma string_dials os c s u pw hp l : new_client os = Ok c -> last_word string_opt os = Some s ->
  address_of s (Some (u, pw)) hp l -> last_word tls_opt os = None -> u <> [] -> plain_files l -> (forall a b, s = a ++ str "+routing" ++ b -> a = str "bolt") ->
  dials_as c u pw hp.
Proof.
  intros E Hs Ha Ht Hu Hf Ho. destruct (client_files _ _ _ _ _ _ E Hs Ha Ht) as (Ec & _). destruct (client_readable _ _ _ _ _ _ E Hs Ha) as [cf Ecf]. split.
  - intros x Hx. rewrite Ec in Hx. exact (leads_home s x u pw hp l cf Ha Ho Ecf Hx).
  - intros h q ds Hh Hq. exact (member_conn os c s u pw hp l h q ds E Hs Ha Ht Hu Hf Hh Hq).
Qed.
Lemma string_client {W} (K : cluster W) os c s u pw hp l n p0 pops w0 p w tr log : new_client os = Ok c -> last_word string_opt os = Some s ->
  address_of s (Some (u, pw)) hp l -> last_word tls_opt os = None -> u <> [] -> plain_files l -> (forall a b, s = a ++ str "+routing" ++ b -> a = str "bolt") ->
  new_routing_driver c n = Ok p0 -> run_pool (watch K) pops p0 (w0, []) = (p, (w, tr), log) -> always_as u pw hp tr.
Proof.
  intros E Hs Ha Ht Hu Hf Ho En R. destruct (string_dials _ _ _ _ _ _ _ E Hs Ha Ht Hu Hf Ho) as [D1 D2]. exact (as_told K c n p0 pops w0 p w tr log u pw hp En R D1 D2).
Qed.
Lemma host_dials os c h q u pw : new_client os = Ok c -> last_word string_opt os = None ->
  last_word host_opt os = Some (h, q) -> last_word auth_opt os = Some (u, pw) -> last_word tls_opt os = None ->
  Forall host_char h -> Forall user_char u -> Forall password_char pw -> (forall a b, cl_conn_str c = a ++ str "+routing" ++ b -> a = str "bolt") ->
  exists ds, decimal q ds /\ u <> [] /\ dials_as c u pw (h ++ str ":" ++ ds).
Proof.
  intros E Hs Hh Ha Ht Ch Cu Cp Ho. destruct (client_from_host os c E Hs) as (h' & q' & u' & pw' & X1 & X2 & Nh & Np & Nu & Fh & Fp & Fu & Fpw & Ec).
  rewrite Hh in X1. rewrite Ha in X2. injection X1 as <- <-. injection X2 as <- <-. rewrite Ht, app_nil_r in Ec.
  pose proof (address_string_of (cl_routing c) u pw h q ltac:(lia) Cu Cp Ch) as A. rewrite <- Ec in A.
  exists (show_int q). split; [apply show_int_decimal; lia|]. split; [exact Nu|].
  assert (T : cl_cert c = []).
  { clear - E Hs Ht. unfold new_client in E. destruct os as [|o os]; [discriminate|]. set (l := o :: os) in *.
    destruct (apply_opts l zero_client) as [c0| | |] eqn:E0; try discriminate. cbn [rbind] in E.
    pose proof (opts_string _ _ _ E0) as H3. pose proof (opts_tls _ _ _ E0) as H4. rewrite Hs in H3. rewrite Ht in H4.
    destruct c0 as [cs h0 p0 r ng u0 pw0 v t ck tl ce ca ke nv gt lt]. cbn [cl_conn_str cl_tls cl_ca cl_cert cl_key cl_no_verify zero_client] in H3, H4. subst cs. injection H4 as -> -> -> -> ->.
    change (bytes_eqb [] []) with true in E. cbn iota in E. destruct (bytes_eqb h0 []); [discriminate|]. destruct (p0 <=? 0); [discriminate|]. destruct (bytes_eqb u0 []); [discriminate|].
    injection E as <-. reflexivity. }
  destruct (address_url _ _ _ _ A) as (x & Ex & Ek & Eh & Eq & Eu).
  assert (G1 : get_tls_portion c = []).
  { unfold get_tls_portion. rewrite T. change (bytes_eqb [] []) with true. cbn [negb]. rewrite Ex, Eq. reflexivity. }
  assert (G2 : get_username_password c = u ++ str ":" ++ pw).
  { unfold get_username_password. rewrite Ex. destruct x as [sc us ho qu]. cbn in Eu. rewrite Eu, (bytes_eqb_nil_false u Nu). reflexivity. }
  split.
  - intros y Hy. refine (leads_home _ y u pw _ [] _ A Ho _ Hy). rewrite (address_conn_with _ _ _ _ A). reflexivity.
  - intros h1 q1 ds Hh1 Hq1. rewrite G1, G2. unfold add_auth_info. destruct (u ++ str ":" ++ pw) as [|b t] eqn:Z; [now destruct u|]. rewrite <- Z, app_nil_r, remove_bolt.
    + replace (str "bolt://" ++ (u ++ str ":" ++ pw) ++ str "@" ++ h1 ++ str ":" ++ ds) with (str "bolt" ++ str "://" ++ who_text (Some (u, pw)) ++ h1 ++ str ":" ++ ds)
        by (cbn [who_text]; change (str "bolt://") with (str "bolt" ++ str "://"); now rewrite <- !app_assoc).
      rewrite (address_conn_with _ (Some (u, pw)) (h1 ++ str ":" ++ ds) []); [reflexivity|].
      apply address_plain with (p := q1); [now left|now split|exact Hh1|exact Hq1].
    + apply (avoids host_port_b); [reflexivity|]. apply host_port_bs; [now apply host_bs|apply (decimal_digits _ _ Hq1)].
Qed.
Lemma host_client {W} (K : cluster W) os c h q u pw n p0 pops w0 p w tr log : new_client os = Ok c -> last_word string_opt os = None ->
  last_word host_opt os = Some (h, q) -> last_word auth_opt os = Some (u, pw) -> last_word tls_opt os = None ->
  Forall host_char h -> Forall user_char u -> Forall password_char pw -> (forall a b, cl_conn_str c = a ++ str "+routing" ++ b -> a = str "bolt") ->
  new_routing_driver c n = Ok p0 -> run_pool (watch K) pops p0 (w0, []) = (p, (w, tr), log) ->
  exists ds, decimal q ds /\ always_as u pw (h ++ str ":" ++ ds) tr.
Proof.
  intros E Hs Hh Ha Ht Ch Cu Cp Ho En R. destruct (host_dials _ _ _ _ _ _ E Hs Hh Ha Ht Ch Cu Cp Ho) as (ds & Hd & _ & D1 & D2).
  exists ds. split; [exact Hd|]. exact (as_told K c n p0 pops w0 p w tr log u pw _ En R D1 D2).
Qed.
