(** Facts about clients and connection strings. *)
From Coq Require Import String ZArith List Bool Lia ZifyBool.
From Verif Require Import Bytes GoVal GoErr Messages GoStr Url Client SpecClient UrlFacts BytesFacts RoutingFacts.
Import ListNotations.
Open Scope Z_scope.

(** ** Addresses with credentials *)

(** The configuration of a connection to an address without parameters. *)
Definition plain_config (u pw hp : bytes) : config := mkConfig hp u pw (60 * second) 65535 false [] [] [] false.
Lemma known_scheme_of r : known_scheme (scheme_of r) = true.
Proof. destruct r; reflexivity. Qed.
Lemma address_conn r u pw h ds : Forall user_char u -> Forall password_char pw -> Forall host_char h -> Forall (fun b => is_digit b = true) ds ->
  conn_from_string (scheme_of r ++ str "://" ++ u ++ str ":" ++ pw ++ str "@" ++ h ++ str ":" ++ ds) = Ok (plain_config u pw (h ++ str ":" ++ ds)).
Proof.
  rewrite user_bs, password_bs, host_bs. intros Hu Hp Hh Hd. unfold conn_from_string.
  rewrite url_plain by now apply authority_bs. rewrite parse_authority_full by assumption. cbn [u_scheme u_user u_host u_query].
  rewrite known_scheme_of. reflexivity.
Qed.

Lemma split_at_app_gen c a b : ~ In c a -> split_at c (a ++ b) = (a ++ fst (split_at c b), snd (split_at c b)).
Proof.
  intros H. destruct (cut c b) as [[x y]|] eqn:E.
  - apply cut_some in E as Hs. destruct Hs as [-> Hx]. rewrite app_assoc, !split_at_app; [reflexivity|exact Hx|]. intros X. apply in_app_or in X. tauto.
  - apply cut_none_inv in E. rewrite !split_at_none; [reflexivity|exact E|]. intros X. apply in_app_or in X. tauto.
Qed.
Lemma app_prefix {A} : forall (a b x y : list A), a ++ x = b ++ y -> (length a <= length b)%nat -> exists c, b = a ++ c.
Proof.
  induction a as [|h a IH]; intros b x y E L; [now exists b|]. destruct b as [|k b]; cbn in L; [lia|].
  cbn in E. injection E as <- E. destruct (IH _ _ _ E) as [c ->]; [lia|]. now exists c.
Qed.
Lemma userinfo_parts n q host rest u pw hp : ~ In ":"%byte n -> ~ In "@"%byte hp ->
  unescape MUser n = Some u -> unescape MUser q = Some pw ->
  n ++ ":"%byte :: q ++ "@"%byte :: host ++ rest = u ++ ":"%byte :: pw ++ "@"%byte :: hp ->
  n = u /\ q = pw /\ ~ In "%"%byte u /\ ~ In "%"%byte pw.
Proof.
  intros Hn Hh Un Uq E.
  destruct (unescape_length MUser _ n u (le_n _) Un) as [L1 P1]. destruct (unescape_length MUser _ q pw (le_n _) Uq) as [L2 P2].
  symmetry in E. destruct (app_prefix _ _ _ _ E L1) as [n' ->]. rewrite <- app_assoc in E. apply app_inv_head in E.
  destruct n' as [|c n'].
  2:{ cbn in E. injection E as <- _. destruct Hn. apply in_or_app. right. now left. }
  cbn in E. injection E as E. destruct (app_prefix _ _ _ _ E L2) as [q' ->]. rewrite <- app_assoc in E. apply app_inv_head in E.
  destruct q' as [|c q'].
  2:{ cbn in E. injection E as <- E. destruct Hh. rewrite E. apply in_or_app. right. now left. }
  rewrite !app_nil_r in *. split; [reflexivity|]. split; [reflexivity|]. split; [now apply P1|now apply P2].
Qed.
Lemma parse_rest_shape scheme t u : scheme <> [] -> parse_rest scheme (str "//" ++ t) = Some u -> u_user u <> None ->
  exists a rest, t = a ++ rest /\ parse_authority a = Some (u_user u, u_host u) /\ u_scheme u = scheme.
Proof.
  intros Hs. unfold parse_rest. rewrite (split_at_app_gen "?" (str "//") t) by (cbn; intros [X|[X|[]]]; discriminate X).
  destruct (split_at_prefix "?" t) as (r1 & E1 & _). set (t1 := fst (split_at "?" t)) in *.
  replace (has_prefix (str "/") (str "//" ++ t1)) with true by reflexivity. cbn [negb andb].
  assert (bytes_eqb scheme [] = false) as -> by (destruct scheme; [now destruct Hs|reflexivity]). cbn [negb orb].
  replace (has_prefix (str "//") (str "//" ++ t1)) with true by reflexivity. cbn [andb].
  change (skipn 2 (str "//" ++ t1)) with t1.
  destruct (split_slash_prefix t1) as (r2 & E2 & _). destruct (split_slash t1) as [a path]. cbn [fst] in E2.
  destruct (parse_authority a) as [[us ho]|] eqn:Ea; [|discriminate]. destruct (unescape MPath path); [|discriminate]. intros [= <-] _. cbn [u_user u_host u_scheme].
  exists a, (r2 ++ r1). split; [|split; [exact Ea|reflexivity]]. now rewrite E1, E2, <- app_assoc.
Qed.
Lemma url_shape r t u : url_parse (scheme_of r ++ str "://" ++ t) = Some u -> u_user u <> None ->
  exists a rest, t = a ++ rest /\ parse_authority a = Some (u_user u, u_host u) /\ u_scheme u = scheme_of r.
Proof.
  unfold url_parse. rewrite app_assoc, split_at_app_gen by now apply scheme_avoids.
  destruct (split_at_prefix "#" t) as (r0 & E0 & _). set (t0 := fst (split_at "#" t)) in *.
  destruct (parse_no_fragment _) as [v|] eqn:E; [|discriminate]. destruct (unescape MFragment _); [|discriminate]. intros [= <-] Hu.
  rewrite <- app_assoc in E. unfold parse_no_fragment in E. destruct (has_ctl _); [discriminate|].
  assert (X : parse_rest (scheme_of r) (str "//" ++ t0) = Some v) by (destruct r; exact E).
  destruct (parse_rest_shape _ _ _ (scheme_ne r) X Hu) as (a & rest & Ht & Ha & Hsc). exists a, (rest ++ r0). split; [|split; assumption].
  now rewrite E0, Ht, <- app_assoc.
Qed.
Lemma address_credentials r u pw h ds cf : u <> [] -> Forall host_char h -> Forall (fun b => is_digit b = true) ds ->
  conn_from_string (scheme_of r ++ str "://" ++ u ++ str ":" ++ pw ++ str "@" ++ h ++ str ":" ++ ds) = Ok cf ->
  cf_user cf = u -> cf_password cf = pw -> Forall user_char u /\ Forall password_char pw.
Proof.
  rewrite host_bs. intros Hne Hh Hd E Eu Ep. unfold conn_from_string in E.
  destruct (url_parse _) as [v|] eqn:Ev; [|discriminate].
  destruct (negb (known_scheme (u_scheme v))); [discriminate|].
  destruct (u_user v) as [[us [pa|]]|] eqn:Eus; [|discriminate|].
  2:{ cbn [rbind] in E. destruct (if bytes_eqb _ _ then _ else _) in E; try discriminate. injection E as <-. cbn in Eu. now subst u. }
  cbn [rbind] in E. assert (us = u /\ pa = pw) as [-> ->].
  { destruct (if bytes_eqb _ _ then _ else _) in E; try discriminate. injection E as <-. cbn in Eu, Ep. now subst. }
  clear E. apply url_shape in Ev; [|congruence]. destruct Ev as (a & rest & Ht & Ha & _). rewrite Eus in Ha.
  unfold parse_authority in Ha. destruct (cut_last "@" a) as [[ui host]|] eqn:Ec.
  2:{ destruct (parse_host a); discriminate. }
  destruct (parse_host host) as [ho|]; [|discriminate]. destruct (valid_userinfo ui) eqn:V; [|discriminate].
  destruct (cut ":" ui) as [[n q]|] eqn:En.
  2:{ destruct (unescape MUser ui); discriminate. }
  destruct (unescape MUser n) as [n'|] eqn:Un; [|discriminate]. destruct (unescape MUser q) as [q'|] eqn:Uq; [|discriminate].
  injection Ha as -> -> _. apply cut_last_some in Ec. destruct Ec as [-> _]. apply cut_some in En. destruct En as [-> Hn].
  destruct (userinfo_parts n q host rest u pw (h ++ str ":" ++ ds)) as (-> & -> & Nu & Np); try assumption.
  { intros X. apply in_app_or in X. destruct X as [X|X]; [revert X; now apply (avoids host_b)|]. destruct X as [X|X]; [discriminate|]. revert X. now apply (avoids is_digit). }
  { repeat (rewrite <- app_assoc in Ht; cbn [app] in Ht). symmetry. exact Ht. }
  unfold valid_userinfo in V. rewrite forallb_app in V. cbn in V. apply andb_true_iff in V. destruct V as [V1 V2].
  rewrite forallb_forall in V1, V2. rewrite user_bs, password_bs. split; apply Forall_forall; intros b Hb.
  - rewrite user_is, V1 by exact Hb. cbn. apply andb_true_iff. split; apply negb_true_iff, byte_eqb_neq; intros ->; contradiction.
  - rewrite password_is, V2 by exact Hb. cbn. apply negb_true_iff, byte_eqb_neq; intros ->; contradiction.
Qed.

(** ** Queries *)
Lemma hex_value_b x m : hex_value x m -> ishex x = true /\ unhex x = m.
Proof.
  intros H. destruct H as [b H|b H|b H]; unfold digit in *; unfold ishex, unhex, is_digit.
  - split; [lia|]. assert ((48 <=? bz b) && (bz b <=? 57) = true) as -> by lia. reflexivity.
  - split; [lia|]. assert ((48 <=? bz b) && (bz b <=? 57) = false) as -> by lia. assert ((97 <=? bz b) && (bz b <=? 102) = true) as -> by lia. lia.
  - split; [lia|]. assert ((48 <=? bz b) && (bz b <=? 57) = false) as -> by lia. assert ((97 <=? bz b) && (bz b <=? 102) = false) as -> by lia. lia.
Qed.
Definition query_b (b : byte) : bool := visible b && negb (one_of (str "&;=#") b).
Lemma written_unescape s q : written s q -> unescape MQuery q = Some s /\ Forall (fun b => query_b b = true) q.
Proof.
  induction 1 as [|b s q Hv Hd Hn H [IH1 IH2]|s q H [IH1 IH2]|b x y m n s q Hx Hy Hb H [IH1 IH2]].
  - split; [reflexivity|constructor].
  - split.
    + cbn. destruct (Byte.eqb b "%") eqn:E; [apply byte_eqb_eq in E; subst; destruct Hn; now left|]. rewrite IH1.
      destruct (Byte.eqb b "+") eqn:E2; [|reflexivity]. apply byte_eqb_eq in E2. subst. destruct Hn. cbn. tauto.
    + constructor; [|exact IH2]. unfold query_b, visible. destruct (one_of (str "&;=#") b) eqn:E; [|lia]. apply one_of_in in E. destruct Hn. cbn in *. tauto.
  - split; [cbn; now rewrite IH1|]. constructor; [reflexivity|exact IH2].
  - apply hex_value_b in Hx as [X1 X2]. apply hex_value_b in Hy as [Y1 Y2]. split.
    + cbn. rewrite X1, Y1. cbn. rewrite IH1, X2, Y2. do 2 f_equal. rewrite <- (zb_bz b). f_equal. lia.
    + assert (C : forall b, ishex b = true -> query_b b = true) by (apply class_fact; vm_compute; reflexivity).
      repeat constructor; [now apply C|now apply C|exact IH2].
Qed.
Lemma parts_app a r : (forall b, In b a -> b <> "&"%byte /\ b <> ";"%byte) -> query_parts (a ++ r) =
  match query_parts r with p :: ps => (a ++ p) :: ps | [] => [a] end.
Proof.
  induction a as [|c a IH]; intros H.
  - cbn. destruct r as [|x r]; [reflexivity|]. destruct (query_parts (x :: r)) eqn:E; [|reflexivity]. exfalso. cbn in E. destruct (_ || _); [discriminate|]. destruct (query_parts r); discriminate.
  - cbn. destruct (H c (or_introl eq_refl)) as [N1 N2]. rewrite (proj2 (byte_eqb_neq _ _) N1), (proj2 (byte_eqb_neq _ _) N2). cbn.
    rewrite IH by (intros b Hb; apply H; now right). destruct (query_parts r); reflexivity.
Qed.
Lemma parts_nil a : (forall b, In b a -> b <> "&"%byte /\ b <> ";"%byte) -> query_parts a = [a].
Proof. intros H. pose proof (parts_app a [] H) as X. cbn in X. rewrite app_nil_r in X. exact X. Qed.
Lemma query_b_not c q : query_b c = false -> Forall (fun b => query_b b = true) q -> ~ In c q.
Proof. intros H F X. rewrite Forall_forall in F. specialize (F _ X). congruence. Qed.
Lemma query_pair_written k v a b : written k a -> written v b -> query_pair (a ++ str "=" ++ b) = [(k, v)].
Proof.
  intros Hk Hv. apply written_unescape in Hk as [U1 F1]. apply written_unescape in Hv as [U2 F2]. unfold query_pair.
  destruct (a ++ str "=" ++ b) eqn:E; [now destruct a|]. rewrite <- E. change (a ++ str "=" ++ b) with (a ++ "="%byte :: b).
  rewrite split_at_app by now apply query_b_not. now rewrite U1, U2.
Qed.
Lemma pair_no_amp k v a b : written k a -> written v b -> forall c, In c (a ++ str "=" ++ b) -> c <> "&"%byte /\ c <> ";"%byte.
Proof.
  intros Hk Hv c X. apply written_unescape in Hk as [_ F1]. apply written_unescape in Hv as [_ F2].
  apply in_app_or in X. destruct X as [X|[X|X]].
  - rewrite Forall_forall in F1. split; intros ->; specialize (F1 _ X); discriminate.
  - subst. split; discriminate.
  - rewrite Forall_forall in F2. split; intros ->; specialize (F2 _ X); discriminate.
Qed.
Lemma query_as_parse l q : query_as l q -> parse_query q = l.
Proof.
  induction 1 as [|k v a b Hk Hv|k v a b l c Hk Hv H IH Hl|k v a b l c Hk Hv H IH Hl]; unfold parse_query in *.
  - reflexivity.
  - rewrite parts_nil by (eapply pair_no_amp; eassumption). cbn [flat_map]. now rewrite (query_pair_written k v).
  - replace (a ++ str "=" ++ b ++ str "&" ++ c) with ((a ++ str "=" ++ b) ++ str "&" ++ c) by now rewrite <- !app_assoc.
    rewrite parts_app by (eapply pair_no_amp; eassumption). change (query_parts (str "&" ++ c)) with ([] :: query_parts c). cbn [flat_map].
    rewrite app_nil_r, (query_pair_written k v) by assumption. now rewrite IH.
  - replace (a ++ str "=" ++ b ++ str ";" ++ c) with ((a ++ str "=" ++ b) ++ str ";" ++ c) by now rewrite <- !app_assoc.
    rewrite parts_app by (eapply pair_no_amp; eassumption). change (query_parts (str ";" ++ c)) with ([] :: query_parts c). cbn [flat_map].
    rewrite app_nil_r, (query_pair_written k v) by assumption. now rewrite IH.
Qed.
Lemma query_b_visible b : query_b b = true -> visible b && negb (Byte.eqb b "#") = true.
Proof. apply (class_fact query_b (fun b => visible b && negb (Byte.eqb b "#"))). vm_compute. reflexivity. Qed.
Lemma query_as_visible l q : query_as l q -> Forall (fun b => visible b && negb (Byte.eqb b "#") = true) q.
Proof.
  assert (W : forall s q, written s q -> Forall (fun b => visible b && negb (Byte.eqb b "#") = true) q).
  { intros s q' H. apply written_unescape in H as [_ H]. eapply Forall_impl; [|exact H]. apply query_b_visible. }
  induction 1 as [|k v a b Hk Hv|k v a b l c Hk Hv H IH Hl|k v a b l c Hk Hv H IH Hl]; [constructor|..]; (apply Forall_app; split; [exact (W _ _ Hk)|]); (constructor; [reflexivity|]).
  - exact (W _ _ Hv).
  - apply Forall_app; split; [exact (W _ _ Hv)|]. constructor; [reflexivity|exact IH].
  - apply Forall_app; split; [exact (W _ _ Hv)|]. constructor; [reflexivity|exact IH].
Qed.
Lemma query_get_first k l : query_get k l = first_value k l.
Proof.
  induction l as [|[k' v] l IH]; [reflexivity|]. cbn. rewrite IH. destruct (bytes_eqb k k') eqn:E; destruct (list_eq_dec Byte.byte_eq_dec k' k) as [D|D]; try reflexivity.
  - apply bytes_eqb_eq in E. congruence.
  - subst. assert (bytes_eqb k k = true) by now apply bytes_eqb_eq. congruence.
Qed.
Lemma switched_on_asked s : switched_on s = true <-> asked_for s.
Proof.
  unfold switched_on, asked_for. rewrite orb_true_iff. split.
  - intros [H|H]; [|left; now apply bytes_eqb_eq]. right. destruct s as [|b s]; [discriminate|].
    destruct (Byte.eqb b xc4) eqn:E1.
    { apply byte_eqb_eq in E1. subst b. destruct (to_lower_c4 s) as [X|(s' & _ & X)]; rewrite X in H; discriminate H. }
    destruct (Byte.eqb b xe2) eqn:E2.
    { apply byte_eqb_eq in E2. subst b. destruct (to_lower_e2 s) as [X|(s' & _ & X)]; rewrite X in H; discriminate H. }
    rewrite to_lower_cons, E1, E2 in H.
    assert (X : Byte.eqb b "t" || Byte.eqb b "T" = true).
    { revert H. change (has_prefix (str "t") (lower_byte b :: to_lower s)) with (Byte.eqb "t" (lower_byte b) && true). rewrite andb_true_r.
      apply (class_fact (fun b => Byte.eqb "t" (lower_byte b)) (fun b => Byte.eqb b "t" || Byte.eqb b "T")). vm_compute. reflexivity. }
    apply orb_true_iff in X. destruct X as [X|X]; apply byte_eqb_eq in X; subst b; eauto.
  - intros [->|[[r ->]|[r ->]]]; [now right|left; reflexivity|left; reflexivity].
Qed.

(** ** Connection strings with parameters *)
Definition conn_with (host user password : bytes) (timeout : Z) (l : list (bytes * bytes)) : config :=
  let tls := switched_on (first_value (str "tls") l) in
  mkConfig host user password timeout 65535 tls
    (if tls then first_value (str "tls_cert_file") l else [])
    (if tls then first_value (str "tls_key_file") l else [])
    (if tls then first_value (str "tls_ca_cert_file") l else [])
    (if tls then switched_on (first_value (str "tls_no_verify") l) else false).
Lemma conn_of_query r a user host l q : Forall (fun b => authority_b b = true) a ->
  parse_authority a = Some (user, host) -> query_as l q ->
  conn_from_string (scheme_of r ++ str "://" ++ a ++ str "?" ++ q) =
  'cred <- match user with None => Ok ([], []) | Some (u, Some p) => Ok (u, p) | Some (_, None) => Err (ENew (TMsg 303)) end ;;
  't <- (if bytes_eqb (first_value (str "timeout") l) [] then Ok (60 * second)
         else match atoi (first_value (str "timeout") l) with None => Err (EFmt None (TMsg 304)) | Some n => Ok (int64 (n * second)) end) ;;
  Ok (conn_with host (fst cred) (snd cred) t l).
Proof.
  intros Ha Hp Hq. unfold conn_from_string. pose proof (query_as_visible l q Hq) as Hv.
  change (a ++ str "?" ++ q) with (a ++ "?"%byte :: q). rewrite url_query.
  - rewrite Hp. cbn [u_scheme u_user u_host u_query]. rewrite known_scheme_of, (query_as_parse l q Hq), !query_get_first. reflexivity.
  - exact Ha.
  - eapply Forall_impl; [|exact Hv]. intros b X. apply andb_true_iff in X. apply X.
  - intros X. rewrite Forall_forall in Hv. specialize (Hv _ X). discriminate Hv.
Qed.

(** ** Options *)
Lemma apply_opts_ind (P : client -> client -> Prop) : (forall c, P c c) -> (forall a b c, P a b -> P b c -> P a c) ->
  forall os, (forall o c c', In o os -> apply_opt o c = Ok c' -> P c c') -> forall c c', apply_opts os c = Ok c' -> P c c'.
Proof.
  intros Hr Ht. induction os as [|o os IH]; intros Ho c c' E; cbn in E; [injection E as <-; apply Hr|].
  destruct (apply_opt o c) as [c1| | |] eqn:E1; try discriminate. apply (Ht _ c1).
  - apply (Ho o); [now left|exact E1].
  - apply IH; [|exact E]. intros o' a b Hin. apply Ho. now right.
Qed.
Lemma last_word_spec {A} (f : copt -> option A) (g : client -> A) os :
  (forall o c c', In o os -> apply_opt o c = Ok c' -> g c' = match f o with Some a => a | None => g c end) ->
  forall c c', apply_opts os c = Ok c' -> g c' = match last_word f os with Some a => a | None => g c end.
Proof.
  induction os as [|o os IH]; intros H c c' E; cbn in E; [now injection E as <-|].
  destruct (apply_opt o c) as [c1| | |] eqn:E1; try discriminate. cbn [last_word].
  rewrite (IH (fun o' a b Hin => H o' a b (or_intror Hin)) c1 c' E). destruct (last_word f os); [reflexivity|].
  apply (H o); [now left|exact E1].
Qed.
Ltac one_opt := let o := fresh in let c := fresh in intros o c ? _; destruct c, o; cbn [apply_opt];
  repeat match goal with |- (if ?b then _ else _) = _ -> _ => destruct b end; try discriminate; let E := fresh in intros E; injection E as <-; reflexivity.
Lemma opts_host os c c' : apply_opts os c = Ok c' -> (cl_host c', cl_port c') = match last_word host_opt os with Some a => a | None => (cl_host c, cl_port c) end.
Proof. apply (last_word_spec host_opt (fun c => (cl_host c, cl_port c))). one_opt. Qed.
Lemma opts_auth os c c' : apply_opts os c = Ok c' -> (cl_user c', cl_password c') = match last_word auth_opt os with Some a => a | None => (cl_user c, cl_password c) end.
Proof. apply (last_word_spec auth_opt (fun c => (cl_user c, cl_password c))). one_opt. Qed.
Lemma opts_string os c c' : apply_opts os c = Ok c' -> cl_conn_str c' = match last_word string_opt os with Some a => a | None => cl_conn_str c end.
Proof. apply (last_word_spec string_opt cl_conn_str). one_opt. Qed.
Definition tls_word (o : copt) : option (bool * (bytes * bytes * bytes * bool)) := match tls_opt o with Some x => Some (true, x) | None => None end.
Lemma opts_tls os c c' : apply_opts os c = Ok c' ->
  (cl_tls c', (cl_ca c', cl_cert c', cl_key c', cl_no_verify c')) = match last_word tls_opt os with Some a => (true, a) | None => (cl_tls c, (cl_ca c, cl_cert c, cl_key c, cl_no_verify c)) end.
Proof.
  intros E. assert (X : last_word tls_word os = match last_word tls_opt os with Some x => Some (true, x) | None => None end).
  { clear E. induction os as [|o os IH]; [reflexivity|]. cbn [last_word]. rewrite IH. destruct (last_word tls_opt os); [reflexivity|]. reflexivity. }
  rewrite (last_word_spec tls_word (fun c => (cl_tls c, (cl_ca c, cl_cert c, cl_key c, cl_no_verify c))) os) with (c := c) (c' := c'); [|one_opt|exact E].
  rewrite X. destruct (last_word tls_opt os); reflexivity.
Qed.

(** A client made from host and port. *)
Lemma client_from_host os c : new_client os = Ok c -> last_word string_opt os = None ->
  exists h p u pw, last_word host_opt os = Some (h, p) /\ last_word auth_opt os = Some (u, pw) /\
    h <> [] /\ 0 < p /\ u <> [] /\ cl_host c = h /\ cl_port c = p /\ cl_user c = u /\ cl_password c = pw /\
    cl_conn_str c = address_string (cl_routing c) u pw h p ++
      match last_word tls_opt os with Some (ca, cert, key, nv) => tls_suffix cert key ca (show_bool nv) | None => [] end.
Proof.
  unfold new_client. destruct os as [|o os]; [discriminate|]. set (l := o :: os). intros E Hs.
  destruct (apply_opts l zero_client) as [c0| | |] eqn:E0; try discriminate. cbn [rbind] in E.
  pose proof (opts_host _ _ _ E0) as H1. pose proof (opts_auth _ _ _ E0) as H2. pose proof (opts_string _ _ _ E0) as H3. pose proof (opts_tls _ _ _ E0) as H4.
  rewrite Hs in H3. destruct c0 as [cs h p r ng u pw v t ck tl ce ca ke nv gt lt]. cbn [cl_host cl_port cl_user cl_password cl_conn_str cl_tls cl_ca cl_cert cl_key cl_no_verify zero_client] in H1, H2, H3, H4. subst cs. cbn [bytes_eqb] in E.
  change (bytes_eqb [] []) with true in E. cbn iota in E.
  destruct (bytes_eqb h []) eqn:Eh; [discriminate|]. destruct (p <=? 0) eqn:Ep; [discriminate|]. destruct (bytes_eqb u []) eqn:Eu; [discriminate|].
  injection E as <-. cbn [cl_host cl_port cl_user cl_password cl_conn_str cl_routing].
  destruct (last_word host_opt l) as [[h' p']|]. 2:{ injection H1 as H1 _. subst h. discriminate. } injection H1 as -> ->.
  destruct (last_word auth_opt l) as [[u' pw']|]. 2:{ injection H2 as H2 _. subst u. discriminate. } injection H2 as -> ->.
  exists h', p', u', pw'. split; [reflexivity|]. split; [reflexivity|]. split; [intros ->; discriminate|]. split; [lia|]. split; [intros ->; discriminate|].
  do 4 (split; [reflexivity|]). destruct (last_word tls_opt l) as [[[[a b] d] e]|]; injection H4 as -> -> -> -> ->; [reflexivity|]. cbn. now rewrite app_nil_r.
Qed.
