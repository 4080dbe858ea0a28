(** Clients: what their options come to. *)
From Coq Require Import String ZArith List Bool Lia ZifyBool.
From Verif Require Import Bytes GoVal GoErr Messages GoStr Url Pool Client SpecClient UrlFacts ClientFacts BytesFacts.
Import ListNotations.
Open Scope Z_scope.

(** ** Whole numbers *)
Lemma digits_snoc s : forall acc b, digits acc (s ++ [b]) = match digits acc s with Some n => if is_digit b then Some (n * 10 + (bz b - 48)) else None | None => None end.
Proof.
  induction s as [|c s IH]; intros acc b; cbn; [destruct (is_digit b); reflexivity|]. destruct (is_digit c); [apply IH|reflexivity].
Qed.
Lemma digits_digits_of s : forall n, s <> [] -> (digits 0 s = Some n <-> digits_of s n).
Proof.
  induction s as [|b s IH] using rev_ind; intros n Hs; [now destruct Hs|]. clear Hs. rewrite digits_snoc. split.
  - destruct s as [|c s]; [cbn|].
    + destruct (is_digit b) eqn:D; [|discriminate]. intros [= <-]. apply digit_b in D. now constructor.
    + destruct (digits 0 (c :: s)) as [m|] eqn:E; [|discriminate]. destruct (is_digit b) eqn:D; [|discriminate]. intros [= <-]. apply digit_b in D.
      replace (m * 10 + (bz b - 48)) with (10 * m + (bz b - 48)) by lia. constructor; [|exact D]. now apply IH.
  - intros H. inversion H as [x Hx Ex|s' m x Hs Hx Es].
    + symmetry in Ex. destruct s as [|c [|]]; try discriminate. cbn in Ex |- *. injection Ex as ->. apply digit_b in Hx. rewrite Hx. f_equal; lia.
    + apply app_inj_tail in Es. destruct Es as [-> ->]. assert (s <> []) by (inversion Hs; [discriminate|now destruct s0]).
      apply IH in Hs; [|assumption]. rewrite Hs. apply digit_b in Hx. rewrite Hx. f_equal. lia.
Qed.
Lemma digits_of_head s n : digits_of s n -> 0 <= n /\ exists b s', s = b :: s' /\ digit b.
Proof.
  induction 1 as [b H|s n b Hs IH H].
  - split; [unfold digit in H; lia|]. now exists b, [].
  - destruct IH as [Hn (c & s' & -> & Hc)]. split; [unfold digit in H; lia|]. exists c, (s' ++ [b]). now split.
Qed.
Lemma atoi_whole s n : atoi s = Some n <-> whole s n.
Proof.
  assert (D : forall b, digit b -> b <> "-"%byte /\ b <> "+"%byte) by (intros b Hb; split; intros ->; unfold digit in Hb; cbn in Hb; lia).
  assert (G : forall (neg : bool) ds, match ds with [] => None | _ => match digits 0 ds with None => None
     | Some n => let z := if neg then - n else n in if (- 2 ^ 63 <=? z) && (z <? 2 ^ 63) then Some z else None end end = Some n
     <-> exists m, digits_of ds m /\ n = (if neg then - m else m) /\ (if neg then m <= 2 ^ 63 else m < 2 ^ 63)).
  { intros neg ds. destruct ds as [|c ds]; [split; [discriminate|]; intros (m & H & _); apply digits_of_head in H; destruct H as [_ (? & ? & ? & _)]; discriminate|].
    assert (Hne : c :: ds <> []) by discriminate. destruct (digits 0 (c :: ds)) as [m|] eqn:E.
    - apply (digits_digits_of _ _ Hne) in E. pose proof (proj1 (digits_of_head _ _ E)) as Hm. cbn zeta.
      destruct ((- 2 ^ 63 <=? (if neg then - m else m)) && ((if neg then - m else m) <? 2 ^ 63)) eqn:R; split.
      + intros [= <-]. exists m. split; [exact E|]. split; [reflexivity|]. destruct neg; lia.
      + intros (m' & H & -> & _). assert (m' = m) as -> by (apply (digits_digits_of _ _ Hne) in H, E; congruence). reflexivity.
      + discriminate.
      + intros (m' & H & -> & Hb). assert (m' = m) as -> by (apply (digits_digits_of _ _ Hne) in H, E; congruence). destruct neg; lia.
    - split; [discriminate|]. intros (m & H & _). apply (digits_digits_of _ _ Hne) in H. congruence. }
  unfold atoi. destruct s as [|c s].
  - specialize (G false []). cbn in G |- *. split; [discriminate|]. intros H. inversion H as [? ? H'| |]; subst. apply digits_of_head in H'. destruct H' as [_ (? & ? & ? & _)]. discriminate.
  - destruct (Byte.byte_eq_dec c "-") as [->|N1]; [|destruct (Byte.byte_eq_dec c "+") as [->|N2]].
    + rewrite (G true s). split.
      * intros (m & H & -> & Hm). now constructor.
      * intros H. inversion H as [? ? H' H''| |? m H' H'']; subst.
        -- apply digits_of_head in H'. destruct H' as [_ (? & ? & [= <- <-] & Hd)]. now destruct (D _ Hd).
        -- exists m. auto.
    + rewrite (G false s). split.
      * intros (m & H & -> & Hm). now constructor.
      * intros H. inversion H as [? ? H' H''|? m H' H''|]; subst.
        -- apply digits_of_head in H'. destruct H' as [_ (? & ? & [= <- <-] & Hd)]. now destruct (D _ Hd).
        -- exists n. auto.
    + assert (X : (let '(neg, ds) := match c with "-"%byte => (true, s) | "+"%byte => (false, s) | _ => (false, c :: s) end in
        match ds with [] => None | _ => match digits 0 ds with None => None
          | Some n => let z := if neg then - n else n in if (- 2 ^ 63 <=? z) && (z <? 2 ^ 63) then Some z else None end end) = Some n <-> whole (c :: s) n); [|exact X].
      assert ((match c with "-"%byte => (true, s) | "+"%byte => (false, s) | _ => (false, c :: s) end) = (false, c :: s)) as ->
        by (destruct c; try reflexivity; contradiction).
      rewrite (G false (c :: s)). split.
      * intros (m & H & -> & Hm). now constructor.
      * intros H. inversion H as [? ? H' H''|? m H' H''|? m H' H'']; subst; [exists n; auto|contradiction|contradiction].
Qed.
Lemma int64_same z : - 2 ^ 63 <= z < 2 ^ 63 -> int64 z = z.
Proof. intros H. unfold int64, to_signed. change (256 ^ Z.of_nat 8) with (2 ^ 64). change (2 ^ 64) with 18446744073709551616 in *. change (2 ^ 63) with 9223372036854775808 in *.
  destruct (Z.lt_ge_cases z 0).
  - replace (z mod 18446744073709551616) with (z + 18446744073709551616) by (apply Z.mod_unique with (-1); lia). cbn zeta. match goal with |- (if ?b then _ else _) = _ => destruct b eqn:E end; lia.
  - rewrite Z.mod_small by lia. cbn zeta. match goal with |- (if ?b then _ else _) = _ => destruct b eqn:E end; lia.
Qed.

(** ** Connection strings *)
Lemma scheme_in s : In s [str "bolt"; str "bolt+routing"] -> exists r, s = scheme_of r.
Proof. intros [<-|[<-|[]]]; [now exists false|now exists true]. Qed.
Lemma host_port_bs h ds : Forall (fun b => host_b b = true) h -> Forall (fun b => is_digit b = true) ds -> Forall (fun b => host_port_b b = true) (h ++ str ":" ++ ds).
Proof.
  intros Hh Hd. apply Forall_app. split; [|constructor; [reflexivity|]].
  - eapply Forall_impl; [|exact Hh]. intros b X. unfold host_port_b. now rewrite X.
  - eapply Forall_impl; [|exact Hd]. intros b X. unfold host_port_b. now rewrite (digit_allowed b X).
Qed.
Lemma who_authority who h ds : plain_who who -> Forall host_char h -> Forall (fun b => is_digit b = true) ds ->
  Forall (fun b => authority_b b = true) (who_text who ++ h ++ str ":" ++ ds) /\
  parse_authority (who_text who ++ h ++ str ":" ++ ds) = Some (match who with Some (u, p) => Some (u, Some p) | None => None end, h ++ str ":" ++ ds).
Proof.
  rewrite host_bs. intros Hw Hh Hd. destruct who as [[u p]|]; cbn [who_text plain_who] in *.
  - rewrite user_bs, password_bs in Hw. destruct Hw as [Hu Hp].
    replace ((u ++ str ":" ++ p ++ str "@") ++ h ++ str ":" ++ ds) with (u ++ str ":" ++ p ++ str "@" ++ h ++ str ":" ++ ds) by now rewrite <- !app_assoc.
    split; [now apply authority_bs|now apply parse_authority_full].
  - cbn [app]. pose proof (host_port_bs h ds Hh Hd) as F. split; [eapply Forall_impl; [|exact F]; intros b X; unfold authority_b; now rewrite X, orb_true_r|].
    unfold parse_authority. rewrite cut_last_none by (apply (avoids host_port_b); [reflexivity|exact F]). now rewrite parse_host_port.
Qed.
Definition who_user (who : option (bytes * bytes)) : bytes := match who with Some (u, _) => u | None => [] end.
Definition who_password (who : option (bytes * bytes)) : bytes := match who with Some (_, p) => p | None => [] end.
Lemma address_conn_with s who hp l : address_of s who hp l ->
  conn_from_string s =
  't <- (if bytes_eqb (first_value (str "timeout") l) [] then Ok (60 * second)
         else match atoi (first_value (str "timeout") l) with None => Err (EFmt None (TMsg 304)) | Some n => Ok (int64 (n * second)) end) ;;
  Ok (conn_with hp (who_user who) (who_password who) t l).
Proof.
  intros H. destruct H as [scheme who h p ds Hs Hw Hh Hd|scheme who h p ds l q Hs Hw Hh Hd Hq];
    apply scheme_in in Hs; destruct Hs as [r ->]; apply decimal_digits in Hd; destruct Hd as [Hd _];
    destruct (who_authority who h ds Hw Hh Hd) as [A P].
  - unfold conn_from_string. rewrite url_plain by exact A. rewrite P. cbn [u_scheme u_user u_host u_query]. rewrite known_scheme_of. cbn [negb].
    destruct who as [[u pw]|]; reflexivity.
  - replace (scheme_of r ++ str "://" ++ who_text who ++ h ++ str ":" ++ ds ++ str "?" ++ q) with (scheme_of r ++ str "://" ++ (who_text who ++ h ++ str ":" ++ ds) ++ str "?" ++ q) by now rewrite <- !app_assoc.
    rewrite (conn_of_query r _ _ _ l q A P Hq). destruct who as [[u pw]|]; reflexivity.
Qed.
Lemma address_timeout s who hp l : address_of s who hp l ->
  (first_value (str "timeout") l = [] -> exists cf, conn_from_string s = Ok cf /\ cf_timeout cf = 60 * 10 ^ 9) /\
  (forall n, whole (first_value (str "timeout") l) n -> - 2 ^ 63 <= n * 10 ^ 9 < 2 ^ 63 -> exists cf, conn_from_string s = Ok cf /\ cf_timeout cf = n * 10 ^ 9) /\
  (first_value (str "timeout") l <> [] -> (forall n, ~ whole (first_value (str "timeout") l) n) -> exists e, conn_from_string s = Err e).
Proof.
  intros H. rewrite (address_conn_with _ _ _ _ H). split; [|split].
  - intros ->. eexists. split; reflexivity.
  - intros n Hn Hr. assert (Hne : bytes_eqb (first_value (str "timeout") l) [] = false).
    { destruct (first_value (str "timeout") l) eqn:E; [|reflexivity]. exfalso. apply atoi_whole in Hn. discriminate Hn. }
    rewrite Hne. apply atoi_whole in Hn. rewrite Hn. cbn [rbind]. eexists. split; [reflexivity|]. unfold conn_with. cbn [cf_timeout]. now apply int64_same.
  - intros Hne Hn. assert (bytes_eqb (first_value (str "timeout") l) [] = false) as -> by (destruct (first_value (str "timeout") l); [now destruct Hne|reflexivity]).
    destruct (atoi (first_value (str "timeout") l)) as [n|] eqn:E; [|eexists; reflexivity]. apply atoi_whole in E. now destruct (Hn n).
Qed.
(** A duration has 64 bits: more seconds than fit become another time. *)
Lemma address_large s who hp l n : address_of s who hp l -> whole (first_value (str "timeout") l) n -> ~ (- 2 ^ 63 <= n * 10 ^ 9 < 2 ^ 63) ->
  exists cf k, conn_from_string s = Ok cf /\ cf_timeout cf = n * 10 ^ 9 + k * 2 ^ 64 /\ k <> 0.
Proof.
  intros H Hn Hr. rewrite (address_conn_with _ _ _ _ H). assert (Hne : bytes_eqb (first_value (str "timeout") l) [] = false).
  { destruct (first_value (str "timeout") l) eqn:E; [|reflexivity]. exfalso. apply atoi_whole in Hn. discriminate Hn. }
  rewrite Hne. apply atoi_whole in Hn. rewrite Hn. cbn [rbind]. unfold conn_with. change second with (10 ^ 9).
  assert (D : exists k, int64 (n * 10 ^ 9) = n * 10 ^ 9 + k * 2 ^ 64 /\ - 2 ^ 63 <= int64 (n * 10 ^ 9) < 2 ^ 63).
  { unfold int64, to_signed. change (256 ^ Z.of_nat 8) with (2 ^ 64). change (2 ^ 64) with 18446744073709551616. change (2 ^ 63) with 9223372036854775808 in *.
    set (z := n * 10 ^ 9). pose proof (Z.div_mod z 18446744073709551616 ltac:(lia)) as E. pose proof (Z.mod_pos_bound z 18446744073709551616 ltac:(lia)) as B. cbn zeta.
    match goal with |- context [if ?b then _ else _] => destruct b eqn:F end.
    - exists (- (z / 18446744073709551616)). lia.
    - exists (- (z / 18446744073709551616) - 1). lia. }
  destruct D as (k & D & R). do 2 eexists. split; [reflexivity|]. cbn [cf_timeout]. split; [exact D|]. intros ->. lia.
Qed.
Lemma address_tls s who hp l cf : address_of s who hp l -> conn_from_string s = Ok cf ->
  cf_host_port cf = hp /\ cf_user cf = who_user who /\ cf_password cf = who_password who /\
  (cf_tls cf = true <-> asked_for (first_value (str "tls") l)) /\
  (cf_tls cf = true -> cf_cert cf = first_value (str "tls_cert_file") l /\ cf_key cf = first_value (str "tls_key_file") l /\ cf_ca cf = first_value (str "tls_ca_cert_file") l /\
     (cf_no_verify cf = true <-> asked_for (first_value (str "tls_no_verify") l))) /\
  (cf_tls cf = false -> cf_cert cf = [] /\ cf_key cf = [] /\ cf_ca cf = [] /\ cf_no_verify cf = false).
Proof.
  intros H E. rewrite (address_conn_with _ _ _ _ H) in E. destruct (if bytes_eqb _ _ then _ else _) as [t| | |] in E; try discriminate.
  cbn [rbind] in E. injection E as <-. unfold conn_with. cbn [cf_host_port cf_user cf_password cf_tls cf_cert cf_key cf_ca cf_no_verify].
  do 3 (split; [reflexivity|]). rewrite switched_on_asked. split; [tauto|]. rewrite <- !switched_on_asked. destruct (switched_on (first_value (str "tls") l)); split; intros X; try discriminate X; tauto.
Qed.
Lemma dial_tls F c : cf_tls c = true ->
  (cf_cert c <> [] -> cf_key c = [] -> exists e, how_to_dial F c = Err e) /\
  (forall d, how_to_dial F c = Ok d -> exists t, d = DialTLS (cf_host_port c) t /\ t_skip t = cf_no_verify c /\
     (cf_ca c = [] -> t_roots t = None) /\ (cf_ca c <> [] -> exists b, t_roots t = Some b /\ read_file F (cf_ca c) = Some b) /\
     (cf_cert c = [] -> t_cert t = None) /\ (cf_cert c <> [] -> exists p, t_cert t = Some p /\ load_pair F (cf_cert c) (cf_key c) = Some p)).
Proof.
  intros H. unfold how_to_dial, tls_config. rewrite H. split.
  - intros Hc Hk. rewrite Hk. assert (bytes_eqb (cf_cert c) [] = false) as -> by (destruct (cf_cert c); [now destruct Hc|reflexivity]).
    change (bytes_eqb [] []) with true. cbn iota. destruct (if bytes_eqb (cf_ca c) [] then _ else _) as [r|e| |] eqn:E; cbn [rbind].
    1,2: eexists; reflexivity. all: destruct (bytes_eqb (cf_ca c) []); try discriminate; destruct (read_file F (cf_ca c)); discriminate.
  - intros d. destruct (cf_ca c) as [|ca cas].
    + change (bytes_eqb [] []) with true. cbn [rbind]. destruct (cf_cert c) as [|ce ces].
      * change (bytes_eqb [] []) with true. cbn [rbind]. intros [= <-]. eexists. split; [reflexivity|]. cbn. repeat split; try reflexivity; intros X; now destruct X.
      * change (bytes_eqb (ce :: ces) []) with false. cbn iota. destruct (bytes_eqb (cf_key c) []); [discriminate|].
        destruct (load_pair F (ce :: ces) (cf_key c)) as [p|] eqn:L; [|discriminate]. cbn [rbind]. intros [= <-]. eexists. split; [reflexivity|]. cbn.
        repeat split; try reflexivity; try discriminate; intros X; [now destruct X|]. now exists p.
    + change (bytes_eqb (ca :: cas) []) with false. cbn iota. destruct (read_file F (ca :: cas)) as [b|] eqn:R; [|discriminate]. cbn [rbind]. destruct (cf_cert c) as [|ce ces].
      * change (bytes_eqb [] []) with true. cbn [rbind]. intros [= <-]. eexists. split; [reflexivity|]. cbn. repeat split; try reflexivity; try discriminate; intros X; [now exists b|now destruct X].
      * change (bytes_eqb (ce :: ces) []) with false. cbn iota. destruct (bytes_eqb (cf_key c) []); [discriminate|].
        destruct (load_pair F (ce :: ces) (cf_key c)) as [p|] eqn:L; [|discriminate]. cbn [rbind]. intros [= <-]. eexists. split; [reflexivity|]. cbn.
        repeat split; try reflexivity; try discriminate; intros X; [now exists b|now exists p].
Qed.

(** ** Clients from options *)
Lemma address_string_scheme r u pw h p : address_string r u pw h p = scheme_of r ++ str "://" ++ u ++ str ":" ++ pw ++ str "@" ++ h ++ str ":" ++ show_int p.
Proof. reflexivity. Qed.
Lemma scheme_of_in r : In (scheme_of r) [str "bolt"; str "bolt+routing"].
Proof. destruct r; cbn; auto. Qed.
Lemma address_string_of r u pw h p : 0 <= p -> Forall user_char u -> Forall password_char pw -> Forall host_char h ->
  address_of (address_string r u pw h p) (Some (u, pw)) (h ++ str ":" ++ show_int p) [].
Proof.
  intros Hp Hu Hw Hh. rewrite address_string_scheme.
  replace (u ++ str ":" ++ pw ++ str "@" ++ h ++ str ":" ++ show_int p) with (who_text (Some (u, pw)) ++ h ++ str ":" ++ show_int p) by (cbn [who_text]; now rewrite <- !app_assoc).
  apply address_plain with (p := p); [apply scheme_of_in|now split|exact Hh|now apply show_int_decimal].
Qed.
Lemma address_string_query r u pw h p l q : 0 <= p -> Forall user_char u -> Forall password_char pw -> Forall host_char h -> query_as l q ->
  address_of (address_string r u pw h p ++ str "?" ++ q) (Some (u, pw)) (h ++ str ":" ++ show_int p) l.
Proof.
  intros Hp Hu Hw Hh Hq. rewrite address_string_scheme.
  replace ((scheme_of r ++ str "://" ++ u ++ str ":" ++ pw ++ str "@" ++ h ++ str ":" ++ show_int p) ++ str "?" ++ q)
    with (scheme_of r ++ str "://" ++ who_text (Some (u, pw)) ++ h ++ str ":" ++ show_int p ++ str "?" ++ q) by (cbn [who_text]; now rewrite <- !app_assoc).
  apply address_query with (p := p); [apply scheme_of_in|now split|exact Hh|now apply show_int_decimal|exact Hq].
Qed.
Lemma file_written s : Forall file_char s -> written s s.
Proof.
  rewrite file_bs. induction 1 as [|b s Hb Hs IH]; [constructor|].
  assert (X : visible b && negb (one_of (str "%&;=+#") b) = true).
  { revert b Hb. apply (class_fact file_b (fun b => visible b && negb (one_of (str "%&;=+#") b))). vm_compute. reflexivity. }
  apply andb_true_iff in X. destruct X as [V N]. unfold visible in V. constructor; [lia|lia| |exact IH].
  intros I. apply one_of_in in I. rewrite I in N. discriminate N.
Qed.
Definition name_char (b : byte) : bool := visible b && negb (one_of (str "%&;=+#") b).
Lemma name_written s : forallb name_char s = true -> written s s.
Proof.
  induction s as [|b s IH]; [constructor|]. cbn [forallb]. intros H. apply andb_true_iff in H. destruct H as [X H]. unfold name_char in X.
  apply andb_true_iff in X. destruct X as [V N]. unfold visible in V. constructor; [lia|lia| |now apply IH].
  intros I. apply one_of_in in I. rewrite I in N. discriminate N.
Qed.
Lemma tls_suffix_query cert key ca nv : Forall file_char cert -> Forall file_char key -> Forall file_char ca ->
  exists q, tls_suffix cert key ca (show_bool nv) = str "?" ++ q /\
    query_as [(str "tls_cert_file", cert); (str "tls_key_file", key); (str "tls_ca_cert_file", ca); (str "tls_no_verify", show_bool nv)] q.
Proof.
  intros Hc Hk Ha. exists (str "tls_cert_file" ++ str "=" ++ cert ++ str "&" ++ str "tls_key_file" ++ str "=" ++ key ++ str "&" ++ str "tls_ca_cert_file" ++ str "=" ++ ca ++ str "&" ++ str "tls_no_verify" ++ str "=" ++ show_bool nv).
  split; [reflexivity|]. apply query_more; [apply name_written; vm_compute; reflexivity|now apply file_written| |discriminate].
  apply query_more; [apply name_written; vm_compute; reflexivity|now apply file_written| |discriminate].
  apply query_more; [apply name_written; vm_compute; reflexivity|now apply file_written| |discriminate].
  apply query_one; [apply name_written; vm_compute; reflexivity|]. apply name_written. destruct nv; vm_compute; reflexivity.
Qed.

(** ** C61 *)
Definition asks_host (o : copt) : Prop := exists h p, o = OHostPort h p.
Definition has_string (c : client) : Prop := cl_conn_str c <> [].
Definition has_host (c : client) : Prop := cl_host c <> [] \/ cl_port c <> 0.
Lemma bytes_eqb_nil_false s : s <> [] -> bytes_eqb s [] = false.
Proof. destruct s; [intros H; now destruct H|reflexivity]. Qed.
Ltac each_opt c o := destruct c, o; cbn [apply_opt]; repeat match goal with |- (if ?b then _ else _) = _ -> _ => destruct b eqn:?E end; try discriminate; intros [= <-]; cbn.
Lemma keeps_string o c c' : apply_opt o c = Ok c' -> has_string c -> (forall s, o = OConnectionString s -> s <> []) -> has_string c'.
Proof. unfold has_string. each_opt c o; intros H1 H2; try exact H1; now apply H2. Qed.
Lemma keeps_host o c c' : apply_opt o c = Ok c' -> has_host c -> (forall h p, o = OHostPort h p -> h <> [] \/ p <> 0) -> has_host c'.
Proof. unfold has_host. each_opt c o; intros H1 H2; try exact H1; now apply H2. Qed.
Lemma apply_opt_total o c : (exists e, apply_opt o c = Err e) \/ exists c', apply_opt o c = Ok c'.
Proof. destruct c, o; cbn [apply_opt]; repeat match goal with |- context [if ?b then _ else _] => destruct b end; eauto. Qed.
Lemma string_then_host os : forall c, has_string c -> (forall s, In (OConnectionString s) os -> s <> []) ->
  (exists o, In o os /\ (o = ORouting \/ asks_host o)) -> exists e, apply_opts os c = Err e.
Proof.
  induction os as [|o os IH]; intros c Hc Hs (x & Hx & D); [destruct Hx|]. cbn [apply_opts].
  destruct (apply_opt_total o c) as [[e E]|[c' E]]; rewrite E; [eauto|]. apply IH.
  - apply (keeps_string o c c' E Hc). intros s ->. apply Hs. now left.
  - intros s H. apply Hs. now right.
  - destruct Hx as [<-|Hx]; [|eauto]. exfalso. destruct c. unfold has_string in Hc. cbn in Hc. destruct D as [->|(h & p & ->)]; cbn [apply_opt] in E; rewrite (bytes_eqb_nil_false _ Hc) in E; discriminate E.
Qed.
Lemma host_then_string os : forall c, has_host c -> (forall h p, In (OHostPort h p) os -> h <> [] \/ p <> 0) ->
  (exists s, In (OConnectionString s) os) -> exists e, apply_opts os c = Err e.
Proof.
  induction os as [|o os IH]; intros c Hc Hs (s & Hx); [destruct Hx|]. cbn [apply_opts].
  destruct (apply_opt_total o c) as [[e E]|[c' E]]; rewrite E; [eauto|]. apply IH.
  - apply (keeps_host o c c' E Hc). intros h p ->. apply Hs. now left.
  - intros h p H. apply Hs. now right.
  - destruct Hx as [->|Hx]; [|eauto]. exfalso. destruct c. unfold has_host in Hc. cbn in Hc. cbn [apply_opt] in E.
    destruct Hc as [Hc|Hc]; [rewrite (bytes_eqb_nil_false _ Hc) in E; discriminate E|]. apply Z.eqb_neq in Hc. rewrite Hc, orb_true_r in E. discriminate E.
Qed.
Lemma both_refused os : (forall h p, In (OHostPort h p) os -> h <> [] \/ p <> 0) -> (forall s, In (OConnectionString s) os -> s <> []) ->
  (exists h p, In (OHostPort h p) os) -> (exists s, In (OConnectionString s) os) -> exists e, new_client os = Err e.
Proof.
  intros Hh Hs Eh Es. assert (G : forall c, exists e, apply_opts os c = Err e).
  { induction os as [|o os IH]; intros c; [destruct Es as (s & []) |]. cbn [apply_opts].
    destruct (apply_opt_total o c) as [[e E]|[c' E]]; rewrite E; [eauto|].
    assert (T1 : forall h p, In (OHostPort h p) os -> h <> [] \/ p <> 0) by (intros h p H; apply Hh; now right).
    assert (T2 : forall s, In (OConnectionString s) os -> s <> []) by (intros s H; apply Hs; now right).
    destruct Eh as (h & p & [->|Ih]); [|destruct Es as (s & [->|Is])].
    - apply host_then_string; [|exact T1|]. { destruct c. cbn [apply_opt] in E. destruct (negb _) in E; [discriminate|]. injection E as <-. cbn. apply Hh. now left. }
      destruct Es as (s & [X|Is]); [discriminate X|eauto].
    - apply string_then_host; [|exact T2|]. { destruct c. cbn [apply_opt] in E. destruct (negb _ || _) in E; [discriminate|]. injection E as <-. unfold has_string. cbn. apply Hs. now left. }
      exists (OHostPort h p). split; [exact Ih|]. right. now exists h, p.
    - apply IH; eauto. }
  destruct (G zero_client) as [e E]. unfold new_client. destruct os; [eexists; reflexivity|]. rewrite E. eexists; reflexivity.
Qed.
Lemma routing_after_refused a s b : s <> [] -> (forall s, In (OConnectionString s) b -> s <> []) -> In ORouting b ->
  exists e, new_client (a ++ OConnectionString s :: b) = Err e.
Proof.
  intros Hs Hb Hr. assert (G : forall c, exists e, apply_opts (a ++ OConnectionString s :: b) c = Err e).
  { induction a as [|o a IH]; intros c; cbn [app apply_opts].
    - destruct (apply_opt_total (OConnectionString s) c) as [[e E]|[c' E]]; rewrite E; [eauto|]. apply string_then_host; [|exact Hb|eauto].
      destruct c. cbn [apply_opt] in E. destruct (negb _ || _) in E; [discriminate|]. injection E as <-. exact Hs.
    - destruct (apply_opt_total o c) as [[e E]|[c' E]]; rewrite E; [eauto|]. apply IH. }
  destruct (G zero_client) as [e E]. unfold new_client. destruct (a ++ _) eqn:X; [now destruct a|]. rewrite E. eexists; reflexivity.
Qed.
(** Routing before the connection string is forgotten. *)
Lemma routing_forgotten s : s <> [] -> new_client [ORouting; OConnectionString s] = new_client [OConnectionString s].
Proof.
  intros Hs. unfold new_client.
  assert (apply_opts [ORouting; OConnectionString s] zero_client = Ok (mkClient s [] 0 true false [] [] 0 0 0 false [] [] [] false 0 0)) as -> by reflexivity.
  assert (apply_opts [OConnectionString s] zero_client = Ok (mkClient s [] 0 false false [] [] 0 0 0 false [] [] [] false 0 0)) as -> by reflexivity.
  cbn [rbind]. rewrite (bytes_eqb_nil_false s Hs). reflexivity.
Qed.

(** ** C62 *)
Lemma client_credentials os c h p u pw : new_client os = Ok c -> last_word string_opt os = None -> last_word tls_opt os = None ->
  last_word host_opt os = Some (h, p) -> last_word auth_opt os = Some (u, pw) -> Forall host_char h ->
  ((exists cf, driver_open (cl_conn_str c) = Ok cf /\ cf_user cf = u /\ cf_password cf = pw) <-> Forall user_char u /\ Forall password_char pw) /\
  (Forall user_char u -> Forall password_char pw ->
   exists cf ds, driver_open (cl_conn_str c) = Ok cf /\ cf_user cf = u /\ cf_password cf = pw /\ decimal p ds /\ cf_host_port cf = h ++ str ":" ++ ds).
Proof.
  intros E Hs Ht Hh Ha Hc. destruct (client_from_host os c E Hs) as (h' & p' & u' & pw' & X1 & X2 & Nh & Np & Nu & _ & _ & _ & _ & Ec).
  rewrite Hh in X1. rewrite Ha in X2. rewrite Ht, app_nil_r in Ec. injection X1 as <- <-. injection X2 as <- <-. unfold driver_open. rewrite Ec.
  assert (D : decimal p (show_int p)) by (apply show_int_decimal; lia).
  assert (P : Forall user_char u -> Forall password_char pw -> exists cf ds, conn_from_string (address_string (cl_routing c) u pw h p) = Ok cf /\ cf_user cf = u /\ cf_password cf = pw /\ decimal p ds /\ cf_host_port cf = h ++ str ":" ++ ds).
  { intros Hu Hp. rewrite address_string_scheme, address_conn; try assumption; [|apply (decimal_digits _ _ D)]. eexists. exists (show_int p). repeat split; try reflexivity. exact D. }
  split; [|exact P]. split.
  - intros (cf & Ecf & Eu & Ep). rewrite address_string_scheme in Ecf. refine (address_credentials _ _ _ _ _ _ Nu Hc _ Ecf Eu Ep). apply (decimal_digits _ _ D).
  - intros [Hu Hp]. destruct (P Hu Hp) as (cf & ds & A & B & C & _). eauto.
Qed.

(** ** C63, C64 *)
Lemma client_plain_config os c h p u pw : new_client os = Ok c -> last_word string_opt os = None ->
  last_word host_opt os = Some (h, p) -> last_word auth_opt os = Some (u, pw) -> Forall host_char h -> Forall user_char u -> Forall password_char pw ->
  (forall ca cert key nv, last_word tls_opt os = Some (ca, cert, key, nv) -> Forall file_char ca /\ Forall file_char cert /\ Forall file_char key) ->
  exists ds, decimal p ds /\ driver_open (cl_conn_str c) = Ok (plain_config u pw (h ++ str ":" ++ ds)).
Proof.
  intros E Hs Hh Ha Hc Hu Hp Hf. destruct (client_from_host os c E Hs) as (h' & p' & u' & pw' & X1 & X2 & Nh & Np & Nu & _ & _ & _ & _ & Ec).
  rewrite Hh in X1. rewrite Ha in X2. injection X1 as <- <-. injection X2 as <- <-. unfold driver_open. rewrite Ec.
  exists (show_int p). split; [apply show_int_decimal; lia|].
  destruct (last_word tls_opt os) as [[[[ca cert] key] nv]|].
  - destruct (Hf _ _ _ _ eq_refl) as (F1 & F2 & F3). destruct (tls_suffix_query cert key ca nv F2 F3 F1) as (q & -> & Q).
    rewrite (address_conn_with _ _ _ _ (address_string_query (cl_routing c) u pw h p _ q ltac:(lia) Hu Hp Hc Q)). reflexivity.
  - rewrite app_nil_r. rewrite (address_conn_with _ _ _ _ (address_string_of (cl_routing c) u pw h p ltac:(lia) Hu Hp Hc)). reflexivity.
Qed.
Lemma chunk_always s cf : driver_open s = Ok cf -> cf_chunk cf = 65535.
Proof.
  unfold driver_open, conn_from_string. destruct (url_parse s) as [u|]; [|discriminate]. destruct (negb _); [discriminate|].
  destruct (match u_user u with None => _ | _ => _ end) as [cr| | |]; try discriminate. cbn [rbind].
  destruct (if bytes_eqb _ _ then _ else _) as [t| | |]; try discriminate. cbn [rbind]. now intros [= <-].
Qed.
Lemma client_string os c s : new_client os = Ok c -> last_word string_opt os = Some s -> s <> [] -> cl_conn_str c = s.
Proof.
  unfold new_client. destruct os as [|o os]; [discriminate|]. set (l := o :: os). intros E Hs Hne.
  destruct (apply_opts l zero_client) as [c0| | |] eqn:E0; try discriminate. cbn [rbind] in E. pose proof (opts_string _ _ _ E0) as H3. rewrite Hs in H3.
  destruct c0 as [cs h p r ng u pw v t ck tl ce ca ke nv gt lt]. cbn [cl_conn_str] in H3. subst cs. rewrite (bytes_eqb_nil_false s Hne) in E.
  destruct (url_parse s) as [x|]; [|discriminate]. destruct (negb _); [discriminate|].
  repeat (match type of E with context [rbind ?m _] => destruct m as [?z| | |]; cbn [rbind] in E; try discriminate end). now injection E as <-.
Qed.

(** ** The connections of a routing pool *)
Lemma address_url s who hp l : address_of s who hp l ->
  exists x, url_parse s = Some x /\ known_scheme (u_scheme x) = true /\ u_host x = hp /\ parse_query (u_query x) = l /\
    u_user x = match who with Some (u, p) => Some (u, Some p) | None => None end.
Proof.
  intros H. destruct H as [scheme who h p ds Hs Hw Hh Hd|scheme who h p ds l q Hs Hw Hh Hd Hq];
    apply scheme_in in Hs; destruct Hs as [r ->]; apply decimal_digits in Hd; destruct Hd as [Hd _];
    destruct (who_authority who h ds Hw Hh Hd) as [A P].
  - rewrite url_plain by exact A. rewrite P. eexists. split; [reflexivity|]. split; [apply known_scheme_of|]. repeat split.
  - replace (who_text who ++ h ++ str ":" ++ ds ++ str "?" ++ q) with ((who_text who ++ h ++ str ":" ++ ds) ++ "?"%byte :: q) by now rewrite <- !app_assoc.
    pose proof (query_as_visible l q Hq) as Hv. rewrite url_query; [|exact A| |].
    + rewrite P. eexists. split; [reflexivity|]. split; [apply known_scheme_of|]. repeat split. now apply query_as_parse.
    + eapply Forall_impl; [|exact Hv]. intros b X. apply andb_true_iff in X. apply X.
    + intros X. rewrite Forall_forall in Hv. specialize (Hv _ X). discriminate Hv.
Qed.
Lemma no_slash_kept s : forall k, ~ In "/"%byte s -> k = O -> remove_from k (str "bolt://") s = s.
Proof.
  intros k H ->. induction s as [|x s IH]; [reflexivity|]. cbn [remove_from].
  destruct (has_prefix (str "bolt://") (x :: s)) eqn:E.
  - exfalso. apply H. assert (P : forall p t, has_prefix p t = true -> incl p t).
    { clear. induction p as [|a p IH]; intros t E b Hb; [destruct Hb|]. destruct t as [|c t]; [discriminate|]. cbn in E. apply andb_true_iff in E. destruct E as [E1 E2].
      apply byte_eqb_eq in E1. subst. destruct Hb as [->|Hb]; [now left|right; now apply (IH t)]. }
    apply (P _ _ E). cbn. tauto.
  - f_equal. apply IH. intros X. apply H. now right.
Qed.
Lemma remove_bolt s : ~ In "/"%byte s -> remove_all (str "bolt://") (str "bolt://" ++ s) = s.
Proof. intros H. unfold remove_all. cbn. now apply no_slash_kept. Qed.
Lemma suffix_query cert key ca nv : Forall file_char cert -> Forall file_char key -> Forall file_char ca -> Forall file_char nv ->
  exists q, tls_suffix cert key ca nv = str "?" ++ q /\
    query_as [(str "tls_cert_file", cert); (str "tls_key_file", key); (str "tls_ca_cert_file", ca); (str "tls_no_verify", nv)] q.
Proof.
  intros Hc Hk Ha Hn. exists (str "tls_cert_file" ++ str "=" ++ cert ++ str "&" ++ str "tls_key_file" ++ str "=" ++ key ++ str "&" ++ str "tls_ca_cert_file" ++ str "=" ++ ca ++ str "&" ++ str "tls_no_verify" ++ str "=" ++ nv).
  split; [reflexivity|]. apply query_more; [apply name_written; vm_compute; reflexivity|now apply file_written| |discriminate].
  apply query_more; [apply name_written; vm_compute; reflexivity|now apply file_written| |discriminate].
  apply query_more; [apply name_written; vm_compute; reflexivity|now apply file_written| |discriminate].
  apply query_one; [apply name_written; vm_compute; reflexivity|now apply file_written].
Qed.
Lemma show_bool_file b : Forall file_char (show_bool b).
Proof. apply file_bs. apply Forall_forall. destruct b; vm_compute; intuition; subst; reflexivity. Qed.
Lemma client_files os c s who hp l : new_client os = Ok c -> last_word string_opt os = Some s -> address_of s who hp l -> last_word tls_opt os = None ->
  cl_conn_str c = s /\
  cl_cert c = (if switched_on (first_value (str "tls") l) then first_value (str "tls_cert_file") l else []) /\
  cl_key c = (if switched_on (first_value (str "tls") l) then first_value (str "tls_key_file") l else []) /\
  cl_ca c = (if switched_on (first_value (str "tls") l) then first_value (str "tls_ca_cert_file") l else []).
Proof.
  intros E Hs Ha Ht. assert (Hne : s <> []) by (intros ->; inversion Ha as [sc ? ? ? ? Hsc _ _ _ X|sc ? ? ? ? ? ? Hsc _ _ _ _ X]; destruct Hsc as [<-|[<-|[]]]; discriminate X).
  split; [apply (client_string os); assumption|]. destruct (address_url _ _ _ _ Ha) as (x & Ex & Ek & Eh & Eq & Eu).
  unfold new_client in E. destruct os as [|o os]; [discriminate|]. set (os' := o :: os) in *. destruct (apply_opts os' zero_client) as [c0| | |] eqn:E0; try discriminate. cbn [rbind] in E.
  pose proof (opts_string _ _ _ E0) as H3. rewrite Hs in H3. pose proof (opts_tls _ _ _ E0) as H4. rewrite Ht in H4.
  destruct c0 as [cs h p r ng u pw v t ck tl ce ca ke nv gt lt]. cbn [cl_conn_str cl_tls cl_ca cl_cert cl_key cl_no_verify zero_client] in H3, H4. subst cs. injection H4 as -> -> -> -> ->.
  rewrite (bytes_eqb_nil_false s Hne), Ex, Ek in E. cbn [negb] in E. rewrite Eq, !query_get_first in E.
  repeat (match type of E with context [rbind ?m _] => destruct m as [?z| | |]; cbn [rbind] in E; try discriminate end). injection E as <-. cbn. repeat split; destruct (switched_on _); reflexivity.
Qed.
Lemma member_conn os c s u pw hp l h p ds : new_client os = Ok c -> last_word string_opt os = Some s -> address_of s (Some (u, pw)) hp l -> last_word tls_opt os = None ->
  u <> [] -> plain_files l -> Forall host_char h -> decimal p ds ->
  conn_from_string (add_auth_info (get_username_password c) (get_tls_portion c) (str "bolt://" ++ h ++ str ":" ++ ds)) = Ok (plain_config u pw (h ++ str ":" ++ ds)).
Proof.
  intros E Hs Ha Ht Hu Hf Hh Hd. destruct (client_files _ _ _ _ _ _ E Hs Ha Ht) as (Ec & E1 & E2 & E3).
  destruct (address_url _ _ _ _ Ha) as (x & Ex & Ek & Eh & Eq & Eu).
  assert (W : plain_who (Some (u, pw))) by (inversion Ha; assumption).
  assert (A : get_username_password c = u ++ str ":" ++ pw).
  { unfold get_username_password. rewrite Ec, Ex. destruct x as [sc us ho qu]. cbn in Eu. rewrite Eu, (bytes_eqb_nil_false u Hu). reflexivity. }
  unfold plain_files in Hf. inversion Hf as [|? ? F1 Hf1]; subst. inversion Hf1 as [|? ? F2 Hf2]; subst. inversion Hf2 as [|? ? F3 Hf3]; subst. inversion Hf3 as [|? ? F4 _]; subst.
  assert (T : get_tls_portion c = [] \/ exists a b d e, get_tls_portion c = tls_suffix a b d e /\ Forall file_char a /\ Forall file_char b /\ Forall file_char d /\ Forall file_char e).
  { unfold get_tls_portion. rewrite E1, E2, E3, Ex, Eh || rewrite E1, E2, E3. destruct (switched_on _).
    - destruct (bytes_eqb (first_value (str "tls_cert_file") (parse_query (u_query x))) []) eqn:Z; cbn [negb].
      + rewrite Ex, !query_get_first, Z. now left.
      + right. do 4 eexists. split; [reflexivity|]. repeat split; try assumption. apply show_bool_file.
    - change (bytes_eqb [] []) with true. cbn [negb]. rewrite Ex, !query_get_first. destruct (bytes_eqb _ _); [now left|]. right. do 4 eexists. split; [reflexivity|]. repeat split; assumption. }
  assert (R : add_auth_info (get_username_password c) (get_tls_portion c) (str "bolt://" ++ h ++ str ":" ++ ds) =
    str "bolt" ++ str "://" ++ who_text (Some (u, pw)) ++ h ++ str ":" ++ ds ++ get_tls_portion c).
  { rewrite A. unfold add_auth_info. destruct (u ++ str ":" ++ pw) as [|b t] eqn:Z; [now destruct u|]. rewrite remove_bolt.
    - rewrite <- Z. cbn [who_text]. change (str "bolt://") with (str "bolt" ++ str "://"). now rewrite <- !app_assoc.
    - apply (avoids host_port_b); [reflexivity|]. apply host_port_bs; [now apply host_bs|apply (decimal_digits _ _ Hd)]. }
  rewrite R. destruct T as [->|(a & b & d & e & -> & Fa & Fb & Fd & Fe)].
  - rewrite app_nil_r. rewrite (address_conn_with _ (Some (u, pw)) (h ++ str ":" ++ ds) []); [reflexivity|].
    apply address_plain with (p := p); [now left|exact W|exact Hh|exact Hd].
  - destruct (suffix_query a b d e Fa Fb Fd Fe) as (q & -> & Q). rewrite (address_conn_with _ (Some (u, pw)) (h ++ str ":" ++ ds) _ (address_query _ _ _ _ _ _ _ (or_introl eq_refl) W Hh Hd Q)). reflexivity.
Qed.
