(** What the refusal of a connection string reveals (C112). *)
From Coq Require Import String ZArith List Bool Lia ZifyBool.
From Verif Require Import Bytes BytesFacts GoVal GoErr Messages GoStr Url Client Texts Refusal SpecClient SpecTexts SpecRefusal UrlFacts ClientFacts ClientCases.
Import ListNotations.
Open Scope Z_scope.

Theorem refusal_when L s : match conn_from_string s with Ok _ => refusal L s = None | Err _ => exists t, refusal L s = Some t | _ => False end.
Proof.
  unfold conn_from_string, refusal. destruct (url_parse s) as [u|]; [|eauto].
  destruct (negb (known_scheme (u_scheme u))); [eauto|]. destruct (u_user u) as [[n [p|]]|]; cbn [rbind]; eauto.
  - destruct (bytes_eqb (query_get _ _) []); cbn [rbind]; [reflexivity|]. destruct (atoi _); cbn [rbind]; eauto.
  - destruct (bytes_eqb (query_get _ _) []); cbn [rbind]; [reflexivity|]. destruct (atoi _); cbn [rbind]; eauto.
Qed.
Lemma quote_clear L s : Forall clear_char s -> quote L s = str """" ++ s ++ str """".
Proof.
  intros H. unfold quote. assert (E : forallb printable s = true).
  { apply forallb_forall. rewrite Forall_forall in H. intros b Hb. destruct (H b Hb) as (A & _). unfold printable. lia. }
  rewrite E. f_equal. f_equal. clear E. induction H as [|b s (A & B) H IH]; [reflexivity|]. cbn [flat_map]. rewrite IH.
  replace (quote_byte b) with [b]; [reflexivity|]. unfold quote_byte.
  destruct (Byte.eqb b """") eqn:E1; [apply byte_eqb_eq in E1; subst; exfalso; apply B; cbn; tauto|].
  destruct (Byte.eqb b "\") eqn:E2; [apply byte_eqb_eq in E2; subst; exfalso; apply B; cbn; tauto|]. reflexivity.
Qed.
Theorem reveals L s : url_parse s = None -> Forall clear_char s -> ~ In "#"%byte s -> exists t, refusal L s = Some t /\ mentions s t.
Proof.
  intros E H N. unfold refusal. rewrite E. eexists. split; [reflexivity|]. unfold url_error. rewrite split_at_none by exact N. cbn [fst].
  replace (match parse_no_fragment s with None => s | Some _ => s end) with s by (now destruct (parse_no_fragment s)). rewrite quote_clear by exact H.
  exists (str "an error occurred parsing bolt URL, " ++ str "parse " ++ str """"), (str """" ++ str ": " ++ l_why L s). now rewrite <- !app_assoc.
Qed.
Lemma quoted_read s r : read_quoted (flat_map quote_byte s ++ str """" ++ r) = Some (s, r).
Proof.
  induction s as [|c s IH]; [reflexivity|]. cbn [flat_map]. unfold quote_byte at 1. destruct (Byte.eqb c """") eqn:E1; [|destruct (Byte.eqb c "\") eqn:E2]; cbn [orb app].
  - cbn [read_quoted]. change (Byte.eqb "\" """") with false. change (Byte.eqb "\" "\") with true. cbv iota. now rewrite IH.
  - cbn [read_quoted]. change (Byte.eqb "\" """") with false. change (Byte.eqb "\" "\") with true. cbv iota. now rewrite IH.
  - cbn [read_quoted]. rewrite E1, E2. now rewrite IH.
Qed.
Theorem tells_all L s : url_parse s = None -> Forall printable_char s -> ~ In "#"%byte s -> exists t, refusal L s = Some t /\ tells s t.
Proof.
  intros E H N. unfold refusal. rewrite E. eexists. split; [reflexivity|]. unfold url_error. rewrite split_at_none by exact N. cbn [fst].
  replace (match parse_no_fragment s with None => s | Some _ => s end) with s by (now destruct (parse_no_fragment s)). unfold quote.
  assert (P : forallb printable s = true) by (apply forallb_forall; rewrite Forall_forall in H; intros b Hb; specialize (H b Hb); unfold printable_char in H; unfold printable; lia).
  rewrite P. exists (str "an error occurred parsing bolt URL, " ++ str "parse "), (flat_map quote_byte s ++ str """" ++ str ": " ++ l_why L s), (str ": " ++ l_why L s).
  split; [now rewrite <- !app_assoc|]. apply quoted_read.
Qed.
(** Text that cannot stand before the @ makes the string unreadable. *)
Lemma bad_userinfo r a b x : (exists c, In c a /\ userinfo_byte c = false) -> ~ In "/"%byte a -> ~ In "?"%byte a -> ~ In "#"%byte a ->
  x = scheme_of r ++ str "://" ++ a ++ str "@" ++ b -> url_parse x = None.
Proof.
  intros (c & Hc & Hu) N1 N2 N3 ->. destruct (url_parse _) as [u|] eqn:E; [|reflexivity]. exfalso.
  unfold url_parse in E. 
  assert (S : split_at "#" (scheme_of r ++ str "://" ++ a ++ str "@" ++ b) = (scheme_of r ++ str "://" ++ a ++ str "@" ++ fst (split_at "#" b), snd (split_at "#" b))).
  { replace (scheme_of r ++ str "://" ++ a ++ str "@" ++ b) with ((scheme_of r ++ str "://" ++ (a ++ str "@")) ++ b) by (now rewrite <- !app_assoc).
    rewrite split_at_app_gen; [now rewrite <- !app_assoc|]. apply no_hash. intros X. apply in_app_or in X. destruct X as [X|[X|[]]]; [contradiction|discriminate]. }
  rewrite S in E. clear S. set (b1 := fst (split_at "#" b)) in *.
  destruct (parse_no_fragment _) as [v|] eqn:Ep; [|discriminate]. clear E. unfold parse_no_fragment in Ep.
  destruct (has_ctl _); [discriminate|].
  replace (bytes_eqb (scheme_of r ++ str "://" ++ a ++ str "@" ++ b1) (str "*")) with false in Ep by (now destruct r).
  assert (G : get_scheme true (scheme_of r ++ str "://" ++ a ++ str "@" ++ b1) = Some (Some (scheme_of r, str "//" ++ a ++ str "@" ++ b1))) by (destruct r; reflexivity).
  rewrite G in Ep. replace (to_lower (scheme_of r)) with (scheme_of r) in Ep by (destruct r; reflexivity). clear G.
  unfold parse_rest in Ep.
  assert (S : split_at "?" (str "//" ++ a ++ str "@" ++ b1) = (str "//" ++ a ++ str "@" ++ fst (split_at "?" b1), snd (split_at "?" b1))).
  { replace (str "//" ++ a ++ str "@" ++ b1) with ((str "//" ++ (a ++ str "@")) ++ b1) by (now rewrite <- !app_assoc).
    rewrite split_at_app_gen; [now rewrite <- !app_assoc|]. apply slashes_no_question. intros X. apply in_app_or in X. destruct X as [X|[X|[]]]; [contradiction|discriminate]. }
  rewrite S in Ep. clear S. set (b2 := fst (split_at "?" b1)) in *.
  change (has_prefix (str "/") (str "//" ++ a ++ str "@" ++ b2)) with true in Ep. cbn [negb andb] in Ep.
  change (has_prefix (str "//") (str "//" ++ a ++ str "@" ++ b2)) with true in Ep.
  replace (bytes_eqb (scheme_of r) []) with false in Ep by (now destruct r). cbn [negb orb andb] in Ep.
  change (skipn 2 (str "//" ++ a ++ str "@" ++ b2)) with (a ++ str "@" ++ b2) in Ep.
  destruct (split_slash (a ++ str "@" ++ b2)) as [au path] eqn:Es.
  assert (A : exists h, au = a ++ str "@" ++ h).
  { unfold split_slash in Es. destruct (cut "/" (a ++ str "@" ++ b2)) as [[a1 a2]|] eqn:Ec; [|injection Es as <- _; now exists b2].
    injection Es as <- _. apply cut_some in Ec. destruct Ec as [Ec Na].
    assert (L : (length (a ++ str "@") <= length a1)%nat).
    { destruct (Nat.leb_spec (length (a ++ str "@")) (length a1)) as [X|X]; [exact X|]. exfalso.
      assert (Y : In "/"%byte (a ++ str "@")).
      { rewrite app_assoc in Ec. assert (Z : nth_error ((a ++ str "@") ++ b2) (length a1) = Some "/"%byte) by (rewrite Ec, nth_error_app2, Nat.sub_diag by lia; reflexivity).
        rewrite nth_error_app1 in Z by exact X. now apply nth_error_In in Z. }
      apply in_app_or in Y. destruct Y as [Y|[Y|[]]]; [contradiction|discriminate]. }
    rewrite app_assoc in Ec. destruct (app_prefix _ _ _ _ Ec L) as (h & ->). exists h. now rewrite <- app_assoc. }
  destruct A as (h & ->). destruct (parse_authority (a ++ str "@" ++ h)) as [[us ho]|] eqn:Ea; [|discriminate]. clear Ep.
  unfold parse_authority in Ea. destruct (cut_last "@" (a ++ str "@" ++ h)) as [[i j]|] eqn:El.
  - apply cut_last_some in El. destruct El as [El Nj]. destruct (parse_host j); [|discriminate].
    assert (V : valid_userinfo i = false).
    { assert (L : (length a <= length i)%nat).
      { destruct (Nat.leb_spec (length a) (length i)) as [X|X]; [exact X|]. exfalso. apply Nj.
        assert (L2 : (length (i ++ str "@") <= length a)%nat) by (rewrite app_length; cbn; lia).
        symmetry in El. change (i ++ "@"%byte :: j) with (i ++ str "@" ++ j) in El. rewrite app_assoc in El.
        destruct (app_prefix _ _ _ _ El L2) as (k & ->). rewrite <- (app_assoc (i ++ str "@") k) in El. apply app_inv_head in El. rewrite El. apply in_or_app. right. now left. }
      destruct (app_prefix _ _ _ _ El L) as (k & ->). unfold valid_userinfo. rewrite forallb_app.
      replace (forallb userinfo_byte a) with false; [reflexivity|]. symmetry. apply not_true_is_false. intros X. rewrite forallb_forall in X. specialize (X c Hc). congruence. }
    rewrite V in Ea. discriminate.
  - assert (X : forall s, cut_last "@" s = None -> ~ In "@"%byte s).
    { induction s as [|y s IH]; cbn; [tauto|]. destruct (cut_last "@" s) as [[? ?]|]; [discriminate|]. destruct (Byte.eqb y "@") eqn:Ey; [discriminate|]. intros _ [->|Z]; [discriminate|]. now apply IH. }
    apply X in El. apply El. apply in_or_app. right. now left.
Qed.

(** ** The clients *)
Lemma mentions_trans a b c : mentions a b -> mentions b c -> mentions a c.
Proof. intros (x & y & ->) (z & w & ->). exists (z ++ x), (y ++ w). now rewrite <- !app_assoc. Qed.
Lemma authority_char_b c : authority_char c <-> userinfo_byte c = true.
Proof.
  unfold authority_char, password_char. split.
  - intros [H| ->]; [|reflexivity]. apply char_b in H. revert c H. apply class_fact. now vm_compute.
  - intros H. destruct (Byte.eqb c "%") eqn:E; [right; now apply byte_eqb_eq|left]. apply char_b.
    assert (X : userinfo_byte c && negb (Byte.eqb c "%") = true) by now rewrite H, E. clear H E; revert c X. apply class_fact. now vm_compute.
Qed.
Theorem client_reveals L os c h p u pw : new_client os = Ok c -> last_word string_opt os = None -> last_word tls_opt os = None ->
  last_word host_opt os = Some (h, p) -> last_word auth_opt os = Some (u, pw) ->
  Forall clear_char (u ++ pw ++ h) -> Forall (fun b => ~ ends_authority b) (u ++ pw) -> ~ In "#"%byte h ->
  (exists b, In b (u ++ pw) /\ ~ authority_char b) ->
  exists e t, driver_open (cl_conn_str c) = Err e /\ refusal L (cl_conn_str c) = Some t /\ mentions pw t.
Proof.
  intros E Hs Ht Hh Ha Hc He Hn (b & Hb & Nb). destruct (client_from_host _ _ E Hs) as (h' & p' & u' & pw' & A1 & A2 & _ & Hp & _ & _ & _ & _ & _ & ES).
  rewrite A1 in Hh. injection Hh as -> ->. rewrite A2 in Ha. injection Ha as -> ->. rewrite Ht, app_nil_r in ES. rewrite address_string_scheme in ES.
  rewrite Forall_forall in Hc, He.
  assert (V : forall x, In x (u ++ pw) -> x <> "/"%byte /\ x <> "?"%byte /\ x <> "#"%byte).
  { intros x Hx. specialize (He x Hx). unfold ends_authority in He. cbn in He. repeat split; intros ->; apply He; tauto. }
  assert (V' : forall x, In x (u ++ str ":" ++ pw) -> x = ":"%byte \/ In x (u ++ pw)).
  { intros x Hx. apply in_app_or in Hx. destruct Hx as [Hx|[Hx|Hx]]; [right; apply in_or_app; tauto|left; now symmetry|right; apply in_or_app; tauto]. }
  assert (N : url_parse (cl_conn_str c) = None).
  { apply (bad_userinfo (cl_routing c) (u ++ str ":" ++ pw) (h ++ str ":" ++ show_int p)); [| | | |rewrite ES; now rewrite <- !app_assoc].
    - exists b. split; [|apply not_true_is_false; intros X; now apply Nb, authority_char_b].
      apply in_app_or in Hb. destruct Hb as [Hb|Hb]; apply in_or_app; [tauto|right; right; exact Hb].
    - intros X. apply V' in X. destruct X as [X|X]; [discriminate|]. now apply V in X.
    - intros X. apply V' in X. destruct X as [X|X]; [discriminate|]. now apply V in X.
    - intros X. apply V' in X. destruct X as [X|X]; [discriminate|]. now apply V in X. }
  destruct (decimal_digits _ _ (show_int_decimal p ltac:(lia))) as [D _].
  assert (DB : forall x, In x (show_int p) -> clear_char x /\ x <> "#"%byte).
  { rewrite Forall_forall in D. intros x Hx. specialize (D x Hx). unfold is_digit in D. split; [split; [lia|]|intros ->; vm_compute in D; discriminate].
    intros [<-|[<-|[]]]; vm_compute in D; discriminate. }
  assert (C : Forall clear_char (cl_conn_str c) /\ ~ In "#"%byte (cl_conn_str c)).
  { rewrite ES. split.
    - rewrite Forall_forall. intros x Hx. 
      assert (K : forall s, forallb (fun b => printable b && negb (one_of (str """\") b)) s = true -> forall x, In x s -> clear_char x).
      { intros s Z y Hy. rewrite forallb_forall in Z. specialize (Z y Hy). apply andb_prop in Z. destruct Z as [Z1 Z2]. unfold printable in Z1. split; [lia|].
        intros W. apply one_of_in in W. rewrite W in Z2. discriminate. }
      repeat (apply in_app_or in Hx; destruct Hx as [Hx|Hx]);
        [revert x Hx; apply K; destruct (cl_routing c); reflexivity|revert x Hx; apply K; reflexivity|apply Hc; apply in_or_app; tauto|revert x Hx; apply K; reflexivity
        |apply Hc; apply in_or_app; right; apply in_or_app; tauto|revert x Hx; apply K; reflexivity|apply Hc; apply in_or_app; right; apply in_or_app; tauto
        |revert x Hx; apply K; reflexivity|now apply DB].
    - apply no_hash. intros Hx. repeat (apply in_app_or in Hx; destruct Hx as [Hx|Hx]).
      + destruct (V "#"%byte) as (_ & _ & X); [apply in_or_app; tauto|congruence].
      + destruct Hx as [Hx|[]]; discriminate.
      + destruct (V "#"%byte) as (_ & _ & X); [apply in_or_app; tauto|congruence].
      + destruct Hx as [Hx|[]]; discriminate.
      + contradiction.
      + destruct Hx as [Hx|[]]; discriminate.
      + now apply DB in Hx. }
  destruct C as [C1 C2]. destruct (reveals L _ N C1 C2) as (t & R & M). unfold driver_open. pose proof (refusal_when L (cl_conn_str c)) as W.
  destruct (conn_from_string (cl_conn_str c)) as [cf|e| |] eqn:EC; [congruence| |contradiction|contradiction].
  exists e, t. repeat split; [exact R|]. apply mentions_trans with (cl_conn_str c); [|exact M].
  rewrite ES. exists (scheme_of (cl_routing c) ++ str "://" ++ u ++ str ":"), (str "@" ++ h ++ str ":" ++ show_int p). now rewrite <- !app_assoc.
Qed.

(** ** Strings that can be read *)
Theorem hides L s1 s2 u1 u2 n p1 p2 : url_parse s1 = Some u1 -> url_parse s2 = Some u2 -> u_user u1 = Some (n, Some p1) -> u_user u2 = Some (n, Some p2) ->
  u_scheme u1 = u_scheme u2 -> u_query u1 = u_query u2 -> refusal L s1 = refusal L s2.
Proof. intros E1 E2 U1 U2 Es Eq. unfold refusal. rewrite E1, E2, U1, U2, Es, Eq. reflexivity. Qed.
Theorem hides_all L s1 s2 who1 who2 hp1 hp2 l : address_of s1 who1 hp1 l -> address_of s2 who2 hp2 l -> refusal L s1 = refusal L s2.
Proof.
  intros A1 A2. destruct (address_url _ _ _ _ A1) as (x1 & E1 & K1 & _ & Q1 & U1). destruct (address_url _ _ _ _ A2) as (x2 & E2 & K2 & _ & Q2 & U2).
  unfold refusal. rewrite E1, E2, K1, K2, Q1, Q2, U1, U2. cbn [negb]. destruct who1 as [[? ?]|], who2 as [[? ?]|]; reflexivity.
Qed.

(** ** What is accepted *)
Lemma get_scheme_some first s a r : get_scheme first s = Some (Some (a, r)) ->
  s = a ++ ":"%byte :: r /\ Forall (fun c => bz c < 128) a.
Proof.
  revert first a r. induction s as [|c s IH]; intros first a r; cbn [get_scheme]; [discriminate|].
  assert (M : match get_scheme false s with Some (Some (a0, b)) => Some (Some (c :: a0, b)) | x => x end = Some (Some (a, r)) -> bz c < 128 -> c :: s = a ++ ":"%byte :: r /\ Forall (fun c => bz c < 128) a).
  { intros E Hc. destruct (get_scheme false s) as [[[a0 b]|]|] eqn:G; try discriminate. injection E as <- <-. destruct (IH _ _ _ G) as [-> F]. split; [reflexivity|now constructor]. }
  destruct (is_upper c || is_lower c) eqn:E1; [intros E; apply M; [exact E|unfold is_upper, is_lower in E1; lia]|].
  destruct (is_digit c || one_of (str "+-.") c) eqn:E2.
  - destruct first; [discriminate|]. intros E. apply M; [exact E|]. apply orb_true_iff in E2. destruct E2 as [E2|E2]; [unfold is_digit in E2; lia|].
    unfold one_of in E2. apply existsb_exists in E2. destruct E2 as (d & Hd & Ed). apply byte_eqb_eq in Ed. subst. cbn in Hd. destruct Hd as [<-|[<-|[<-|[]]]]; reflexivity.
  - destruct (Byte.eqb c ":") eqn:E3; [|discriminate]. destruct first; [discriminate|]. intros [= <- <-]. apply byte_eqb_eq in E3. subst. split; [reflexivity|constructor].
Qed.
Lemma lower_ascii a : Forall (fun c => bz c < 128) a -> to_lower a = map lower_byte a.
Proof.
  induction 1 as [|c a Hc H IH]; [reflexivity|]. cbn [map]. rewrite <- IH. destruct c; try reflexivity; exfalso; revert Hc; now compute.
Qed.
Lemma lower_twice c : lower_byte (lower_byte c) = c \/ 97 <= bz (lower_byte (lower_byte c)) <= 122 /\ bz c = bz (lower_byte (lower_byte c)) - 32.
Proof. destruct c; try (left; reflexivity); right; vm_compute; repeat split; discriminate. Qed.
Lemma lower_spelled w a : Forall (fun c => bz c < 128) a -> to_lower (to_lower a) = w -> spelled w a.
Proof.
  intros H <-. rewrite (lower_ascii a H), lower_ascii.
  - unfold spelled. induction a as [|c a IH]; [constructor|]. inversion_clear H. cbn [map]. constructor; [|now apply IH]. destruct (lower_twice c) as [->|E]; auto.
  - apply Forall_map. eapply Forall_impl; [|exact H]. intros c Hc. cbv beta in *. unfold lower_byte. destruct (_ && _) eqn:E; [|exact Hc]. rewrite BytesFacts.bz_zb, Z.mod_small by lia. lia.
Qed.
Lemma parse_rest_scheme sc r u : parse_rest sc r = Some u -> u_scheme u = sc.
Proof.
  unfold parse_rest. destruct (split_at "?" r) as [r' q]. destruct (_ && _); [now intros [= <-]|]. destruct (_ && _); [discriminate|]. destruct (_ && _).
  - destruct (split_slash _) as [x y]. destruct (parse_authority x) as [[us h]|]; [|discriminate]. destruct (unescape MPath y); [|discriminate]. now intros [= <-].
  - destruct (unescape MPath r'); [|discriminate]. now intros [= <-].
Qed.
Lemma url_scheme s u : url_parse s = Some u -> known_scheme (u_scheme u) = true ->
  exists a r, s = a ++ str ":" ++ r /\ (spelled (str "bolt") a \/ spelled (str "bolt+routing") a).
Proof.
  unfold url_parse. destruct (split_at_prefix "#" s) as (r & Es & _ & _). destruct (split_at "#" s) as [b f]. cbn [fst] in Es.
  destruct (parse_no_fragment b) as [u'|] eqn:Ep; [|discriminate]. destruct (unescape MFragment f); [|discriminate]. intros [= ->] K.
  unfold parse_no_fragment in Ep. destruct (has_ctl b); [discriminate|]. destruct (bytes_eqb b (str "*")); [injection Ep as <-; discriminate|].
  destruct (get_scheme true b) as [[[a r2]|]|] eqn:G; [|apply parse_rest_scheme in Ep; rewrite Ep in K; discriminate|discriminate].
  apply parse_rest_scheme in Ep. rewrite Ep in K. destruct (get_scheme_some _ _ _ _ G) as [Eb F]. exists a, (r2 ++ r). split; [rewrite Es, Eb, <- app_assoc; reflexivity|].
  unfold known_scheme in K. apply orb_true_iff in K. destruct K as [K|K]; apply bytes_eqb_eq in K; [left|right]; now apply lower_spelled.
Qed.
Theorem accepted_scheme s cf : conn_from_string s = Ok cf ->
  exists a r, s = a ++ str ":" ++ r /\ (spelled (str "bolt") a \/ spelled (str "bolt+routing") a).
Proof.
  unfold conn_from_string. destruct (url_parse s) as [u|] eqn:E; [|discriminate]. destruct (known_scheme (u_scheme u)) eqn:K; [|discriminate]. intros _. now apply (url_scheme s u).
Qed.
Theorem client_scheme os c s : new_client os = Ok c -> last_word string_opt os = Some s -> s <> [] ->
  exists a r, s = a ++ str ":" ++ r /\ (spelled (str "bolt") a \/ spelled (str "bolt+routing") a).
Proof.
  intros E Hs N. unfold new_client in E. destruct os as [|o os]; [discriminate|]. destruct (apply_opts (o :: os) zero_client) as [c1| | |] eqn:Ea; try discriminate. cbn [rbind] in E.
  apply opts_string in Ea. rewrite Hs in Ea. destruct c1 as [cs h p r ng u pw v t ck tl ce ca ke nv gt lt]. cbn in Ea. subst cs.
  replace (bytes_eqb s []) with false in E by (now destruct s). cbv zeta iota in E.
  destruct (url_parse s) as [x|] eqn:Eu; [|discriminate]. destruct (known_scheme (u_scheme x)) eqn:K; [|discriminate]. now apply (url_scheme s x).
Qed.
Theorem no_server x : Forall (fun c => 32 <= bz c <= 126 /\ ~ In c (str "/?#")) x ->
  exists cf, conn_from_string (str "bolt:" ++ x) = Ok cf /\ cf_host_port cf = [] /\ cf_user cf = [].
Proof.
  intros H. assert (N : forall c, In c (str "/?#") -> ~ In c x) by (intros c Hc Hx; rewrite Forall_forall in H; now apply (H c Hx)).
  assert (E : url_parse (str "bolt:" ++ x) = Some (mkUrl (str "bolt") None [] [])).
  { unfold url_parse. rewrite split_at_none by (intros X; apply in_app_or in X; destruct X as [X|X]; [cbn in X; repeat destruct X as [X|X]; discriminate || contradiction|revert X; apply N; cbn; tauto]).
    unfold parse_no_fragment. replace (has_ctl (str "bolt:" ++ x)) with false.
    - change (bytes_eqb (str "bolt:" ++ x) (str "*")) with false. change (get_scheme true (str "bolt:" ++ x)) with (Some (Some (str "bolt", x))). cbv iota.
      change (to_lower (str "bolt")) with (str "bolt"). unfold parse_rest. rewrite split_at_none by (apply N; cbn; tauto).
      replace (has_prefix (str "/") x) with false; [reflexivity|]. symmetry. destruct x as [|c x]; [reflexivity|]. change (has_prefix (str "/") (c :: x)) with (Byte.eqb "/" c && true). destruct (Byte.eqb "/" c) eqn:Ec; [|reflexivity]. apply byte_eqb_eq in Ec. subst. exfalso. apply (N "/"%byte); cbn; auto.
    - symmetry. unfold has_ctl. rewrite existsb_app. change (existsb _ (str "bolt:")) with false. cbn [orb]. destruct (existsb _ x) eqn:Ex; [|reflexivity]. apply existsb_exists in Ex. destruct Ex as (c & Hc & Ec).
      rewrite Forall_forall in H. destruct (H c Hc) as [R _]. lia. }
  unfold conn_from_string. rewrite E. eexists. split; [reflexivity|]. split; reflexivity.
Qed.
