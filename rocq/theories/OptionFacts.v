(** Which options make a client, and which of them it looks at. *)
From Coq Require Import String ZArith List Bool Lia ZifyBool.
From Verif Require Import Bytes GoVal GoErr GoStr Url Pool Client SpecClient BytesFacts UrlFacts ClientFacts ClientCases.
Import ListNotations.
Open Scope Z_scope.

(** ** Acceptable options *)
Lemma applied_acceptable o c c' : apply_opt o c = Ok c' -> acceptable o.
Proof.
  destruct c, o; cbn [apply_opt acceptable]; auto; try discriminate;
    match goal with |- (if ?b then _ else _) = _ -> _ => destruct b eqn:E end; try discriminate; intros _; lia.
Qed.
Lemma all_acceptable os : forall c c', apply_opts os c = Ok c' -> Forall acceptable os.
Proof.
  induction os as [|o os IH]; intros c c' E; constructor; cbn in E; destruct (apply_opt o c) eqn:E1; try discriminate.
  - now apply applied_acceptable in E1.
  - now apply IH in E.
Qed.
Lemma made_acceptable os c : new_client os = Ok c -> Forall acceptable os.
Proof.
  unfold new_client. destruct os as [|o os]; [discriminate|]. set (l := o :: os).
  destruct (apply_opts l zero_client) as [c0| | |] eqn:E0; try discriminate. intros _. now apply all_acceptable in E0.
Qed.
(** Without a connection string every acceptable option can be applied. *)
Lemma applies o c : acceptable o -> string_opt o = None -> cl_conn_str c = [] -> exists c', apply_opt o c = Ok c' /\ cl_conn_str c' = [].
Proof.
  destruct c as [cs h p r ng u pw v t ck tl ce ca ke nv gt lt]. cbn [cl_conn_str]. intros A S ->.
  destruct o; cbn [apply_opt acceptable string_opt] in *; try contradiction; try discriminate; try (eexists; split; reflexivity).
  all: match goal with |- context [if ?b then _ else _] => replace b with false by lia end; eexists; split; reflexivity.
Qed.
Lemma all_apply os : forall c, Forall acceptable os -> last_word string_opt os = None -> cl_conn_str c = [] ->
  exists c', apply_opts os c = Ok c' /\ cl_conn_str c' = [].
Proof.
  induction os as [|o os IH]; intros c A S E; [cbn; eauto|]. inversion_clear A as [|? ? A1 A2]. cbn [last_word] in S.
  destruct (last_word string_opt os) eqn:S1; [discriminate|]. destruct (applies o c A1 S E) as (c1 & H1 & E1).
  cbn [apply_opts]. rewrite H1. auto.
Qed.
Lemma made os : last_word string_opt os = None ->
  ((exists c, new_client os = Ok c) <-> Forall acceptable os /\
   exists h p u pw, last_word host_opt os = Some (h, p) /\ h <> [] /\ 0 < p /\ last_word auth_opt os = Some (u, pw) /\ u <> []).
Proof.
  intros S. split.
  - intros [c E]. split; [now apply made_acceptable in E|].
    destruct (client_from_host os c E S) as (h & p & u & pw & H & A & Hh & Hp & Hu & _). eauto 10.
  - intros (A & h & p & u & pw & H & Hh & Hp & W & Hu). destruct (all_apply os zero_client A S eq_refl) as (c & E & Ec).
    pose proof (opts_host _ _ _ E) as H1. pose proof (opts_auth _ _ _ E) as H2. rewrite H in H1. rewrite W in H2.
    unfold new_client. destruct os as [|o os]; [discriminate H|]. rewrite E. cbn [rbind].
    destruct c as [cs h' p' r ng u' pw' v t ck tl ce ca ke nv gt lt]. cbn [cl_conn_str cl_host cl_port cl_user cl_password] in *. subst cs.
    injection H1 as -> ->. injection H2 as -> ->. change (bytes_eqb [] []) with true. cbn iota.
    rewrite !bytes_eqb_nil_false by assumption. replace (p <=? 0) with false by lia. eauto.
Qed.
Lemma no_other os c : (exists e, apply_opts os c = Err e) \/ exists c', apply_opts os c = Ok c'.
Proof.
  revert c. induction os as [|o os IH]; intros c; cbn; [eauto|]. destruct (apply_opt_total o c) as [[e ->]|[c' ->]]; [eauto|apply IH].
Qed.
Lemma opts_err os : forall c e, apply_opts os c = Err e -> e = conf_err 317.
Proof.
  induction os as [|o os IH]; intros c e; cbn; [discriminate|]. destruct (apply_opt o c); try discriminate; [apply IH|congruence].
Qed.
Lemma refused_configuration os : last_word string_opt os = None -> ~ (exists c, new_client os = Ok c) ->
  exists n, new_client os = Err (EWrap (Some (ESentinel 1)) n).
Proof.
  intros S N. unfold new_client in *. destruct os as [|o os]; [eexists; reflexivity|]. set (l := o :: os) in *.
  destruct (no_other l zero_client) as [[e E]|[c E]].
  - rewrite E. cbn [rbind]. rewrite (opts_err _ _ _ E). eexists; reflexivity.
  - rewrite E in *. cbn [rbind] in *. pose proof (opts_string _ _ _ E) as H. rewrite S in H.
    destruct c as [cs h p r ng u pw v t ck tl ce ca ke nv gt lt]. cbn [cl_conn_str zero_client] in H. subst cs.
    change (bytes_eqb [] []) with true in *. cbn iota in *.
    destruct (bytes_eqb h []); [eexists; reflexivity|]. destruct (p <=? 0); [eexists; reflexivity|]. destruct (bytes_eqb u []); [eexists; reflexivity|].
    destruct N. eauto.
Qed.

(** ** Options about the version *)
Definition alike (c c' : client) : Prop :=
  let '(mkClient cs h p r _ u pw _ t ck tl ce ca ke nv _ _) := c in
  let '(mkClient cs' h' p' r' _ u' pw' _ t' ck' tl' ce' ca' ke' nv' _ _) := c' in
  (cs, h, p, r, u, pw, t, ck, tl, ce, ca, ke, nv) = (cs', h', p', r', u', pw', t', ck', tl', ce', ca', ke', nv').
Definition alike_res (x y : res client) : Prop :=
  match x, y with Ok c, Ok c' => alike c c' | Err e, Err e' => e = e' | Panic, Panic => True | NoFuel, NoFuel => True | _, _ => False end.
Lemma alike_refl c : alike c c.
Proof. destruct c. reflexivity. Qed.
Lemma apply_alike o c c' : alike c c' -> alike_res (apply_opt o c) (apply_opt o c').
Proof.
  destruct c, c'. cbn [alike]. intros [= -> -> -> -> -> -> -> -> -> -> -> -> ->].
  destruct o; cbn [apply_opt]; repeat match goal with |- context [if ?b then _ else _] => destruct b end; cbn; reflexivity.
Qed.
Lemma opts_alike os : forall c c', alike c c' -> alike_res (apply_opts os c) (apply_opts os c').
Proof.
  induction os as [|o os IH]; intros c c' A; [exact A|]. cbn [apply_opts]. pose proof (apply_alike o c c' A) as H.
  destruct (apply_opt o c), (apply_opt o c'); cbn in H; try contradiction; cbn; auto.
Qed.
Lemma version_applied o c : about_version o -> acceptable o -> exists c', apply_opt o c = Ok c' /\ alike c' c.
Proof.
  destruct c, o; cbn [about_version acceptable apply_opt]; try contradiction; intros _ A;
    try (match goal with |- context [if ?b then _ else _] => replace b with false by lia end);
    eexists; (split; [reflexivity|reflexivity]).
Qed.
Lemma version_added o b : about_version o -> acceptable o -> forall a c, alike_res (apply_opts (a ++ o :: b) c) (apply_opts (a ++ b) c).
Proof.
  intros V A. induction a as [|x a IH]; intros c; cbn [app apply_opts].
  - destruct (version_applied o c V A) as (c' & -> & L). now apply opts_alike.
  - destruct (apply_opt x c); cbn; auto.
Qed.
(** Everything that is made of a client. *)
Definition used (c : client) : bytes * res bytes * (Z -> res pool) := (cl_conn_str c, new_driver c, new_routing_driver c).
Lemma alike_used c c' : alike c c' -> used c = used c'.
Proof. destruct c, c'. cbn [alike]. intros [= -> -> -> -> -> -> -> -> -> -> -> -> ->]. reflexivity. Qed.
Lemma version_ignored o a b : about_version o -> acceptable o -> a ++ b <> [] ->
  match new_client (a ++ o :: b), new_client (a ++ b) with
  | Ok c, Ok c' => cl_conn_str c = cl_conn_str c' /\ new_driver c = new_driver c' /\ (forall n, new_routing_driver c n = new_routing_driver c' n)
  | Err e, Err e' => e = e'
  | _, _ => False
  end.
Proof.
  intros V A N. pose proof (version_added o b V A a zero_client) as H. pose proof (no_other (a ++ b) zero_client) as T.
  assert (F : alike_res (new_client (a ++ o :: b)) (new_client (a ++ b)) /\ new_client (a ++ b) <> Panic /\ new_client (a ++ b) <> NoFuel).
  { unfold new_client. destruct (a ++ b) as [|x l] eqn:E; [congruence|]. destruct (a ++ o :: b) as [|y m] eqn:E'; [destruct a; discriminate|].
    destruct T as [[e T]|[c T]]; rewrite T in *; cbn [rbind].
    - destruct (apply_opts (y :: m) zero_client); cbn in H; try contradiction. cbn [rbind]. subst. repeat split; try reflexivity; discriminate.
    - destruct (apply_opts (y :: m) zero_client) as [c'| | |]; cbn in H; try contradiction. cbn [rbind]. destruct c, c'. cbn [alike] in H.
      injection H as -> -> -> -> -> -> -> -> -> -> -> -> ->.
      repeat match goal with
      | |- alike_res (Ok _) (Ok _) /\ _ => split; [reflexivity|split; discriminate]
      | |- alike_res (Err _) (Err _) /\ _ => split; [reflexivity|split; discriminate]
      | |- _ => progress cbn [rbind]
      | |- context [if ?b then _ else _] => destruct b
      | |- context [match ?x with _ => _ end] => destruct x
      end. }
  destruct F as (F & P & Q). destruct (new_client (a ++ b)) as [c'|e'| |]; try congruence; destruct (new_client (a ++ o :: b)) as [c|e| |]; cbn in F; try contradiction; [|exact F].
  apply alike_used in F. unfold used in F. injection F as F1 F2 F3. split; [exact F1|]. split; [exact F2|]. intros n. now rewrite F3.
Qed.
