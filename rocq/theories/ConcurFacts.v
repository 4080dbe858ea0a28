(** Statement calls made by several goroutines on one connection take effect one after another. *)
From Coq Require Import String ZArith List Bool Lia Arith.
From Verif Require Import Bytes GoVal GoErr BytesFacts Encoder SpecValues SpecServer Messages Connection Link ExecFacts ServeFacts CallFacts
  Wire WireFacts SpecSession OpenFacts AnyNetFacts SessionFacts Demo DemoFacts Concurrency.
Import ListNotations.
Open Scope Z_scope.

(** ** Programs that leave the mutex and the protocol alone *)

Fixpoint calm {A} (p : prog A) : Prop :=
  match p with
  | Ret _ => True
  | Get k => forall c, calm (k c)
  | Upd f k => (forall c, c_proto (f c) = c_proto c) /\ calm k
  | Send _ _ _ k => forall e, calm (k e)
  | Recv _ k => forall r, calm (k r)
  | Hang k => forall e, calm (k e)
  | Dial k => forall e, calm (k e)
  | RawWrite _ k => forall r, calm (k r)
  | RawRead _ k => forall r, calm (k r)
  | Probe k => forall e, calm (k e)
  | Lock _ | Unlock _ => False
  end.

Lemma calm_bindr {A B} (p : prog A) (f : res A -> prog B) : calm p -> (forall r, calm (f r)) -> calm (bindr p f).
Proof. intros Hp Hf. induction p; cbn in *; intuition. Qed.
Lemma calm_bind {A B} (p : prog A) (f : A -> prog B) : calm p -> (forall a, calm (f a)) -> calm (bind p f).
Proof. intros Hp Hf. apply calm_bindr; [exact Hp|]. intros []; cbn; auto. Qed.
Lemma calm_send m : calm (send_message m).
Proof. intros c []; cbn; auto. Qed.
Lemma calm_recv : calm recv_message.
Proof. intros c r. exact Logic.I. Qed.
Lemma calm_pwrap {A} z (p : prog A) : calm p -> calm (pwrap z p).
Proof. intro H. apply calm_bindr; [exact H|]. intro. exact Logic.I. Qed.
Lemma calm_tx_end p t sel : calm p -> calm (tx_end p t sel).
Proof.
  intros H c. destruct (tx_closed c t); [exact Logic.I|]. destruct (sel (c_proto c)) as [m nat].
  apply calm_bind; [apply calm_send|]. intros _.
  apply calm_bind; [destruct nat; [exact Logic.I|apply calm_send]|]. intros _.
  apply calm_bind; [exact H|]. intro r.
  apply calm_bind; [destruct nat; [exact Logic.I|exact H]|]. intro r'.
  destruct (negb (is_success r)); [exact Logic.I|]. destruct (negb nat && _); [exact Logic.I|].
  split; [reflexivity|exact Logic.I].
Qed.
Lemma calm_close_with r : (forall t, calm (r t)) -> calm (close_with r).
Proof.
  intros H c. destruct (c_closed c); [exact Logic.I|].
  apply calm_bind; [destruct (c_transaction c); [apply H|exact Logic.I]|]. intros _.
  apply calm_bind; [destruct (get_close_message _); [apply calm_send|exact Logic.I]|]. intros _ e.
  split; [reflexivity|]. destruct e; exact Logic.I.
Qed.
Lemma calm_all : forall n,
  calm (consume n) /\ calm (reset n) /\ calm (reset_loop n) /\ calm (close n) /\ forall t, calm (rollback n t).
Proof.
  induction n as [|n (IHc & IHr & IHl & IHcl & IHrb)]; [repeat split|].
  refine (conj _ (conj _ (conj _ (conj _ _)))).
  - cbn [consume]. apply calm_bind; [apply calm_recv|]. intro m. destruct m; try exact Logic.I.
    apply calm_bindr; [exact IHr|]. intros []; exact Logic.I.
  - cbn [reset]. apply calm_bind; [apply calm_pwrap, calm_send|]. intro; exact IHl.
  - cbn [reset_loop]. apply calm_bind; [apply calm_pwrap, calm_recv|]. intro m.
    destruct m; try exact Logic.I; try exact IHl; apply calm_bindr; try exact IHcl; intros []; exact Logic.I.
  - cbn [close]. apply calm_close_with, IHrb.
  - intro t. cbn [rollback]. apply calm_tx_end, IHc.
Qed.
Lemma calm_fetch n k acc : calm (fetch n k acc).
Proof.
  revert acc. induction k as [|k IH]; intro acc; [exact Logic.I|].
  cbn [fetch]. apply calm_bind; [apply calm_all|]. intro m. destruct m; try exact Logic.I. apply IH.
Qed.

(** ** Critical sections *)

(** Running alone until the mutex is released. *)
Fixpoint run_sec {St A} (N : net St) (p : prog A) (c : conn) (s : St) : option (conn * St * prog A) :=
  match p with
  | Ret _ | Lock _ => None
  | Unlock k => Some (c, s, k)
  | Get k => run_sec N (k c) c s
  | Upd f k => run_sec N k (f c) s
  | Send v cs m k => let '(s', r) := n_send N v cs m s in run_sec N (k r) c s'
  | Recv v k => let '(s', r) := n_recv N v s in run_sec N (k r) c s'
  | Hang k => let '(s', r) := n_hang N s in run_sec N (k r) c s'
  | Dial k => let '(s', r) := n_dial N s in run_sec N (k r) c s'
  | RawWrite b k => let '(s', r) := n_write N b s in run_sec N (k r) c s'
  | RawRead n k => let '(s', r) := n_read N n s in run_sec N (k r) c s'
  | Probe k => let '(s', r) := n_probe N s in run_sec N (k r) c s'
  end.

Ltac one_effect := match goal with |- context [let '(_, _) := ?x in _] => destruct x as [? ?] end.

Lemma run_sec_calm {St A B} (N : net St) (p : prog A) (f : res A -> prog B) : calm p -> forall c s,
  run_sec N (bindr p f) c s = let '(c', s', r) := exec N p c s in run_sec N (f r) c' s'.
Proof.
  induction p; intros Hc c0 s0; cbn [bindr run_sec exec calm] in *; auto; try contradiction;
    try (match goal with |- context [let '(_, _) := ?x in run_sec _ _ _ _] => destruct x as [? ?] end; auto).
  now apply IHp.
Qed.
Lemma run_sec_bindr {St A B} (N : net St) (p : prog A) (f : res A -> prog B) : forall c s c' s' k,
  run_sec N p c s = Some (c', s', k) -> run_sec N (bindr p f) c s = Some (c', s', bindr k f).
Proof.
  induction p; intros c0 s0 c' s' k0; cbn [bindr run_sec]; try discriminate; auto; try (one_effect; auto).
  injection 1 as <- <- <-. reflexivity.
Qed.
Lemma calm_proto {St A} (N : net St) (p : prog A) : calm p -> forall c s,
  c_proto (fst (fst (exec N p c s))) = c_proto c.
Proof.
  induction p; intros Hc c0 s0; cbn [exec calm] in *; auto; try contradiction; try (one_effect; auto).
  destruct Hc as [Hf Hp]. now rewrite IHp, Hf.
Qed.

(** Programs inside a section: calm up to the Unlock. *)
Fixpoint inside {A} (p : prog A) : Prop :=
  match p with
  | Ret _ | Lock _ => False
  | Unlock _ => True
  | Get k => forall c, inside (k c)
  | Upd f k => (forall c, c_proto (f c) = c_proto c) /\ inside k
  | Send _ _ _ k => forall e, inside (k e)
  | Recv _ k => forall r, inside (k r)
  | Hang k => forall e, inside (k e)
  | Dial k => forall e, inside (k e)
  | RawWrite _ k => forall r, inside (k r)
  | RawRead _ k => forall r, inside (k r)
  | Probe k => forall e, inside (k e)
  end.
Lemma calm_inside {A B} (p : prog A) (f : res A -> prog B) : calm p -> (forall r, inside (f r)) -> inside (bindr p f).
Proof. intros Hp Hf. induction p; cbn in *; intuition. Qed.
Lemma inside_bindr {A B} (p : prog A) (f : res A -> prog B) : inside p -> inside (bindr p f).
Proof. intros Hp. induction p; cbn in *; intuition. Qed.

(** One step inside: always possible; either the section goes on to the same end, or this was its end. *)
Lemma inside_step {St A} (N : net St) (p : prog A) c s c1 s1 k :
  inside p -> run_sec N p c s = Some (c1, s1, k) ->
  exists c' s' b p', tstep N p c s true = Some (c', s', b, p') /\ c_proto c' = c_proto c
    /\ (b = true /\ inside p' /\ run_sec N p' c' s' = Some (c1, s1, k) \/ b = false /\ c' = c1 /\ s' = s1 /\ p' = k).
Proof.
  destruct p; cbn [inside run_sec tstep]; intros H E; try contradiction; try one_effect;
    try (do 4 eexists; split; [reflexivity|]; split; [reflexivity|]; left; now auto).
  - do 4 eexists. split; [reflexivity|]. split; [apply H|]. left. intuition.
  - injection E as <- <- <-. do 4 eexists. split; [reflexivity|]. split; [reflexivity|]. right. auto.
Qed.

(** Running alone goes through the section. *)
Lemma run_sec_exec {St A} (N : net St) (p : prog A) : forall c s c' s' k,
  run_sec N p c s = Some (c', s', k) -> exec N p c s = exec N k c' s'.
Proof.
  induction p; intros c0 s0 c' s' k0; cbn [run_sec exec]; try discriminate; auto; try (one_effect; auto).
  injection 1 as <- <- <-. reflexivity.
Qed.

(** ** The shape of a statement call *)

(** A look at the protocol, then either an immediate result or one section. *)
Definition sectioned {A} (d : prog A) : Prop :=
  exists g, d = Get g /\ forall p,
    (exists r, forall c, c_proto c = p -> g c = Ret r)
    \/ (exists b, inside b /\ (forall c, c_proto c = p -> g c = Lock b)
        /\ forall St (N : net St) c s, c_proto c = p ->
             exists c' s' r, run_sec N b c s = Some (c', s', Ret r) /\ c_proto c' = p).

Lemma sectioned_query n q ps db tx : sectioned (query_db n q ps db tx).
Proof.
  unfold query_db. eexists. split; [reflexivity|]. intro p. cbn beta.
  destruct (negb (multi_database p) && negb (bytes_eqb db [])) eqn:E.
  - left. eexists. intros c <-. now rewrite E.
  - right. eexists. split; [|split].
    2:{ intros c <-. rewrite E. reflexivity. }
    + apply calm_inside; [|intro; exact Logic.I].
      intro c. destruct (c_closed c); [exact Logic.I|].
      apply calm_bind; [apply calm_send|]. intros _. apply calm_bind; [apply calm_send|]. intros _.
      apply calm_bind; [apply calm_all|]. intro m. destruct (is_success m); [apply calm_fetch|exact Logic.I].
    + intros St N c s <-. rewrite run_sec_calm.
      * match goal with |- context [exec N ?x c s] => pose proof (calm_proto N x) as Hp; destruct (exec N x c s) as [[c' s'] r] eqn:E' end.
        do 3 eexists. split; [reflexivity|]. specialize (fun h => Hp h c s). rewrite E' in Hp. apply Hp.
        intro c0. destruct (c_closed c0); [exact Logic.I|].
        apply calm_bind; [apply calm_send|]. intros _. apply calm_bind; [apply calm_send|]. intros _.
        apply calm_bind; [apply calm_all|]. intro m. destruct (is_success m); [apply calm_fetch|exact Logic.I].
      * intro c0. destruct (c_closed c0); [exact Logic.I|].
        apply calm_bind; [apply calm_send|]. intros _. apply calm_bind; [apply calm_send|]. intros _.
        apply calm_bind; [apply calm_all|]. intro m. destruct (is_success m); [apply calm_fetch|exact Logic.I].
Qed.
Lemma sectioned_bindr {A B} (d : prog A) (h : res A -> prog B) :
  sectioned d -> (forall r, exists r', h r = Ret r') -> sectioned (bindr d h).
Proof.
  intros (g & -> & Hg) Hh. eexists. split; [reflexivity|]. intro p. cbn beta.
  destruct (Hg p) as [(r & Hr)|(b & Hb & Hl & Hs)].
  - left. destruct (Hh r) as (r' & E). exists r'. intros c Hc. rewrite (Hr c Hc). exact E.
  - right. exists (bindr b h). split; [now apply inside_bindr|]. split.
    + intros c Hc. now rewrite (Hl c Hc).
    + intros St N c s Hc. destruct (Hs St N c s Hc) as (c' & s' & r & E & Ep).
      destruct (Hh r) as (r' & E'). exists c', s', r'. split; [|exact Ep].
      rewrite (run_sec_bindr _ _ _ _ _ _ _ _ E). cbn [bindr]. now rewrite E'.
Qed.
Lemma sectioned_bind {A B} (d : prog A) (f : A -> B) : sectioned d -> sectioned (x <~ d ;; Ret (Ok (f x))).
Proof. intro H. apply sectioned_bindr; [exact H|]. intros []; eexists; reflexivity. Qed.
Lemma stmt_sectioned n o : statement_of o <> None -> sectioned (do_call n o).
Proof.
  destruct o; cbn [statement_of do_call]; intro H; try (now elim H);
    repeat apply sectioned_bind; apply sectioned_query.
Qed.

(** ** Serial execution *)

Lemma serial_app {St} (N : net St) n : forall l l' acc c s,
  exec N (serial n (l ++ l') acc) c s =
  match exec N (serial n l acc) c s with
  | (c', s', Ok acc') => exec N (serial n l' acc') c' s'
  | x => x
  end.
Proof.
  induction l as [|o l IH]; intros l' acc c s; [reflexivity|].
  cbn [serial app]. rewrite !exec_bindr. destruct (exec N (do_call n o) c s) as [[c1 s1] r]. apply IH.
Qed.
Lemma serial_snoc {St} (N : net St) n l o acc c s c1 s1 acc1 c2 s2 r :
  exec N (serial n l acc) c s = (c1, s1, Ok acc1) -> exec N (do_call n o) c1 s1 = (c2, s2, r) ->
  exec N (serial n (l ++ [o]) acc) c s = (c2, s2, Ok (acc1 ++ [(o, r)])).
Proof.
  intros H1 H2. rewrite serial_app, H1. cbn [serial]. rewrite exec_bindr, H2. reflexivity.
Qed.

(** ** Lists of goroutines *)

Lemma nth_put_same {A} i (a b : A) l : nth_error l i = Some b -> nth_error (put_nth i a l) i = Some a.
Proof. revert i. induction l as [|x l IH]; intros [|i]; cbn; try discriminate; auto. Qed.
Lemma nth_put_other {A} i j (a : A) l : i <> j -> nth_error (put_nth i a l) j = nth_error l j.
Proof. revert i j. induction l as [|x l IH]; intros [|i] [|j]; cbn; try congruence; auto. Qed.
Lemma put_nth_length {A} i (a : A) l : length (put_nth i a l) = length l.
Proof. revert i. induction l as [|x l IH]; intros [|i]; cbn; auto. Qed.

Lemma mine_snoc_same {X} i (log : list (nat * X)) x : mine i (log ++ [(i, x)]) = mine i log ++ [x].
Proof. unfold mine. rewrite filter_app, map_app. cbn. now rewrite Nat.eqb_refl. Qed.
Lemma mine_snoc_other {X} i j (log : list (nat * X)) x : i <> j -> mine i (log ++ [(j, x)]) = mine i log.
Proof.
  intro H. unfold mine. rewrite filter_app, map_app. cbn. destruct (Nat.eqb_spec j i); [congruence|]. cbn. apply app_nil_r.
Qed.

Section Many.
Context {St : Type}.
Variable N : net St.
Variable n : nat.
Variable c0 : conn.
Variable s0 : St.
Variable gs : list (list call).
Hypothesis Hgs : forall calls o, In calls gs -> In o calls -> statement_of o <> None.

Notation log := (list (nat * (call * res answer))).
Notation prg := (prog (list (call * res answer))).

Definition replay (l : log) (c : conn) (s : St) : Prop :=
  exec N (serial n (map (fun x => fst (snd x)) l) []) c0 s0 = (c, s, Ok (map snd l)).

(** Where goroutine [i] stands: between calls, about to take the mutex, or (owner) in its section;
    [cs], [ss] are the state the connection has when no section is under way. *)
Definition stands (l : log) (owner : option nat) (x : sys St (list (call * res answer))) (cs : conn) (ss : St) (i : nat) (p : prg) : Prop :=
  exists todo, nth_error gs i = Some (map fst (mine i l) ++ todo)
  /\ (owner <> Some i /\ p = serial n todo (mine i l)
      \/ owner <> Some i /\ (exists o todo' g b, todo = o :: todo' /\ bindr (do_call n o) (fun r => serial n todo' (mine i l ++ [(o, r)])) = Get g
            /\ p = Lock b /\ forall c, c_proto c = c_proto c0 -> g c = Lock b)
      \/ owner = Some i /\ inside p /\ run_sec N p (sy_conn x) (sy_net x) = Some (cs, ss, serial n todo (mine i l))).

Definition invariant (l : log) (x : sys St (list (call * res answer))) : Prop :=
  exists owner cs ss,
    (replay l cs ss /\ forall y, In y l -> (fst y < length gs)%nat) /\ c_proto cs = c_proto c0 /\ c_proto (sy_conn x) = c_proto c0
    /\ length (sy_threads x) = length gs
    /\ match owner with
       | None => sy_locked x = false /\ sy_conn x = cs /\ sy_net x = ss
       | Some i => sy_locked x = true /\ (i < length gs)%nat
       end
    /\ forall i p, nth_error (sy_threads x) i = Some p -> stands l owner x cs ss i p.

Lemma start_invariant : invariant [] (start n c0 s0 gs).
Proof.
  exists None, c0, s0. unfold start, replay. cbn. rewrite map_length. repeat split; auto; try contradiction.
  intros i p H. rewrite nth_error_map in H. destruct (nth_error gs i) as [calls|] eqn:E; [|discriminate].
  injection H as <-. exists calls. cbn. split; [exact E|]. left. split; [discriminate|reflexivity].
Qed.

Lemma stands_other l l' owner owner' x x' cs ss cs' ss' i p :
  mine i l' = mine i l -> (owner = Some i <-> owner' = Some i) ->
  (owner = Some i -> sy_conn x' = sy_conn x /\ sy_net x' = sy_net x /\ cs' = cs /\ ss' = ss) ->
  stands l owner x cs ss i p -> stands l' owner' x' cs' ss' i p.
Proof.
  intros Hm Ho Hs (todo & Ht & H). exists todo. rewrite Hm. split; [exact Ht|].
  destruct H as [[H1 H2]|[[H1 H2]|(H1 & H2 & H3)]].
  - left. tauto.
  - right. left. tauto.
  - right. right. destruct (Hs H1) as (-> & -> & -> & ->). tauto.
Qed.

Lemma gs_stmt i l o todo : nth_error gs i = Some (l ++ o :: todo) -> statement_of o <> None.
Proof. intro H. apply Hgs with (1 := nth_error_In _ _ H). apply in_elt. Qed.

(** Whoever does not move keeps standing where it was. *)
Lemma step_invariant l x i x' : invariant l x -> sys_step N i x = Some x' -> exists l', invariant l' x'.
Proof.
  intros (owner & cs & ss & [Hr Hin0] & Hp1 & Hp2 & Hlen & Hown & Hth) Hst.
  unfold sys_step in Hst. destruct (nth_error (sy_threads x) i) as [p|] eqn:Hi; [|discriminate].
  assert (Hlt : (i < length gs)%nat). { rewrite <- Hlen. apply nth_error_Some. congruence. }
  destruct (Hth i p Hi) as (todo & Htodo & [[Hno Hp]|[[Hno (o & todo' & g & b & Et & Eg & Ep & Hg)]|(Ho & Hin & Hrun)]]).
  - (* between calls *)
    destruct todo as [|o todo']; cbn [serial] in Hp; [subst p; discriminate|].
    destruct (stmt_sectioned n o (gs_stmt _ _ _ _ Htodo)) as (g0 & Eg & Hg).
    set (f := fun r => serial n todo' (mine i l ++ [(o, r)])) in *.
    assert (Eb : bindr (do_call n o) f = Get (fun c => bindr (g0 c) f)) by now rewrite Eg.
    rewrite Eb in Hp. subst p. cbn [tstep] in Hst. injection Hst as <-.
    destruct (Hg (c_proto c0)) as [(r & Hrr)|(b & Hb & Hl & Hs)].
    + (* an immediate result *)
      exists (l ++ [(i, (o, r))]). exists owner, cs, ss. cbn [sy_conn sy_net sy_locked sy_threads].
      rewrite put_nth_length. split; [|split; [exact Hp1|split; [exact Hp2|split; [exact Hlen|split; [exact Hown|]]]]].
      * split; [|intros y Hy; apply in_app_or in Hy as [Hy|[<-|[]]]; [now apply Hin0|exact Hlt]].
        unfold replay. rewrite !map_app. cbn [map fst snd].
        apply serial_snoc with (1 := Hr). rewrite Eg. cbn [exec]. rewrite (Hrr cs Hp1). reflexivity.
      * intros j q Hj. destruct (Nat.eq_dec i j) as [<-|Hne].
        -- rewrite (nth_put_same _ _ _ _ Hi) in Hj. injection Hj as <-. exists todo'.
           rewrite mine_snoc_same, map_app. cbn [map fst]. rewrite <- app_assoc. split; [exact Htodo|]. left.
           split; [exact Hno|]. rewrite (Hrr _ Hp2). reflexivity.
        -- rewrite (nth_put_other _ _ _ _ Hne) in Hj. specialize (Hth j q Hj).
           eapply stands_other; [| |intro; cbn [sy_conn sy_net]; auto|exact Hth]; [|tauto].
           apply mine_snoc_other. congruence.
    + (* about to take the mutex *)
      exists l, owner, cs, ss. cbn [sy_conn sy_net sy_locked sy_threads]. rewrite put_nth_length.
      split; [split; [exact Hr|exact Hin0]|]. split; [exact Hp1|]. split; [exact Hp2|]. split; [exact Hlen|]. split; [exact Hown|].
      intros j q Hj. destruct (Nat.eq_dec i j) as [<-|Hne].
      * rewrite (nth_put_same _ _ _ _ Hi) in Hj. injection Hj as <-. exists (o :: todo'). split; [exact Htodo|].
        right. left. split; [exact Hno|]. exists o, todo', (fun c => bindr (g0 c) f), (bindr b f).
        split; [reflexivity|]. split; [exact Eb|]. rewrite (Hl _ Hp2). split; [reflexivity|].
        intros c Hc. now rewrite (Hl c Hc).
      * rewrite (nth_put_other _ _ _ _ Hne) in Hj. specialize (Hth j q Hj).
        eapply stands_other; [| |intro; cbn [sy_conn sy_net]; auto|exact Hth]; [reflexivity|tauto].
  - (* taking it *)
    subst p todo. cbn [tstep] in Hst. destruct (sy_locked x) eqn:Elock; [discriminate|]. injection Hst as <-.
    destruct owner as [k|]; [destruct Hown; discriminate|]. destruct Hown as (_ & Ec & Es).
    destruct (stmt_sectioned n o (gs_stmt _ _ _ _ Htodo)) as (g0 & Eg0 & Hg0).
    set (f := fun r => serial n todo' (mine i l ++ [(o, r)])) in *.
    assert (Eb : bindr (do_call n o) f = Get (fun c => bindr (g0 c) f)) by now rewrite Eg0.
    assert (Egg : forall c, c_proto c = c_proto c0 -> bindr (g0 c) f = Lock b).
    { intros c Hc. rewrite Eb in Eg. injection Eg as <-. exact (Hg c Hc). }
    destruct (Hg0 (c_proto c0)) as [(r & Hrr)|(b0 & Hb0 & Hl0 & Hs0)].
    { (* f r is a Lock: impossible, serial starts with Get or Ret *)
      specialize (Egg c0 eq_refl). rewrite (Hrr c0 eq_refl) in Egg. cbn [bindr] in Egg. unfold f in Egg.
      destruct todo' as [|o' todo'']; cbn [serial] in Egg; [discriminate|].
      assert (Hst' : statement_of o' <> None).
      { apply Hgs with (1 := nth_error_In _ _ Htodo). apply in_or_app. right. cbn. auto. }
      destruct (stmt_sectioned n o' Hst') as (g' & E' & _). rewrite E' in Egg. discriminate. }
    assert (b = bindr b0 f). { specialize (Egg c0 eq_refl). rewrite (Hl0 c0 eq_refl) in Egg. cbn in Egg. congruence. }
    subst b. destruct (Hs0 St N cs ss Hp1) as (c' & s' & r & Erun & Ep').
    exists (l ++ [(i, (o, r))]), (Some i), c', s'. cbn [sy_conn sy_net sy_locked sy_threads]. rewrite put_nth_length.
    split; [|split; [exact Ep'|split; [exact Hp2|split; [exact Hlen|split; [auto|]]]]].
    + split; [|intros y Hy; apply in_app_or in Hy as [Hy|[<-|[]]]; [now apply Hin0|exact Hlt]].
      unfold replay. rewrite !map_app. cbn [map fst snd]. apply serial_snoc with (1 := Hr).
      rewrite Eg0. cbn [exec]. rewrite (Hl0 cs Hp1). cbn [exec]. rewrite (run_sec_exec _ _ _ _ _ _ _ Erun). reflexivity.
    + intros j q Hj. destruct (Nat.eq_dec i j) as [<-|Hne].
      * rewrite (nth_put_same _ _ _ _ Hi) in Hj. injection Hj as <-. exists todo'.
        rewrite mine_snoc_same, map_app. cbn [map fst]. rewrite <- app_assoc. split; [exact Htodo|]. right. right.
        split; [reflexivity|]. split; [now apply inside_bindr|]. cbn [sy_conn sy_net]. rewrite Ec, Es.
        rewrite (run_sec_bindr _ _ _ _ _ _ _ _ Erun). reflexivity.
      * rewrite (nth_put_other _ _ _ _ Hne) in Hj. specialize (Hth j q Hj).
        eapply stands_other; [| | |exact Hth]; [apply mine_snoc_other; congruence| |discriminate].
        split; [discriminate|]. intro X. congruence.
  - (* in its section *)
    subst owner. destruct Hown as [Elock _]. rewrite Elock in Hst.
    destruct (inside_step N p _ _ _ _ _ Hin Hrun) as (c' & s' & b & p' & Et & Epr & [(-> & Hin' & Hrun')|(-> & -> & -> & ->)]);
      rewrite Et in Hst; injection Hst as <-.
    + exists l, (Some i), cs, ss. cbn [sy_conn sy_net sy_locked sy_threads]. rewrite put_nth_length.
      split; [split; [exact Hr|exact Hin0]|]. split; [exact Hp1|]. split; [congruence|]. split; [exact Hlen|]. split; [auto|].
      intros j q Hj. destruct (Nat.eq_dec i j) as [<-|Hne].
      * rewrite (nth_put_same _ _ _ _ Hi) in Hj. injection Hj as <-. exists todo. split; [exact Htodo|]. right. right. auto.
      * rewrite (nth_put_other _ _ _ _ Hne) in Hj. specialize (Hth j q Hj).
        eapply stands_other; [| | |exact Hth]; [reflexivity|tauto|]. intro X. congruence.
    + exists l, None, cs, ss. cbn [sy_conn sy_net sy_locked sy_threads]. rewrite put_nth_length.
      split; [split; [exact Hr|exact Hin0]|]. split; [exact Hp1|]. split; [exact Hp1|]. split; [exact Hlen|]. split; [auto|].
      intros j q Hj. destruct (Nat.eq_dec i j) as [<-|Hne].
      * rewrite (nth_put_same _ _ _ _ Hi) in Hj. injection Hj as <-. exists todo. split; [exact Htodo|]. left. split; [discriminate|reflexivity].
      * rewrite (nth_put_other _ _ _ _ Hne) in Hj. specialize (Hth j q Hj).
        eapply stands_other; [| | |exact Hth]; [reflexivity| |].
        -- split; [intro X; congruence|discriminate].
        -- intro X. congruence.
Qed.

Lemma schedule_invariant is : forall l x x', invariant l x -> schedule N is x = Some x' -> exists l', invariant l' x'.
Proof.
  induction is as [|i is IH]; intros l x x' H E; cbn in E; [injection E as <-; eauto|].
  destruct (sys_step N i x) as [x1|] eqn:E1; [|discriminate].
  destruct (step_invariant _ _ _ _ H E1) as (l1 & H1). eauto.
Qed.

(** Serializability: when all have finished, the connection and every result are what one goroutine
    making the same calls in some order would have got; each goroutine's calls keep their order. *)
Theorem serializable is x results : schedule N is (start n c0 s0 gs) = Some x -> finished x results ->
  exists order : log,
    exec N (serial n (map (fun x => fst (snd x)) order) []) c0 s0 = (sy_conn x, sy_net x, Ok (map snd order))
    /\ (forall y, In y order -> (fst y < length gs)%nat)
    /\ length results = length gs
    /\ forall i calls, nth_error gs i = Some calls ->
         nth_error results i = Some (mine i order) /\ map fst (mine i order) = calls.
Proof.
  intros Hs Hf. destruct (schedule_invariant _ _ _ _ start_invariant Hs) as (l & owner & cs & ss & [Hr Hin0] & Hp1 & Hp2 & Hlen & Hown & Hth).
  exists l. unfold finished in Hf. rewrite Hf, map_length in Hlen.
  assert (Hret : forall i r, nth_error results i = Some r ->
            owner <> Some i /\ r = mine i l /\ nth_error gs i = Some (map fst (mine i l))).
  { intros i r Hi. assert (Hi' : nth_error (sy_threads x) i = Some (Ret (Ok r))).
    { rewrite Hf, nth_error_map, Hi. reflexivity. }
    destruct (Hth i _ Hi') as (todo & Ht & [[H1 H2]|[[H1 (o & todo' & g & b & _ & _ & H2 & _)]|(H1 & H2 & H3)]]).
    - destruct todo as [|o todo']; cbn [serial] in H2.
      + injection H2 as ->. rewrite app_nil_r in Ht. auto.
      + destruct (stmt_sectioned n o (gs_stmt _ _ _ _ Ht)) as (g & Eg & _). rewrite Eg in H2. discriminate.
    - discriminate.
    - elim H2. }
  destruct owner as [i|].
  { destruct Hown as [_ Hi]. rewrite <- Hlen in Hi. destruct (nth_error results i) as [r|] eqn:E.
    - destruct (Hret i r E) as [H _]. now elim H.
    - apply nth_error_None in E. lia. }
  destruct Hown as (_ & Ec & Es). rewrite Ec, Es. split; [exact Hr|]. split; [exact Hin0|]. split; [exact Hlen|].
  intros i calls Hi. assert (Hlt : (i < length results)%nat). { rewrite Hlen. apply nth_error_Some. congruence. }
  destruct (nth_error results i) as [r|] eqn:E; [|apply nth_error_None in E; lia].
  destruct (Hret i r E) as (_ & -> & H). rewrite Hi in H. injection H as ->. auto.
Qed.

(** No deadlock: as long as somebody has not finished, somebody can move. *)
Theorem no_deadlock is x : schedule N is (start n c0 s0 gs) = Some x ->
  (exists results, finished x results) \/ exists i x', sys_step N i x = Some x'.
Proof.
  intros Hs. destruct (schedule_invariant _ _ _ _ start_invariant Hs) as (l & owner & cs & ss & [Hr Hin0] & Hp1 & Hp2 & Hlen & Hown & Hth).
  assert (Hmove : forall i p, nth_error (sy_threads x) i = Some p -> (exists r, p = Ret (Ok r)) \/
            (exists i x', sys_step N i x = Some x')).
  { intros i p Hi.
    assert (Hown' : forall j, owner = Some j -> exists i x', sys_step N i x = Some x').
    { intros j ->. destruct Hown as [Hlk Hj]. rewrite <- Hlen in Hj.
      destruct (nth_error (sy_threads x) j) as [q|] eqn:Ej; [|apply nth_error_None in Ej; lia].
      destruct (Hth j q Ej) as (todo & Ht & [[H1 H2]|[[H1 H2]|(H1 & H2 & H3)]]); try congruence.
      destruct (inside_step N q _ _ _ _ _ H2 H3) as (c' & s' & b & p' & Et & _).
      exists j. unfold sys_step. rewrite Ej, Hlk, Et. eauto. }
    destruct (Hth i p Hi) as (todo & Ht & [[H1 H2]|[[H1 (o & todo' & g & b & _ & _ & H2 & _)]|(H1 & H2 & H3)]]).
    - destruct todo as [|o todo']; cbn [serial] in H2; [eauto|]. right.
      destruct (stmt_sectioned n o (gs_stmt _ _ _ _ Ht)) as (g & Eg & _). rewrite Eg in H2.
      exists i. unfold sys_step. rewrite Hi, H2. cbn. eauto.
    - right. destruct owner as [j|]; [eauto|]. destruct Hown as [Hlk _].
      exists i. unfold sys_step. rewrite Hi, H2. cbn. rewrite Hlk. eauto.
    - right. eauto. }
  assert (forall ts : list prg, (forall i p, nth_error ts i = Some p -> (exists r, p = Ret (Ok r)) \/ (exists i x', sys_step N i x = Some x')) ->
     (exists results, ts = map (fun l => Ret (Ok l)) results) \/ exists i x', sys_step N i x = Some x') as L.
  { clear. induction ts as [|p ts IH]; intro H; [left; now exists []|].
    destruct (H 0%nat p eq_refl) as [(r & ->)|?]; [|auto].
    destruct IH as [(rs & ->)|?]; [|left; now exists (r :: rs)|auto]. intros i q Hi. apply (H (S i) q Hi). }
  destruct (L (sy_threads x)) as [H|H]; [|left; exact H|right; exact H].
  intros i p Hi. eauto.
Qed.
End Many.

(** ** On a conforming server *)

Lemma stmt_keeps {St} (N : net St) n o c s c' s' r : decent c -> statement_of o <> None ->
  exec N (do_call n o) c s = (c', s', r) ->
  decent c' /\ c_proto c' = c_proto c /\ c_mode c' = c_mode c /\ c_chunk c' = c_chunk c.
Proof.
  intros D Ho E. destruct (call_decent N n o c s c' s' r D E) as [D' _]. split; [exact D'|].
  assert (Hp : plain_call o) by (destruct o; cbn in *; auto; now elim Ho).
  pose proof (fine_call n o Hp St N c s (d_txs _ D)) as H. rewrite E in H. cbn in H.
  destruct H as (H1 & H2 & H3 & _). auto.
Qed.
Lemma clean_same c c' o : c_proto c' = c_proto c -> c_mode c' = c_mode c -> c_chunk c' = c_chunk c -> clean_call c o -> clean_call c' o.
Proof. intros H1 H2 H3. destruct o; cbn; unfold clean, run_msg; rewrite ?H1, ?H2, ?H3; auto. Qed.

Lemma serial_history {St} (N : net St) n : forall calls acc c s c' s' out,
  exec N (serial n calls acc) c s = (c', s', Ok out) -> decent c ->
  (forall o, In o calls -> statement_of o <> None /\ clean_call c o) ->
  exists l, out = acc ++ l /\ map fst l = calls
  /\ ((forall x, In x l -> snd x <> NoFuel) -> history N clean_call (c, s) l (c', s')).
Proof.
  induction calls as [|o calls IH]; intros acc c s c' s' out E D H.
  - cbn in E. injection E as <- <- <-. exists []. rewrite app_nil_r. repeat split. intros _. constructor.
  - cbn [serial] in E. rewrite exec_bindr in E. destruct (exec N (do_call n o) c s) as [[c1 s1] r] eqn:E1.
    destruct (H o (or_introl eq_refl)) as [Ho Hcl].
    destruct (stmt_keeps N n o c s c1 s1 r D Ho E1) as (D1 & K1 & K2 & K3).
    destruct (IH _ _ _ _ _ _ E D1) as (l & -> & Hl & Hh).
    { intros o' Hin. destruct (H o' (or_intror Hin)) as [H1 H2]. split; [exact H1|]. eapply clean_same; eassumption. }
    exists ((o, r) :: l). rewrite <- app_assoc. cbn. split; [reflexivity|]. split; [congruence|]. intro Hf.
    eapply history_cons with (c1, s1); [exact Hcl| |].
    + exists n. split; [exact E1|]. apply (Hf (o, r)). now left.
    + apply Hh. intros x Hx. apply Hf. now right.
Qed.

Lemma history_app {St} (N : net St) (C : conn -> call -> Prop) w l w1 l' w2 : history N C w l w1 -> history N C w1 l' w2 -> history N C w (l ++ l') w2.
Proof.
  intros H H'. induction H' as [x|x l' y o r z H' IH HC Hd]; [now rewrite app_nil_r|].
  rewrite app_assoc. eapply hist_snoc; eauto.
Qed.

Lemma stmt_served p P v c w s o c' w' r : linked P v c w s -> c_proto c = p -> sound v P -> v = codec p ->
  statement_of o <> None -> clean_call c o -> does (wired P) o (c, w) (c', w') r ->
  exists piece, s_done (w_srv w') = s_done (w_srv w) ++ piece /\ served p (o, r) piece.
Proof.
  intros L Hp HP Hv Hst Hcl Hd. destruct (statement_of o) as [[q ps]|] eqn:Ho; [|now elim Hst].
  destruct (wire_does P v HP o c w s c' w' r L Hcl Hd) as (s' & E & L').
  assert (Hw : s_done (w_srv w') = s_done s' /\ s_done (w_srv w) = s_done s).
  { rewrite (m_srv _ _ _ _ (l_mirrors _ _ _ _ _ L)), (m_srv _ _ _ _ (l_mirrors _ _ _ _ _ L')). split; reflexivity. }
  destruct Hw as [-> ->]. unfold served. cbn [fst snd]. rewrite Ho.
  assert (Hstay : forall e, s' = s -> r = Err e -> exists piece, s_done s' = s_done s ++ piece /\
    match piece with
      | [] => (exists e, r = Err e)
              \/ ordinary p q = false
                 /\ r = Ok (match o with CQuery _ _ _ | CTxQuery _ _ _ _ => ARows [] [] | _ => AMeta [] end)
      | [(st, verdict)] => ordinary p q = true /\ is_stmt (codec p) q ps st /\ told o verdict r
      | _ => False
      end).
  { intros e -> ->. exists []. rewrite app_nil_r. split; [reflexivity|]. left. eauto. }
  pose proof E as E0.
  rewrite (stmt_astep _ _ o c s q ps Ho) in E. unfold on_query, a_query in E.
  destruct (negb (multi_database (c_proto c)) && _) eqn:Edb; [injection E as <- <- <-; cbn in *; eauto|].
  destruct (c_closed c) eqn:Hc; [injection E as <- <- <-; cbn in *; eauto|].
  destruct (snd (encode _ _)) as [e|] eqn:Ee; [injection E as <- <- <-; cbn in *; eauto|].
  destruct (s_mode s) eqn:Hm; try (injection E as <- <- <-; cbn in *; eauto; fail).
  assert (G : goes_out c o).
  { assert (Hdb : multi_database (c_proto c) = true \/ database_of o = []).
    { destruct (multi_database (c_proto c)); [now left|right]. cbn in Edb. apply negb_false_iff in Edb. now apply bytes_eqb_eq in Edb. }
    assert (Hsend : sendable (codec (c_proto c)) (c_chunk c) (run_msg c q ps (database_of o) (in_tx o)) = true).
    { assert (Hc2 : clean c (run_msg c q ps (database_of o) (in_tx o)))
        by (destruct o; cbn in Ho; try discriminate; injection Ho as -> ->; exact Hcl).
      destruct Hc2 as [X|X]; [exact X|]. unfold refused in X. rewrite Ee in X. discriminate. }
    destruct o; cbn in Ho; try discriminate; injection Ho as <- <-; cbn; (split; [exact Hdb|exact Hsend]). }
  destruct (ordinary p q) eqn:Hq.
  - rewrite <- Hp in Hq. destruct (stmt_step (p_judge P) (p_looks P) o c s q ps (l_inv _ _ _ _ _ L) Hm Hc Ho G Hq) as [E' Hs].
    rewrite E0 in E'. injection E' as _ E2 E3. subst s' r. rewrite Hp in Hs.
    exists [(sent_stmt c s q ps (database_of o) (in_tx o), j_outcome (p_judge P) (s_next s))]. split; [reflexivity|].
    split; [reflexivity|]. split; [exact Hs|]. now apply told_rows with q ps.
  - assert (Hk : is_control s q <> None).
    { destruct (i_open _ _ (l_inv _ _ _ _ _ L) Hc) as (Hv' & _). unfold is_control. rewrite Hv', Hp. unfold ordinary in Hq.
      destruct p; cbn; try discriminate; destruct (control_of q); discriminate. }
    destruct (is_control s q) as [k|]; [|now elim Hk]. injection E as <- <- <-. exists []. rewrite app_nil_r. split.
    + unfold after_control. cbn. destruct (control_fits k s); [|reflexivity]. now destruct (j_outcome (p_judge P) (s_next s)).
    + cbn. destruct (control_error (p_judge P) k false s) as [e|]; [left; cbn; eauto|right]. split; [reflexivity|].
      destruct o; reflexivity.
Qed.

(** Each goroutine's results are the server's decisions on its own statements. *)
Theorem concurrent_own_results p P user password l c w n gs is x results :
  session clean_call p P user password l (c, w) ->
  (forall calls o, In calls gs -> In o calls -> statement_of o <> None /\ clean_call c o) ->
  schedule (wired P) is (start n c w gs) = Some x -> finished x results ->
  (forall rs y, In rs results -> In y rs -> snd y <> NoFuel) ->
  exists (order : list (nat * (call * res answer))) (pieces : list (list (stmt * outcome))),
    session clean_call p P user password (l ++ map snd order) (sy_conn x, sy_net x)
    /\ s_done (w_srv (sy_net x)) = s_done (w_srv w) ++ concat pieces
    /\ Forall2 (served p) (map snd order) pieces
    /\ length results = length gs
    /\ (forall y, In y order -> (fst y < length gs)%nat)
    /\ forall i calls, nth_error gs i = Some calls -> nth_error results i = Some (mine i order) /\ map fst (mine i order) = calls.
Proof.
  intros Hs Hgs Hsch Hfin Hnf.
  destruct (serializable (wired P) n c w gs (fun calls o H1 H2 => proj1 (Hgs calls o H1 H2)) is x results Hsch Hfin)
    as (order & E & Hin & Hlen & Hm).
  assert (D : decent c).
  { pose proof Hs as (_ & _ & _ & w0 & Ho & Hh). apply (history_decent _ _ _ _ _ Hh). eapply opens_decent, Ho. }
  assert (Hall : forall y, In y order -> exists rs, In rs results /\ In (snd y) rs).
  { intros y Hy. specialize (Hin y Hy). destruct (nth_error gs (fst y)) as [calls|] eqn:Eg; [|apply nth_error_None in Eg; lia].
    destruct (Hm _ _ Eg) as [H1 _]. exists (mine (fst y) order). split; [now apply nth_error_In in H1|].
    unfold mine. apply in_map. apply filter_In. split; [exact Hy|]. apply Nat.eqb_refl. }
  assert (Hord : forall o, In o (map (fun x => fst (snd x)) order) -> statement_of o <> None /\ clean_call c o).
  { intros o Ho. apply in_map_iff in Ho as (y & <- & Hy). specialize (Hin y Hy).
    destruct (nth_error gs (fst y)) as [calls|] eqn:Eg; [|apply nth_error_None in Eg; lia].
    destruct (Hm _ _ Eg) as [_ H2]. apply (Hgs calls); [now apply nth_error_In in Eg|]. rewrite <- H2. apply in_map.
    unfold mine. apply in_map. apply filter_In. split; [exact Hy|]. apply Nat.eqb_refl. }
  destruct (serial_history (wired P) n _ _ _ _ _ _ _ E D Hord) as (l' & El & _ & Hh). cbn in El. subst l'.
  assert (Hh' : history (wired P) clean_call (c, w) (map snd order) (sy_conn x, sy_net x)).
  { apply Hh. intros y Hy. apply in_map_iff in Hy as (z & <- & Hz). destruct (Hall z Hz) as (rs & H1 & H2). eauto. }
  clear Hh. assert (Hpieces : exists pieces, s_done (w_srv (sy_net x)) = s_done (w_srv w) ++ concat pieces
            /\ Forall2 (served p) (map snd order) pieces).
  { destruct (session_linked _ _ _ _ _ _ _ Hs) as (s & _ & L & Hp & HP & _).
    assert (Hst : forall y, In y (map snd order) -> statement_of (fst y) <> None).
    { intros y Hy. apply in_map_iff in Hy as (z & <- & Hz). apply Hord. apply in_map_iff. now exists z. }
    remember (map snd order) as lg eqn:Elg. clear Elg Hm Hord Hall E Hin.
    revert Hh' Hst. generalize (sy_conn x) (sy_net x). intros c' w' Hh'.
    remember (c, w) as a eqn:Ea. remember (c', w') as b eqn:Eb. revert c' w' Eb.
    induction Hh' as [a|a lg [c1 w1] o r b Hh' IH Hcl Hd]; intros c' w' Eb Hst; subst.
    - injection Eb as <- <-. exists []. cbn. rewrite app_nil_r. split; [reflexivity|constructor].
    - destruct (IH eq_refl Hs c1 w1 eq_refl) as (pieces & H1 & H2).
      { intros y Hy. apply Hst. apply in_or_app. now left. }
      destruct (wire_history P (codec (c_proto c)) HP c w s lg c1 w1 L Hh') as (s1 & St1 & L1).
      assert (Hp1 : c_proto c1 = c_proto c).
      { destruct (history_decent _ _ _ _ _ Hh' D) as [_ H]. cbn in H. apply H. }
      destruct (stmt_served (c_proto c) P (codec (c_proto c)) c1 w1 s1 o c' w' r L1 Hp1 HP eq_refl) as (piece & H3 & H4); auto.
      { apply (Hst (o, r)). apply in_or_app. right. now left. }
      exists (pieces ++ [piece]). rewrite concat_app. cbn. rewrite app_nil_r, app_assoc, H3, H1. split; [reflexivity|].
      apply Forall2_app; [exact H2|]. constructor; [exact H4|constructor]. }
  destruct Hpieces as (pieces & H1 & H2). exists order, pieces.
  refine (conj _ (conj H1 (conj H2 (conj Hlen (conj Hin Hm))))).
  destruct Hs as (Hc & Hu & Hpw & w0 & Ho & Hh0). refine (conj Hc (conj Hu (conj Hpw _))). exists w0. split; [exact Ho|].
  eapply history_app; eassumption.
Qed.

(** ** Every schedule comes to an end *)

Definition moves {St A} (N : net St) (x' x : sys St A) : Prop := exists i, sys_step N i x = Some x'.
Definition shorter {St A} (N : net St) (p' p : prog A) : Prop := exists c s b c' s' b', tstep N p c s b = Some (c', s', b', p').

Lemma shorter_wf {St A} (N : net St) (p : prog A) : Acc (shorter N) p.
Proof.
  induction p; constructor; intros y (c & s & b0 & c' & s' & b' & E); cbn [tstep] in E; try discriminate;
    try (destruct b0; [discriminate|]);
    try (match type of E with context [let '(_, _) := ?x in _] => destruct x as [? ?] end); injection E as; subst; auto.
Qed.
Definition one_shorter {St A} (N : net St) (ts' ts : list (prog A)) : Prop :=
  exists i p p', nth_error ts i = Some p /\ shorter N p' p /\ ts' = put_nth i p' ts.
Lemma one_shorter_wf {St A} (N : net St) (ts : list (prog A)) : Acc (one_shorter N) ts.
Proof.
  induction ts as [|p ts IH].
  - constructor. intros y (i & p & p' & H & _). destruct i; discriminate.
  - revert p. induction IH as [ts _ IHt]. intro p. induction (shorter_wf N p) as [p _ IHp].
    constructor. intros y (i & q & q' & H & Hs & ->). destruct i as [|i]; cbn in H |- *.
    + injection H as <-. now apply IHp.
    + apply IHt. exists i, q, q'. auto.
Qed.
Lemma moves_wf {St A} (N : net St) (x : sys St A) : Acc (moves N) x.
Proof.
  destruct x as [c s b ts]. revert c s b. induction (one_shorter_wf N ts) as [ts _ IH]. intros c s b.
  constructor. intros y (i & E). unfold sys_step in E. cbn [sy_threads sy_conn sy_net sy_locked] in E.
  destruct (nth_error ts i) as [p|] eqn:Ei; [|discriminate].
  destruct (tstep N p c s b) as [[[[c' s'] b'] p']|] eqn:Et; [|discriminate]. injection E as <-.
  apply IH. exists i, p, p'. split; [exact Ei|]. split; [|reflexivity]. exists c, s, b, c', s', b'. exact Et.
Qed.

Lemma schedule_app {St A} (N : net St) is js (x : sys St A) :
  schedule N (is ++ js) x = match schedule N is x with Some y => schedule N js y | None => None end.
Proof. revert x. induction is as [|i is IH]; intro x; cbn; [reflexivity|]. destruct (sys_step N i x); auto. Qed.

(** However the goroutines have been scheduled so far, they finish. *)
Theorem always_finishes {St} (N : net St) n c s gs is x :
  (forall calls o, In calls gs -> In o calls -> statement_of o <> None) ->
  schedule N is (start n c s gs) = Some x ->
  Acc (moves N) x /\ exists js y results, schedule N (is ++ js) (start n c s gs) = Some y /\ finished y results.
Proof.
  intros Hgs H. split; [apply moves_wf|]. revert is H. induction (moves_wf N x) as [x _ IH]. intros is H.
  destruct (no_deadlock N n c s gs Hgs is x H) as [(results & Hf)|(i & x' & E)].
  - exists [], x, results. rewrite app_nil_r. auto.
  - destruct (IH x' (ex_intro _ i E) (is ++ [i])) as (js & y & results & H1 & H2).
    { rewrite schedule_app, H. cbn. now rewrite E. }
    exists (i :: js), y, results. split; [|exact H2]. now rewrite <- app_assoc in H1.
Qed.
