(** Facts about the driver pool. *)
From Coq Require Import String ZArith List Bool Lia ZifyBool.
From Verif Require Import Bytes GoVal GoErr Messages DriverPool SpecDriver.
Import ListNotations.
Open Scope Z_scope.

(** ** Lists of objects *)
Lemma put_obj_length i o l : length (put_obj i o l) = length l.
Proof. revert i. induction l as [|x l IH]; intros [|i]; cbn; auto. Qed.
Definition none : pobj := mkObj 0 Invalid.
Lemma put_obj_same i o l : (i < length l)%nat -> nth i (put_obj i o l) none = o.
Proof. revert i. induction l as [|x l IH]; intros [|i] H; cbn in *; try lia; [reflexivity|]. apply IH. lia. Qed.
Lemma put_obj_other i j o l : i <> j -> nth j (put_obj i o l) none = nth j l none.
Proof. revert i j. induction l as [|x l IH]; intros [|i] [|j] H; cbn; try reflexivity; [now destruct H|]. apply IH. lia. Qed.
Lemma put_obj_map i o l : o_conn o = o_conn (nth i l none) -> map o_conn (put_obj i o l) = map o_conn l.
Proof.
  revert i. induction l as [|x l IH]; intros [|i] H; cbn in *; try reflexivity; [now rewrite H|]. now rewrite IH.
Qed.
Lemma put_obj_in i o l c : In c (map o_conn (put_obj i o l)) -> c = o_conn o \/ In c (map o_conn l).
Proof.
  revert i. induction l as [|x l IH]; intros [|i] H; cbn in *; [tauto|tauto| |].
  - destruct H as [H|H]; auto.
  - destruct H as [H|H]; auto. apply IH in H. tauto.
Qed.
Lemma put_obj_nodup i o l : NoDup (map o_conn l) -> ~ In (o_conn o) (map o_conn l) -> NoDup (map o_conn (put_obj i o l)).
Proof.
  revert i. induction l as [|x l IH]; intros [|i] H N; cbn in *; try constructor; inversion H; subst; auto.
  - intros X. apply put_obj_in in X. destruct X as [X|X]; [apply N; left; congruence|contradiction].
Qed.
Definition live (o : pobj) : bool := match o_state o with Invalid => false | _ => true end.
Definition one (b : bool) : nat := if b then 1%nat else O.
Lemma put_obj_live i o l : (i < length l)%nat -> (length (filter live (put_obj i o l)) + one (live (nth i l none)) = length (filter live l) + one (live o))%nat.
Proof.
  revert i. induction l as [|x l IH]; intros [|i] H; cbn in *; try lia.
  - destruct (live x), (live o); cbn; lia.
  - specialize (IH i ltac:(lia)). destruct (live x); cbn; lia.
Qed.
Lemma nth_conn l i j : NoDup (map o_conn l) -> (i < length l)%nat -> (j < length l)%nat -> o_conn (nth i l none) = o_conn (nth j l none) -> i = j.
Proof.
  intros H Hi Hj E. rewrite NoDup_nth with (d := o_conn none) in H. apply H; rewrite ?map_length; try assumption. now rewrite !(map_nth o_conn).
Qed.
Lemma conn_nth l c : In c (map o_conn l) <-> exists i, (i < length l)%nat /\ o_conn (nth i l none) = c.
Proof.
  split.
  - intros H. apply In_nth with (d := o_conn none) in H. destruct H as (i & Hi & E). rewrite map_length in Hi. rewrite map_nth in E. eauto.
  - intros (i & Hi & <-). apply in_map. now apply nth_In.
Qed.
Lemma find_obj_in c l i : find_obj c l = Some i -> In (c, i) l.
Proof. induction l as [|[c' j] l IH]; cbn; [discriminate|]. destruct (Nat.eqb_spec c' c) as [->|]; [intros [= ->]; now left|auto]. Qed.
Lemma find_obj_forget c c' l : c <> c' -> find_obj c (forget c' l) = find_obj c l.
Proof.
  intros H. induction l as [|[d j] l IH]; cbn; [reflexivity|]. destruct (Nat.eqb_spec d c') as [->|]; cbn.
  - destruct (Nat.eqb_spec c' c); [congruence|exact IH].
  - destruct (Nat.eqb_spec d c); [reflexivity|exact IH].
Qed.
Lemma find_obj_forgot c c' l : find_obj c l = None -> find_obj c (forget c' l) = None.
Proof.
  induction l as [|[k i] l IH]; cbn; [reflexivity|]. destruct (Nat.eqb k c) eqn:E; [discriminate|]. intros H. destruct (Nat.eqb k c'); cbn; [|rewrite E]; auto.
Qed.
Lemma forget_incl c l : incl (forget c l) l.
Proof. intros x H. unfold forget in H. apply filter_In in H. apply H. Qed.

(** ** The invariant *)

(** [fly]: objects in the middle of an operation; [tr]: what the pool did; [m]: the connections there
    have been; [h]: the connections held; [rf]: those that the pool refused to take back. *)
Record inv (max : Z) (fly : list nat) (g : opool) (tr : list nevent) (m h rf : list nat) : Prop := mkInv {
  i_conns : NoDup (map o_conn (q_objs g));
  i_made : incl (map o_conn (q_objs g)) m;
  i_all : forall c i, In (c, i) (q_all g) -> (i < length (q_objs g))%nat /\ In c m /\ (o_conn (obj g i) = c \/ ~ In c (map o_conn (q_objs g)) /\ In (NValid c false) tr);
  i_idle : NoDup (q_idle g) /\ forall i, In i (q_idle g) -> o_state (obj g i) = Idle /\ ~ In i fly;
  i_rest : forall i, match o_state (obj g i) with
                     | Idle => In i (q_idle g) \/ In i fly
                     | Allocated => In (o_conn (obj g i)) h \/ In (NValid (o_conn (obj g i)) false) tr \/ In (o_conn (obj g i)) rf \/ In i fly
                     | Returning => In i fly \/ In (NIdle (o_conn (obj g i)) Panic) tr \/ In (NIdle (o_conn (obj g i)) NoFuel) tr
                     | Invalid => ~ In i fly
                     end;
  i_held : NoDup h /\ forall c, In c h -> exists i, (i < length (q_objs g))%nat /\ o_conn (obj g i) = c /\ o_state (obj g i) = Allocated /\ ~ In i fly;
  i_count : q_count g = Z.of_nat (length (filter live (q_objs g)));
  i_max : 0 <= max -> q_count g <= max;
  i_trace : forall c, In (NMake (Ok c)) tr -> (exists i, (i < length (q_objs g))%nat /\ o_conn (obj g i) = c /\ o_state (obj g i) <> Invalid) \/ (exists r, In (NClose c r) tr) \/ In (NValid c false) tr;
  i_orig : (forall c, In c rf -> replacement c tr /\ In c m /\ find_obj c (q_all g) = None) /\ forall i, (i < length (q_objs g))%nat -> o_state (obj g i) <> Invalid -> find_obj (o_conn (obj g i)) (q_all g) = Some i \/ replacement (o_conn (obj g i)) tr
}.
Lemma same_trace (tr : list nevent) : exists new, tr = new ++ tr.
Proof. now exists []. Qed.
Lemma replaced_more c tr new : replacement c tr -> replacement c (new ++ tr).
Proof. intros (a & c' & b & ->). exists (new ++ a), c', b. now rewrite <- app_assoc. Qed.
Lemma replaced_deaths c tr : replacement c tr -> ~ no_deaths tr.
Proof. intros (a & c' & b & ->) H. apply (H c'). apply in_or_app. right. right. now left. Qed.
Lemma i_well max fly g tr m h rf : inv max fly g tr m h rf -> no_deaths tr -> rf = [] /\ forall i, (i < length (q_objs g))%nat -> o_state (obj g i) <> Invalid -> find_obj (o_conn (obj g i)) (q_all g) = Some i.
Proof.
  intros I H. destruct (i_orig _ _ _ _ _ _ _ I) as [A B]. split.
  - destruct rf as [|c rf]; [reflexivity|]. destruct (replaced_deaths _ _ (proj1 (A c (or_introl eq_refl))) H).
  - intros i Hi Hs. destruct (B i Hi Hs) as [X|X]; [exact X|]. destruct (replaced_deaths _ _ X H).
Qed.
Lemma obj_out g i : (length (q_objs g) <= i)%nat -> o_state (obj g i) = Invalid.
Proof. intros H. unfold obj. now rewrite nth_overflow. Qed.
Lemma obj_in g i : o_state (obj g i) <> Invalid -> (i < length (q_objs g))%nat.
Proof. intros H. destruct (Nat.lt_ge_cases i (length (q_objs g))) as [X|X]; [exact X|]. now apply obj_out in X. Qed.
Lemma obj_set_same i o g : (i < length (q_objs g))%nat -> obj (set_obj i o g) i = o.
Proof. intros H. unfold obj, set_obj. cbn. now apply put_obj_same. Qed.
Lemma obj_set_other i j o g : i <> j -> obj (set_obj i o g) j = obj g j.
Proof. intros H. unfold obj, set_obj. cbn. now apply put_obj_other. Qed.

Ltac parts := repeat match goal with |- _ /\ _ => split end.
Section Steps.
Variable max : Z.
Notation inv := (inv max).

(** More trace, without new connections. *)
Lemma inv_trace fly g tr m h rf tr' m' : inv fly g tr m h rf -> (exists new, tr' = new ++ tr) -> incl m m' ->
  (forall c, In (NMake (Ok c)) tr' -> In (NMake (Ok c)) tr) -> inv fly g tr' m' h rf.
Proof.
  intros I (new & Et) Hm Hn. assert (Ht : incl tr tr') by (rewrite Et; apply incl_appr, incl_refl). destruct I as [I1 I2 I3 I4 I5 I6 I7 I8 I9 I10]. constructor; auto.
  - eauto using incl_tran.
  - intros c i H. apply I3 in H. destruct H as (A & B & C). split; [exact A|]. split; [auto|]. destruct C as [C|[C D]]; auto.
  - intros i. specialize (I5 i). destruct (o_state (obj g i)); auto; [destruct I5 as [H|[H|[H|H]]]; auto|destruct I5 as [H|[H|H]]; auto].
  - intros c H. apply Hn in H. apply I9 in H. destruct H as [H|[[r H]|H]]; [now left|right; left; exists r; auto|auto].
  - destruct I10 as [A B]. rewrite Et. split; [intros c X; destruct (A c X) as (A1 & A2 & A3); auto using replaced_more|]. intros i Hi Hs. destruct (B i Hi Hs) as [X|X]; [now left|right; now apply replaced_more].
Qed.
(** An idle object is taken. *)
Lemma inv_take g tr m h rf i rest : inv [] g tr m h rf -> q_idle g = i :: rest -> inv [i] (set_idle rest g) tr m h rf /\ o_state (obj (set_idle rest g) i) = Idle.
Proof.
  intros I E. destruct I as [I1 I2 I3 I4 I5 I6 I7 I8 I9 I10]. rewrite E in *. destruct I4 as [ND I4]. inversion ND as [|x y Ni ND']; subst.
  assert (Hi : o_state (obj g i) = Idle) by (apply I4; now left). split; [|exact Hi].
  constructor; auto; cbn [set_idle q_objs q_all q_idle q_count].
  - split; [exact ND'|]. intros j Hj. split; [apply I4; now right|]. intros [->|[]]. contradiction.
  - intros j. change (obj (set_idle rest g) j) with (obj g j). specialize (I5 j). destruct (o_state (obj g j)) eqn:Es; auto.
    + destruct I5 as [[->|H]|H]; [right; now left|now left|destruct H].
    + destruct I5 as [H|[H|[H|[]]]]; auto.
    + destruct I5 as [[]|H]; auto.
    + intros [->|[]]. congruence.
  - destruct I6 as [A B]. split; [exact A|]. intros c Hc. destruct (B c Hc) as (j & J1 & J2 & J3 & _). exists j. repeat split; auto. intros [->|[]]. change (obj (set_idle rest g) j) with (obj g j) in *. congruence.
Qed.
(** An object in flight changes its state, or gets a new connection. *)
Lemma inv_set g tr m h rf i c s tr' m' : inv [i] g tr m h rf -> s <> Invalid ->
  (c = o_conn (obj g i) \/ In c m' /\ ~ In c m /\ exists tr0, tr = NValid (o_conn (obj g i)) false :: tr0 /\ tr' = NMake (Ok c) :: tr) ->
  o_state (obj g i) <> Invalid -> incl m m' -> (exists new, tr' = new ++ tr) -> (forall x, In (NMake (Ok x)) tr' -> In (NMake (Ok x)) tr \/ x = c) -> inv [i] (set_obj i (mkObj c s) g) tr' m' h rf.
Proof.
  intros I Hs Hc' Ho Hmm (new & Et) Hnew. assert (Htt : incl tr tr') by (rewrite Et; apply incl_appr, incl_refl). assert (Hi : (i < length (q_objs g))%nat) by now apply obj_in.
  assert (Hc : c = o_conn (obj g i) \/ In c m' /\ ~ In c (map o_conn (q_objs g)) /\ (In (NValid (o_conn (obj g i)) false) tr /\ replacement c tr') /\ (forall j, ~ In (c, j) (q_all g))).
  { destruct Hc' as [Hc|(A & B & tr0 & C & D)]; [now left|]. right. split; [exact A|]. split; [intros X; apply B; now apply (i_made _ _ _ _ _ _ _ I)|]. split; [|intros j X; apply B; now apply (i_all _ _ _ _ _ _ _ I) in X].
    split; [rewrite C; now left|]. exists [], (o_conn (obj g i)), tr0. now rewrite D, C. }
  clear Hc'. destruct I as [I1 I2 I3 I4 I5 I6 I7 I8 I9 I10].
  assert (M : forall x, In x (map o_conn (put_obj i (mkObj c s) (q_objs g))) -> x = c \/ In x (map o_conn (q_objs g))) by (intros x H; now apply put_obj_in in H).
  constructor; cbn [set_obj q_objs q_all q_idle q_count].
  - destruct Hc as [->|(A & B & _)]; [rewrite put_obj_map by reflexivity; exact I1|]. now apply put_obj_nodup.
  - intros x Hx. apply M in Hx. destruct Hx as [->|Hx]; [|now apply Hmm, I2]. destruct Hc as [->|(A & _)]; [|exact A]. apply Hmm, I2. apply conn_nth. now exists i.
  - intros x j H. destruct (I3 x j H) as (A & B & D). rewrite put_obj_length. split; [exact A|]. split; [now apply Hmm|].
    destruct Hc as [->|(Hm & Hn & Hd & Hk)].
    + rewrite put_obj_map by reflexivity. destruct D as [D|[D Dd]]; [|right; auto]. left. destruct (Nat.eq_dec i j) as [->|N]; [now rewrite obj_set_same|now rewrite obj_set_other].
    + destruct (Nat.eq_dec i j) as [->|N].
      * right. split; [|destruct D as [D|[_ D]]; [rewrite <- D; now apply Htt, Hd|auto]]. intros X. apply conn_nth in X. destruct X as (k & K1 & K2). rewrite put_obj_length in K1. destruct (Nat.eq_dec j k) as [->|N].
        -- rewrite put_obj_same in K2 by assumption. cbn in K2. subst x. now apply (Hk k).
        -- rewrite put_obj_other in K2 by assumption. destruct D as [D|[D _]]; [|apply D; apply conn_nth; eauto]. apply N. apply (nth_conn (q_objs g)); auto. unfold obj in D. fold none in D. congruence.
      * rewrite obj_set_other by assumption. destruct D as [D|[D Dd]]; [now left|]. right. split; [|auto]. intros X. apply M in X. destruct X as [->|X]; [now apply (Hk j)|contradiction].
  - destruct I4 as [A B]. split; [exact A|]. intros j Hj. destruct (B j Hj) as [B1 B2]. split; [|exact B2]. rewrite obj_set_other; [exact B1|]. intros ->. apply B2. now left.
  - intros j. destruct (Nat.eq_dec i j) as [->|N].
    + rewrite obj_set_same by assumption. cbn. destruct s; try (right; now left); try (right; right; right; now left); [left; now left|now destruct Hs].
    + rewrite obj_set_other by assumption. specialize (I5 j). destruct (o_state (obj g j)); auto; [destruct I5 as [H|[H|[H|H]]]; auto|destruct I5 as [H|[H|H]]; auto].
  - destruct I6 as [A B]. split; [exact A|]. intros x Hx. destruct (B x Hx) as (j & J1 & J2 & J3 & J4). exists j. rewrite put_obj_length.
    assert (N : i <> j) by (intros ->; apply J4; now left). rewrite obj_set_other by exact N. auto.
  - rewrite I7. pose proof (put_obj_live i (mkObj c s) (q_objs g) Hi) as L. assert (live (mkObj c s) = true) by (destruct s; try reflexivity; now destruct Hs).
    assert (live (nth i (q_objs g) none) = true) by (unfold live; change (nth i (q_objs g) none) with (obj g i); destruct (o_state (obj g i)); try reflexivity; now destruct Ho).
    rewrite H, H0 in L. cbn in L. lia.
  - exact I8.
  - intros x Hx. assert (D : x = c \/ In (NMake (Ok x)) tr) by (apply Hnew in Hx; tauto). destruct D as [->|D].
    { left. exists i. rewrite put_obj_length, obj_set_same by assumption. cbn. auto. }
    destruct (I9 x D) as [(j & J1 & J2 & J3)|[[r H]|H]]; [|right; left; exists r; auto|auto]. destruct (Nat.eq_dec i j) as [->|N].
    + destruct Hc as [->|(Hm & Hn & Hd & Hk)].
      * left. exists j. rewrite put_obj_length, obj_set_same by assumption. cbn. auto.
      * right. right. rewrite <- J2. now apply Htt, Hd.
    + left. exists j. rewrite put_obj_length, obj_set_other by assumption. auto.
  - destruct I10 as [A B]. split; [intros x X; destruct (A x X) as (A1 & A2 & A3); rewrite Et; auto using replaced_more|]. intros j Hj Hl. rewrite put_obj_length in Hj.
    destruct (Nat.eq_dec i j) as [->|N].
    + rewrite obj_set_same by assumption. cbn [o_conn]. destruct Hc as [->|(Hm & Hn & [_ Hd] & Hk)]; [|now right].
      destruct (B j Hj Ho) as [X|X]; [now left|right; rewrite Et; now apply replaced_more].
    + rewrite obj_set_other in * by assumption. destruct (B j Hj Hl) as [X|X]; [now left|right; rewrite Et; now apply replaced_more].
Qed.
(** A new object. *)
Lemma inv_new g tr m h rf c tr' m' : inv [] g tr m h rf -> ~ In c m -> In c m' -> incl m m' -> tr' = NMake (Ok c) :: tr ->
  (max <? 0) || (q_count g + 1 <=? max) = true ->
  inv [length (q_objs g)] (mkOPool (q_objs g ++ [mkObj c Idle]) ((c, length (q_objs g)) :: q_all g) (q_idle g) (q_count g + 1) (q_closed g) (q_waiting g)) tr' m' h rf.
Proof.
  intros I Hn Hc Hm -> Hx. destruct I as [I1 I2 I3 I4 I5 I6 I7 I8 I9 I10].
  set (g' := mkOPool _ _ _ _ _ _).
  assert (O : forall j, (j < length (q_objs g))%nat -> obj g' j = obj g j) by (intros j Hj; unfold obj, g'; cbn; now rewrite app_nth1).
  assert (On : obj g' (length (q_objs g)) = mkObj c Idle) by (unfold obj, g'; cbn; rewrite app_nth2, Nat.sub_diag by lia; reflexivity).
  assert (Oo : forall j, (length (q_objs g) < j)%nat -> o_state (obj g' j) = Invalid) by (intros j Hj; apply obj_out; unfold g'; cbn; rewrite app_length; cbn; lia).
  assert (Nc : ~ In c (map o_conn (q_objs g))) by (intros X; apply Hn; now apply I2).
  constructor; cbn [q_objs q_all q_idle q_count g']; fold g'.
  - rewrite map_app. cbn. rewrite <- (rev_involutive (map o_conn (q_objs g) ++ [c])). apply NoDup_rev. rewrite rev_app_distr. cbn. constructor; [now rewrite <- in_rev|now apply NoDup_rev].
  - rewrite map_app. intros x Hx'. apply in_app_or in Hx'. destruct Hx' as [H|[<-|[]]]; auto.
  - intros x j [E|H].
    + injection E as <- <-. rewrite app_length. cbn [length]. split; [lia|]. split; [exact Hc|]. left. now rewrite On.
    + destruct (I3 x j H) as (A & B & D). rewrite app_length. cbn [length]. split; [lia|]. split; [auto|]. rewrite O by exact A. destruct D as [D|[D Dd]]; [now left|].
      right. split; [|now right]. rewrite map_app. intros X. apply in_app_or in X. destruct X as [X|[X|[]]]; [contradiction|]. cbn in X. subst. now apply Hn.
  - destruct I4 as [A B]. split; [exact A|]. intros j Hj. destruct (B j Hj) as [B1 B2]. fold g'. assert (Hl : (j < length (q_objs g))%nat) by (apply obj_in; congruence). rewrite O by exact Hl. split; [exact B1|]. intros [X|[]]. lia.
  - intros j. fold g'. destruct (Nat.lt_trichotomy j (length (q_objs g))) as [L|[->|L]].
    + rewrite O by exact L. specialize (I5 j). destruct (o_state (obj g j)); auto.
      * destruct I5 as [H|[]]. now left.
      * destruct I5 as [H|[H|[H|[]]]]; auto. right. left. now right.
      * destruct I5 as [[]|[H|H]]; right; [left|right]; now right.
      * intros [X|[]]. lia.
    + rewrite On. cbn. right. now left.
    + rewrite Oo by exact L. intros [X|[]]. lia.
  - destruct I6 as [A B]. split; [exact A|]. intros x Hx'. destruct (B x Hx') as (j & J1 & J2 & J3 & _). exists j. fold g'. rewrite O by exact J1. rewrite app_length. cbn [length]. repeat split; auto; [lia|]. intros [X|[]]. lia.
  - rewrite filter_app, app_length, I7. cbn. lia.
  - intros H. lia.
  - intros x [E|H].
    + injection E as <-. left. exists (length (q_objs g)). fold g'. rewrite On, app_length. cbn. repeat split; [lia|discriminate].
    + destruct (I9 x H) as [(j & J1 & J2 & J3)|[(r & X)|X]]; [left|right; left|right; right].
      * exists j. fold g'. rewrite O by exact J1. rewrite app_length. cbn [length]. repeat split; auto. lia.
      * exists r. now right.
      * now right.
  - destruct I10 as [A B]. split.
    { intros x X. destruct (A x X) as (A1 & A2 & A3). split; [now apply (replaced_more _ _ [_])|]. split; [auto|]. cbn [find_obj]. destruct (Nat.eqb_spec c x) as [->|]; [contradiction|exact A3]. }
    intros j Hj Hl. fold g' in Hl |- *.
    rewrite app_length in Hj. cbn in Hj. destruct (Nat.eq_dec j (length (q_objs g))) as [->|N].
    + left. rewrite On. cbn. now rewrite Nat.eqb_refl.
    + rewrite O in * by lia. cbn [find_obj]. destruct (Nat.eqb_spec c (o_conn (obj g j))) as [E|E]; [exfalso; apply Nc; rewrite E; apply conn_nth; exists j; split; [lia|reflexivity]|]. destruct (B j) as [X|X]; [lia|exact Hl|now left|right; now apply (replaced_more _ _ [_])].
Qed.
(** An object in flight lands. *)
Lemma inv_to_idle g tr m h rf i : inv [i] g tr m h rf -> o_state (obj g i) = Idle -> inv [] (set_idle (i :: q_idle g) g) tr m h rf.
Proof.
  intros I Hi. destruct I as [I1 I2 I3 I4 I5 I6 I7 I8 I9 I10]. constructor; auto; cbn [set_idle q_objs q_all q_idle q_count].
  - destruct I4 as [A B]. split; [constructor; [|exact A]|].
    + intros X. destruct (B i X) as [_ Y]. apply Y. now left.
    + intros j [<-|Hj]; [split; [exact Hi|intros []]|]. split; [now apply B|intros []].
  - intros j. change (obj (set_idle (i :: q_idle g) g) j) with (obj g j). specialize (I5 j). destruct (o_state (obj g j)) eqn:Es; auto.
    + left. destruct I5 as [H|[->|[]]]; [now right|now left].
    + destruct I5 as [H|[H|[H|[->|[]]]]]; auto. congruence.
    + destruct I5 as [[->|[]]|H]; [congruence|auto].
  - destruct I6 as [A B]. split; [exact A|]. intros c Hc. destruct (B c Hc) as (j & J1 & J2 & J3 & _). exists j. repeat split; auto.
Qed.
Lemma inv_to_lent g tr m h rf i : inv [i] g tr m h rf -> o_state (obj g i) = Allocated ->
  ~ In (o_conn (obj g i)) h /\ inv [] g tr m (o_conn (obj g i) :: h) rf.
Proof.
  intros I Hi. destruct I as [I1 I2 I3 I4 I5 I6 I7 I8 I9 I10].
  assert (Li : (i < length (q_objs g))%nat) by (apply obj_in; congruence).
  assert (N : ~ In (o_conn (obj g i)) h).
  { intros X. destruct I6 as [_ B]. destruct (B _ X) as (j & J1 & J2 & _ & J4). apply J4. left. apply (nth_conn (q_objs g)); auto. }
  split; [exact N|]. constructor; auto.
  - destruct I4 as [A B]. split; [exact A|]. intros j Hj. split; [now apply B|intros []].
  - intros j. specialize (I5 j). destruct (o_state (obj g j)) eqn:Es; auto.
    + destruct I5 as [H|[->|[]]]; [auto|congruence].
    + destruct I5 as [H|[H|[H|[->|[]]]]]; [left; now right|auto|auto|left; now left].
    + destruct I5 as [[->|[]]|H]; [congruence|auto].
  - destruct I6 as [A B]. split; [now constructor|]. intros c [<-|Hc]; [exists i; repeat split; auto|]. destruct (B c Hc) as (j & J1 & J2 & J3 & _). exists j. auto.
Qed.
(** An object in flight that was found dead stays allocated. *)
Lemma inv_to_lost g tr m h rf i : inv [i] g tr m h rf -> o_state (obj g i) = Allocated -> In (NValid (o_conn (obj g i)) false) tr -> inv [] g tr m h rf.
Proof.
  intros I Hi Hd. destruct I as [I1 I2 I3 I4 I5 I6 I7 I8 I9 I10]. constructor; auto.
  - destruct I4 as [A B]. split; [exact A|]. intros j Hj. split; [now apply B|intros []].
  - intros j. specialize (I5 j). destruct (o_state (obj g j)) eqn:Es; auto.
    + destruct I5 as [H|[->|[]]]; [auto|congruence].
    + destruct I5 as [H|[H|[H|[->|[]]]]]; auto.
    + destruct I5 as [[->|[]]|H]; [congruence|auto].
  - destruct I6 as [A B]. split; [exact A|]. intros c Hc. destruct (B c Hc) as (j & J1 & J2 & J3 & _). exists j. auto.
Qed.
Lemma remove_same i l : ~ In i l -> remove Nat.eq_dec i l = l.
Proof. intros H. now apply notin_remove. Qed.
(** An object in flight is destroyed. *)
Lemma inv_destroyed g tr m h rf i : inv [i] g tr m h rf -> o_state (obj g i) <> Invalid ->
  (exists r, In (NClose (o_conn (obj g i)) r) tr) \/ In (NValid (o_conn (obj g i)) false) tr ->
  inv [] (mkOPool (put_obj i (mkObj (o_conn (obj g i)) Invalid) (q_objs g)) (forget (o_conn (obj g i)) (q_all g))
           (remove Nat.eq_dec i (q_idle g)) (q_count g - 1) (q_closed g) (q_waiting g)) tr m h rf.
Proof.
  intros I Ho Hd. destruct I as [I1 I2 I3 I4 I5 I6 I7 I8 I9 I10].
  assert (Hi : (i < length (q_objs g))%nat) by now apply obj_in.
  assert (Ni : ~ In i (q_idle g)) by (intros X; apply I4 in X; destruct X as [_ X]; apply X; now left).
  rewrite (remove_same i _ Ni). set (o := mkObj (o_conn (obj g i)) Invalid). set (g' := mkOPool _ _ _ _ _ _).
  assert (Os : obj g' i = o) by (unfold obj, g'; cbn; now apply put_obj_same).
  assert (Oo : forall j, i <> j -> obj g' j = obj g j) by (intros j N; unfold obj, g'; cbn; now apply put_obj_other).
  assert (M : map o_conn (put_obj i o (q_objs g)) = map o_conn (q_objs g)) by (apply put_obj_map; reflexivity).
  constructor; cbn [q_objs q_all q_idle q_count g']; fold g'; rewrite ?M, ?put_obj_length.
  - exact I1.
  - exact I2.
  - intros c j H. apply forget_incl in H. destruct (I3 c j H) as (A & B & D). split; [exact A|]. split; [exact B|]. fold g'.
    destruct (Nat.eq_dec i j) as [->|N]; [rewrite Os; exact D|rewrite Oo by exact N; exact D].
  - destruct I4 as [A B]. split; [exact A|]. intros j Hj. fold g'. rewrite Oo by (intros ->; contradiction). split; [now apply B|intros []].
  - intros j. fold g'. destruct (Nat.eq_dec i j) as [->|N]; [rewrite Os; cbn; tauto|]. rewrite Oo by exact N. specialize (I5 j). destruct (o_state (obj g j)); auto.
    + destruct I5 as [H|[->|[]]]; [auto|now destruct N].
    + destruct I5 as [H|[H|[H|[->|[]]]]]; auto. now destruct N.
    + destruct I5 as [[->|[]]|H]; [now destruct N|auto].
  - destruct I6 as [A B]. split; [exact A|]. intros c Hc. destruct (B c Hc) as (j & J1 & J2 & J3 & J4). exists j. rewrite Oo by (intros ->; apply J4; now left). auto.
  - pose proof (put_obj_live i o (q_objs g) Hi) as L. assert (live (nth i (q_objs g) none) = true) by (unfold live; change (nth i (q_objs g) none) with (obj g i); destruct (o_state (obj g i)); try reflexivity; now destruct Ho).
    rewrite H in L. cbn in L. lia.
  - intros H. specialize (I8 H). lia.
  - intros c Hc. destruct (I9 c Hc) as [(j & J1 & J2 & J3)|H]; [|now right]. destruct (Nat.eq_dec i j) as [->|N].
    + right. rewrite <- J2. exact Hd.
    + left. exists j. fold g'. rewrite Oo by exact N. auto.
  - destruct I10 as [A B]. split; [intros x X; destruct (A x X) as (A1 & A2 & A3); auto using find_obj_forgot|]. intros j Hj Hl. fold g' in Hl |- *.
    destruct (Nat.eq_dec i j) as [->|N]; [rewrite Os in Hl; now destruct Hl|]. rewrite Oo in * by exact N. rewrite find_obj_forget; [now apply B|].
    intros E. apply N. symmetry. apply (nth_conn (q_objs g)); auto.
Qed.
Lemma in_drop c x l : In x (drop c l) <-> In x l /\ x <> c.
Proof.
  unfold drop. rewrite filter_In. destruct (Nat.eqb_spec x c); cbn; intuition congruence.
Qed.
(** Making it idle did not come to an end. *)
Lemma inv_to_stuck g tr m h rf i : inv [i] g tr m h rf -> o_state (obj g i) = Returning ->
  In (NIdle (o_conn (obj g i)) Panic) tr \/ In (NIdle (o_conn (obj g i)) NoFuel) tr -> inv [] g tr m h rf.
Proof.
  intros I Hi Hd. destruct I as [I1 I2 I3 I4 I5 I6 I7 I8 I9 I10]. constructor; auto.
  - destruct I4 as [A B]. split; [exact A|]. intros j Hj. split; [now apply B|intros []].
  - intros j. specialize (I5 j). destruct (o_state (obj g j)) eqn:Es; auto.
    + destruct I5 as [H|[->|[]]]; [auto|congruence].
    + destruct I5 as [H|[H|[H|[->|[]]]]]; auto. congruence.
    + destruct I5 as [[->|[]]|H]; auto.
  - destruct I6 as [A B]. split; [exact A|]. intros c Hc. destruct (B c Hc) as (j & J1 & J2 & J3 & _). exists j. auto.
Qed.
(** A connection held is given back. *)
Lemma inv_take_back g tr m h rf c i : inv [] g tr m h rf -> In c h -> find_obj c (q_all g) = Some i ->
  o_conn (obj g i) = c /\ o_state (obj g i) = Allocated /\ inv [i] g tr m (drop c h) rf.
Proof.
  intros I Hc Hf. destruct I as [I1 I2 I3 I4 I5 I6 I7 I8 I9 I10].
  destruct I6 as [A B]. destruct (B c Hc) as (k & K1 & K2 & K3 & _). apply find_obj_in in Hf. destruct (I3 _ _ Hf) as (F1 & F2 & F3).
  assert (E : o_conn (obj g i) = c) by (destruct F3 as [F|[F _]]; [exact F|]; exfalso; apply F; apply conn_nth; eauto).
  assert (k = i) by (apply (nth_conn (q_objs g)); auto; unfold obj in *; fold none in *; congruence). subst k.
  parts; auto. constructor; auto.
  - destruct I4 as [C D]. split; [exact C|]. intros j Hj. destruct (D j Hj) as [D1 D2]. split; [exact D1|]. intros [<-|[]]. congruence.
  - intros j. specialize (I5 j). destruct (o_state (obj g j)) eqn:Es; auto.
    + destruct I5 as [H|[]]; auto.
    + destruct (Nat.eq_dec i j) as [->|Nj]; [right; right; right; now left|]. destruct I5 as [H|[H|[H|[]]]]; auto. left. apply in_drop. split; [exact H|]. intros X. apply Nj. apply (nth_conn (q_objs g)); auto; [apply obj_in; congruence|]. unfold obj in *; fold none in *; congruence.
    + destruct I5 as [[]|H]; auto.
    + intros [<-|[]]. congruence.
  - split; [now apply NoDup_filter|]. intros x Hx. apply in_drop in Hx. destruct Hx as [Hx Hn]. destruct (B x Hx) as (j & J1 & J2 & J3 & _). exists j. parts; auto. intros [<-|[]]. congruence.
Qed.
(** A connection held is given back and refused. *)
Lemma inv_refuse g tr m h rf c : inv [] g tr m h rf -> In c h -> find_obj c (q_all g) = None -> inv [] g tr m (drop c h) (c :: rf).
Proof.
  intros I Hc Hf. destruct I as [I1 I2 I3 I4 I5 I6 I7 I8 I9 I10]. destruct I6 as [A B].
  constructor; auto.
  - intros j. specialize (I5 j). destruct (o_state (obj g j)) eqn:Es; auto.
    destruct I5 as [H|[H|[H|[]]]]; auto; [|right; right; left; now right].
    destruct (Nat.eq_dec (o_conn (obj g j)) c) as [->|X]; [right; right; left; now left|]. left. now apply in_drop.
  - split; [now apply NoDup_filter|]. intros x Hx. apply in_drop in Hx. destruct Hx as [Hx _]. destruct (B x Hx) as (j & J1 & J2 & J3 & J4). exists j. auto.
  - destruct I10 as [X Y]. split; [|exact Y]. intros x [<-|Hx]; [|now apply X]. destruct (B c Hc) as (j & J1 & J2 & J3 & J4).
    split; [|split; [apply I2; apply conn_nth; eauto|exact Hf]]. destruct (Y j J1) as [Z|Z]; [congruence| |now rewrite J2 in Z]. rewrite J2, Hf in Z. discriminate.
Qed.
Lemma inv_waiting fly g tr m h rf b : inv fly g tr m h rf -> inv fly (set_waiting b g) tr m h rf.
Proof. intros I. destruct I as [I1 I2 I3 I4 I5 I6 I7 I8 I9 I10]. now constructor. Qed.
End Steps.

(** ** The operations *)
Section Ops.
Context {W : Type}.
Variables (N : net W) (made : W -> list nat) (max : Z).
Hypothesis HF : fresh_net N made.
Notation WN := (watch_net N).
Definition invw (fly : list nat) (g : opool) (w : W * list nevent) (h rf : list nat) : Prop := inv max fly g (snd w) (made (fst w)) h rf.

Lemma valid_spec c w w' b : n_valid WN c w = (w', b) -> snd w' = NValid c b :: snd w /\ incl (made (fst w)) (made (fst w')).
Proof.
  unfold watch_net. cbn [n_valid]. destruct (n_valid N c (fst w)) as [w1 b1] eqn:E. intros [= <- <-]. cbn. split; [reflexivity|]. pose proof (fn_valid _ _ HF c (fst w)) as H. now rewrite E in H.
Qed.
Lemma close_spec c w w' r : n_close WN c w = (w', r) -> snd w' = NClose c r :: snd w /\ incl (made (fst w)) (made (fst w')).
Proof.
  unfold watch_net. cbn [n_close]. destruct (n_close N c (fst w)) as [w1 b1] eqn:E. intros [= <- <-]. cbn. split; [reflexivity|]. pose proof (fn_close _ _ HF c (fst w)) as H. now rewrite E in H.
Qed.
Lemma idle_spec c w w' r : n_idle WN c w = (w', r) -> snd w' = NIdle c r :: snd w /\ incl (made (fst w)) (made (fst w')).
Proof.
  unfold watch_net. cbn [n_idle]. destruct (n_idle N c (fst w)) as [w1 b1] eqn:E. intros [= <- <-]. cbn. split; [reflexivity|]. pose proof (fn_idle _ _ HF c (fst w)) as H. now rewrite E in H.
Qed.
Lemma make_spec w w' r : n_make WN w = (w', r) -> snd w' = NMake r :: snd w /\ incl (made (fst w)) (made (fst w')) /\ forall c, r = Ok c -> ~ In c (made (fst w)) /\ In c (made (fst w')).
Proof.
  unfold watch_net. cbn [n_make]. destruct (n_make N (fst w)) as [w1 b1] eqn:E. intros [= <- <-]. cbn. split; [reflexivity|]. pose proof (fn_make _ _ HF (fst w)) as H. rewrite E in H. split; [exact H|]. intros c ->. exact (fn_new _ _ HF _ _ _ E).
Qed.
Lemma invw_more fly g w h rf w' e : invw fly g w h rf -> snd w' = e :: snd w -> incl (made (fst w)) (made (fst w')) -> (forall c, e <> NMake (Ok c)) -> invw fly g w' h rf.
Proof.
  intros I E Hm He. eapply inv_trace; [exact I|now exists [e]|exact Hm|]. intros c H. rewrite E in H. destruct H as [H|H]; [now destruct (He c)|exact H].
Qed.
(** Traces only grow. *)
Definition after (w w' : W * list nevent) : Prop := incl (snd w) (snd w').
Lemma after_refl w : after w w.
Proof. apply incl_refl. Qed.
Lemma after_cons (w w' : W * list nevent) e : snd w' = e :: snd w -> after w w'.
Proof. intros E. unfold after. rewrite E. now apply incl_tl, incl_refl. Qed.
Lemma after_trans w1 w2 w3 : after w1 w2 -> after w2 w3 -> after w1 w3.
Proof. unfold after. eauto using incl_tran. Qed.

Lemma destroy_step i g w h rf g' w' r : invw [i] g w h rf -> o_state (obj g i) <> Invalid -> destroy WN i g w = (g', w', r) ->
  invw [] g' w' h rf /\ after w w' /\ q_idle g' = q_idle g /\ q_closed g' = q_closed g /\ q_waiting g' = q_waiting g.
Proof.
  intros I Ho E. unfold destroy, destroy_object in E.
  assert (Ni : ~ In i (q_idle g)) by (intros X; apply (i_idle _ _ _ _ _ _ _ I) in X; destruct X as [_ X]; apply X; now left).
  destruct (n_valid WN (o_conn (obj g i)) w) as [w1 b] eqn:Ev. destruct (valid_spec _ _ _ _ Ev) as [T1 M1].
  assert (I1 : invw [i] g w1 h rf) by (eapply invw_more; eauto; discriminate).
  destruct b.
  - destruct (n_close WN (o_conn (obj g i)) w1) as [w2 r2] eqn:Ec. destruct (close_spec _ _ _ _ Ec) as [T2 M2].
    assert (I2 : invw [i] g w2 h rf) by (eapply invw_more; eauto; discriminate).
    injection E as <- <- <-. split; [|split; [eapply after_trans; eapply after_cons; eassumption|cbn; now rewrite (remove_same i _ Ni)]].
    apply inv_destroyed; [exact I2|exact Ho|]. left. exists r2. rewrite T2. now left.
  - injection E as <- <- <-. split; [|split; [eapply after_cons; eassumption|cbn; now rewrite (remove_same i _ Ni)]].
    apply inv_destroyed; [exact I1|exact Ho|]. right. rewrite T1. now left.
Qed.
Lemma create_step g w h rf g' w' r : invw [] g w h rf -> create WN max g w = (g', w', r) ->
  after w w' /\ q_idle g' = q_idle g /\ q_closed g' = q_closed g /\ q_waiting g' = q_waiting g /\
  match r with
  | Ok (Some i) => invw [i] g' w' h rf /\ o_state (obj g' i) = Idle /\ In (NMake (Ok (o_conn (obj g' i)))) (snd w')
  | Ok None => invw [] g' w' h rf /\ 0 <= max < q_count g' + 1 /\ g' = g
  | Err e => invw [] g' w' h rf /\ g' = g /\ In (NMake (Err e)) (snd w')
  | Panic => invw [] g' w' h rf /\ g' = g /\ In (NMake Panic) (snd w')
  | NoFuel => invw [] g' w' h rf /\ g' = g /\ In (NMake NoFuel) (snd w')
  end.
Proof.
  intros I E. unfold create in E. destruct ((-1 <? max) && (max <? q_count g + 1)) eqn:C.
  { injection E as <- <- <-. split; [apply after_refl|]. split; [reflexivity|]. split; [reflexivity|]. split; [reflexivity|]. split; [exact I|]. split; [lia|reflexivity]. }
  destruct (n_make WN w) as [w1 [c|e| |]] eqn:Em; injection E as <- <- <-; destruct (make_spec _ _ _ Em) as (T & M & F);
    (split; [eapply after_cons; eassumption|]); (split; [reflexivity|]); (split; [reflexivity|]); (split; [reflexivity|]).
  - destruct (F c eq_refl) as [F1 F2]. split; [|split].
    + eapply inv_new; eauto. lia.
    + unfold obj. cbn. now rewrite app_nth2, Nat.sub_diag by lia.
    + unfold obj. cbn. rewrite app_nth2, Nat.sub_diag by lia. cbn. rewrite T. now left.
  - split; [eapply invw_more; eauto; discriminate|]. split; [reflexivity|]. rewrite T. now left.
  - split; [eapply invw_more; eauto; discriminate|]. split; [reflexivity|]. rewrite T. now left.
  - split; [eapply invw_more; eauto; discriminate|]. split; [reflexivity|]. rewrite T. now left.
Qed.
Lemma ensure_idle_step g w h rf g' w' : invw [] g w h rf -> ensure_idle WN max g w = (g', w') ->
  invw [] g' w' h rf /\ after w w' /\ q_closed g' = q_closed g /\ q_waiting g' = q_waiting g /\ (q_closed g = true -> q_idle g' = q_idle g).
Proof.
  intros I E. unfold ensure_idle in E. destruct (q_closed g || negb (q_waiting g)) eqn:C; [injection E as <- <-; auto using after_refl|].
  destruct (q_idle g) as [|i0 rest] eqn:Ei; [|injection E as <- <-; auto using after_refl].
  destruct (create WN max g w) as [[g1 w1] r] eqn:Ec. destruct (create_step _ _ _ _ _ _ _ I Ec) as (A & B & C1 & C2 & D).
  assert (Nc : q_closed g = false) by (destruct (q_closed g); [discriminate|reflexivity]).
  destruct r as [[i|]|e| |]; injection E as <- <-; (split; [|split; [exact A|split; [exact C1|split; [exact C2|congruence]]]]); try apply D.
  destruct D as (D1 & D2 & _). replace (set_idle [i] g1) with (set_idle (i :: q_idle g1) g1) by (rewrite B, Ei; reflexivity). now apply inv_to_idle.
Qed.
Lemma clear_step l : forall g w h rf g' w', invw [] g w h rf -> q_idle g = l -> clear WN l g w = (g', w') ->
  invw [] g' w' h rf /\ after w w' /\ q_idle g' = [] /\ q_closed g' = q_closed g /\ q_waiting g' = q_waiting g.
Proof.
  induction l as [|i l IH]; intros g w h rf g' w' I El E; cbn [clear] in E.
  { injection E as <- <-. auto using after_refl. }
  destruct (inv_take _ _ _ _ _ _ _ _ I El) as [I1 S1].
  destruct (destroy WN i (set_idle l g) w) as [[g1 w1] r1] eqn:Ed.
  destruct (destroy_step _ _ _ _ _ _ _ _ I1 ltac:(congruence) Ed) as (I2 & A & B & C & D).
  destruct (IH _ _ _ _ _ _ I2 B E) as (I3 & A3 & B3 & C3 & D3). parts; try tauto; [eapply after_trans; eassumption| |]; rewrite ?C3, ?D3, ?C, ?D; reflexivity.
Qed.
Lemma close_step g w h rf g' w' : invw [] g w h rf -> q_closed g = false -> close_object_pool WN g w = (g', w') ->
  invw [] g' w' h rf /\ after w w' /\ q_idle g' = [] /\ q_closed g' = true /\ q_waiting g' = q_waiting g.
Proof.
  intros I Hc E. unfold close_object_pool in E. rewrite Hc in E. cbn zeta in E.
  eapply clear_step in E; [|destruct I as [I1 I2 I3 I4 I5 I6 I7 I8 I9 I10]; constructor; eassumption|reflexivity]. exact E.
Qed.

(** What is true of the object that is about to be lent. *)
Definition ready (i : nat) (c : nat) (g : opool) : Prop := o_state (obj g i) = Allocated /\ o_conn (obj g i) = c.
Lemma borrow_step fuel : forall g w h rf g' w' r, invw [] g w h rf -> borrow_object WN max fuel g w = (g', w', r) ->
  after w w' /\ q_closed g' = q_closed g /\ q_waiting g' = q_waiting g /\
  match r with
  | BLent c => exists i, invw [i] g' w' h rf /\ ready i c g'
  | BBlock => invw [] g' w' h rf /\ q_idle g' = [] /\ 0 <= max < q_count g' + 1
  | _ => invw [] g' w' h rf
  end.
Proof.
  induction fuel as [|fuel IH]; intros g w h rf g' w' r I E; cbn [borrow_object] in E; cbv zeta in E.
  { injection E as <- <- <-. auto using after_refl. }
  assert (T : forall i created g1 w1 g' w' r, invw [i] g1 w1 h rf -> o_state (obj g1 i) = Idle -> after w w1 -> q_closed g1 = q_closed g -> q_waiting g1 = q_waiting g ->
    match activate_object WN (o_conn (obj (set_obj i (mkObj (o_conn (obj g1 i)) Allocated) g1) i)) w1 with
    | (w, Ok c) =>
        let '(w, valid) := n_valid WN c w in
        if valid then (set_obj i (mkObj c Allocated) (set_obj i (mkObj (o_conn (obj g1 i)) Allocated) g1), w, BLent c)
        else let '(g, w, _) := destroy WN i (set_obj i (mkObj c Allocated) (set_obj i (mkObj (o_conn (obj g1 i)) Allocated) g1)) w in
             if created : bool then (g, w, BErr (EIO 331)) else borrow_object WN max fuel g w
    | (w, Err e) =>
        let '(g, w, _) := destroy WN i (set_obj i (mkObj (o_conn (obj g1 i)) Allocated) g1) w in
        if created then (g, w, BErr (EIO 330)) else borrow_object WN max fuel g w
    | (w, Panic) => (set_obj i (mkObj (o_conn (obj g1 i)) Allocated) g1, w, BPanic)
    | (w, NoFuel) => (set_obj i (mkObj (o_conn (obj g1 i)) Allocated) g1, w, BNoFuel)
    end = (g', w', r) ->
    after w w' /\ q_closed g' = q_closed g /\ q_waiting g' = q_waiting g /\
    match r with
    | BLent c => exists i, invw [i] g' w' h rf /\ ready i c g'
    | BBlock => invw [] g' w' h rf /\ q_idle g' = [] /\ 0 <= max < q_count g' + 1
    | _ => invw [] g' w' h rf
    end).
  { clear g' w' r E. intros i created g1 w1 g' w' r I1 S1 A1 C1 Q1 E.
    assert (L1 : (i < length (q_objs g1))%nat) by (apply obj_in; congruence).
    rewrite obj_set_same in E by exact L1. cbn [o_conn] in E.
    set (g2 := set_obj i (mkObj (o_conn (obj g1 i)) Allocated) g1) in *.
    assert (I2 : invw [i] g2 w1 h rf) by (apply inv_set with (tr := snd w1) (m := made (fst w1)); auto using incl_refl, same_trace; try congruence; try (intros x Hx; now left)).
    assert (O2 : obj g2 i = mkObj (o_conn (obj g1 i)) Allocated) by (unfold g2; now apply obj_set_same).
    assert (S2 : o_state (obj g2 i) <> Invalid) by (rewrite O2; discriminate).
    assert (K2 : o_conn (obj g2 i) = o_conn (obj g1 i)) by now rewrite O2.
    assert (Q2 : q_closed g2 = q_closed g1 /\ q_waiting g2 = q_waiting g1) by (split; reflexivity). destruct Q2 as [Q2 Q2'].
    clearbody g2.
    assert (L2 : (i < length (q_objs g2))%nat) by now apply obj_in.
    unfold activate_object in E. destruct (n_valid WN (o_conn (obj g1 i)) w1) as [w2 b] eqn:Ev. destruct (valid_spec _ _ _ _ Ev) as [T2 M2].
    assert (I3 : invw [i] g2 w2 h rf) by (eapply invw_more; eauto; discriminate).
    assert (A2 : after w w2) by (eapply after_trans; [exact A1|eapply after_cons; eassumption]).
    assert (F : forall c w3 g' w' r, invw [i] (set_obj i (mkObj c Allocated) g2) w3 h rf -> after w w3 ->
      (let '(w, valid) := n_valid WN c w3 in
       if valid then (set_obj i (mkObj c Allocated) g2, w, BLent c)
       else let '(g, w, _) := destroy WN i (set_obj i (mkObj c Allocated) g2) w in
             if created : bool then (g, w, BErr (EIO 331)) else borrow_object WN max fuel g w) = (g', w', r) ->
      after w w' /\ q_closed g' = q_closed g /\ q_waiting g' = q_waiting g /\
      match r with
      | BLent c => exists i, invw [i] g' w' h rf /\ ready i c g'
      | BBlock => invw [] g' w' h rf /\ q_idle g' = [] /\ 0 <= max < q_count g' + 1
      | _ => invw [] g' w' h rf
      end).
    { clear g' w' r E. intros c w3 g' w' r I4 A3 E. set (g3 := set_obj i (mkObj c Allocated) g2) in *.
      assert (O3 : obj g3 i = mkObj c Allocated) by (unfold g3; now apply obj_set_same).
      assert (Q3 : q_closed g3 = q_closed g /\ q_waiting g3 = q_waiting g) by (cbn; split; congruence). destruct Q3 as [Q3 Q3'].
      clearbody g3. destruct (n_valid WN c w3) as [w4 b4] eqn:Ev4. destruct (valid_spec _ _ _ _ Ev4) as [T4 M4].
      assert (I5 : invw [i] g3 w4 h rf) by (eapply invw_more; eauto; discriminate).
      assert (A4 : after w w4) by (eapply after_trans; [exact A3|eapply after_cons; eassumption]).
      destruct b4.
      - injection E as <- <- <-. parts; auto. exists i. split; [exact I5|]. unfold ready. now rewrite O3.
      - destruct (destroy WN i g3 w4) as [[g5 w5] r5] eqn:Ed. destruct (destroy_step _ _ _ _ _ _ _ _ I5 ltac:(rewrite O3; discriminate) Ed) as (I6 & A6 & B6 & C6 & D6).
        assert (A7 : after w w5) by (eapply after_trans; eassumption).
        destruct created.
        + injection E as <- <- <-. parts; auto; congruence.
        + destruct (IH _ _ _ _ _ _ _ I6 E) as (X1 & X2 & X3 & X4). parts; [eapply after_trans; eassumption|congruence|congruence|exact X4]. }
    destruct b.
    - apply (F (o_conn (obj g1 i)) w2); [|exact A2|exact E].
      apply inv_set with (tr := snd w2) (m := made (fst w2)); auto using incl_refl, same_trace; try discriminate; try (intros x Hx; now left).
    - destruct (n_make WN w2) as [w3 r3] eqn:Em. destruct (make_spec _ _ _ Em) as (T3 & M3 & F3).
      assert (A3 : after w w3) by (eapply after_trans; [exact A2|eapply after_cons; eassumption]).
      assert (Hd : In (NValid (o_conn (obj g2 i)) false) (snd w2)) by (rewrite T2, K2; now left).
      destruct r3 as [c|e| |].
      + apply (F c w3); [|exact A3|exact E]. destruct (F3 c eq_refl) as [N1 N2].
        apply inv_set with (tr := snd w2) (m := made (fst w2)); auto; try discriminate.
        * right. split; [exact N2|]. split; [exact N1|]. exists (snd w1). split; [now rewrite K2|exact T3].
        * now exists [NMake (Ok c)].
        * intros x Hx. rewrite T3 in Hx. destruct Hx as [Hx|Hx]; [right; congruence|now left].
      + assert (I4 : invw [i] g2 w3 h rf) by (eapply invw_more; eauto; discriminate).
        destruct (destroy WN i g2 w3) as [[g5 w5] r5] eqn:Ed. destruct (destroy_step _ _ _ _ _ _ _ _ I4 S2 Ed) as (I6 & A6 & B6 & C6 & D6).
        assert (A7 : after w w5) by (eapply after_trans; eassumption).
        destruct created.
        * injection E as <- <- <-. parts; auto; congruence.
        * destruct (IH _ _ _ _ _ _ _ I6 E) as (X1 & X2 & X3 & X4). parts; [eapply after_trans; eassumption|congruence|congruence|exact X4].
      + injection E as <- <- <-. parts; auto; try congruence. apply inv_to_lost with (i := i); [eapply invw_more; eauto; discriminate|now rewrite O2|rewrite T3; now right].
      + injection E as <- <- <-. parts; auto; try congruence. apply inv_to_lost with (i := i); [eapply invw_more; eauto; discriminate|now rewrite O2|rewrite T3; now right]. }
  destruct (q_idle g) as [|i rest] eqn:Ei.
  - destruct (create WN max g w) as [[g1 w1] rc] eqn:Ec. destruct (create_step _ _ _ _ _ _ _ I Ec) as (A & B & C1 & C2 & D).
    destruct rc as [[i|]|e| |].
    + destruct D as (D1 & D2 & _). rewrite D2 in E. now apply (T i true g1 w1).
    + injection E as <- <- <-. destruct D as (D1 & D2 & ->). parts; auto; apply D2.
    + injection E as <- <- <-. tauto.
    + injection E as <- <- <-. tauto.
    + injection E as <- <- <-. tauto.
  - destruct (inv_take _ _ _ _ _ _ _ _ I Ei) as [I1 S1]. rewrite S1 in E. apply (T i false (set_idle rest g) w); auto using after_refl.
Qed.

Lemma return_step c g w h rf g' w' r : invw [] g w h rf -> In c h -> return_object WN max c g w = (g', w', r) ->
  after w w' /\ q_closed g' = q_closed g /\ q_waiting g' = q_waiting g /\ (q_closed g = true -> q_idle g = [] -> q_idle g' = []) /\
  match r with
  | Err _ => invw [] g' w' (drop c h) (c :: rf)
  | _ => invw [] g' w' (drop c h) rf
  end.
Proof.
  intros I Hc E. unfold return_object in E. destruct (find_obj c (q_all g)) as [i|] eqn:Ef.
  2:{ injection E as <- <- <-. parts; auto using after_refl. now apply inv_refuse. }
  destruct (inv_take_back _ _ _ _ _ _ _ _ I Hc Ef) as (K & S1 & I1). rewrite S1 in E. cbv zeta in E. rewrite K in E.
  assert (L1 : (i < length (q_objs g))%nat) by (apply obj_in; congruence).
  rewrite obj_set_same in E by exact L1. cbn [o_conn] in E.
  set (g2 := set_obj i (mkObj c Returning) g) in *.
  assert (I2 : invw [i] g2 w (drop c h) rf) by (apply inv_set with (tr := snd w) (m := made (fst w)); auto using incl_refl, same_trace; try congruence; try (intros x Hx; now left)).
  assert (O2 : obj g2 i = mkObj c Returning) by (unfold g2; now apply obj_set_same).
  assert (Q2 : q_closed g2 = q_closed g /\ q_waiting g2 = q_waiting g /\ q_idle g2 = q_idle g) by (cbn; auto). destruct Q2 as (Q2 & Q2' & Q2'').
  clearbody g2. assert (L2 : (i < length (q_objs g2))%nat) by (apply obj_in; rewrite O2; discriminate).
  destruct (n_valid WN c w) as [w1 b] eqn:Ev. destruct (valid_spec _ _ _ _ Ev) as [T1 M1].
  assert (I3 : invw [i] g2 w1 (drop c h) rf) by (eapply invw_more; eauto; discriminate).
  assert (A1 : after w w1) by (eapply after_cons; eassumption).
  assert (F : forall w3 g' w' r, invw [i] g2 w3 (drop c h) rf -> after w w3 ->
     (let '(g, w, _) := destroy WN i g2 w3 in let '(g, w) := ensure_idle WN max g w in (g, w, Ok tt)) = (g', w', r) ->
     after w w' /\ q_closed g' = q_closed g /\ q_waiting g' = q_waiting g /\ (q_closed g = true -> q_idle g = [] -> q_idle g' = []) /\
     match r with Err _ => invw [] g' w' (drop c h) (c :: rf) | _ => invw [] g' w' (drop c h) rf end).
  { clear g' w' r E. intros w3 g' w' r I4 A3 E. destruct (destroy WN i g2 w3) as [[g5 w5] r5] eqn:Ed.
    destruct (destroy_step _ _ _ _ _ _ _ _ I4 ltac:(rewrite O2; discriminate) Ed) as (I6 & A6 & B6 & C6 & D6).
    destruct (ensure_idle WN max g5 w5) as [g6 w6] eqn:Ee. destruct (ensure_idle_step _ _ _ _ _ _ I6 Ee) as (I7 & A7 & B7 & C7 & D7).
    injection E as <- <- <-. parts; [eauto using after_trans|congruence|congruence|intros X Y; rewrite D7; congruence|exact I7]. }
  destruct b; [|now apply (F w1)].
  unfold passivate_object in E. destruct (n_idle WN c w1) as [w2 ri] eqn:Ein. destruct (idle_spec _ _ _ _ Ein) as [T2 M2].
  assert (I4 : invw [i] g2 w2 (drop c h) rf) by (eapply invw_more; eauto; discriminate).
  assert (A2 : after w w2) by (eapply after_trans; [exact A1|eapply after_cons; eassumption]).
  destruct ri as [u|e| |].
  - set (g3 := set_obj i (mkObj c Idle) g2) in *.
    assert (I5 : invw [i] g3 w2 (drop c h) rf) by (apply inv_set with (tr := snd w2) (m := made (fst w2)); auto using incl_refl, same_trace; try congruence; try (intros x Hx; now left); rewrite O2; auto; discriminate).
    assert (O3 : obj g3 i = mkObj c Idle) by (unfold g3; now apply obj_set_same).
    assert (Q3 : q_closed g3 = q_closed g /\ q_waiting g3 = q_waiting g /\ q_idle g3 = q_idle g) by (cbn; auto). destruct Q3 as (Q3 & Q3' & Q3'').
    clearbody g3. destruct (q_closed g3 || ((-1 <? max) && (max <=? Z.of_nat (length (q_idle g3))))) eqn:Cf.
    + destruct (destroy WN i g3 w2) as [[g5 w5] r5] eqn:Ed.
      destruct (destroy_step _ _ _ _ _ _ _ _ I5 ltac:(rewrite O3; discriminate) Ed) as (I6 & A6 & B6 & C6 & D6).
      injection E as <- <- <-. parts; [eauto using after_trans|congruence|congruence|congruence|exact I6].
    + injection E as <- <- <-. cbn [q_closed q_waiting set_idle]. split; [exact A2|]. split; [exact Q3|]. split; [exact Q3'|]. split; [|apply inv_to_idle; [exact I5|now rewrite O3]].
      intros X. rewrite Q3, X in Cf. discriminate.
  - now apply (F w2).
  - injection E as <- <- <-. parts; auto; try congruence. apply inv_to_stuck with (i := i); [exact I4|now rewrite O2|]. rewrite O2, T2. left. now left.
  - injection E as <- <- <-. parts; auto; try congruence. apply inv_to_stuck with (i := i); [exact I4|now rewrite O2|]. rewrite O2, T2. right. now left.
Qed.
End Ops.
