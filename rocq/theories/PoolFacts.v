(** Facts about the routing pool, one operation at a time. *)
From Coq Require Import String ZArith List Bool Lia ZifyBool Permutation.
From Verif Require Import Bytes GoVal GoErr Decoder Messages GoStr Routing Pool SpecPool BytesFacts RoutingFacts.
Import ListNotations.
Open Scope Z_scope.

Lemma zlen_nonneg {A} (l : list A) : 0 <= zlen l.
Proof. unfold zlen. lia. Qed.

(** ** Maps *)

Lemma map_del_in {A} k (m : list (bytes * A)) x : In x (map_del k m) <-> In x m /\ fst x <> k.
Proof.
  induction m as [|[k' v] m IH]; cbn; [tauto|]. destruct (bytes_eqb k k') eqn:E.
  - apply bytes_eqb_eq in E. subst k'. rewrite IH. split; [tauto|]. intros [[<-|H] H']; [now destruct H'|tauto].
  - apply bytes_eqb_neq in E. cbn. rewrite IH. split.
    + intros [<-|H]; [split; [now left|cbn; congruence]|tauto].
    + tauto.
Qed.
Lemma map_del_out {A} k (m : list (bytes * A)) : ~ In k (map fst m) -> map_del k m = m.
Proof.
  induction m as [|[k' v] m IH]; cbn; [reflexivity|]. intros H.
  rewrite (proj2 (bytes_eqb_neq k k')); [|intros ->; tauto]. rewrite IH; tauto.
Qed.
Lemma map_del_perm {A} k v (m : list (bytes * A)) : NoDup (map fst m) -> map_get m k = Some v -> Permutation m ((k, v) :: map_del k m).
Proof.
  induction m as [|[k' v'] m IH]; cbn; [discriminate|]. intros N. inversion N as [|? ? N1 N2]; subst.
  destruct (bytes_eqb k k') eqn:E.
  - intros [= ->]. apply bytes_eqb_eq in E. subst k'. now rewrite map_del_out.
  - intros H. rewrite perm_swap. constructor. now apply IH.
Qed.
Lemma map_del_keys {A} k (m : list (bytes * A)) : NoDup (map fst m) -> NoDup (map fst (map_del k m)) /\ ~ In k (map fst (map_del k m)).
Proof.
  intros N. split.
  - induction m as [|[k' v] m IH]; cbn; [constructor|]. inversion N as [|? ? N1 N2]; subst.
    destruct (bytes_eqb k k'); [auto|]. cbn. constructor; [|auto].
    intros H. apply in_map_iff in H. destruct H as (x & <- & H). apply map_del_in in H. apply N1, in_map, H.
  - intros H. apply in_map_iff in H. destruct H as (x & <- & H). apply map_del_in in H. now apply (proj2 H).
Qed.
Lemma map_get_in {A} (m : list (bytes * A)) k v : map_get m k = Some v -> In (k, v) m.
Proof.
  induction m as [|[k' v'] m IH]; cbn; [discriminate|]. destruct (bytes_eqb k k') eqn:E; [|auto].
  intros [= ->]. apply bytes_eqb_eq in E. subst. now left.
Qed.
Lemma map_get_none {A} (m : list (bytes * A)) k : map_get m k = None -> ~ In k (map fst m).
Proof.
  induction m as [|[k' v'] m IH]; cbn; [tauto|]. destruct (bytes_eqb k k') eqn:E; [discriminate|].
  intros H [->|H']; [|now apply IH]. now rewrite bytes_eqb_refl in E.
Qed.

Lemma conn_id_name m m' n n' : make_conn_id m n = make_conn_id m' n' -> n = n'.
Proof. unfold make_conn_id. destruct (m =? WriteMode), (m' =? WriteMode); cbn; intros H; injection H; congruence. Qed.

(** ** Balancing does nothing *)

Section Ops.
Context {W : Type}.
Variable K : cluster W.

Lemma while_size_idle fuel mode bound body p w : (0 < fuel)%nat -> size (queue_of mode p) <> bound ->
  while_size (W := W) fuel mode bound body p w = (p, w, Ok tt).
Proof. intros Hf H. destruct fuel; [lia|]. cbn. unfold get. now rewrite (proj2 (Z.eqb_neq _ _) H). Qed.
Lemma balance_nothing fuel p w : (0 < fuel)%nat -> balance K fuel p w = (p, w, Ok tt).
Proof.
  intros Hf. unfold balance, bind, mbind, get.
  assert (Hr : (if size (p_rq p) <? p_min_r p then while_size fuel ReadMode (p_min_r p) (add_conn K ReadMode) else ret tt) p w = (p, w, Ok tt)).
  { destruct (Z.ltb_spec (size (p_rq p)) (p_min_r p)); [|reflexivity].
    apply while_size_idle; [exact Hf|]. change (queue_of ReadMode p) with (p_rq p). lia. }
  rewrite Hr.
  assert (Hw : (if size (p_wq p) <? p_min_w p then while_size fuel WriteMode (p_min_w p) (add_conn K WriteMode)
                else if p_max_w p <? size (p_wq p) then while_size fuel WriteMode (p_max_w p) (take_out K WriteMode) else ret tt) p w = (p, w, Ok tt)).
  { destruct (Z.ltb_spec (size (p_wq p)) (p_min_w p)); [|destruct (Z.ltb_spec (p_max_w p) (size (p_wq p))); [|reflexivity]];
    (apply while_size_idle; [exact Hf|]; change (queue_of WriteMode p) with (p_wq p); lia). }
  rewrite Hw.
  destruct (Z.ltb_spec (size (p_rq p)) (p_min_r p)); [|destruct (Z.ltb_spec (p_max_r p) (size (p_rq p))); [|reflexivity]];
  (apply while_size_idle; [exact Hf|]; change (queue_of ReadMode p) with (p_rq p); lia).
Qed.

Lemma prune_queue_keeps remove q p w : p_marked p = [] -> prune_queue (W := W) remove q p w = (p, w, Ok q).
Proof.
  intros H. induction q as [|c q IH]; [reflexivity|]. cbn. unfold get. rewrite H. cbn. unfold bind, mbind. now rewrite IH.
Qed.
Lemma pool_eta p : set_rq (p_rq p) (set_wq (p_wq p) p) = p.
Proof. now destruct p. Qed.
Lemma prune_nothing p w : p_marked p = [] -> prune K p w = (p, w, Ok tt).
Proof.
  intros H. unfold prune, bind, mbind, get. rewrite prune_queue_keeps by exact H. rewrite prune_queue_keeps by exact H.
  unfold upd. now rewrite pool_eta.
Qed.

(** ** What each operation does to the pool *)

Variable R : W -> W -> Prop.
Hypothesis R_refl : forall w, R w w.
Hypothesis R_trans : forall a b c, R a b -> R b c -> R a c.
Hypothesis R_dial : forall s w, R w (fst (k_dial K s w)).
Hypothesis R_valid : forall h w, R w (fst (k_valid K h w)).
Hypothesis R_close : forall h w, R w (fst (k_close K h w)).
Hypothesis R_name : forall w, R w (fst (k_name K w)).

(** Up to heldConns, which nothing reads. *)
Definition same (p p' : pool) : Prop := exists x, p' = set_held x p.
Lemma same_refl p : same p p.
Proof. exists (p_held p). now destruct p. Qed.
Lemma same_trans p q r : same p q -> same q r -> same p r.
Proof. intros [x ->] [y ->]. exists y. reflexivity. Qed.

Lemma remove_eff c p w p' w' r : remove_conn K (Some c) p w = (p', w', r) ->
  same p p' /\ R w w' /\ (r = Ok tt \/ exists e, r = Err e).
Proof.
  unfold remove_conn, bind, mbind, valid. specialize (R_valid (pw_conn c) w).
  destruct (k_valid K (pw_conn c) w) as [w1 [|]]; cbn in R_valid.
  - intros [= <- <- <-]. split; [eexists; reflexivity|]. auto.
  - unfold close_conn. pose proof (R_close (pw_conn c) w1) as Hc. destruct (k_close K (pw_conn c) w1) as [w2 [e|]]; cbn in Hc.
    + intros [= <- <- <-]. split; [apply same_refl|]. eauto.
    + intros [= <- <- <-]. split; [eexists; reflexivity|]. eauto.
Qed.

(** A connection made for the pool. *)
Definition made (mode : Z) (s : bytes) (w : W) (c : wrapper) (w' : W) : Prop :=
  exists w1 name, k_dial K s w = (w1, Ok (pw_conn c)) /\ k_name K w1 = (w', name)
  /\ c = mkWrap (pw_conn c) (make_conn_id mode name) s mode.
Lemma made_R mode s w c w' : made mode s w c w' -> R w w'.
Proof.
  intros (w1 & name & E1 & E2 & _). pose proof (R_dial s w) as H1. rewrite E1 in H1. pose proof (R_name w1) as H2. rewrite E2 in H2. eauto.
Qed.

Definition stepped (mode : Z) (p p' : pool) : Prop := p' = p \/ exists i, p' = set_index mode i p.
Lemma add_eff mode p w p' w' r : add_conn K mode p w = (p', w', r) ->
  (exists s c i x, nth_error (strings_for mode p) i = Some s /\ made mode s w c w' /\ r = Ok tt
     /\ p' = set_held x (set_queue mode (queue_of mode p ++ [c]) (set_index mode (Z.of_nat i) p)))
  \/ (R w w' /\ r <> Ok tt /\ stepped mode p p').
Proof.
  unfold add_conn, get. destruct (strings_for mode p) as [|s0 strs] eqn:Es.
  { intros [= <- <- <-]. right. split; [auto|]. split; [discriminate|now left]. }
  cbv zeta. set (i := if _ =? _ then 0 else _). set (l := s0 :: strs) in *.
  unfold bind at 1, mbind at 1, upd at 1.
  destruct ((0 <=? i) && (i <? zlen l)) eqn:Ei.
  - destruct (nth_error l (Z.to_nat i)) as [s|] eqn:En.
    + unfold new_connection, bind, mbind, dial. pose proof (R_dial s w) as Hd.
      destruct (k_dial K s w) as [w1 rd] eqn:Ed. destruct rd as [h|e| |].
      * destruct (k_name K w1) as [w2 name] eqn:Ek. cbn. intros [= <- <- <-]. left.
        exists s, (mkWrap h (make_conn_id mode name) s mode), (Z.to_nat i), (map_set (make_conn_id mode name) (mkWrap h (make_conn_id mode name) s mode) (p_held p)).
        split; [exact En|]. split; [exists w1, name; auto|]. split; [reflexivity|].
        rewrite Z2Nat.id by lia. unfold set_queue, queue_of, set_index. destruct (mode =? WriteMode); reflexivity.
      * intros [= <- <- <-]. right. split; [exact Hd|]. split; [discriminate|]. right. now exists i.
      * intros [= <- <- <-]. right. split; [exact Hd|]. split; [discriminate|]. right. now exists i.
      * intros [= <- <- <-]. right. split; [exact Hd|]. split; [discriminate|]. right. now exists i.
    + apply nth_error_None in En. unfold zlen in Ei. lia.
  - intros [= <- <- <-]. right. split; [auto|]. split; [discriminate|]. right. now exists i.
Qed.

Lemma borrow_eff mode fuel : forall p w p' w' r, internal_borrow K fuel mode p w = (p', w', r) -> (length (queue_of mode p) < fuel)%nat ->
  R w w' /\ exists skipped rest x, queue_of mode p = skipped ++ rest
  /\ ((exists c rest', rest = c :: rest' /\ r = Ok c /\ listed (pw_conn c) (p_marked p) = false
         /\ p' = set_borrowed (map_set (pw_id c) c (p_borrowed p)) (set_held x (set_queue mode rest' p)))
      \/ ((exists e, r = Err e) /\ p' = set_held x (set_queue mode rest p))).
Proof.
  induction fuel as [|fuel IH]; intros p w p' w' r; [lia|]. cbn [internal_borrow]. unfold get at 1.
  destruct (queue_of mode p) as [|c q] eqn:Eq; cbn [dequeue]; unfold bind at 1, mbind at 1, upd at 1.
  - intros [= <- <- <-] _. split; [auto|]. exists [], [], (p_held p). split; [reflexivity|]. right. split; [eauto|].
    unfold set_queue, set_held. destruct (mode =? WriteMode); reflexivity.
  - intros E Hl. cbn [length] in Hl.
    assert (Again : forall p1 w1 r1, remove_conn K (Some c) (set_queue mode q p) w = (p1, w1, r1) -> R w w1 ->
      forall p2 w2 r2, internal_borrow K fuel mode p1 w1 = (p2, w2, r2) ->
      R w w2 /\ exists skipped rest x, c :: q = skipped ++ rest
      /\ ((exists c rest', rest = c :: rest' /\ r2 = Ok c /\ listed (pw_conn c) (p_marked p) = false
             /\ p2 = set_borrowed (map_set (pw_id c) c (p_borrowed p)) (set_held x (set_queue mode rest' p)))
          \/ ((exists e, r2 = Err e) /\ p2 = set_held x (set_queue mode rest p)))).
    { intros p1 w1 r1 E1 Hw p2 w2 r2 E2. destruct (remove_eff _ _ _ _ _ _ E1) as ([x Hs] & _ & _).
      assert (Q : queue_of mode p1 = q) by (subst p1; unfold queue_of, set_queue; destruct (mode =? WriteMode); reflexivity).
      apply IH in E2; [|rewrite Q; lia]. destruct E2 as (Hw2 & sk & rest & y & E2 & D). rewrite Q in E2.
      split; [eauto|]. exists (c :: sk), rest, y. split; [now rewrite E2|].
      destruct D as [(c' & rest' & -> & -> & Hm & ->)|[He ->]].
      - left. exists c', rest'. subst p1. repeat (split; [reflexivity|]). split; [unfold set_queue in Hm; destruct (mode =? WriteMode); exact Hm|].
        unfold set_queue. destruct (mode =? WriteMode); reflexivity.
      - right. split; [exact He|]. subst p1. unfold set_queue. destruct (mode =? WriteMode); reflexivity. }
    destruct (listed (pw_conn c) (p_marked p)) eqn:Em.
    + unfold bind, mbind in E. destruct (remove_conn K (Some c) (set_queue mode q p) w) as [[p1 w1] r1] eqn:E1.
      pose proof (remove_eff _ _ _ _ _ _ E1) as (Hs & Hw & Hr). destruct Hr as [->|[e ->]]; [eapply Again; eauto|].
      injection E as <- <- <-. split; [auto|]. destruct Hs as [x ->]. exists [c], q, x. split; [reflexivity|]. right. eauto.
    + unfold bind at 1, mbind at 1, valid in E. pose proof (R_valid (pw_conn c) w) as Hv.
      destruct (k_valid K (pw_conn c) w) as [w0 ok]; cbn in Hv. destruct ok; cbn [negb] in E.
      * injection E as <- <- <-. split; [auto|]. exists [], (c :: q), (map_del (pw_id c) (p_held p)). split; [reflexivity|]. left. exists c, q.
        split; [reflexivity|]. split; [reflexivity|]. split; [exact Em|]. unfold set_queue. destruct (mode =? WriteMode); reflexivity.
      * unfold bind, mbind in E. destruct (remove_conn K (Some c) (set_queue mode q p) w0) as [[p1 w1] r1] eqn:E1.
        pose proof (remove_eff _ _ _ _ _ _ E1) as (Hs & Hw & Hr). destruct Hr as [->|[e ->]].
        -- destruct Hs as [x Hs].
           assert (Q : queue_of mode p1 = q) by (subst p1; unfold queue_of, set_queue; destruct (mode =? WriteMode); reflexivity).
           apply IH in E; [|rewrite Q; lia]. destruct E as (Hw2 & sk & rest & y & E2 & D). rewrite Q in E2.
           split; [eauto|]. exists (c :: sk), rest, y. split; [now rewrite E2|].
           destruct D as [(c' & rest' & -> & -> & Hm & ->)|[He ->]].
           ++ left. exists c', rest'. subst p1. repeat (split; [reflexivity|]). split; [unfold set_queue in Hm; destruct (mode =? WriteMode); exact Hm|].
              unfold set_queue. destruct (mode =? WriteMode); reflexivity.
           ++ right. split; [exact He|]. subst p1. unfold set_queue. destruct (mode =? WriteMode); reflexivity.
        -- injection E as <- <- <-. split; [eauto|]. destruct Hs as [x ->]. exists [c], q, x. split; [reflexivity|]. right. eauto.
Qed.

Lemma drain_eff mode fuel : forall p w p' w' r, drain K fuel mode p w = (p', w', r) -> (length (queue_of mode p) < fuel)%nat ->
  R w w' /\ exists gone rest x, queue_of mode p = gone ++ rest /\ p' = set_held x (set_queue mode rest p)
  /\ ((r = Ok tt /\ rest = []) \/ exists e, r = Err e).
Proof.
  induction fuel as [|fuel IH]; intros p w p' w' r; [lia|]. cbn [drain]. unfold get at 1.
  assert (Eta : forall q, queue_of mode p = q -> set_queue mode q p = p) by (intros q <-; unfold queue_of, set_queue; destruct p, (mode =? WriteMode); reflexivity).
  destruct (queue_of mode p) as [|c q] eqn:Eq.
  - cbn. intros [= <- <- <-] _. split; [auto|]. exists [], [], (p_held p). split; [reflexivity|]. split; [rewrite Eta by reflexivity; now destruct p|auto].
  - replace (size (c :: q) =? 0) with false by (unfold size, zlen; cbn [length]; lia).
    intros E Hl. cbn [length] in Hl. unfold take_out, bind, mbind, get in E. rewrite Eq in E. cbn [dequeue upd] in E. unfold upd in E.
    destruct (remove_conn K (Some c) (set_queue mode q p) w) as [[p1 w1] r1] eqn:E1.
    pose proof (remove_eff _ _ _ _ _ _ E1) as ([x Hs] & Hw & Hr). destruct Hr as [->|[e ->]].
    + assert (Q : queue_of mode p1 = q) by (subst p1; unfold queue_of, set_queue; destruct (mode =? WriteMode); reflexivity).
      apply IH in E; [|rewrite Q; lia]. destruct E as (Hw2 & gone & rest & y & E2 & -> & D). rewrite Q in E2.
      split; [eauto|]. exists (c :: gone), rest, y. split; [now rewrite E2|]. split; [|exact D].
      subst p1. unfold set_queue. destruct (mode =? WriteMode); reflexivity.
    + injection E as <- <- <-. split; [auto|]. exists [c], q, x. split; [reflexivity|]. split; [exact Hs|]. eauto.
Qed.

Definition back (c : wrapper) (p : pool) : pool :=
  let m := if pw_mode c =? WriteMode then WriteMode else ReadMode in set_queue m (queue_of m p ++ [c]) p.
(** Returning: refused, put back, or replaced. *)
Lemma reclaim_eff id h p w p' w' r : reclaim K id h p w = (p', w', r) ->
  (R w w' /\ p' = p /\ (exists e, r = Err e) /\ (p_running p = false \/ map_get (p_borrowed p) id = None))
  \/ (p_running p = true /\ exists c x, map_get (p_borrowed p) id = Some c
      /\ let p1 := set_held x (set_borrowed (map_del id (p_borrowed p)) p) in
         (R w w' /\ r = Ok tt /\ p' = back c p1)
         \/ (exists w1 e w0, k_valid K (pw_conn c) w = (w0, false) /\ remove_conn K (Some c) p1 w0 = (p1, w1, Err e) /\ R w w1
             /\ add_conn K (if pw_mode c =? WriteMode then WriteMode else ReadMode) p1 w1 = (p', w', r))).
Proof.
  unfold reclaim, get. destruct (p_running p) eqn:Er; cbn [negb].
  2: { intros [= <- <- <-]. left. split; [auto|]. split; [reflexivity|]. split; [eauto|auto]. }
  destruct (map_get (p_borrowed p) id) as [c|] eqn:Em.
  - intros E. right. split; [reflexivity|]. unfold bind at 1, mbind at 1, upd at 1 in E. unfold bind, mbind, valid in E.
    set (q1 := set_held (map_set id c (p_held p)) (set_borrowed (map_del id (p_borrowed p)) p)) in E.
    pose proof (R_valid (pw_conn c) w) as Hv. destruct (k_valid K (pw_conn c) w) as [w0 ok] eqn:Ev; cbn in Hv. destruct ok.
    + unfold upd in E. injection E as <- <- <-. exists c, (map_set id c (p_held p)). split; [reflexivity|]. cbv zeta. left. split; [auto|]. split; reflexivity.
    + destruct (remove_conn K (Some c) q1 w0) as [[p2 w2] r2] eqn:E2. pose proof (remove_eff _ _ _ _ _ _ E2) as ([x Hs] & Hw & [->|[e ->]]).
      * unfold upd in E. injection E as <- <- <-. exists c, x. split; [reflexivity|]. cbv zeta. left. split; [eauto|]. split; [reflexivity|].
        subst p2. unfold back, enqueue. destruct (pw_mode c =? WriteMode); reflexivity.
      * exists c, (map_set id c (p_held p)). split; [reflexivity|]. cbv zeta. fold q1. right.
        assert (Hp : p2 = q1).
        { unfold remove_conn, bind, mbind, valid in E2. destruct (k_valid K (pw_conn c) w0) as [wa [|]]; [discriminate|].
          unfold close_conn in E2. destruct (k_close K (pw_conn c) wa) as [wb [?|]]; [|discriminate]. now injection E2. }
        rewrite Hp in *. exists w2, e, w0. split; [exact Ev|]. split; [exact E2|]. split; [eauto|].
        destruct (pw_mode c =? WriteMode); exact E.
  - intros E. left. unfold mbind, close_conn in E. pose proof (R_close h w) as Hc. destruct (k_close K h w) as [w0 [e|]]; cbn in Hc.
    + injection E as <- <- <-. split; [auto|]. split; [reflexivity|]. eauto.
    + injection E as <- <- <-. split; [auto|]. split; [reflexivity|]. eauto.
Qed.
(** The pool after a refresh: unchanged, or with a new table and address lists. *)
Hypothesis R_query : forall h w, R w (fst (k_query K h w)).
Lemma refresh_eff p w p' w' r : refresh_connections K p w = (p', w', r) ->
  R w w' /\ ((p' = p) \/ (exists hd, p' = merge_strings (set_handler hd p) /\ r = Ok tt)).
Proof.
  unfold refresh_connections, mbind, get, dial. pose proof (R_dial (p_leader p) w) as H1.
  destruct (k_dial K (p_leader p) w) as [w1 rd]; cbn in H1. destruct rd as [h|e| |].
  - pose proof (R_query h w1) as H2. destruct (k_query K h w1) as [w2 [v rows]]; cbn in H2.
    destruct rows as [rows|e| |].
    + destruct (refresh_cluster_info (p_handler p) v (Ok rows)) as [hd x]. unfold close_conn.
      pose proof (R_close h w2) as H3. destruct (k_close K h w2) as [w3 e]; cbn in H3. intros [= <- <- <-]. split; [eauto|]. right. eauto.
    + destruct (refresh_cluster_info (p_handler p) v (Err e)) as [hd x]. unfold close_conn.
      pose proof (R_close h w2) as H3. destruct (k_close K h w2) as [w3 e']; cbn in H3. intros [= <- <- <-]. split; [eauto|]. right. eauto.
    + unfold close_conn. pose proof (R_close h w2) as H3. destruct (k_close K h w2) as [w3 e]; cbn in H3. intros [= <- <- <-]. split; eauto.
    + unfold close_conn. pose proof (R_close h w2) as H3. destruct (k_close K h w2) as [w3 e]; cbn in H3. intros [= <- <- <-]. split; eauto.
  - intros [= <- <- <-]. auto.
  - intros [= <- <- <-]. auto.
  - intros [= <- <- <-]. auto.
Qed.

End Ops.
