(** A routing pool that is stopped and started again leaves more and more connections open (C139, C141). *)
From Coq Require Import String ZArith List Bool Lia.
From Verif Require Import Bytes GoVal GoErr Decoder Messages GoStr Routing Pool SpecPool SpecBooks SpecThrong SpecLeave ThrongCases DemoPool DemoPoolFacts.
Import ListNotations.
Open Scope Z_scope.

(** One leader and one reader; every connection works. *)
Definition plenty : cluster dworld :=
  mkCluster
    (fun s w => (mkD (S (d_next w)) (S (d_time w)) (d_closed w), Ok (d_next w)))
    (fun h w => (tick w, true))
    (fun h w => (tick w, None))
    (fun h w => (tick w, (4, Ok changed)))
    (fun w => (tick w, repeat "a"%byte (d_time w))).
Definition cycle : list pop := [OStart; OStop].
Definition resting : pool := fst (fst (run_pool (watch plenty) cycle (demo_pool 2) (d_start, []))).
Definition resting_world : dworld * list kevent := snd (fst (run_pool (watch plenty) cycle (demo_pool 2) (d_start, []))).
Lemma one_more held n t c tr : exists held' t' rs a b s0 s1 s2 e,
  run_pool (watch plenty) cycle (set_held held resting) (mkD n t c, tr)
  = (set_held held' resting, (mkD (S (S (S n))) t' c, KValid a true :: KValid b true :: KDial s2 (Ok (S (S n))) :: KDial s1 (Ok (S n)) :: KClose n e :: KQuery n 4 (Ok changed) :: KDial s0 (Ok n) :: tr), rs).
Proof.
  do 9 eexists. lazy -[Pool.map_set Pool.map_del make_conn_id repeat]. reflexivity.
Qed.
Lemma plenty_fresh : fresh plenty d_opened d_named.
Proof.
  unfold d_opened, d_named. constructor; cbn [plenty tick fst snd d_next d_time k_dial k_valid k_close k_query k_name].
  - intros s w. split; [apply seq_incl|apply named_incl]; lia.
  - intros s w w' h [= <- <-]. cbn [d_next]. rewrite !in_seq. lia.
  - intros h w. split; [apply seq_incl|apply named_incl]; cbn; lia.
  - intros h w. split; [apply seq_incl|apply named_incl]; cbn; lia.
  - intros h w. split; [apply seq_incl|apply named_incl]; cbn; lia.
  - intros w. split; [apply seq_incl|apply named_incl]; cbn; lia.
  - intros w w' n [= <- <-]. cbn [tick d_time]. rewrite in_map_iff. split.
    + intros (x & E & Hx). apply in_seq in Hx. apply (f_equal (@Datatypes.length _)) in E. rewrite !repeat_length in E. lia.
    + apply (in_map (repeat "a"%byte)). apply in_seq. lia.
Qed.
Definition first_answers := snd (run_pool (watch plenty) cycle (demo_pool 2) (d_start, [])).
Lemma first_cycle : run_pool (watch plenty) cycle (demo_pool 2) (d_start, []) = (resting, (mkD 3 9 [], snd resting_world), first_answers).
Proof. vm_compute. reflexivity. Qed.
Lemma once : set_held [] resting = resting.
Proof. vm_compute. reflexivity. Qed.
Lemma repeated : concat (repeat cycle 1) = [] ++ cycle.
Proof. reflexivity. Qed.
Lemma closes h e' a b s0 s1 s2 e n r tr : In (KClose h e') (KValid a true :: KValid b true :: KDial s2 (Ok (S (S n))) :: KDial s1 (Ok (S n)) :: KClose n e :: KQuery n 4 r :: KDial s0 (Ok n) :: tr) ->
  h = n \/ In (KClose h e') tr.
Proof. intros [X|[X|[X|[X|[X|[X|[X|X]]]]]]]; try discriminate X; [left; now injection X|now right]. Qed.
(** Started and stopped [k] times, a pool of two has twice as many connections open. *)
Lemma grow use k : exists held n t c tr L, thronged plenty use (demo_pool 2) d_start (concat (repeat cycle (S k))) (set_held held resting) (mkD n t c) tr
  /\ NoDup L /\ List.length L = (2 * S k)%nat /\ (forall h, In h L -> left_open tr h /\ (h < n)%nat) /\ (forall h e, In (KClose h e) tr -> (h < n)%nat).
Proof.
  induction k as [|k IH].
  - exists [], 3%nat, 9%nat, [], (snd resting_world), [1; 2]%nat. split; [rewrite once, repeated; exact (run_thronged plenty use (demo_pool 2) d_start cycle [] _ _ _ _ _ _ _ (th_new _ _ _ _) first_cycle)|]. split; [repeat constructor; cbn; intuition discriminate|].
    split; [reflexivity|]. assert (X : exists tr, snd resting_world = tr /\ (forall h, In h [1; 2]%nat -> left_open tr h /\ (h < 3)%nat) /\ (forall h e, In (KClose h e) tr -> (h < 3)%nat)).
    { eexists. split; [vm_compute; reflexivity|]. split.
      - intros d [<-|[<-|[]]]; (split; [split; [eexists; cbn; tauto|intros [e X]; cbn in X; intuition discriminate]|lia]).
      - cbn. intros h e X. repeat destruct X as [X|X]; try discriminate; try contradiction. injection X as <- _. lia. }
    destruct X as (tr & -> & X). exact X.
  - destruct IH as (held & n & t & c & tr & L & T & N & Ll & HL & Hc). destruct (one_more held n t c tr) as (held' & t' & rs & a & b & s0 & s1 & s2 & e & R).
    eexists held', _, t', c, _, (S n :: S (S n) :: L). split; [|split; [|split; [|split]]].
    + pose proof (run_thronged plenty use _ _ cycle _ _ _ _ _ _ _ _ T R) as T'.
      assert (E : forall j, concat (repeat cycle j) ++ cycle = concat (repeat cycle (S j))) by (induction j as [|j IHj]; [reflexivity|]; cbn [repeat concat] in *; now rewrite <- app_assoc, IHj).
      rewrite E in T'. exact T'.
    + constructor; [|constructor; [|exact N]].
      * intros [X|X]; [lia|]. destruct (HL _ X). lia.
      * intros X. destruct (HL _ X). lia.
    + cbn [List.length]. lia.
    + assert (New : forall h, (h < n)%nat \/ h = S n \/ h = S (S n) -> (h < n -> left_open tr h)%nat -> left_open (KValid a true :: KValid b true :: KDial s2 (Ok (S (S n))) :: KDial s1 (Ok (S n)) :: KClose n e :: KQuery n 4 (Ok changed) :: KDial s0 (Ok n) :: tr) h).
      { intros h Hh Ho. split.
        - destruct Hh as [Hh|[->| ->]]; [destruct (Ho Hh) as [[s X] _]; exists s; cbn [In]; tauto|exists s1; cbn [In]; tauto|exists s2; cbn [In]; tauto].
        - intros [e' X]. pose proof (closes _ _ _ _ _ _ _ _ _ _ _ X) as Y.
          destruct Y as [->|Y]; [lia|]. destruct Hh as [Hh|Hh]; [destruct (Ho Hh) as [_ Z]; apply Z; now exists e'|]. pose proof (Hc _ _ Y). lia. }
      intros h [<-|[<-|X]].
      * split; [|lia]. apply New; [lia|]. lia.
      * split; [|lia]. apply New; [lia|]. lia.
      * destruct (HL _ X). split; [|lia]. apply New; [lia|auto].
    + intros h e' X. pose proof (closes _ _ _ _ _ _ _ _ _ _ _ X) as Y.
      destruct Y as [->|Y]; [lia|]. pose proof (Hc _ _ Y). lia.
Qed.
Theorem twice_as_many use k : exists K q0 os q w tr L, fresh K d_opened d_named /\ new_routing_pool leader_string 2 (str "neo4j:secret") [] = Ok q0
  /\ thronged K use q0 d_start os q w tr /\ List.length (filter begins os) = S k
  /\ NoDup L /\ (forall h, In h L -> left_open tr h) /\ List.length L = (2 * S k)%nat.
Proof.
  destruct (grow use k) as (held & n & t & c & tr & L & T & N & Ll & HL & _). exists plenty, (demo_pool 2), (concat (repeat cycle (S k))), (set_held held resting), (mkD n t c), tr, L.
  split; [exact plenty_fresh|]. split; [reflexivity|]. split; [exact T|]. split; [|split; [exact N|split; [intros h Hh; now apply HL|exact Ll]]].
  clear. generalize (S k). intros j. induction j as [|j IH]; [reflexivity|]. cbn [repeat concat cycle app filter begins List.length]. now rewrite IH.
Qed.
