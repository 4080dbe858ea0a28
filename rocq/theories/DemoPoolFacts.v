(** Facts about the demonstration cluster. *)
From Coq Require Import String ZArith List Bool Lia.
From Verif Require Import Bytes GoVal GoErr Decoder Messages GoStr Routing Pool SpecPool DemoPool.
Import ListNotations.
Open Scope Z_scope.

Lemma seq_incl a b : (a <= b)%nat -> incl (seq 0 a) (seq 0 b).
Proof. intros H x. rewrite !in_seq. lia. Qed.
Lemma named_incl a b : (a <= b)%nat -> incl (map (repeat "a"%byte) (seq 0 a)) (map (repeat "a"%byte) (seq 0 b)).
Proof. intros H x. rewrite !in_map_iff. intros (y & <- & Hy). exists y. split; [reflexivity|]. now apply (seq_incl a b). Qed.
Lemma demo_fresh alive stuck view reach : fresh (demo_cluster alive stuck view reach) d_opened d_named.
Proof.
  unfold d_opened, d_named. constructor; cbn [demo_cluster tick fst snd d_next d_time k_dial k_valid k_close k_query k_name].
  - intros s w. destruct (reach s); cbn [demo_cluster tick fst snd d_next d_time k_dial k_valid k_close k_query k_name]; (split; [apply seq_incl|apply named_incl]; lia).
  - intros s w w' h. destruct (reach s); [|discriminate]. intros [= <- <-]. cbn [demo_cluster tick fst snd d_next d_time k_dial k_valid k_close k_query k_name]. rewrite !in_seq. lia.
  - intros h w. (split; [apply seq_incl|apply named_incl]; cbn [demo_cluster tick fst snd d_next d_time k_dial k_valid k_close k_query k_name]; lia).
  - intros h w. destruct (stuck h); cbn [demo_cluster tick fst snd d_next d_time k_dial k_valid k_close k_query k_name]; (split; [apply seq_incl|apply named_incl]; lia).
  - intros h w. (split; [apply seq_incl|apply named_incl]; cbn [demo_cluster tick fst snd d_next d_time k_dial k_valid k_close k_query k_name]; lia).
  - intros w. (split; [apply seq_incl|apply named_incl]; cbn [demo_cluster tick fst snd d_next d_time k_dial k_valid k_close k_query k_name]; lia).
  - intros w w' n [= <- <-]. cbn [demo_cluster tick fst snd d_next d_time k_dial k_valid k_close k_query k_name]. rewrite in_map_iff. split.
    + intros (x & E & Hx). apply in_seq in Hx. apply (f_equal (@Datatypes.length _)) in E. rewrite !repeat_length in E. lia.
    + apply (in_map (repeat "a"%byte)). apply in_seq. lia.
Qed.

(** A run of the demonstration pool is a history. *)
Lemma demo_history K n os p w tr l : new_routing_pool leader_string n (str "neo4j:secret") [] = Ok (demo_pool n) ->
  demo_run K n os = (p, (w, tr), l) -> map fst l = os -> pool_history (watch K) n (str "neo4j:secret") [] (d_start, []) l p (w, tr).
Proof. intros E R H. exists leader_string, (demo_pool n). split; [exact E|]. rewrite H. exact R. Qed.
