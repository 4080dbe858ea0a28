(** Taking a text out of another (strings.Replace with nothing). *)
From Coq Require Import String ZArith List Bool Lia ZifyBool.
From Verif Require Import Bytes GoVal GoErr Messages GoStr Routing Pool SpecPool BytesFacts.
Import ListNotations.
Open Scope Z_scope.

Lemma has_prefix_split pat : forall s, has_prefix pat s = true -> exists t, s = pat ++ t.
Proof.
  induction pat as [|x pat IH]; intros s H; [now exists s|]. destruct s as [|y s]; [discriminate H|]. cbn in H.
  apply andb_prop in H. destruct H as [E H]. apply Byte.byte_dec_bl in E. subst y. destruct (IH s H) as (t & ->). now exists t.
Qed.
Lemma has_prefix_app pat t : has_prefix pat (pat ++ t) = true.
Proof. induction pat as [|x pat IH]; cbn; [reflexivity|]. rewrite IH, andb_true_r. now apply Byte.byte_dec_lb. Qed.
Lemma remove_skip old : forall k s, (k <= length s)%nat -> remove_from k old s = remove_from 0 old (skipn k s).
Proof. induction k as [|k IH]; intros [|x s] H; cbn in *; try lia; try reflexivity. apply IH. lia. Qed.
Lemma remove_here pat s : pat <> [] -> remove_all pat (pat ++ s) = remove_all pat s.
Proof.
  intros N. destruct pat as [|x pat]; [congruence|]. unfold remove_all. change ((x :: pat) ++ s) with (x :: (pat ++ s)). cbn [remove_from].
  replace (has_prefix (x :: pat) (x :: pat ++ s)) with true by (symmetry; exact (has_prefix_app (x :: pat) s)).
  cbn [length Nat.pred]. rewrite remove_skip by (rewrite app_length; lia). now rewrite skipn_app, skipn_all, PeanoNat.Nat.sub_diag.
Qed.
Lemma remove_next pat c s : (forall t, c :: s <> pat ++ t) -> remove_all pat (c :: s) = c :: remove_all pat s.
Proof.
  intros H. unfold remove_all. cbn [remove_from]. destruct (has_prefix pat (c :: s)) eqn:E; [|reflexivity].
  apply has_prefix_split in E. destruct E as (t & E). now apply H in E.
Qed.
(** strings.Replace takes out exactly the occurrences. *)
Lemma erased_iff pat s r : pat <> [] -> (erased pat s r <-> remove_all pat s = r).
Proof.
  intros N. split.
  - induction 1 as [|s r H IH|c s r H E IH]; [reflexivity|now rewrite remove_here|rewrite remove_next by exact H; now f_equal].
  - intros <-. remember (length s) as n eqn:L. assert (Ln : (length s <= n)%nat) by lia. clear L. revert s Ln.
    induction n as [|n IH]; intros [|c s] Ln; cbn in Ln; try lia; try constructor.
    destruct (has_prefix pat (c :: s)) eqn:E.
    + apply has_prefix_split in E. destruct E as (t & E). rewrite E, remove_here by exact N. constructor. apply IH.
      apply (f_equal (@length _)) in E. rewrite app_length in E. cbn in E. destruct pat; [congruence|]. cbn in E. lia.
    + assert (X : forall t, c :: s <> pat ++ t) by (intros t Q; rewrite Q, has_prefix_app in E; discriminate).
      rewrite remove_next by exact X. constructor; [exact X|]. apply IH. lia.
Qed.
Lemma erased_absent pat s : pat <> [] -> contains pat s = false -> erased pat s s.
Proof.
  intros N. induction s as [|c s IH]; intros H; [constructor|]. cbn [contains] in H. apply orb_false_elim in H. destruct H as [A B].
  constructor; [|now apply IH]. intros t E. rewrite E, has_prefix_app in A. discriminate.
Qed.

Lemma dressed_iff auth tls a s : dressed auth tls a s <-> s = add_auth_info auth tls a.
Proof.
  split.
  - intros [-> ->|host H E]; [reflexivity|]. apply erased_iff in E; [|discriminate]. rewrite <- E. unfold add_auth_info.
    destruct auth, tls; try reflexivity. destruct H; congruence.
  - intros ->. unfold add_auth_info. destruct auth, tls; [now constructor|..]; (apply dressed_so; [first [now left|now right]|now apply erased_iff]).
Qed.
Lemma dressed_added auth tls a : dressed auth tls a (add_auth_info auth tls a).
Proof. now apply dressed_iff. Qed.

(** The address a routing pool is made with. *)
Lemma seed_new leader n auth tls p : new_routing_pool leader n auth tls = Ok p -> leader <> [] /\ erased (str "+routing") leader (p_leader p).
Proof.
  unfold new_routing_pool. destruct (bytes_eqb leader []) eqn:E; [discriminate|]. destruct (_ || _); [discriminate|]. intros [= <-]. split.
  - intros ->. discriminate.
  - cbn [p_leader]. destruct (contains (str "+routing") leader) eqn:C; [now apply erased_iff|apply erased_absent; [discriminate|exact C]].
Qed.
