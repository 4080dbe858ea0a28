(** Reading statistics: C45. *)
From Coq Require Import String ZArith List Bool.
From Verif Require Import Bytes GoVal GoErr Decoder Messages Result.
Import ListNotations.
Open Scope Z_scope.

Lemma get_stats_some md s : get_stats md = Some s <-> map_get md (str "stats") = Some (GMap s).
Proof.
  unfold get_stats. destruct (map_get md (str "stats")) as [[]|]; split; intro H; try discriminate; injection H as <-; reflexivity.
Qed.
Lemma stat_cases key md :
  (forall z, reported md key z -> stat_unchecked key md = Ok (z, true))
  /\ (unreported md key \/ malformed md key -> stat_unchecked key md = Panic)
  /\ ((forall s, map_get md (str "stats") <> Some (GMap s)) -> stat_unchecked key md = Ok (-1, false)).
Proof.
  unfold stat_unchecked. split; [|split].
  - intros z H. destruct H as [md key st z H1 H2]. apply get_stats_some in H1. now rewrite H1, H2.
  - intros [(st & H1 & H2)|(st & x & H1 & H2 & H3)]; apply get_stats_some in H1; rewrite H1, H2; [reflexivity|].
    destruct x as [| |k z| | | | | | | | | | | | | | | | | | | | | | | | | | |]; try reflexivity.
    destruct k; try reflexivity. now elim (H3 z).
  - intro H. destruct (get_stats md) eqn:E; [|reflexivity]. apply get_stats_some in E. now elim (H g).
Qed.
(** Every case is one of these. *)
Lemma stat_exhaustive key md :
  (exists z, reported md key z) \/ unreported md key \/ malformed md key \/ (forall s, map_get md (str "stats") <> Some (GMap s)).
Proof.
  destruct (get_stats md) as [st|] eqn:E.
  - apply get_stats_some in E. destruct (map_get st key) as [x|] eqn:E2.
    + assert (D : (exists z, x = GInt KInt64 z) \/ forall z, x <> GInt KInt64 z).
      { destruct x as [| |k z| | | | | | | | | | | | | | | | | | | | | | | | | | |]; try (right; intros; discriminate).
        destruct k; try (right; intros; discriminate). left. eauto. }
      destruct D as [[z ->]|D]; [left; exists z; econstructor; eauto|]. right. right. left. exists st, x. auto.
    + right. left. exists st. auto.
  - right. right. right. intros s H. apply get_stats_some in H. congruence.
Qed.
Lemma stat_never_crashes_iff key md : stat_unchecked key md = Panic <-> unreported md key \/ malformed md key.
Proof.
  destruct (stat_cases key md) as (H1 & H2 & H3). split; [|exact H2]. intro H.
  destruct (stat_exhaustive key md) as [[z X]|[X|[X|X]]]; auto.
  - rewrite (H1 z X) in H. discriminate.
  - rewrite (H3 X) in H. discriminate.
Qed.
Lemma deleted_cases md :
  (forall z, reported md (str "nodes-deleted") z -> get_nodes_deleted md = Ok (z, true))
  /\ (unreported md (str "nodes-deleted") \/ (forall s, map_get md (str "stats") <> Some (GMap s)) -> get_nodes_deleted md = Ok (-1, false))
  /\ (malformed md (str "nodes-deleted") -> get_nodes_deleted md = Panic).
Proof.
  unfold get_nodes_deleted. split; [|split].
  - intros z H. inversion H as [m k st z' H1 H2]; subst. apply get_stats_some in H1. now rewrite H1, H2.
  - intros [(st & H1 & H2)|H].
    + apply get_stats_some in H1. now rewrite H1, H2.
    + destruct (get_stats md) eqn:E; [|reflexivity]. apply get_stats_some in E. now elim (H g).
  - intros (st & x & H1 & H2 & H3). apply get_stats_some in H1. rewrite H1, H2.
    destruct x as [| |k z| | | | | | | | | | | | | | | | | | | | | | | | | | |]; try reflexivity.
    destruct k; try reflexivity. now elim (H3 z).
Qed.
