(** The sizes of single writes, and failing links on the sending side (proofs). *)
From Coq Require Import ZArith List Bool Lia ZifyBool.
From Verif Require Import Bytes BytesFacts GoVal GoErr Encoder SpecPack SpecValues PackFacts ValueFacts FrameFacts.
Import ListNotations.
Open Scope Z_scope.
Ltac Zify.zify_post_hook ::= Z.div_mod_to_equations.

(** Lengths of the strings in an item. *)
Fixpoint pstr_lens (p : pv) : list Z :=
  match p with
  | PStr s => [zlen s]
  | PList l | PStruct _ l => flat_map pstr_lens l
  | PMap m => flat_map (fun kv => zlen (fst kv) :: pstr_lens (snd kv)) m
  | _ => []
  end.

Section Bound.
  Variable M : Z.
  Hypothesis HM : 8 <= M.
  Let small (ws : list bytes) := Forall (fun p => zlen p <= M) ws.

  Lemma small_then a b : small (fst a) -> small (fst b) -> small (fst (w_then a b)).
  Proof. unfold w_then. destruct (snd a); cbn; intros; [assumption|]. now apply Forall_app. Qed.
  Lemma small_wrap a : small (fst a) -> small (fst (w_wrap a)).
  Proof. unfold w_wrap. destruct (snd a); auto. Qed.

  Ltac hdr :=
    repeat match goal with |- context [if ?c then _ else _] => destruct c end;
    cbn [w_ok w_err fst]; repeat constructor;
    rewrite ?zlen_be; change (zlen [?a]) with 1; try (cbn; lia).

  Lemma small_int z : small (fst (enc_int z)).
  Proof. unfold enc_int. hdr. Qed.
  Lemma small_str_hdr n : small (fst (str_hdr n)). Proof. unfold str_hdr. hdr. Qed.
  Lemma small_slice_hdr n : small (fst (slice_hdr n)). Proof. unfold slice_hdr. hdr. Qed.
  Lemma small_map_hdr n : small (fst (map_hdr n)). Proof. unfold map_hdr. hdr. Qed.
  Lemma small_struct_hdr n : small (fst (struct_hdr n)). Proof. unfold struct_hdr. hdr. Qed.

  Lemma small_str s : zlen s <= M -> small (fst (enc_str s)).
  Proof. intros. apply small_then; [apply small_str_hdr|]. repeat constructor. assumption. Qed.

  Lemma small_enc p : Forall (fun n => n <= M) (pstr_lens p) -> small (fst (enc p)).
  Proof.
    induction p as [| b | z | b | s | l IH | m IH | sig fs IH | t] using pv_ind'; intros H.
    - repeat constructor. cbn; lia.
    - destruct b; repeat constructor; cbn; lia.
    - apply small_int.
    - repeat constructor; cbn; lia.
    - cbn in H. inversion H; subst. now apply small_str.
    - rewrite enc_list_eq. apply small_then; [apply small_slice_hdr|]. cbn [pstr_lens] in H.
      induction IH as [|x l Hx _ IHl]; [constructor|]. cbn [flat_map] in H. apply Forall_app in H as [Ha Hb].
      cbn [enc_all]. apply small_then; auto.
    - rewrite enc_map_eq. apply small_then; [apply small_map_hdr|]. cbn [pstr_lens] in H.
      induction IH as [|[k x] l Hx _ IHl]; [constructor|]. cbn [flat_map fst snd app] in H.
      inversion H as [|? ? Hk Hr]; subst. apply Forall_app in Hr as [Ha Hb].
      cbn [enc_entries]. apply small_then; [now apply small_str|]. apply small_then; auto.
    - rewrite enc_struct_eq. apply small_then; [apply small_struct_hdr|].
      apply small_then; [repeat constructor; cbn; lia|]. cbn [pstr_lens] in H.
      induction IH as [|x l Hx _ IHl]; [constructor|]. cbn [flat_map] in H. apply Forall_app in H as [Ha Hb].
      cbn [enc_fields]. apply small_then; [|auto]. apply small_wrap; auto.
    - constructor.
  Qed.
End Bound.

Lemma pstr_lens_lower v x n : In n (pstr_lens (lower v x)) -> In n (str_lens x).
Proof.
  assert (Ents : forall m, Forall (fun kv : bytes * gval => In n (pstr_lens (lower v (snd kv))) -> In n (str_lens (snd kv))) m ->
     In n (pstr_lens (PMap (map (fun kv => (fst kv, lower v (snd kv))) m))) ->
     In n (flat_map (fun kv => zlen (fst kv) :: str_lens (snd kv)) m)).
  { induction 1 as [|[k x'] m Hx _ IH]; [auto|]. cbn [map pstr_lens flat_map fst snd] in *.
    rewrite !in_app_iff. cbn [In]. intuition. }
  assert (Its : forall l, Forall (fun x => In n (pstr_lens (lower v x)) -> In n (str_lens x)) l ->
     In n (flat_map pstr_lens (map (lower v) l)) -> In n (flat_map str_lens l)).
  { induction 1 as [|x' l Hx _ IH]; [auto|]. cbn [map flat_map] in *. rewrite !in_app_iff. intuition. }
  assert (Ints : forall l, flat_map pstr_lens (map PInt l) = []) by (induction l; auto).
  assert (Strs : forall l, flat_map pstr_lens (map PStr l) = map zlen l)
    by (induction l; cbn; [auto|f_equal; auto]).
  induction x using gval_ind'; cbn [lower str_lens]; auto;
    try (destruct v; cbn; contradiction);
    try (cbn [pstr_lens flat_map]; rewrite ?app_nil_r; now auto).
  - unfold int_arg. destruct k; cbn; auto. destruct (z >? MaxInt64); auto.
  - cbn [pstr_lens flat_map app]. rewrite Strs, app_nil_r, !in_app_iff. intuition.
  - cbn [pstr_lens flat_map app In]. rewrite app_nil_r. intuition.
  - cbn [pstr_lens flat_map app In]. rewrite app_nil_r. intuition.
  - cbn [pstr_lens flat_map app]. rewrite Ints, app_nil_r, !in_app_iff. intuition.
  - destruct p; cbn; auto.
  - destruct p; cbn; auto.
  - destruct v; cbn [pstr_lens]; auto. unfold time_fields. destruct (time_add _ _ _); cbn; auto.
Qed.

(** Every single write of an encoding is at most 8 bytes or a string of the value. *)
Theorem encode_small_writes v x M : 8 <= M -> Forall (fun n => n <= M) (str_lens x) ->
  Forall (fun p => zlen p <= M) (fst (encode v x)).
Proof.
  intros HM H. apply small_enc; [assumption|]. rewrite Forall_forall in *.
  intros n Hn. apply H. eapply pstr_lens_lower; eauto.
Qed.
