(** Facts about error chains and log levels. *)
From Coq Require Import String ZArith List Bool Lia ZifyBool.
From Verif Require Import Bytes GoVal GoErr Messages GoStr Errors Log SpecPool SpecClient BytesFacts RoutingFacts.
Import ListNotations.
Open Scope Z_scope.

(** ** Error chains *)
Lemma chain_inner_most e e' ms : chain e ms e' -> (forall i m, e <> EWrap (Some i) m) -> inner_most e' = e.
Proof.
  intros H Hb. induction H as [|ms e' m H IH]; [destruct e; try reflexivity; match goal with |- context [EWrap ?i ?m] => destruct i; [now destruct (Hb _ _ eq_refl)|reflexivity] end|].
  cbn. destruct e'; cbn in *; auto.
Qed.

(** ** Log levels *)
Lemma set_level_spec s v : verbosity s v <-> v = level_number (set_level s) /\ 0 < v.
Proof.
  assert (L : forall t, plain_text t = true -> bytes_eqb (to_lower s) t = true <-> folds s t)
    by (intros t Ht; rewrite bytes_eqb_eq; now apply lower_iff).
  assert (N : forall t, plain_text t = true -> bytes_eqb (to_lower s) t = false <-> ~ folds s t)
    by (intros t Ht; rewrite <- (L t Ht); destruct (bytes_eqb (to_lower s) t); split; congruence).
  assert (U : forall t t', folds s t -> folds s t' -> t = t').
  { intros t t' A B. apply folds_lower in A, B. congruence. }
  unfold set_level. split.
  - intros H. destruct H as [H|H|H|H];
      repeat match goal with |- context [bytes_eqb (to_lower s) ?t] => let E := fresh in destruct (bytes_eqb (to_lower s) t) eqn:E;
        [apply L in E; [|reflexivity]; try (let X := fresh in pose proof (U _ _ H E) as X; vm_compute in X; discriminate X)|apply N in E; [|reflexivity]; try contradiction] end; split; reflexivity.
  - intros [E Hv]. revert E. repeat match goal with |- context [bytes_eqb (to_lower s) ?t] => let F := fresh in destruct (bytes_eqb (to_lower s) t) eqn:F;
      [apply L in F; [|reflexivity]; intros ->; now constructor|clear F] end. cbn. lia.
Qed.
Definition level_of (before : option bytes) : level := match before with Some s => set_level s | None => first_level end.
Lemma level_range l : 0 <= level_number l <= 4.
Proof. destruct l; cbn; lia. Qed.
Lemma log_run_on l c : call_weight c <= level_number l -> log_run l c = call_lines c.
Proof. intros H. destruct c as [b|[b|]|m|m|m|m|m|m]; cbn in *; unfold trace_bytes, enabled; cbn [level_number]; try reflexivity; destruct l; cbn in *; try reflexivity; lia. Qed.
Lemma log_run_off l c : level_number l < call_weight c -> log_run l c = [].
Proof. intros H. destruct c as [b|[b|]|m|m|m|m|m|m]; cbn in *; unfold trace_bytes, enabled; cbn [level_number]; try reflexivity; destruct l; cbn in *; try reflexivity; lia. Qed.
Lemma call_weight_pos c : 0 < call_weight c.
Proof. destruct c; cbn; lia. Qed.
Lemma log_session_logged l : forall before, logged before l (log_session (level_of before) l).
Proof.
  induction l as [|[s|c] l IH]; intros before; [constructor|constructor; apply (IH (Some s))|]. cbn [log_session].
  destruct (Z.lt_ge_cases (level_number (level_of before)) (call_weight c)) as [H|H].
  - rewrite (log_run_off _ _ H). apply logged_hidden; [|apply IH]. intros s v -> V. apply set_level_spec in V. cbn in H. lia.
  - rewrite (log_run_on _ _ H). destruct before as [s|].
    + apply logged_shown with (v := level_number (set_level s)); [|exact H|apply IH]. apply set_level_spec. split; [reflexivity|]. cbn in H. pose proof (call_weight_pos c). lia.
    + cbn in H. pose proof (call_weight_pos c). lia.
Qed.
Lemma logged_one l : forall before out out', logged before l out -> logged before l out' -> out = out'.
Proof.
  induction l as [|[s|c] l IH]; intros before out out' A B.
  - inversion A; inversion B; reflexivity.
  - inversion A; inversion B; subst. eapply IH; eassumption.
  - inversion A as [| |s v ? ? o V W L|b ? ? o V L]; inversion B as [| |s' v' ? ? o' V' W' L'|b' ? ? o' V' L']; subst.
    + match goal with X : Some _ = Some _ |- _ => injection X as -> | _ => idtac end. f_equal. eapply IH; eassumption.
    + specialize (V' _ _ eq_refl V). lia.
    + specialize (V _ _ eq_refl V'). lia.
    + eapply IH; eassumption.
Qed.
