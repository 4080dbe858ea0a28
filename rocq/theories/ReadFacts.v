(** Reassembly of messages from an arbitrarily fragmented stream (proofs). *)
From Coq Require Import ZArith List Bool Lia ZifyBool.
From Verif Require Import Bytes BytesFacts GoVal GoErr Encoder Decoder SpecPack PackFacts FrameFacts.
Import ListNotations.
Open Scope Z_scope.
Ltac Zify.zify_post_hook ::= Z.div_mod_to_equations.

Definition full_err (got b : bytes) (en : gerr) : gerr :=
  match got ++ b, en with _ :: _, EEOF => EUnexpectedEOF | _, _ => en end.

Lemma nonempty_skip n f fs : nonempty (f :: fs) -> (n < length f)%nat -> nonempty (skipn n f :: fs).
Proof.
  intros H Hn. inversion H; subst. constructor; [|assumption]. intros E.
  apply (f_equal (@length byte)) in E. rewrite skipn_length in E. cbn in E. lia.
Qed.

Lemma read_full_spec en fs : nonempty fs -> forall n got,
  if Nat.leb n (length (concat fs)) then
    exists fs', read_full n fs got en = inl (got ++ firstn n (concat fs), fs')
                /\ concat fs' = skipn n (concat fs) /\ nonempty fs'
  else read_full n fs got en = inr (full_err got (concat fs) en).
Proof.
  induction 1 as [|f fs Hf Hne IH]; intros n got; cbn [concat].
  - destruct n; cbn [Nat.leb length read_full].
    + exists []. cbn. rewrite app_nil_r. repeat split. constructor.
    + unfold full_err. now rewrite app_nil_r.
  - destruct n; cbn [read_full].
    + cbn. exists (f :: fs). rewrite app_nil_r. repeat split. now constructor.
    + set (n' := S n). rewrite app_length. destruct (Nat.leb (length f) n') eqn:E.
      * apply Nat.leb_le in E. specialize (IH (n' - length f)%nat (got ++ f)).
        destruct (Nat.leb n' (length f + length (concat fs))) eqn:E2.
        -- apply Nat.leb_le in E2.
           destruct (Nat.leb (n' - length f) (length (concat fs))) eqn:E3; [|apply Nat.leb_gt in E3; lia].
           destruct IH as [fs' [H1 [H2 H3]]]. exists fs'. rewrite H1.
           rewrite firstn_app, (firstn_all2 f) by lia. rewrite <- app_assoc. split; [reflexivity|].
           split; [|assumption]. rewrite skipn_app, (skipn_all2 f) by lia. exact H2.
        -- apply Nat.leb_gt in E2.
           destruct (Nat.leb (n' - length f) (length (concat fs))) eqn:E3; [apply Nat.leb_le in E3; lia|].
           rewrite IH. unfold full_err. now rewrite app_assoc.
      * apply Nat.leb_gt in E. replace (Nat.leb n' (length f + length (concat fs))) with true
          by (symmetry; apply Nat.leb_le; lia).
        exists (skipn n' f :: fs). split; [|split].
        -- rewrite firstn_app. replace (n' - length f)%nat with O by lia. now rewrite app_nil_r.
        -- cbn [concat]. rewrite skipn_app. replace (n' - length f)%nat with O by lia. reflexivity.
        -- apply nonempty_skip; [now constructor|lia].
Qed.

Lemma read_data_spec en fs : nonempty fs -> forall n got,
  if Nat.leb n (length (concat fs)) then
    exists fs', read_data n fs got en = inl (got ++ firstn n (concat fs), fs')
                /\ concat fs' = skipn n (concat fs) /\ nonempty fs'
  else read_data n fs got en = inr (EWrap (Some en) 10).
Proof.
  induction 1 as [|f fs Hf Hne IH]; intros n got; cbn [concat].
  - destruct n; cbn [Nat.leb length read_data].
    + exists []. cbn. rewrite app_nil_r. repeat split. constructor.
    + reflexivity.
  - destruct n; cbn [read_data].
    + cbn. exists (f :: fs). rewrite app_nil_r. repeat split. now constructor.
    + destruct f as [|b0 f0]; [easy|]. set (f := b0 :: f0) in *.
      set (n' := S n). rewrite app_length. destruct (Nat.leb (length f) n') eqn:E.
      * apply Nat.leb_le in E. specialize (IH (n' - length f)%nat (got ++ f)).
        destruct (Nat.leb n' (length f + length (concat fs))) eqn:E2.
        -- apply Nat.leb_le in E2.
           destruct (Nat.leb (n' - length f) (length (concat fs))) eqn:E3; [|apply Nat.leb_gt in E3; lia].
           destruct IH as [fs' [H1 [H2 H3]]]. exists fs'. rewrite H1.
           rewrite firstn_app, (firstn_all2 f) by lia. rewrite <- app_assoc. split; [reflexivity|].
           split; [|assumption]. rewrite skipn_app, (skipn_all2 f) by lia. exact H2.
        -- apply Nat.leb_gt in E2.
           destruct (Nat.leb (n' - length f) (length (concat fs))) eqn:E3; [apply Nat.leb_le in E3; lia|].
           exact IH.
      * apply Nat.leb_gt in E. replace (Nat.leb n' (length f + length (concat fs))) with true
          by (symmetry; apply Nat.leb_le; lia).
        exists (skipn n' f :: fs). split; [|split].
        -- rewrite firstn_app. replace (n' - length f)%nat with O by lia. now rewrite app_nil_r.
        -- cbn [concat]. rewrite skipn_app. replace (n' - length f)%nat with O by lia. reflexivity.
        -- apply nonempty_skip; [now constructor|lia].
Qed.

(** The same loop on an unfragmented stream. *)
Fixpoint flat_loop (fuel : nat) (b : bytes) (en : gerr) (out : bytes) : res (bytes * bytes) :=
  match fuel with
  | O => NoFuel
  | S fuel' =>
      if Nat.leb 2 (length b) then
        let n := unbe (firstn 2 b) in
        let b1 := skipn 2 b in
        if n =? 0 then Ok (out, b1)
        else if Nat.leb (Z.to_nat n) (length b1) then
               flat_loop fuel' (skipn (Z.to_nat n) b1) en (out ++ firstn (Z.to_nat n) b1)
             else Err (EWrap (Some (EWrap (Some en) 10)) 13)
      else Err (EWrap (Some (full_err [] b en)) 12)
  end.

(** Outcomes that agree up to the fragmentation of what is left. *)
Definition same_read (r : res (bytes * list bytes)) (f : res (bytes * bytes)) : Prop :=
  match r, f with
  | Ok (d, fs), Ok (d', b) => d = d' /\ concat fs = b /\ nonempty fs
  | Err e, Err e' => e = e'
  | Panic, Panic => True
  | NoFuel, NoFuel => True
  | _, _ => False
  end.

Lemma read_loop_flat en fuel : forall fs out, nonempty fs ->
  same_read (read_loop fuel fs en out) (flat_loop fuel (concat fs) en out).
Proof.
  induction fuel as [|fuel IH]; intros fs out Hne; cbn [read_loop flat_loop]; [exact I|].
  pose proof (read_full_spec en fs Hne 2 []) as H.
  destruct (Nat.leb 2 (length (concat fs))) eqn:E.
  - destruct H as [fs1 [H1 [H2 H3]]]. rewrite H1. cbn [app]. rewrite <- H2.
    destruct (unbe (firstn 2 (concat fs)) =? 0) eqn:E0.
    + cbn. auto.
    + pose proof (read_data_spec en fs1 H3 (Z.to_nat (unbe (firstn 2 (concat fs)))) []) as Hd.
      destruct (Nat.leb (Z.to_nat (unbe (firstn 2 (concat fs)))) (length (concat fs1))) eqn:E1.
      * destruct Hd as [fs2 [D1 [D2 D3]]]. rewrite D1. cbn [app]. rewrite <- D2. now apply IH.
      * rewrite Hd. reflexivity.
  - rewrite H. reflexivity.
Qed.

(** The fuel is always enough. *)
Lemma flat_loop_fuel en : forall f1 f2 b out, (length b < f1)%nat -> (length b < f2)%nat ->
  flat_loop f1 b en out = flat_loop f2 b en out.
Proof.
  induction f1 as [|f1 IH]; intros f2 b out H1 H2; [lia|]. destruct f2; [lia|]. cbn [flat_loop].
  destruct (Nat.leb 2 (length b)) eqn:E; [|reflexivity]. apply Nat.leb_le in E.
  destruct (unbe (firstn 2 b) =? 0); [reflexivity|].
  destruct (Nat.leb _ (length (skipn 2 b))) eqn:E1; [|reflexivity].
  apply IH; rewrite !skipn_length; lia.
Qed.

Lemma flat_loop_total en : forall f b out, (length b < f)%nat ->
  flat_loop f b en out <> NoFuel /\ flat_loop f b en out <> Panic.
Proof.
  induction f as [|f IH]; intros b out H; [lia|]. cbn [flat_loop].
  destruct (Nat.leb 2 (length b)) eqn:E; [|split; discriminate]. apply Nat.leb_le in E.
  destruct (unbe (firstn 2 b) =? 0); [split; discriminate|].
  destruct (Nat.leb _ (length (skipn 2 b))) eqn:E1; [|split; discriminate].
  apply IH. rewrite !skipn_length. lia.
Qed.

Definition flat_read (b : bytes) (en : gerr) := flat_loop (S (length b)) b en [].

Lemma read_message_flat r : nonempty (r_frags r) ->
  same_read (read_message r) (flat_read (r_bytes r) (r_end r)).
Proof. intros H. unfold read_message, flat_read. now apply read_loop_flat. Qed.

Lemma firstn_two h (x : bytes) : length h = 2%nat -> firstn 2 (h ++ x) = h.
Proof. destruct h as [|a [|b [|]]]; try discriminate. reflexivity. Qed.
Lemma skipn_two h (x : bytes) : length h = 2%nat -> skipn 2 (h ++ x) = x.
Proof. destruct h as [|a [|b [|]]]; try discriminate. reflexivity. Qed.

(** Reading a valid framing returns its payload and leaves exactly what follows. *)
Lemma frames_flat en p w : frames p w -> forall rest out f, (length (w ++ rest) < f)%nat ->
  flat_loop f (w ++ rest) en out = Ok (out ++ p, rest).
Proof.
  induction 1 as [|c h p w Hc Hl [Hh Hv] Hf IH]; intros rest out f Hfu; (destruct f; [lia|]); cbn [flat_loop].
  - cbn. now rewrite app_nil_r.
  - rewrite <- !app_assoc in *.
    replace (Nat.leb 2 (length (h ++ c ++ w ++ rest))) with true
      by (symmetry; apply Nat.leb_le; rewrite app_length; lia).
    rewrite !(firstn_two h), !(skipn_two h), unbe_be_value, Hv by assumption.
    assert (0 < zlen c) by (destruct c; [easy|]; rewrite zlen_cons; pose proof (zlen_nonneg c); lia).
    destruct (zlen c =? 0) eqn:E; [lia|].
    replace (Z.to_nat (zlen c)) with (length c) by (unfold zlen; lia).
    rewrite firstn_app_exact, skipn_app_exact.
    replace (Nat.leb (length c) (length (c ++ w ++ rest))) with true
      by (symmetry; apply Nat.leb_le; rewrite app_length; lia).
    rewrite IH, app_assoc; [reflexivity|]. rewrite !app_length in *. lia.
Qed.

Lemma frames_flat_read en p w rest : frames p w -> flat_read (w ++ rest) en = Ok (p, rest).
Proof. intros H. unfold flat_read. rewrite (frames_flat en p w H); [reflexivity|lia]. Qed.

(** A framing cut short anywhere is never read as a message. *)
Lemma frames_cut en p w : frames p w -> forall q r out f, w = q ++ r -> r <> [] -> (length q < f)%nat ->
  exists e, flat_loop f q en out = Err e.
Proof.
  induction 1 as [|c h p w Hc Hl [Hh Hv] Hf IH]; intros q r out f E Hr Hfu; (destruct f; [lia|]);
    cbn [flat_loop].
  - destruct q as [|a [|b q]]; cbn [length Nat.leb]; eauto.
    apply (f_equal (@length byte)) in E. rewrite app_length in E. cbn in E.
    destruct r; [easy|]. cbn in E. lia.
  - destruct (Nat.leb 2 (length q)) eqn:E2; [|eauto]. apply Nat.leb_le in E2.
    assert (Hq : q = h ++ skipn 2 q).
    { rewrite <- (firstn_skipn 2 q) at 1. f_equal.
      apply (f_equal (firstn 2)) in E. rewrite <- Hh in E at 1. rewrite firstn_app_exact in E.
      rewrite firstn_app in E. replace (2 - length q)%nat with O in E by lia.
      rewrite app_nil_r in E. congruence. }
    set (q1 := skipn 2 q) in *. 
    replace (firstn 2 q) with h by (rewrite Hq; now rewrite firstn_two).
    rewrite unbe_be_value, Hv.
    rewrite Hq, <- app_assoc in E. apply app_inv_head in E.
    assert (0 < zlen c) by (destruct c; [easy|]; rewrite zlen_cons; pose proof (zlen_nonneg c); lia).
    destruct (zlen c =? 0) eqn:E0; [lia|].
    replace (Z.to_nat (zlen c)) with (length c) by (unfold zlen; lia).
    destruct (Nat.leb (length c) (length q1)) eqn:E1; [|eauto]. apply Nat.leb_le in E1.
    assert (Hq1 : q1 = c ++ skipn (length c) q1).
    { rewrite <- (firstn_skipn (length c) q1) at 1. f_equal.
      apply (f_equal (firstn (length c))) in E. rewrite firstn_app_exact in E.
      rewrite firstn_app in E. replace (length c - length q1)%nat with O in E by lia.
      rewrite app_nil_r in E. congruence. }
    set (q2 := skipn (length c) q1) in *. apply (IH q2 r).
    + rewrite Hq1, <- app_assoc in E. now apply app_inv_head in E.
    + assumption.
    + rewrite Hq, Hq1, !app_length in Hfu. lia.
Qed.

Lemma frames_cut_read en p q r : frames p (q ++ r) -> r <> [] -> exists e, flat_read q en = Err e.
Proof. intros H Hr. eapply frames_cut; eauto. Qed.

(** ** Decode on a fragmented stream *)

Definition flat_decode (v : ver) (tz : zones) (b : bytes) (en : gerr) : res (gval * bytes) :=
  match flat_read b en with
  | Ok (data, rest) =>
      match decode v tz data with
      | Ok (x, _) => Ok (x, rest)
      | Err e => Err e
      | Panic => Panic
      | NoFuel => NoFuel
      end
  | Err e => Err e
  | Panic => Panic
  | NoFuel => NoFuel
  end.

Definition same_decode (r : res (gval * reader)) (f : res (gval * bytes)) (en : gerr) : Prop :=
  match r, f with
  | Ok (x, r'), Ok (x', b) => x = x' /\ r_bytes r' = b /\ nonempty (r_frags r') /\ r_end r' = en
  | Err e, Err e' => e = e'
  | Panic, Panic => True
  | NoFuel, NoFuel => True
  | _, _ => False
  end.

Lemma decoder_decode_flat v tz r : nonempty (r_frags r) ->
  same_decode (decoder_decode v tz r) (flat_decode v tz (r_bytes r) (r_end r)) (r_end r).
Proof.
  intros H. apply read_message_flat in H. unfold decoder_decode, flat_decode.
  destruct (read_message r) as [[d fs]| | |], (flat_read (r_bytes r) (r_end r)) as [[d' b]| | |]; cbn in H;
    try contradiction; try exact I; try assumption.
  destruct H as [-> [<- H3]]. destruct (decode v tz d') as [[x y]| | |]; cbn; auto.
Qed.
