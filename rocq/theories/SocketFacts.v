(** Goroutines that share a socket and its deadline: C109. *)
From Coq Require Import ZArith List Bool Lia ZifyBool.
From Verif Require Import Bytes GoVal GoErr BytesFacts Decoder ReadFacts FrameFacts Errors Timing SpecTime DeadlineFacts Concurrency ConcurFacts SocketRace.
Import ListNotations.
Open Scope Z_scope.

(** ** A goroutine that is alone with the socket *)

(** The outcome of a Read, waiting included. *)
Definition outcome (n : nat) (z : socket) : (bytes + gerr) * socket :=
  let i := z_in z in
  let stay t := mkSocket t (z_deadline z) i in
  if z_deadline z <? z_now z then (inr ETimeout, z)
  else
    match i_pieces i with
    | (a, f) :: ps =>
        if a <=? z_deadline z then
          (inl (firstn n f), mkSocket (Z.max (z_now z) a) (z_deadline z) (mkIncoming (match skipn n f with [] => ps | f' => (a, f') :: ps end) (i_close i)))
        else (inr ETimeout, stay (z_deadline z))
    | [] =>
        match i_close i with
        | Some t => if t <=? z_deadline z then (inr EEOF, stay (Z.max (z_now z) t)) else (inr ETimeout, stay (z_deadline z))
        | None => (inr ETimeout, stay (z_deadline z))
        end
    end.
Fixpoint play {A} (p : talk A) (z : socket) : res A * socket :=
  match p with
  | TRet r => (r, z)
  | TArm d k => play k (arm d z)
  | TRead n k => play (k (fst (outcome n z))) (snd (outcome n z))
  end.
Lemma play_bind {A B} (p : talk A) (f : res A -> talk B) : forall z, play (tbind p f) z = play (f (fst (play p z))) (snd (play p z)).
Proof. induction p as [r|d k IH|n k IH]; intros z; cbn; auto. Qed.

Definition later (z : socket) : socket := mkSocket (z_now z + 1) (z_deadline z) (z_in z).
Lemma attempt_now n z r z' : attempt n z = (Some r, z') -> outcome n z = (r, z').
Proof.
  destruct z as [now dl [ps cl]]. unfold attempt, outcome. cbn.
  destruct (dl <? now) eqn:E1; [now intros [= <- <-]|].
  destruct ps as [|[a f] ps].
  - destruct cl as [t|].
    + destruct (t <=? now) eqn:E2.
      * intros [= <- <-]. replace (t <=? dl) with true by lia. now replace (Z.max now t) with now by lia.
      * destruct (dl <=? now) eqn:E3; [|discriminate]. intros [= <- <-]. replace (t <=? dl) with false by lia. now replace dl with now by lia.
    + destruct (dl <=? now) eqn:E3; [|discriminate]. intros [= <- <-]. now replace dl with now by lia.
  - destruct (a <=? now) eqn:E2.
    + intros [= <- <-]. replace (a <=? dl) with true by lia. now replace (Z.max now a) with now by lia.
    + destruct (dl <=? now) eqn:E3; [|discriminate]. intros [= <- <-]. replace (a <=? dl) with false by lia. now replace dl with now by lia.
Qed.
Lemma attempt_waits n z z' : attempt n z = (None, z') -> z_now z < z_deadline z /\ outcome n (later z) = outcome n z.
Proof.
  destruct z as [now dl [ps cl]]. unfold attempt, outcome, later. cbn.
  destruct (dl <? now) eqn:E1; [discriminate|].
  destruct ps as [|[a f] ps].
  - destruct cl as [t|].
    + destruct (t <=? now) eqn:E2; [discriminate|]. destruct (dl <=? now) eqn:E3; [discriminate|]. intros _. split; [lia|].
      replace (dl <? now + 1) with false by lia. destruct (t <=? dl) eqn:E4; [|reflexivity]. now replace (Z.max (now + 1) t) with (Z.max now t) by lia.
    + destruct (dl <=? now) eqn:E3; [discriminate|]. intros _. split; [lia|]. now replace (dl <? now + 1) with false by lia.
  - destruct (a <=? now) eqn:E2; [discriminate|]. destruct (dl <=? now) eqn:E3; [discriminate|]. intros _. split; [lia|].
    replace (dl <? now + 1) with false by lia. destruct (a <=? dl) eqn:E4; [|reflexivity]. now replace (Z.max (now + 1) a) with (Z.max now a) by lia.
Qed.

Definition ended (p : talk ending) : bool := match p with TRet _ => true | _ => false end.
(** All but [i] have ended. *)
Definition others_ended (i : nat) (x : crowd) : Prop := forall j p, nth_error (w_gos x) j = Some p -> j <> i -> ended p = true.
Lemma others_put i p x z : others_ended i x -> others_ended i (mkCrowd z (put_nth i p (w_gos x))).
Proof. intros H j q Hj Ne. cbn in Hj. rewrite nth_put_other in Hj by congruence. eauto. Qed.
Lemma ticks i n k x z' : nth_error (w_gos x) i = Some (TRead n k) -> others_ended i x -> attempt n (w_sock x) = (None, z') ->
  tick x = Some (mkCrowd (later (w_sock x)) (w_gos x)).
Proof.
  intros Hi Ho Ha. unfold tick. replace (quiet x) with true; [reflexivity|]. symmetry. apply forallb_forall. intros j _.
  unfold crowd_step. destruct (nth_error (w_gos x) j) as [p|] eqn:E; [|reflexivity].
  destruct (Nat.eq_dec j i) as [->|Ne].
  - rewrite Hi in E. injection E as <-. now rewrite Ha.
  - specialize (Ho j p E Ne). now destruct p.
Qed.
Lemma course_app es es' x : course (es ++ es') x = match course es x with Some y => course es' y | None => None end.
Proof. revert x. induction es as [|e es IH]; intros x; [reflexivity|]. cbn. destruct (match e with Some i => _ | None => _ end); auto. Qed.
(** It waits until its Read returns. *)
Lemma reads_alone i n k : forall m x, nth_error (w_gos x) i = Some (TRead n k) -> others_ended i x ->
  Z.to_nat (z_deadline (w_sock x) - z_now (w_sock x)) = m ->
  exists es, course es x = Some (mkCrowd (snd (outcome n (w_sock x))) (put_nth i (k (fst (outcome n (w_sock x)))) (w_gos x))).
Proof.
  induction m as [m IH] using lt_wf_ind. intros x Hi Ho Hm. destruct (attempt n (w_sock x)) as [[r|] z'] eqn:Ha.
  - exists [Some i]. cbn. unfold crowd_step. rewrite Hi, Ha, (attempt_now _ _ _ _ Ha). reflexivity.
  - destruct (attempt_waits _ _ _ Ha) as (Hlt & Ho'). pose proof (ticks _ _ _ _ _ Hi Ho Ha) as Ht.
    destruct (IH (Z.to_nat (z_deadline (w_sock x) - (z_now (w_sock x) + 1))) ltac:(lia) (mkCrowd (later (w_sock x)) (w_gos x)) Hi Ho eq_refl) as (es & He).
    exists (None :: es). cbn [course]. rewrite Ht. cbn [w_sock w_gos] in He. now rewrite Ho' in He.
Qed.
Lemma runs_alone i (p : talk ending) : forall x, nth_error (w_gos x) i = Some p -> others_ended i x ->
  exists es, course es x = Some (mkCrowd (snd (play p (w_sock x))) (put_nth i (TRet (fst (play p (w_sock x)))) (w_gos x))).
Proof.
  assert (PP : forall l (i : nat) (a b : talk ending), put_nth i b (put_nth i a l) = put_nth i b l).
  { induction l as [|y l IH]; intros [|j] a b; cbn; auto. now rewrite IH. }
  assert (PS : forall l (i : nat) (a : talk ending), nth_error l i = Some a -> put_nth i a l = l).
  { induction l as [|y l IH]; intros [|j] a H; cbn in *; try discriminate H; [now injection H as ->|now rewrite IH]. }
  induction p as [r|d k IH|n k IH]; intros x Hi Ho; cbn [play].
  - exists []. cbn. rewrite (PS _ _ _ Hi). now destruct x.
  - destruct (IH (mkCrowd (arm d (w_sock x)) (put_nth i k (w_gos x)))) as (es & He).
    + cbn. now apply (nth_put_same i k (TArm d k)).
    + now apply others_put.
    + exists (Some i :: es). cbn [course]. unfold crowd_step. rewrite Hi. cbn [w_sock w_gos] in He. rewrite PP in He. exact He.
  - destruct (reads_alone i n k _ x Hi Ho eq_refl) as (es1 & H1). set (o := outcome n (w_sock x)) in *.
    destruct (IH (fst o) (mkCrowd (snd o) (put_nth i (k (fst o)) (w_gos x)))) as (es & He).
    + cbn. now apply (nth_put_same i _ (TRead n k)).
    + now apply others_put.
    + exists (es1 ++ es). rewrite course_app, H1. cbn [w_sock w_gos] in He. rewrite PP in He. exact He.
Qed.
(** Whatever happens to it, its outcome is decided. *)
Lemma decided es : forall p x x' p', w_gos x = [p] -> course es x = Some x' -> w_gos x' = [p'] -> fst (play p' (w_sock x')) = fst (play p (w_sock x)).
Proof.
  induction es as [|e es IH]; intros p x x' p' Hx Hc Hx'.
  - injection Hc as <-. rewrite Hx in Hx'. now injection Hx' as ->.
  - cbn [course] in Hc. destruct e as [i|].
    + unfold crowd_step in Hc. rewrite Hx in Hc. destruct i as [|i]; [|destruct i; discriminate Hc]. cbn [nth_error] in Hc. destruct p as [r|d k|n k]; [discriminate Hc| |].
      * cbn [put_nth] in Hc. pose proof (fun H => IH k _ x' p' H Hc Hx') as X. now rewrite (X eq_refl).
      * destruct (attempt n (w_sock x)) as [[r|] z'] eqn:Ha; [|discriminate Hc]. cbn [put_nth] in Hc.
        pose proof (fun H => IH (k r) _ x' p' H Hc Hx') as X. rewrite (X eq_refl). cbn [play w_sock]. now rewrite (attempt_now _ _ _ _ Ha).
    + unfold tick in Hc. destruct (quiet x) eqn:Q; [|discriminate Hc]. rewrite Hx in Hc.
      pose proof (fun H => IH p _ x' p' H Hc Hx') as X. rewrite (X eq_refl). clear X. cbn [w_sock]. destruct p as [r|d k|n k]; [reflexivity| |].
      * exfalso. unfold quiet in Q. rewrite Hx in Q. cbn in Q. unfold crowd_step in Q. rewrite Hx in Q. discriminate Q.
      * destruct (attempt n (w_sock x)) as [[r|] z'] eqn:Ha.
        -- exfalso. unfold quiet in Q. rewrite Hx in Q. cbn in Q. unfold crowd_step in Q. rewrite Hx in Q. cbn in Q. rewrite Ha in Q. discriminate Q.
        -- destruct (attempt_waits _ _ _ Ha) as (_ & E). cbn [play]. change (mkSocket (z_now (w_sock x) + 1) (z_deadline (w_sock x)) (z_in (w_sock x))) with (later (w_sock x)). now rewrite E.
Qed.

(** ** It reads as Timing.v says *)

Definition as_res (r : bytes + gerr) : res bytes := match r with inl b => Ok b | inr e => Err e end.
(** One readWrite.Read *)
Lemma play_read {A} T n (k : bytes + gerr -> talk A) now dl ps cl :
  exists dl', play (sock_read T n k) (mkSocket now dl (mkIncoming ps cl)) =
    match ps with
    | (a, f) :: ps' =>
        match returns_at T now a with
        | Some t => play (k (inl (firstn n f))) (mkSocket t dl' (mkIncoming (match skipn n f with [] => ps' | f' => (a, f') :: ps' end) cl))
        | None => play (k (inr EBadConn)) (mkSocket (gives_up_at T now) dl' (mkIncoming ps cl))
        end
    | [] => play (k (inr (fst (read_error T now [] cl)))) (mkSocket (snd (read_error T now [] cl)) dl' (mkIncoming [] cl))
    end.
Proof.
  unfold sock_read. cbn [play]. unfold arm, outcome, returns_at, read_error, gives_up_at. cbn.
  destruct (T <=? 0) eqn:ET.
  - exists (now - 1). replace (now - 1 <? now) with true by lia. replace (now + Z.max T 0) with now by lia. cbn.
    destruct ps as [|[a f] ps]; [|reflexivity]. destruct cl as [t|]; [|reflexivity]. unfold returns_at. now rewrite ET.
  - exists (now + T). replace (now + T <? now) with false by lia. replace (Z.max T 0) with T by lia.
    destruct ps as [|[a f] ps].
    + destruct cl as [t|]; [|reflexivity]. unfold returns_at. rewrite ET. now destruct (t <=? now + T).
    + now destruct (a <=? now + T).
Qed.
Lemma play_full T cl : forall fuel n now dl ps got, solid ps -> (n <= fuel)%nat ->
  exists dl', play (sock_full fuel T n got) (mkSocket now dl (mkIncoming ps cl)) =
    let '(r, t, ps') := timed_full T n now ps cl got in (as_res r, mkSocket t dl' (mkIncoming ps' cl)).
Proof.
  induction fuel as [|fuel IH]; intros n now dl ps got So Hn.
  - replace n with 0%nat by lia. exists dl. now destruct ps as [|[]].
  - destruct n as [|n]; [exists dl; now destruct ps as [|[]]|]. cbn [sock_full].
    destruct (play_read T (S n) (fun r => match r with
       | inl b => sock_full fuel T (S n - length b) (got ++ b)
       | inr e => TRet (Err (match got, e with _ :: _, EEOF => EUnexpectedEOF | _, _ => e end)) end) now dl ps cl) as (dl' & E).
    rewrite E. clear E. destruct ps as [|[a f] ps].
    + exists dl'. cbn [timed_full]. destruct (read_error T now [] cl) as [e t]. reflexivity.
    + cbn [timed_full]. unfold read_error. inversion So as [|? ? Nf Sp]; subst. cbn [snd] in Nf.
      destruct (returns_at T now a) as [t|]; [|exists dl'; reflexivity].
      destruct (Nat.leb_spec (length f) (S n)) as [Hl|Hl].
      * rewrite (firstn_all2 f) by lia. rewrite (skipn_all2 f) by lia.
        destruct (IH (S n - length f)%nat t dl' ps (got ++ f) Sp) as (dl2 & E2); [destruct f; [now destruct Nf|cbn [length]; lia]|]. exists dl2. exact E2.
      * rewrite firstn_length_le by lia. replace (S n - S n)%nat with 0%nat by lia. exists dl'.
        assert (Hs : skipn (S n) f <> []) by (intro X; apply (f_equal (@length _)) in X; rewrite skipn_length in X; cbn in X; lia).
        destruct (skipn (S n) f) as [|y g]; [now destruct Hs|]. now destruct fuel.
Qed.
Lemma play_data T cl : forall fuel n now dl ps got, solid ps -> (n <= fuel)%nat ->
  exists dl', play (sock_data fuel T n got) (mkSocket now dl (mkIncoming ps cl)) =
    let '(r, t, ps') := timed_data T n now ps cl got in (as_res r, mkSocket t dl' (mkIncoming ps' cl)).
Proof.
  induction fuel as [|fuel IH]; intros n now dl ps got So Hn.
  - replace n with 0%nat by lia. exists dl. now destruct ps as [|[]].
  - destruct n as [|n]; [exists dl; now destruct ps as [|[]]|]. cbn [sock_data].
    destruct (play_read T (S n) (fun r => match r with
       | inl [] => TRet (Err (EWrap None 11))
       | inl b => sock_data fuel T (S n - length b) (got ++ b)
       | inr e => TRet (Err (EWrap (Some e) 10)) end) now dl ps cl) as (dl' & E).
    rewrite E. clear E. destruct ps as [|[a f] ps].
    + exists dl'. cbn [timed_data]. destruct (read_error T now [] cl) as [e t]. reflexivity.
    + cbn [timed_data]. unfold read_error. inversion So as [|? ? Nf Sp]; subst. cbn [snd] in Nf.
      destruct (returns_at T now a) as [t|]; [|exists dl'; reflexivity].
      destruct f as [|y f]; [now destruct Nf|].
      destruct (Nat.leb_spec (length (y :: f)) (S n)) as [Hl|Hl].
      * rewrite (firstn_all2 (y :: f)) by lia. rewrite (skipn_all2 (y :: f)) by lia.
        destruct (IH (S n - length (y :: f))%nat t dl' ps (got ++ y :: f) Sp) as (dl2 & E2); [cbn [length]; lia|]. exists dl2. exact E2.
      * assert (F : firstn (S n) (y :: f) = y :: firstn n f) by reflexivity.
        pose proof (firstn_length_le (y :: f) (n := S n) ltac:(lia)) as Lf. rewrite F in Lf |- *. rewrite Lf.
        replace (S n - S n)%nat with 0%nat by lia. exists dl'.
        assert (Hs : skipn (S n) (y :: f) <> []) by (intro X; apply (f_equal (@length _)) in X; rewrite skipn_length in X; cbn in X, Hl; lia).
        destruct (skipn (S n) (y :: f)) as [|u g]; [now destruct Hs|]. now destruct fuel.
Qed.
Lemma full_solid T cl : forall ps n now got r t ps', solid ps -> timed_full T n now ps cl got = (r, t, ps') -> solid ps'.
Proof.
  induction ps as [|[a f] ps IH]; intros n now got r t ps' So E.
  - destruct n; cbn [timed_full timed_data] in E; [now injection E as _ _ <-|]. destruct (read_error T now [] cl). now injection E as _ _ <-.
  - destruct n as [|n]; cbn [timed_full] in E; [now injection E as _ _ <-|]. unfold read_error in E. inversion So; subst.
    destruct (returns_at T now a); [|now injection E as _ _ <-].
    destruct (Nat.leb_spec (length f) (S n)) as [Hl|Hl]; [eauto|]. assert (P : snd (a, skipn (S n) f) <> []).
    { intro X. cbn [snd] in X. apply (f_equal (@length _)) in X. rewrite skipn_length in X. cbn in X. lia. }
    injection E as _ _ <-. constructor; assumption.
Qed.
Lemma data_solid T cl : forall ps n now got r t ps', solid ps -> timed_data T n now ps cl got = (r, t, ps') -> solid ps'.
Proof.
  induction ps as [|[a f] ps IH]; intros n now got r t ps' So E.
  - destruct n; cbn [timed_full timed_data] in E; [now injection E as _ _ <-|]. destruct (read_error T now [] cl). now injection E as _ _ <-.
  - destruct n as [|n]; cbn [timed_data] in E; [now injection E as _ _ <-|]. unfold read_error in E. inversion So as [|? ? Nf Sp]; subst.
    destruct (returns_at T now a); [|now injection E as _ _ <-]. destruct f as [|y f]; [now destruct Nf|].
    destruct (Nat.leb_spec (length (y :: f)) (S n)) as [Hl|Hl]; [eauto|]. assert (P : snd (a, skipn (S n) (y :: f)) <> []).
    { intro X. cbn [snd] in X. apply (f_equal (@length _)) in X. rewrite skipn_length in X. cbn in X, Hl. lia. }
    injection E as _ _ <-. constructor; assumption.
Qed.
Lemma play_loop T cl : forall fuel now dl ps out, solid ps ->
  exists dl', play (sock_loop fuel T out) (mkSocket now dl (mkIncoming ps cl)) =
    let '(r, t, ps') := timed_loop fuel T now ps cl out in (r, mkSocket t dl' (mkIncoming ps' cl)).
Proof.
  induction fuel as [|fuel IH]; intros now dl ps out So; [now exists dl|]. cbn [sock_loop timed_loop]. rewrite play_bind.
  destruct (play_full T cl 2 2 now dl ps [] So (le_n 2)) as (dl1 & ->).
  destruct (timed_full T 2 now ps cl []) as [[[hd|e] t] ps1] eqn:E1; cbn [as_res fst snd]; [|now exists dl1].
  destruct (unbe hd =? 0); [now exists dl1|]. rewrite play_bind. pose proof (full_solid _ _ _ _ _ _ _ _ _ So E1) as So1.
  destruct (play_data T cl (Z.to_nat (unbe hd)) (Z.to_nat (unbe hd)) t dl1 ps1 [] So1 (le_n _)) as (dl2 & ->).
  destruct (timed_data T (Z.to_nat (unbe hd)) t ps1 cl []) as [[[data|e] t2] ps2] eqn:E2; cbn [as_res fst snd]; [|now exists dl2].
  apply IH. exact (data_solid _ _ _ _ _ _ _ _ _ So1 E2).
Qed.
Lemma loop_fuel T cl : forall fuel fuel' now ps out r t ps', timed_loop fuel T now ps cl out = (r, t, ps') -> r <> NoFuel -> (fuel <= fuel')%nat ->
  timed_loop fuel' T now ps cl out = (r, t, ps').
Proof.
  induction fuel as [|fuel IH]; intros fuel' now ps out r t ps' E Hr Hf; [injection E as <- _ _; now destruct Hr|].
  destruct fuel' as [|fuel']; [lia|]. cbn [timed_loop] in *.
  destruct (timed_full T 2 now ps cl []) as [[[hd|e] t1] ps1]; [|exact E]. destruct (unbe hd =? 0); [exact E|].
  destruct (timed_data _ _ _ _ _ _) as [[[data|e] t2] ps2]; [|exact E]. apply IH; auto. lia.
Qed.
Lemma read_ends_somehow T now i r t i' : solid (i_pieces i) -> timed_read T now i = (r, t, i') -> r <> NoFuel.
Proof.
  intros So E. destruct (Z.le_gt_cases T 0) as [HT|HT].
  - destruct (no_patience T now i HT) as (e & i1 & X & _). rewrite X in E. injection E as <- _ _. discriminate.
  - destruct (ends_total T (i_close i) (i_pieces i) HT now) as (k & te & e & H).
    pose proof (read_ends T now i k te e HT So H) as R. destruct (flat_read _ _) as [[p rest]|e'| |].
    + destruct R as (n & t1 & i1 & X & _). rewrite X in E. injection E as <- _ _. discriminate.
    + destruct R as (i1 & X). rewrite X in E. injection E as <- _ _. discriminate.
    + contradiction.
    + contradiction.
Qed.
Lemma play_receiver T fuel now dl i r t i' : solid (i_pieces i) -> (length (sent_bytes (i_pieces i)) < fuel)%nat -> timed_read T now i = (r, t, i') ->
  exists dl', play (receiver fuel T) (mkSocket now dl i) = (Ok (GotMessage r), mkSocket t dl' i').
Proof.
  intros So Hf E. pose proof (read_ends_somehow _ _ _ _ _ _ So E) as Hr. unfold timed_read in E. destruct i as [ps cl]. cbn [i_pieces i_close] in *.
  change (timed_bytes ps) with (sent_bytes ps) in E.
  destruct (timed_loop (S (length (sent_bytes ps))) T now ps cl []) as [[r0 t0] ps'] eqn:L. injection E as -> -> <-.
  unfold receiver. rewrite play_bind. destruct (play_loop T cl fuel now dl ps [] So) as (dl' & ->).
  rewrite (loop_fuel _ _ _ fuel _ _ _ _ _ _ L Hr) by lia. now exists dl'.
Qed.

(** ** C109 *)

Lemma receives_alone T fuel now dl i r t i' : solid (i_pieces i) -> (length (sent_bytes (i_pieces i)) < fuel)%nat -> timed_read T now i = (r, t, i') ->
  (exists es dl', course es (mkCrowd (mkSocket now dl i) [receiver fuel T]) = Some (mkCrowd (mkSocket t dl' i') [TRet (Ok (GotMessage r))]))
  /\ (forall es x' r', course es (mkCrowd (mkSocket now dl i) [receiver fuel T]) = Some x' -> w_gos x' = [TRet r'] -> r' = Ok (GotMessage r)).
Proof.
  intros So Hf E. destruct (play_receiver T fuel now dl i r t i' So Hf E) as (dl' & P). split.
  - destruct (runs_alone 0 (receiver fuel T) (mkCrowd (mkSocket now dl i) [receiver fuel T]) eq_refl) as (es & He).
    { intros [|j] p Hj Ne; [now destruct Ne|]. cbn in Hj. destruct j; discriminate Hj. }
    exists es, dl'. cbn [w_sock w_gos] in He. now rewrite P in He.
  - intros es x' r' Hc Hg. pose proof (fun H => decided es (receiver fuel T) _ x' (TRet r') H Hc Hg) as D. specialize (D eq_refl). cbn [w_sock] in D. rewrite P in D. exact D.
Qed.
(** ValidateOpen makes a Read in progress fail at once. *)
Lemma interrupted T fuel now dl i : exists es z b e, course es (mkCrowd (mkSocket now dl i) [receiver (S fuel) T; prober]) = Some (mkCrowd z [TRet (Ok (GotMessage (Err e))); TRet (Ok (ToldOpen b))])
  /\ inner_most e = EBadConn /\ z_now z = now /\ z_in z = i.
Proof.
  exists [Some 0%nat; Some 1%nat; Some 0%nat; Some 1%nat]. do 3 eexists. split; [|split].
  - unfold receiver. cbn. unfold crowd_step. cbn. unfold attempt, arm. cbn. replace (now - 1 <? now) with true by lia. cbn.
    replace (now - 1 <? now) with true by lia. reflexivity.
  - reflexivity.
  - split; reflexivity.
Qed.
(** ValidateOpen takes the first byte of the answer if a Read sets its deadline before ValidateOpen reads. *)
Lemma stolen_byte T fuel now dl a b f ps cl r t i' : 0 < T -> a <= now + T -> f <> [] -> solid ps ->
  (length (sent_bytes ((a, b :: f) :: ps)) < fuel)%nat ->
  timed_read T now (mkIncoming ((a, f) :: ps) cl) = (r, t, i') ->
  exists es dl', course es (mkCrowd (mkSocket now dl (mkIncoming ((a, b :: f) :: ps) cl)) [receiver fuel T; prober])
    = Some (mkCrowd (mkSocket t dl' i') [TRet (Ok (GotMessage r)); TRet (Ok (ToldOpen true))]).
Proof.
  intros HT Ha Nf So Hf E. set (rest := (a, f) :: ps) in *.
  assert (Sr : solid rest) by now constructor.
  assert (Lr : (length (sent_bytes rest) < fuel)%nat) by (unfold rest; cbn in *; lia).
  destruct fuel as [|fuel]; [lia|].
  destruct (play_receiver T (S fuel) now dl (mkIncoming rest cl) r t i' Sr Lr E) as (dl' & P).
  assert (R : exists k, receiver (S fuel) T = TArm T (TRead 2 k)) by (eexists; reflexivity). destruct R as (k & R). rewrite R in *.
  cbn [play] in P. unfold arm in P. cbn [z_now z_in] in P. replace (T <=? 0) with false in P by lia.
  (* both are ready, then time passes until the byte is there *)
  set (z := fun d => mkSocket (now + Z.of_nat d) (now + T) (mkIncoming ((a, b :: f) :: ps) cl)).
  set (two := [TRead 2 k; TRead 1 (fun r => TRet (Ok (ToldOpen (match r with inr EEOF => false | _ => true end))))]).
  assert (W : forall d, now + Z.of_nat d <= Z.max now a -> exists es, course es (mkCrowd (z 0%nat) two) = Some (mkCrowd (z d) two)).
  { induction d as [|d IH]; intros Hd; [now exists []|]. destruct (IH ltac:(lia)) as (es & He). exists (es ++ [None]).
    rewrite course_app, He. cbn [course]. unfold tick.
    assert (Q : quiet (mkCrowd (z d) two) = true).
    { unfold quiet, two, crowd_step. cbn [w_gos length seq forallb nth_error w_sock]. unfold attempt, z. cbn.
      replace (now + T <? now + Z.of_nat d) with false by lia. replace (a <=? now + Z.of_nat d) with false by lia.
      now replace (now + T <=? now + Z.of_nat d) with false by lia. }
    rewrite Q. cbn [w_sock w_gos]. unfold z. cbn [z_now z_deadline z_in]. replace (now + Z.of_nat d + 1) with (now + Z.of_nat (S d)) by lia. reflexivity. }
  destruct (W (Z.to_nat (Z.max now a - now)) ltac:(lia)) as (es & He).
  set (zz := mkSocket (Z.max now a) (now + T) (mkIncoming rest cl)).
  assert (Th : course (es ++ [Some 1%nat]) (mkCrowd (z 0%nat) two) = Some (mkCrowd zz [TRead 2 k; TRet (Ok (ToldOpen true))])).
  { rewrite course_app, He. cbn [course]. unfold crowd_step, two. cbn [w_gos nth_error w_sock]. unfold attempt, z. cbn.
    replace (now + Z.of_nat (Z.to_nat (Z.max now a - now))) with (Z.max now a) by lia.
    replace (now + T <? Z.max now a) with false by lia. replace (a <=? Z.max now a) with true by lia. cbn. unfold zz, rest. now destruct f; [destruct Nf|]. }
  assert (O : forall n, outcome n zz = outcome n (mkSocket now (now + T) (mkIncoming rest cl))).
  { intros n. unfold outcome, zz. cbn. replace (now + T <? Z.max now a) with false by lia. replace (now + T <? now) with false by lia.
    replace (a <=? now + T) with true by lia. now replace (Z.max (Z.max now a) a) with (Z.max now a) by lia. }
  destruct (runs_alone 0 (TRead 2 k) (mkCrowd zz [TRead 2 k; TRet (Ok (ToldOpen true))]) eq_refl) as (es2 & H2).
  { intros [|[|j]] p Hj Ne; [now destruct Ne|now injection Hj as <-|cbn in Hj; destruct j; discriminate Hj]. }
  exists ([Some 1%nat; Some 0%nat] ++ (es ++ [Some 1%nat]) ++ es2), dl'. rewrite course_app.
  assert (B : course [Some 1%nat; Some 0%nat] (mkCrowd (mkSocket now dl (mkIncoming ((a, b :: f) :: ps) cl)) [TArm T (TRead 2 k); prober]) = Some (mkCrowd (z 0%nat) two)).
  { cbn. unfold arm. cbn. replace (T <=? 0) with false by lia. unfold z. cbn. now rewrite Z.add_0_r. }
  rewrite B, course_app, Th, H2. cbn [w_sock w_gos play]. rewrite O, P. reflexivity.
Qed.
(** Among themselves they take nothing. *)
Lemma probers_harmless n z es x : course es (mkCrowd z (repeat prober n)) = Some x ->
  z_in (w_sock x) = z_in z /\ forall p r, In p (w_gos x) -> p = TRet r -> r = Ok (ToldOpen true).
Proof.
  set (second := TRead 1 (fun r => TRet (Ok (ToldOpen (match r with inr EEOF => false | _ => true end)))) : talk ending).
  assert (G : forall es x x', course es x = Some x' ->
    (forall p, In p (w_gos x) -> p = prober \/ p = second /\ z_deadline (w_sock x) < z_now (w_sock x) \/ p = TRet (Ok (ToldOpen true))) ->
    z_in (w_sock x') = z_in (w_sock x) /\ forall p r, In p (w_gos x') -> p = TRet r -> r = Ok (ToldOpen true)).
  { clear. assert (PI : forall l (i : nat) (a q : talk ending), In q (put_nth i a l) -> q = a \/ In q l).
    { induction l as [|y l IH]; intros [|i] a q H; cbn in *; auto; [destruct H; auto|]. destruct H as [H|H]; auto. destruct (IH _ _ _ H); auto. }
    induction es as [|e es IH]; intros x x' Hc Hx.
    - injection Hc as <-. split; [reflexivity|]. intros p r Hp ->. destruct (Hx _ Hp) as [E|[[E _]|E]]; [discriminate E|discriminate E|now injection E].
    - cbn [course] in Hc. destruct e as [i|].
      + destruct (crowd_step i x) as [y|] eqn:Es; [|discriminate Hc]. unfold crowd_step in Es.
        destruct (nth_error (w_gos x) i) as [p|] eqn:En; [|discriminate Es]. pose proof (Hx _ (nth_error_In _ _ En)) as Hp.
        destruct Hp as [->|[[-> Hd]| ->]]; [| |discriminate Es].
        * cbn in Es. injection Es as <-. destruct (IH _ _ Hc) as (A & B).
          { cbn [w_gos w_sock]. intros q Hq. apply PI in Hq. unfold arm. cbn. destruct Hq as [->|Hq]; [right; left; split; [reflexivity|lia]|].
            destruct (Hx _ Hq) as [E|[[E _]|E]]; [now left|right; left; split; [exact E|lia]|now right; right]. }
          split; [exact A|exact B].
        * unfold second in Es. unfold attempt in Es. replace (z_deadline (w_sock x) <? z_now (w_sock x)) with true in Es by lia. injection Es as <-.
          destruct (IH _ _ Hc) as (A & B).
          { cbn [w_gos w_sock]. intros q Hq. apply PI in Hq. destruct Hq as [->|Hq]; [now right; right|]. exact (Hx _ Hq). }
          split; [exact A|exact B].
      + unfold tick in Hc. destruct (quiet x) eqn:Q; [|discriminate Hc]. destruct (IH _ _ Hc) as (A & B); [|split; [exact A|exact B]].
        cbn [w_gos w_sock z_now z_deadline]. intros q Hq. destruct (Hx _ Hq) as [E|[[E Hd]|E]]; [now left|right; left; split; [exact E|lia]|now right; right]. }
  intros Hc. destruct (G _ _ _ Hc) as (A & B); [|split; [exact A|exact B]].
  intros p Hp. cbn in Hp. apply repeat_spec in Hp. now left.
Qed.
