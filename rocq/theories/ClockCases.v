(** Calls that last: C108. *)
From Coq Require Import String ZArith List Bool Lia.
From Verif Require Import Bytes BytesFacts GoVal GoErr Encoder Decoder SpecPack SpecValues SpecCodec Messages Connection Link ExecFacts Wire WireFacts SpecSession
  Demo DemoFacts Cases Timing SpecTime DeadlineFacts SendFacts Clock ClockFacts.
Import ListNotations.
Open Scope Z_scope.

Lemma spoken_rows v r w n md b : expresses v w (GRecord r) -> expresses v b (GSuccess md) -> exists x,
  spoken v (map GRecord (repeat r n) ++ [GSuccess md]) x /\ Z.of_nat n <= zlen x.
Proof.
  intros Hr Hb. induction n as [|n (x & IH & L)]; cbn [repeat map app].
  - exists (b ++ []). split; [constructor; [exact Hb|constructor]|]. unfold zlen. lia.
  - exists (w ++ x). split; [constructor; assumption|]. rewrite zlen_app. apply expresses_nonempty in Hr. destruct w; [now destruct Hr|]. unfold zlen in *. cbn [length]. lia.
Qed.
(** A server that sends a byte every [T] keeps a query of [n] rows waiting for more than [n] timeouts. *)
Lemma endless T tz p user password n : 0 < T -> exists k k' rows, let c := set_proto p (fresh_conn user password) in
  does (timed T tz) (CQuery q1 [] []) (c, k) (c, k') (Ok (ARows rows [])) /\ length rows = n /\ k_now k + T * Z.of_nat n <= k_now k'.
Proof.
  intros HT. set (c := set_proto p (fresh_conn user password)).
  assert (E1 : snd (encode (codec (c_proto c)) (run_msg c q1 [] [] false)) = None) by (destruct p; vm_compute; reflexivity).
  assert (E2 : snd (encode (codec (c_proto c)) (get_pull_all_message (c_proto c))) = None) by (destruct p; vm_compute; reflexivity).
  assert (Hcs : 1 <= c_chunk c) by (vm_compute; congruence).
  destruct (send_lasts T _ _ _ HT Hcs E1) as (k1 & _ & a1 & L1). destruct (send_lasts T _ _ _ HT Hcs E2) as (k2 & _ & a2 & L2).
  destruct (L2 (0 + T * Z.of_nat k1) [] ([] ++ a1) (0 + k1)%nat) as (room2 & X2). destruct (L1 0 (room2 ++ []) [] 0%nat) as (room1 & X1).
  assert (Pr : expresses (codec (c_proto c)) (fst (marshal (codec (c_proto c)) (GRecord row1))) (GRecord row1)).
  { apply plain_expressed. destruct p; (repeat split; vm_compute; congruence). }
  assert (Ps : expresses (codec (c_proto c)) (fst (marshal (codec (c_proto c)) (GSuccess []))) (GSuccess [])).
  { apply plain_expressed. destruct p; (repeat split; vm_compute; congruence). }
  destruct (spoken_rows _ _ _ n _ _ Pr Ps) as (x & Sx & Lx). set (b := fst (marshal (codec (c_proto c)) (GSuccess [])) ++ x).
  assert (Sb : spoken (codec (c_proto c)) ([GSuccess []] ++ map GRecord (repeat row1 n) ++ [GSuccess []]) b) by (constructor; assumption).
  set (t2 := 0 + T * Z.of_nat k1 + T * Z.of_nat k2) in *. destruct (trickle_solid T b t2) as [So Eb].
  assert (Co : comes T t2 (trickle T t2 b) (length (sent_bytes (trickle T t2 b))) (t2 + T * zlen b)) by (rewrite Eb; now apply trickle_comes).
  destruct (query_lasts T tz c (mkSender 0 (room1 ++ room2 ++ []) [] 0) (mkIncoming (trickle T t2 b) None) q1 [] [] _ _ [] (repeat row1 n) [] (t2 + T * zlen b) HT eq_refl (or_intror eq_refl) X1 X2 eq_refl So) as (k' & D & N); cbn [i_pieces]; [now rewrite Eb|exact Co|].
  exists (mkClock (mkSender 0 (room1 ++ room2 ++ []) [] 0) (mkIncoming (trickle T t2 b) None)), k', (repeat row1 n). split; [exact D|]. split; [apply repeat_length|].
  rewrite N. unfold k_now. cbn [k_send t_now]. unfold b. rewrite zlen_app. unfold t2. assert (0 <= zlen (fst (marshal (codec (c_proto c)) (GSuccess [])))) by (unfold zlen; lia). nia.
Qed.

(** ** Opening *)

Lemma handshake_sent T s0 s1 : timed_write T s0 handshake_bytes = (s1, None) -> 0 < T /\ zlen (t_out s1) - zlen (t_out s0) = 20.
Proof.
  unfold timed_write. destruct (Z.leb_spec T 0) as [|HT]; [discriminate|]. destruct (taking _ _ _ _) as [[[ok t] room] q] eqn:E. destruct ok; [|discriminate]. intros [= <-]. cbn [t_out].
  split; [exact HT|]. assert (Hm : t_now s0 <= t_now s0 + T) by lia. destruct (taking_facts _ _ _ _ _ _ _ _ Hm E) as (_ & _ & H & _). destruct (H eq_refl) as [-> _].
  rewrite zlen_app. change (zlen handshake_bytes) with 20. lia.
Qed.
(** What the handshake does once it is sent. *)
Lemma handshake_run T tz c s0 s1 i : timed_write T s0 handshake_bytes = (s1, None) ->
  exec (timed T tz) handshake c (mkClock s0 i) =
  let '(b, e, t, i') := timed_once T 4 (t_now s1) i in
  (c, mkClock (at_time t s1) i', match e with Some e => Err e | None => if negb (zlen b =? 4) then Err (EFmt None (TMsg 13)) else if bytes_eqb b no_version_supported then Err (ENew (TMsg 14)) else Ok b end).
Proof.
  intros E. destruct (handshake_sent _ _ _ E) as [_ L]. unfold handshake. cbn [exec timed n_write n_read k_send k_in]. rewrite E, L. cbn [k_send k_in negb Z.eqb Pos.eqb].
  change (20 =? 20) with true. cbn [negb exec timed n_read k_in]. unfold k_now. cbn [k_send]. change (Z.to_nat 4) with 4%nat. destruct (timed_once T 4 (t_now s1) i) as [[[b e] t] i']. destruct e as [e|]; [reflexivity|].
  destruct (negb (zlen b =? 4)); [reflexivity|]. destruct (bytes_eqb b no_version_supported); reflexivity.
Qed.
Lemma opens_run T tz n user password k c' k' r : exec (timed T tz) handshake (fresh_conn user password) k = (c', k', Err r) ->
  exec (timed T tz) (create_bolt_conn n) (fresh_conn user password) k = (c', k', Err (EFmt (Some r) (TMsg 15))).
Proof. intros E. unfold create_bolt_conn, initialize. cbn [exec timed n_dial]. change (mkNet clock _ _ _ _ _ _ _) with (timed T tz). rewrite exec_bindr, E. reflexivity. Qed.
(** No answer. *)
Lemma open_silent T tz user password s0 s1 i : timed_write T s0 handshake_bytes = (s1, None) -> none_by (t_now s1 + T) (i_pieces i) (i_close i) ->
  exists c' k', opens (timed T tz) user password (mkClock s0 i) (c', k') (Err (EFmt (Some EBadConn) (TMsg 15))) /\ k_now k' = t_now s1 + T /\ k_in k' = i.
Proof.
  intros E (N1 & N2). destruct (handshake_sent _ _ _ E) as [HT _]. pose proof (handshake_run T tz (fresh_conn user password) s0 s1 i E) as R.
  assert (Q : timed_once T 4 (t_now s1) i = ([], Some EBadConn, t_now s1 + T, i)).
  { unfold timed_once, read_error, returns_at, gives_up_at. destruct i as [[|[a f] ps] cl]; cbn [i_pieces i_close] in *.
    - destruct cl as [t|]; [|do 3 f_equal; lia]. specialize (N2 t eq_refl). destruct (Z.leb_spec T 0); [lia|]. destruct (Z.leb_spec t (t_now s1 + T)); [lia|]. do 3 f_equal. lia.
    - specialize (N1 a f (or_introl eq_refl)). destruct (Z.leb_spec T 0); [lia|]. destruct (Z.leb_spec a (t_now s1 + T)); [lia|]. do 3 f_equal. lia. }
  rewrite Q in R. eexists _, _. split; [exists 0%nat; split; [exact (opens_run _ _ _ _ _ _ _ _ _ R)|discriminate]|]. split; reflexivity.
Qed.
(** The first piece of the answer is too short. *)
Lemma open_short T tz user password s0 s1 a f ps cl : timed_write T s0 handshake_bytes = (s1, None) -> a <= t_now s1 + T -> zlen f < 4 ->
  exists c' k', opens (timed T tz) user password (mkClock s0 (mkIncoming ((a, f) :: ps) cl)) (c', k') (Err (EFmt (Some (EFmt None (TMsg 13))) (TMsg 15))) /\ k_now k' = Z.max (t_now s1) a.
Proof.
  intros E Ha Hf. destruct (handshake_sent _ _ _ E) as [HT _]. pose proof (handshake_run T tz (fresh_conn user password) s0 s1 (mkIncoming ((a, f) :: ps) cl) E) as R.
  unfold timed_once, returns_at in R. cbn [i_pieces i_close] in R. destruct (Z.leb_spec T 0); [lia|]. destruct (Z.leb_spec a (t_now s1 + T)); [|lia].
  unfold zlen in Hf. rewrite firstn_all2 in R by lia. rewrite skipn_all2 in R by lia. assert (zlen f =? 4 = false) as X by (unfold zlen; lia). rewrite X in R. cbn [negb] in R.
  eexists _, _. split; [exists 0%nat; split; [exact (opens_run _ _ _ _ _ _ _ _ _ R)|discriminate]|]. reflexivity.
Qed.
(** The answer begins with the four bytes of a version; the rest comes in any pieces. *)
Lemma open_lasts T tz user password s0 s1 s2 p a f ps md t : let c := set_proto p (fresh_conn user password) in
  let ps' := match f with [] => ps | _ => (a, f) :: ps end in
  timed_write T s0 handshake_bytes = (s1, None) -> a <= t_now s1 + T -> 
  timed_encode T (codec p) (c_chunk c) (at_time (Z.max (t_now s1) a) s1) (get_init_message p client_id (auth_basic user password)) = (s2, None) ->
  solid ps' -> spoken (codec p) [GSuccess md] (sent_bytes ps') -> comes T (t_now s2) ps' (length (sent_bytes ps')) t ->
  exists k', opens (timed T tz) user password (mkClock s0 (mkIncoming ((a, proto_bytes p ++ f) :: ps) None)) (c, k') (Ok tt) /\ k_now k' = t.
Proof.
  cbv zeta. intros E Ha E2 So Sp Co. destruct (handshake_sent _ _ _ E) as [HT _].
  pose proof (handshake_run T tz (fresh_conn user password) s0 s1 (mkIncoming ((a, proto_bytes p ++ f) :: ps) None) E) as R.
  unfold timed_once, returns_at in R. cbn [i_pieces i_close] in R. destruct (Z.leb_spec T 0); [lia|]. destruct (Z.leb_spec a (t_now s1 + T)); [|lia].
  assert (F : firstn 4 (proto_bytes p ++ f) = proto_bytes p /\ skipn 4 (proto_bytes p ++ f) = f) by (destruct p; split; reflexivity).
  destruct F as [F1 F2]. rewrite F1, F2 in R.
  assert (Z4 : zlen (proto_bytes p) =? 4 = true /\ bytes_eqb (proto_bytes p) no_version_supported = false) by (destruct p; split; reflexivity).
  destruct Z4 as [Z1 Z2]. rewrite Z1, Z2 in R. cbn [negb] in R.
  set (i' := mkIncoming (match f with [] => ps | f' => (a, f') :: ps end) None) in R.
  assert (A : ahead T (codec (c_proto (set_proto p (fresh_conn user password)))) (mkClock s2 i') [GSuccess md] t).
  { split; [reflexivity|]. unfold i'. cbn [k_in i_pieces]. unfold k_now. cbn [k_send]. destruct f; repeat split; assumption. }
  destruct (consume_ahead T tz 0 _ _ (GSuccess md) [] t HT ltac:(discriminate) A) as (k1 & X1 & A1).
  exists k1. split; [|exact (ahead_nothing _ _ _ _ A1)]. exists 1%nat. split; [|discriminate]. cbn [fst snd]. unfold create_bolt_conn, initialize.
  cbn [exec timed n_dial]. change (mkNet clock _ _ _ _ _ _ _) with (timed T tz). rewrite exec_bindr, R.
  assert (G : get_protocol (Some (proto_bytes p)) = (Some p, proto_number p, None)) by (destruct p; reflexivity). rewrite G. cbn [exec]. unfold send_init.
  rewrite exec_bind. unfold send_message. cbn [exec timed n_send k_send k_in set_proto c_proto c_chunk c_user c_password fresh_conn] in *. 
  cbn [set_proto c_proto c_chunk c_user c_password fresh_conn] in E2. rewrite E2. cbn [exec ok_unit].
  change (mkNet clock _ _ _ _ _ _ _) with (timed T tz). rewrite exec_bind. unfold i' in X1. destruct f; rewrite X1; reflexivity.
Qed.
