(** Theorems C91, C92, C106 to C109 and C113: how long the driver waits for the network. *)
From Coq Require Import String ZArith List Bool Lia.
From Verif Require Import Bytes GoVal GoErr Encoder Decoder Messages SpecPack SpecCodec Errors Client SpecClient Connection Link Wire WireFacts SpecSession Demo Cases
  SpecStop GiveUpFacts Timing SpecTime DeadlineFacts SendFacts Clock ClockFacts ClockCases SocketRace SocketFacts.
Import ListNotations.
Open Scope Z_scope.

(** ** C91: the timeout limits how long an answer is waited for *)

(** Not so: every Read sets a new deadline, so a peer that sends a byte in time for each can make the
    client wait for the timeout once per byte, whatever the message is. *)
Theorem C91_timeout_refuted T now p w : 0 < T -> frames p w ->
  exists i, timed_read T now (mkIncoming (trickle T now w) None) = (Ok p, now + T * zlen w, i).
Proof. exact (trickled T now p w). Qed.
Print Assumptions C91_timeout_refuted.
Example C91_trickle_case : zlen [x00; x02; x41; x42; x00; x00] = 6 /\ frames [x41; x42] [x00; x02; x41; x42; x00; x00]
  /\ fst (timed_read 60 0 (mkIncoming (trickle 60 0 [x00; x02; x41; x42; x00; x00]) None)) = (Ok [x41; x42], 360).
Proof. split; [reflexivity|]. split; [|vm_compute; reflexivity]. apply (fr_chunk [x41; x42] [x00; x02] [] [x00; x00]); [discriminate|vm_compute; discriminate|split; reflexivity|constructor]. Qed.

(** What it limits is silence. A message of which no piece comes later than the timeout after the one
    before is delivered when its last byte arrives. *)
Theorem C91_in_time_partial T now i p w rest t : 0 < T -> solid (i_pieces i) -> frames p w -> sent_bytes (i_pieces i) = w ++ rest ->
  comes T now (i_pieces i) (length w) t -> exists i', timed_read T now i = (Ok p, t, i') /\ sent_bytes (i_pieces i') = rest.
Proof. exact (message_in_time T now i p w rest t). Qed.
Print Assumptions C91_in_time_partial.
(** If the bytes that come in time contain no whole message, reading fails with the error the stream ends
    with, at that moment: a bad connection when the timeout has passed since the last byte, or the end of
    the stream when the peer closes before. *)
Theorem C91_silence_partial T now i k t e : 0 < T -> solid (i_pieces i) -> ends T (i_close i) now (i_pieces i) k t e ->
  (forall p w rest, frames p w -> firstn k (sent_bytes (i_pieces i)) <> w ++ rest) ->
  exists e' i', timed_read T now i = (Err e', t, i') /\ (inner_most e' = e \/ e = EEOF /\ inner_most e' = EUnexpectedEOF).
Proof. exact (read_fails T now i k t e). Qed.
Print Assumptions C91_silence_partial.
(** These are all cases: every schedule ends in one of these ways. *)
Theorem C91_always_ends T close now l : 0 < T -> exists k t e, ends T close now l k t e.
Proof. intros HT. exact (ends_total T close l HT now). Qed.
Print Assumptions C91_always_ends.
(** So the wait is at most one timeout per byte sent and one more. *)
Theorem C91_bound_partial T now i r t i' : 0 < T -> solid (i_pieces i) -> timed_read T now i = (r, t, i') ->
  now <= t <= now + T * (zlen (sent_bytes (i_pieces i)) + 1).
Proof. exact (read_bound T now i r t i'). Qed.
Print Assumptions C91_bound_partial.
(** With a timeout that is not positive nothing is ever read. *)
Theorem C91_no_patience T now i : T <= 0 -> exists e i', timed_read T now i = (Err e, now, i') /\ inner_most e = EBadConn.
Proof. exact (no_patience T now i). Qed.
Print Assumptions C91_no_patience.
(** Reading with deadlines is what the decoder's theorems speak of: the bytes that come in time, followed
    by the error. *)
Theorem C91_as_decoder T now i k t e fs : 0 < T -> solid (i_pieces i) -> ends T (i_close i) now (i_pieces i) k t e ->
  nonempty fs -> concat fs = firstn k (sent_bytes (i_pieces i)) ->
  match read_message (mkReader fs e) with Ok (p, _) => Ok p | Err e' => Err e' | Panic => Panic | NoFuel => NoFuel end = fst (fst (timed_read T now i)).
Proof. exact (read_as_decoder T now i k t e fs). Qed.
Print Assumptions C91_as_decoder.
Example C91_case :
  let w := [x00; x02; x41; x42; x00; x00] in let l := [(5, firstn 3 w); (40, skipn 3 w)] in
  solid l /\ comes 60 0 l 6 40 /\ fst (timed_read 60 0 (mkIncoming l None)) = (Ok [x41; x42], 40)
  /\ ends 30 None 0 l 3 35 EBadConn /\ fst (timed_read 30 0 (mkIncoming l None)) = (Err (EWrap (Some (EWrap (Some EBadConn) 10)) 13), 35)
  /\ ends 60 (Some 45) 0 [(5, firstn 3 w)] 3 45 EEOF /\ fst (timed_read 60 0 (mkIncoming [(5, firstn 3 w)] (Some 45))) = (Err (EWrap (Some (EWrap (Some EEOF) 10)) 13), 45).
Proof.
  cbn [firstn skipn]. split; [repeat constructor; discriminate|]. split.
  { apply (comes_more 60 0 5 [x00; x02; x41] _ 3); [lia|]. apply (comes_more 60 _ 40 [x42; x00; x00] _ 0); [lia|constructor]. }
  split; [vm_compute; reflexivity|]. split.
  { apply (ends_more 30 None 0 5 [x00; x02; x41] _ 0); [lia|]. change 35 with (Z.max 0 5 + 30). constructor. lia. }
  split; [vm_compute; reflexivity|]. split; [|vm_compute; reflexivity].
  apply (ends_more 60 (Some 45) 0 5 [x00; x02; x41] _ 0); [lia|]. change 45 with (Z.max (Z.max 0 5) 45) at 2. apply (ends_closed 60 _ _ 45); [reflexivity|lia].
Qed.

(** ** C92: connecting takes no longer than the timeout *)

(** Not with TLS, nor with the timeout 0: the attempt lasts until the peer answers, and for ever if it
    does not. *)
Theorem C92_dial_refuted F cf d now up : how_to_dial F cf = Ok d -> cf_tls cf = true \/ cf_timeout cf = 0 ->
  dial_time d now up = match up with Some t => Some (true, Z.max now t) | None => None end.
Proof. intros E [H|H]; [exact (dial_tls_waits F cf d now up E H)|exact (dial_zero_waits F cf d now up E H)]. Qed.
Print Assumptions C92_dial_refuted.
(** Without TLS and with a positive timeout it holds. *)
Theorem C92_dial_partial F cf d now up : how_to_dial F cf = Ok d -> cf_tls cf = false -> 0 < cf_timeout cf ->
  exists ok t, dial_time d now up = Some (ok, t) /\ now <= t <= now + cf_timeout cf /\
    (ok = true <-> exists u, up = Some u /\ u <= now + cf_timeout cf).
Proof. exact (dial_tcp F cf d now up). Qed.
Print Assumptions C92_dial_partial.
Definition waits_for (s : bytes) : option (option (bool * Z)) :=
  match driver_open s with
  | Ok cf => match how_to_dial (mkFiles (fun _ => None) (fun _ _ => None)) cf with Ok d => Some (dial_time d 0 None) | _ => None end
  | _ => None
  end.
Example C92_case : map waits_for [str "bolt://db:7687?timeout=5"; str "bolt://db:7687"; str "bolt://db:7687?timeout=0"; str "bolt://db:7687?timeout=5&tls=1"]
  = [Some (Some (false, 5 * 10 ^ 9)); Some (Some (false, 60 * 10 ^ 9)); Some None; Some None].
Proof. vm_compute. reflexivity. Qed.

(** ** C106: a call stops at the first error of the network *)

(** On every network: if sending, receiving, dialling or hanging up fails, that is the last thing the call
    does on the network, nothing failed before, and the call does not succeed. *)
Theorem C106_call {St} (N : net St) o c s c' s' tr r : does (watched N) o (c, (s, [])) (c', (s', tr)) r -> gives_up tr r.
Proof. exact (call_stops N o c s c' s' tr r). Qed.
Print Assumptions C106_call.
Theorem C106_open {St} (N : net St) user password s c' s' tr r : opens (watched N) user password (s, []) (c', (s', tr)) r -> gives_up tr r.
Proof. exact (opening_stops N user password s c' s' tr r). Qed.
Print Assumptions C106_open.
(** The link breaks while the client sends RESET after a FAILURE. *)
Example C106_case :
  let P := break_at 7 0 (server P4 [done; oops] false) in
  let '(c, w) := final (login [] P) in
  match exec (watched (wired P)) (do_call 50 (CQuery q1 [] [])) c (w, []) with
  | (_, (_, tr), Err _) => map failed tr = [false; false; false; true] /\ map is_failure tr = [false; false; true; false]
  | _ => False
  end.
Proof. vm_compute. split; reflexivity. Qed.

(** ** C107: sending a message takes no longer than the timeout *)

(** Not so: every Write sets a new deadline, and a message takes three Writes or more. Whatever the
    message, a peer that takes the bytes of each Write only just in time makes sending last as many timeouts. *)
Theorem C107_timeout_refuted T v cs x : 0 < T -> 1 <= cs -> snd (encode v x) = None ->
  exists k, (3 <= k)%nat /\ exists q, forall now rest out calls, exists room,
    timed_encode T v cs (mkSender now (room ++ rest) out calls) x = (mkSender (now + T * Z.of_nat k) rest (out ++ q) (calls + k), None).
Proof. exact (send_lasts T v cs x). Qed.
Print Assumptions C107_timeout_refuted.
(** It holds if the peer takes the whole message, [w], within the timeout. *)
Theorem C107_in_time_partial T v cs s x w e : 0 < T -> 0 <= cs -> snd (encode v x) = None ->
  encoder_encode v (encoder_on (t_out s) None cs) x = (e, None) -> w_out (e_w e) = t_out s ++ w ->
  (length w <= length (t_room s))%nat -> Forall (fun a => a <= t_now s + T) (firstn (length w) (t_room s)) ->
  exists s', timed_encode T v cs s x = (s', None) /\ t_out s' = t_out s ++ w /\ t_now s <= t_now s' <= t_now s + T.
Proof. exact (send_in_time T v cs s x w e). Qed.
Print Assumptions C107_in_time_partial.
(** In general: the peer gets the first bytes of the message; if sending succeeds it gets all, and sending
    ends when the last is taken; if it fails, a timeout or more has passed and there is still no room for the
    next byte. *)
Theorem C107_outcome_partial T v cs s x w e s' r : 0 < T -> 0 <= cs -> snd (encode v x) = None ->
  encoder_encode v (encoder_on (t_out s) None cs) x = (e, None) -> w_out (e_w e) = t_out s ++ w ->
  timed_encode T v cs s x = (s', r) ->
  exists n, t_out s' = t_out s ++ firstn n w /\ t_room s' = skipn n (t_room s) /\ (n <= length (t_room s))%nat
  /\ (r = None -> n = length w /\ t_now s' = latest (t_now s) (firstn n (t_room s)))
  /\ (r <> None -> (n < length w)%nat /\ t_now s + T <= t_now s' /\ no_room (skipn n (t_room s)) (t_now s')).
Proof. exact (send_outcome T v cs s x w e s' r). Qed.
Print Assumptions C107_outcome_partial.
(** The wait is at most one timeout per Write, and at most one per byte taken, and one more for an error. *)
Theorem C107_bound_partial T v cs s x s' r : 0 < T -> timed_encode T v cs s x = (s', r) -> exists q, t_out s' = t_out s ++ q
  /\ t_now s <= t_now s' <= t_now s + T * (zlen q + match r with None => 0 | Some _ => 1 end)
  /\ t_now s' <= t_now s + T * (Z.of_nat (t_calls s') - Z.of_nat (t_calls s)).
Proof. exact (send_bound T v cs s x s' r). Qed.
Print Assumptions C107_bound_partial.
(** With a timeout that is not positive nothing is ever sent. *)
Theorem C107_no_patience T v cs s x : T <= 0 -> snd (encode v x) = None -> exists e s', timed_encode T v cs s x = (s', Some e)
  /\ t_now s' = t_now s /\ t_out s' = t_out s /\ inner_most e = EBadConn.
Proof. exact (send_no_patience T v cs s x). Qed.
Print Assumptions C107_no_patience.
(** Sending with deadlines is what the encoder's theorems speak of: a link that carries what the peer took. *)
Theorem C107_as_encoder T v cs s x s' r : 0 < T -> timed_encode T v cs s x = (s', r) -> exists q e', t_out s' = t_out s ++ q
  /\ encoder_encode v (encoder_on (t_out s) (Some (length q)) cs) x = (e', r) /\ w_out (e_w e') = t_out s'.
Proof. exact (send_as_encoder T v cs s x s' r). Qed.
Print Assumptions C107_as_encoder.
Example C107_case :
  let x := GStr (str "abc") in
  (exists e, encoder_encode V1 (encoder_on [] None 65535) x = (e, None) /\ zlen (w_out (e_w e)) = 8)
  /\ (let '(s, r) := timed_encode 60 V1 65535 (mkSender 0 [60; 60; 120; 120; 120; 120; 180; 180] [] 0) x in (t_now s, zlen (t_out s), t_calls s, r) = (180, 8, 3%nat, None))
  /\ (let '(s, r) := timed_encode 60 V1 65535 (mkSender 0 (repeat 50 8) [] 0) x in (t_now s, zlen (t_out s), t_calls s, r) = (50, 8, 3%nat, None))
  /\ (let '(s, r) := timed_encode 60 V1 65535 (mkSender 0 [10; 10; 70; 71; 72] [] 0) x in (t_now s, zlen (t_out s), t_calls s, r) = (70, 3, 2%nat, Some (EWrap (Some EBadConn) 4))).
Proof. split; [eexists; split; vm_compute; reflexivity|]. repeat split; vm_compute; reflexivity. Qed.

(** ** C108: a call returns within the timeout *)

(** Not so: on every version of the protocol, for every timeout and every n there are a query and a peer that
    make it last n timeouts, and it succeeds. *)
Theorem C108_timeout_refuted T tz p user password n : 0 < T -> exists k k' rows, let c := set_proto p (fresh_conn user password) in
  does (timed T tz) (CQuery q1 [] []) (c, k) (c, k') (Ok (ARows rows [])) /\ length rows = n /\ k_now k + T * Z.of_nat n <= k_now k'.
Proof. exact (endless T tz p user password n). Qed.
Print Assumptions C108_timeout_refuted.
(** Every call takes at most one timeout for each byte it sends or receives, and one more if it does not succeed. *)
Theorem C108_bound_partial T tz o c k c' k' r : 0 < T -> solid (i_pieces (k_in k)) -> does (timed T tz) o (c, k) (c', k') r ->
  exists sent received, t_out (k_send k') = t_out (k_send k) ++ sent /\ sent_bytes (i_pieces (k_in k)) = received ++ sent_bytes (i_pieces (k_in k'))
  /\ k_now k <= k_now k' <= k_now k + T * (zlen sent + zlen received + match r with Ok _ => 0 | _ => 1 end).
Proof. exact (call_time T tz o c k c' k' r). Qed.
Print Assumptions C108_bound_partial.
(** So does opening a connection, apart from dialling (C92). *)
Theorem C108_open_partial T tz user password k c' k' r : 0 < T -> solid (i_pieces (k_in k)) -> opens (timed T tz) user password k (c', k') r ->
  exists sent received, t_out (k_send k') = t_out (k_send k) ++ sent /\ sent_bytes (i_pieces (k_in k)) = received ++ sent_bytes (i_pieces (k_in k'))
  /\ k_now k <= k_now k' <= k_now k + T * (zlen sent + zlen received + match r with Ok _ => 0 | _ => 1 end).
Proof. exact (open_time T tz user password k c' k' r). Qed.
Print Assumptions C108_open_partial.
(** A query whose requests have been sent and whose answer comes with no gap longer than the timeout succeeds, and
    returns when the last byte of the answer is there. *)
Theorem C108_answer_partial T tz c s i q ps db s1 s2 md0 rows md t : 0 < T -> c_closed c = false -> multi_database (c_proto c) = true \/ db = [] ->
  timed_encode T (codec (c_proto c)) (c_chunk c) s (run_msg c q ps db false) = (s1, None) ->
  timed_encode T (codec (c_proto c)) (c_chunk c) s1 (get_pull_all_message (c_proto c)) = (s2, None) ->
  i_close i = None -> solid (i_pieces i) ->
  spoken (codec (c_proto c)) ([GSuccess md0] ++ map GRecord rows ++ [GSuccess md]) (sent_bytes (i_pieces i)) ->
  comes T (t_now s2) (i_pieces i) (length (sent_bytes (i_pieces i))) t ->
  exists k', does (timed T tz) (CQuery q ps db) (c, mkClock s i) (c, k') (Ok (ARows rows md)) /\ k_now k' = t.
Proof. exact (query_lasts T tz c s i q ps db s1 s2 md0 rows md t). Qed.
Print Assumptions C108_answer_partial.
(** A server that does not answer the handshake is given up when the timeout has passed. *)
Theorem C108_silent_partial T tz user password s0 s1 i : timed_write T s0 handshake_bytes = (s1, None) -> none_by (t_now s1 + T) (i_pieces i) (i_close i) ->
  exists c' k', opens (timed T tz) user password (mkClock s0 i) (c', k') (Err (EFmt (Some EBadConn) (TMsg 15))) /\ k_now k' = t_now s1 + T /\ k_in k' = i.
Proof. exact (open_silent T tz user password s0 s1 i). Qed.
Print Assumptions C108_silent_partial.
Example C108_case :
  let c := set_proto P4 (fresh_conn [] []) in
  let m g := fst (marshal V2 g) in
  let i := mkIncoming [(50, m (GSuccess [])); (100, m (GRecord row1)); (150, m (GSuccess summary))] None in
  solid (i_pieces i)
  /\ match exec (timed 60 (fun _ => None)) (do_call 9 (CQuery q1 [] [])) c (mkClock (mkSender 0 (repeat 0 200) [] 0) i) with
     | (_, k, Ok (ARows rows md)) => rows = [row1] /\ md = summary /\ k_now k = 150
     | _ => False
     end
  /\ match exec (timed 45 (fun _ => None)) (do_call 9 (CQuery q1 [] [])) c (mkClock (mkSender 0 (repeat 0 200) [] 0) i) with
     | (_, k, Err e) => inner_most e = EBadConn /\ k_now k = 45
     | _ => False
     end.
Proof. split; [repeat constructor; vm_compute; discriminate|]. split; vm_compute; repeat split; reflexivity. Qed.

(** ** C109: asking whether a connection is open does not disturb a query in progress *)

(** Not so: the deadline that ValidateOpen sets ends a Read that is in progress, whatever has come or will come. *)
Theorem C109_interrupted_refuted T fuel now dl i : exists es z b e,
  course es (mkCrowd (mkSocket now dl i) [receiver (S fuel) T; prober]) = Some (mkCrowd z [TRet (Ok (GotMessage (Err e))); TRet (Ok (ToldOpen b))])
  /\ inner_most e = EBadConn /\ z_now z = now /\ z_in z = i.
Proof. exact (interrupted T fuel now dl i). Qed.
Print Assumptions C109_interrupted_refuted.
(** And if the query sets its deadline before ValidateOpen reads, ValidateOpen takes the first byte of the answer: the query
    gets what the rest of the stream amounts to. *)
Theorem C109_stolen_refuted T fuel now dl a b f ps cl r t i' : 0 < T -> a <= now + T -> f <> [] -> solid ps ->
  (length (sent_bytes ((a, b :: f) :: ps)) < fuel)%nat -> timed_read T now (mkIncoming ((a, f) :: ps) cl) = (r, t, i') ->
  exists es dl', course es (mkCrowd (mkSocket now dl (mkIncoming ((a, b :: f) :: ps) cl)) [receiver fuel T; prober])
    = Some (mkCrowd (mkSocket t dl' i') [TRet (Ok (GotMessage r)); TRet (Ok (ToldOpen true))]).
Proof. exact (stolen_byte T fuel now dl a b f ps cl r t i'). Qed.
Print Assumptions C109_stolen_refuted.
(** Alone a query gets what C91 says, whatever the course. *)
Theorem C109_alone_partial T fuel now dl i r t i' : solid (i_pieces i) -> (length (sent_bytes (i_pieces i)) < fuel)%nat -> timed_read T now i = (r, t, i') ->
  (exists es dl', course es (mkCrowd (mkSocket now dl i) [receiver fuel T]) = Some (mkCrowd (mkSocket t dl' i') [TRet (Ok (GotMessage r))]))
  /\ (forall es x' r', course es (mkCrowd (mkSocket now dl i) [receiver fuel T]) = Some x' -> w_gos x' = [TRet r'] -> r' = Ok (GotMessage r)).
Proof. exact (receives_alone T fuel now dl i r t i'). Qed.
Print Assumptions C109_alone_partial.
(** Without a query any number of goroutines may ask: nothing is taken from the stream. *)
Theorem C109_harmless_partial n z es x : course es (mkCrowd z (repeat prober n)) = Some x ->
  z_in (w_sock x) = z_in z /\ forall p r, In p (w_gos x) -> p = TRet r -> r = Ok (ToldOpen true).
Proof. exact (probers_harmless n z es x). Qed.
Print Assumptions C109_harmless_partial.
(** Without its first byte an answer may be another one. *)
Example C109_case :
  let body := [Byte.x03; Byte.x41; Byte.x42; Byte.x43; Byte.x00; Byte.x00] ++ repeat Byte.x00 250 in
  let f := [Byte.x00] ++ body ++ [Byte.x00; Byte.x00] in
  timed_read 60 0 (mkIncoming [(30, Byte.x01 :: f)] None) = (Ok body, 30, mkIncoming [] None)
  /\ fst (timed_read 60 0 (mkIncoming [(30, f)] None)) = (Ok [Byte.x41; Byte.x42; Byte.x43], 30).
Proof. split; vm_compute; reflexivity. Qed.

(** ** C113: opening does not depend on how the server's bytes are divided *)

(** Not so: the answer to the handshake is read with a single Read. If fewer than four bytes come first, opening fails, whatever
    follows. *)
Theorem C113_short_refuted T tz user password s0 s1 a f ps cl : timed_write T s0 handshake_bytes = (s1, None) -> a <= t_now s1 + T -> zlen f < 4 ->
  exists c' k', opens (timed T tz) user password (mkClock s0 (mkIncoming ((a, f) :: ps) cl)) (c', k') (Err (EFmt (Some (EFmt None (TMsg 13))) (TMsg 15)))
  /\ k_now k' = Z.max (t_now s1) a.
Proof. exact (open_short T tz user password s0 s1 a f ps cl). Qed.
Print Assumptions C113_short_refuted.
(** True if the four bytes of the version come together: the rest of a proper answer may come in any pieces with no gap longer than
    the timeout, and the connection is open when the last of them is there. *)
Theorem C113_version_partial T tz user password s0 s1 s2 p a f ps md t : let c := set_proto p (fresh_conn user password) in
  let rest := match f with [] => ps | _ => (a, f) :: ps end in
  timed_write T s0 handshake_bytes = (s1, None) -> a <= t_now s1 + T ->
  timed_encode T (codec p) (c_chunk c) (at_time (Z.max (t_now s1) a) s1) (get_init_message p client_id (auth_basic user password)) = (s2, None) ->
  solid rest -> spoken (codec p) [GSuccess md] (sent_bytes rest) -> comes T (t_now s2) rest (length (sent_bytes rest)) t ->
  exists k', opens (timed T tz) user password (mkClock s0 (mkIncoming ((a, proto_bytes p ++ f) :: ps) None)) (c, k') (Ok tt) /\ k_now k' = t.
Proof. exact (open_lasts T tz user password s0 s1 s2 p a f ps md t). Qed.
Print Assumptions C113_version_partial.
Example C113_case :
  let m := fst (marshal V2 (GSuccess [])) in
  let log_in ps := let '(_, k, r) := exec (timed 60 (fun _ => None)) (create_bolt_conn 9) (fresh_conn (str "neo4j") (str "secret")) (mkClock (mkSender 0 (repeat 0 200) [] 0) (mkIncoming ps None)) in (k_now k, r) in
  log_in [(10, proto_bytes P4); (20, m)] = (20, Ok tt)
  /\ log_in [(10, proto_bytes P4 ++ firstn 2 m); (50, skipn 2 m)] = (50, Ok tt)
  /\ log_in [(10, firstn 2 (proto_bytes P4)); (10, skipn 2 (proto_bytes P4)); (20, m)] = (10, Err (EFmt (Some (EFmt None (TMsg 13))) (TMsg 15)))
  /\ log_in [(61, proto_bytes P4); (62, m)] = (60, Err (EFmt (Some EBadConn) (TMsg 15))).
Proof. repeat split; vm_compute; reflexivity. Qed.
