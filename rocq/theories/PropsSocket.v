(** Theorem C131: the life of a connection's socket, and what Close does on any network (C39). *)
From Coq Require Import String ZArith List Bool.
From Verif Require Import Bytes GoVal GoErr Messages Connection Link SpecSession SpecShare SpecDialect SpecSocket Cases ShareCases HangFacts.
Import ListNotations.
Open Scope Z_scope.

(** ** C131 *)
(** Whatever the network does and whatever is called: one socket is dialled; it is closed once at the most,
    exactly if the connection is marked closed, and that is the last thing that happens to it. *)
Theorem C131_life {St} (N : net St) user password s c s1 tr1 r P l c' s' tr' :
  opens (watched N) user password (s, []) (c, (s1, tr1)) r ->
  history (watched N) P (c, (s1, tr1)) l (c', (s', tr')) -> life (snd (n_dial N s)) (c_closed c') tr'.
Proof. exact (socket_life N user password s c s1 tr1 r P l c' s' tr'). Qed.
Print Assumptions C131_life.
(** The mark tells the truth about the socket. *)
Theorem C131_mark {St} (N : net St) user password s c s1 tr1 a P l c' s' tr' :
  opens (watched N) user password (s, []) (c, (s1, tr1)) (Ok a) ->
  history (watched N) P (c, (s1, tr1)) l (c', (s', tr')) -> c_closed c' = negb (socket_open tr').
Proof. exact (flag_tells N user password s c s1 tr1 a P l c' s' tr'). Qed.
Print Assumptions C131_mark.
(** Calls on a closed connection, those on its transactions included, do not touch the network. *)
Theorem C131_untouched {St} (N : net St) user password s c s1 tr1 r P l c' s' tr' P2 l2 c2 s2 tr2 :
  opens (watched N) user password (s, []) (c, (s1, tr1)) r ->
  history (watched N) P (c, (s1, tr1)) l (c', (s', tr')) -> c_closed c' = true ->
  history (watched N) P2 (c', (s', tr')) l2 (c2, (s2, tr2)) -> s2 = s' /\ tr2 = tr'.
Proof. exact (socket_buried N user password s c s1 tr1 r P l c' s' tr' P2 l2 c2 s2 tr2). Qed.
Print Assumptions C131_untouched.
(** The server accepts the login, then fails a query and the RESET after it: the query closes the socket. What
    is called afterwards does nothing. *)
Example C131_case : exists c s1 tr1 c' tr' e1 e2,
  opens (watched hostile) (str "neo4j") (str "secret") (1%nat, []) (c, (s1, tr1)) (Ok tt)
  /\ history (watched hostile) (fun _ _ => True) (c, (s1, tr1)) [(CQuery q1 [] [], Err e1)] (c', (O, tr'))
  /\ history (watched hostile) (fun _ _ => True) (c', (O, tr')) [(CMakeIdle, Ok ADone); (CValidate, Ok (ABool false)); (CClose, Err e2)] (c', (O, tr'))
  /\ c_closed c' = true /\ length tr' = 12%nat /\ last tr' (VProbe None) = VHang None /\ socket_open tr1 = true.
Proof.
  do 7 eexists. split; [exists 9%nat; split; [vm_compute; reflexivity|discriminate]|]. split.
  { apply (hist_snoc _ _ _ [] _ _ _ _ (hist_nil _ _ _) Logic.I). exists 9%nat. split; [vm_compute; reflexivity|discriminate]. }
  split.
  { eapply (hist_snoc _ _ _ [_; _] (_, _)); [|exact Logic.I|].
    - eapply (hist_snoc _ _ _ [_] (_, _)); [|exact Logic.I|].
      + eapply (hist_snoc _ _ _ []); [apply hist_nil|exact Logic.I|exists 9%nat; split; [vm_compute; reflexivity|discriminate]].
      + exists 9%nat; split; [vm_compute; reflexivity|discriminate].
    - exists 9%nat; split; [vm_compute; reflexivity|discriminate]. }
  repeat split; vm_compute; reflexivity.
Qed.

(** ** C39: on any network, true unless the rollback of an open transaction fails or GOODBYE cannot be sent *)
(** Without an open transaction. *)
Theorem C39_alone_partial {St} (N : net St) l c s tr c' s' tr' r : used (watched N) l (c, (s, tr)) -> c_closed c = false ->
  (forall t, tx_closed c t = true) -> does (watched N) CClose (c, (s, tr)) (c', (s', tr')) r ->
  has_transactions (proto_number (c_proto c)) = true
  /\ (exists e, tr' = tr ++ [VSend (GStructure 2 []) (Some e)] /\ r = Err e /\ c' = c)
  \/ exists e, tr' = tr ++ (if has_transactions (proto_number (c_proto c)) then [VSend (GStructure 2 []) None] else []) ++ [VHang e]
     /\ c_closed c' = true /\ r = match e with None => Ok ADone | Some e => Err e end.
Proof. exact (close_alone_used N l c s tr c' s' tr' r). Qed.
Print Assumptions C39_alone_partial.
(** With one, Close is Rollback followed, if that succeeds, by Close. *)
Theorem C39_rolls_back_partial {St} (N : net St) l c x t c' x' r : used (watched N) l (c, x) -> c_closed c = false -> tx_closed c t = false ->
  does (watched N) CClose (c, x) (c', x') r ->
  exists c1 x1 r1, does (watched N) (CRollback t) (c, x) (c1, x1) r1
  /\ match r1 with
     | Ok _ => c_closed c1 = false /\ (forall u, tx_closed c1 u = true) /\ does (watched N) CClose (c1, x1) (c', x') r
     | _ => c' = c1 /\ x' = x1 /\ r = r1
     end.
Proof. exact (close_in_tx_used N l c x t c' x' r). Qed.
Print Assumptions C39_rolls_back_partial.
(** A network that no longer takes what is sent after the login and BEGIN. *)
Example C39_any_case : let N := {| n_send := fun _ _ _ s => match s with O => (O, Some EBadConn) | S s' => (s', None) end;
    n_recv := fun _ s => (s, Ok (GSuccess [])); n_hang := fun s => (s, None); n_dial := fun s => (s, None);
    n_write := fun b s => (s, (zlen b, None)); n_read := fun _ s => (s, ([x00; x00; x00; x04], None)); n_probe := fun s => (s, None) |} in
  exists c tr c1 s1 tr1, used (watched N) [] (c, (1%nat, tr)) /\ (forall t, tx_closed c t = true)
  /\ used (watched N) [(CBegin [], Ok (ATx 0))] (c1, (s1, tr1)) /\ tx_closed c1 0 = false
  /\ does (watched N) CClose (c, (1%nat, tr)) (set_closed c, (O, tr ++ [VSend (GStructure 2 []) None; VHang None])) (Ok ADone)
  /\ does (watched N) CClose (c1, (s1, tr1)) (c1, (s1, tr1 ++ [VSend (GStructure 19 []) (Some EBadConn)])) (Err EBadConn).
Proof.
  intro N.
  set (w := (fun n => exec (watched N) (create_bolt_conn 9) (fresh_conn (str "neo4j") (str "secret")) (n, []))).
  assert (O : forall n, opens (watched N) (str "neo4j") (str "secret") (S n, []) (fst (w (S n))) (Ok tt)).
  { intro n. exists 9%nat. split; [vm_compute; reflexivity|discriminate]. }
  do 5 eexists. split; [|split; [|split; [|split; [|split]]]].
  - exists (str "neo4j"), (str "secret"), (2%nat, []). eexists. split; [apply O|vm_compute; apply hist_nil].
  - intro t. now destruct t.
  - exists (str "neo4j"), (str "secret"), (2%nat, []). eexists. split; [apply O|].
    eapply (hist_snoc _ _ _ []); [apply hist_nil|exact Logic.I|]. exists 9%nat. split; [vm_compute; reflexivity|discriminate].
  - reflexivity.
  - exists 9%nat. split; [vm_compute; reflexivity|discriminate].
  - exists 9%nat. split; [vm_compute; reflexivity|discriminate].
Qed.

(** ** C75: exactly when a failed open closes the socket it dialled *)
Theorem C75_exactly_when {St} (N : net St) user password s c s' tr e : opens (watched N) user password (s, []) (c, (s', tr)) (Err e) ->
  snd (n_dial N s) = None ->
  (socket_open tr = false <-> exists vb p ev, get_protocol (Some vb) = (Some p, proto_number p, None)
     /\ tr = [VDial None; VWrite handshake_bytes (20, None); VRead (vb, None);
              VSend (get_init_message p client_id (auth_basic user password)) None] ++ ev /\ retreat p ev).
Proof. exact (failed_open_exactly N user password s c s' tr e). Qed.
Print Assumptions C75_exactly_when.
(** The login fails, and so does the RESET after it. *)
Example C75_exactly_case : exists c tr e, opens (watched hostile) (str "neo4j") (str "secret") (O, []) (c, (O, tr)) (Err e)
  /\ snd (n_dial hostile O) = None /\ length tr = 9%nat /\ socket_open tr = false.
Proof.
  do 3 eexists. split; [exists 9%nat; split; [vm_compute; reflexivity|discriminate]|]. repeat split; vm_compute; reflexivity.
Qed.
