(** Specification of a conforming Bolt server, written from the published protocol description:
    which messages are which requests in protocol versions 1 to 4, and how a server answers them.
    Nothing here refers to the client (Connection.v, Messages.v). *)
From Coq Require Import String ZArith List Bool.
From Verif Require Import Bytes GoVal.
Import ListNotations.
Open Scope Z_scope.

Local Notation str s := (list_byte_of_string s%string).

(** ** Requests *)

Inductive request :=
| QLogin (md : list (bytes * pv))
| QRun (text : bytes) (params md : list (bytes * pv))
| QPull
| QDiscard
| QBegin (md : list (bytes * pv))
| QCommit
| QRollback
| QReset
| QGoodbye
| QBad.                                  (* not a request of this protocol version *)

(** The value of a key in a map item. *)
Fixpoint look (k : bytes) (m : list (bytes * pv)) : option pv :=
  match m with
  | [] => None
  | (k', x) :: m' => if bytes_eqb k' k then Some x else look k m'
  end.

(** Messages by version:
    - 1, 2: INIT 0x01 agent token, RUN 0x10 text params, PULL_ALL 0x3F, DISCARD_ALL 0x2F, RESET 0x0F
    - 3:    HELLO 0x01 extra, RUN 0x10 text params extra, BEGIN 0x11 extra, COMMIT 0x12,
            ROLLBACK 0x13, GOODBYE 0x02, PULL_ALL, DISCARD_ALL, RESET
    - 4:    as 3, but PULL and DISCARD carry a map with the number of records wanted (-1: all);
            a server that is asked for fewer would answer in parts, which is not modelled: QBad *)
Definition read_request (version : Z) (p : pv) : request :=
  match p with
  | PStruct sig fs =>
      if sig =? 0x0F then match fs with [] => QReset | _ => QBad end
      else if version <=? 2 then
        if sig =? 0x01 then
          match fs with [PStr agent; PMap token] => QLogin (token ++ [(str "user_agent", PStr agent)]) | _ => QBad end
        else if sig =? 0x10 then match fs with [PStr q; PMap ps] => QRun q ps [] | _ => QBad end
        else if sig =? 0x3F then match fs with [] => QPull | _ => QBad end
        else if sig =? 0x2F then match fs with [] => QDiscard | _ => QBad end
        else QBad
      else
        if sig =? 0x01 then match fs with [PMap md] => QLogin md | _ => QBad end
        else if sig =? 0x02 then match fs with [] => QGoodbye | _ => QBad end
        else if sig =? 0x10 then match fs with [PStr q; PMap ps; PMap md] => QRun q ps md | _ => QBad end
        else if sig =? 0x11 then match fs with [PMap md] => QBegin md | _ => QBad end
        else if sig =? 0x12 then match fs with [] => QCommit | _ => QBad end
        else if sig =? 0x13 then match fs with [] => QRollback | _ => QBad end
        else if sig =? 0x3F then
          match fs with
          | [] => if version =? 3 then QPull else QBad
          | [PMap md] => if (version =? 4) && match look (str "n") md with Some (PInt n) => n =? -1 | _ => false end
                         then QPull else QBad
          | _ => QBad
          end
        else if sig =? 0x2F then
          match fs with
          | [] => if version =? 3 then QDiscard else QBad
          | [PMap md] => if (version =? 4) && match look (str "n") md with Some (PInt n) => n =? -1 | _ => false end
                         then QDiscard else QBad
          | _ => QBad
          end
        else QBad
  | _ => QBad
  end.

(** ** The server *)

(** A statement as the server executes it: text, parameters, database (None: the default one). *)
Record stmt := mkStmt { st_text : bytes; st_params : list (bytes * pv); st_db : option bytes }.

Definition db_of (md : list (bytes * pv)) : option bytes :=
  match look (str "db") md with Some (PStr d) => Some d | _ => None end.

(** What the database makes of a request: refuse it; accept it, produce some rows and then fail;
    or accept it and complete. Metadata and rows are the Go values the client should receive. *)
Inductive outcome :=
| Refused (md : list (bytes * gval))
| Broken (runmd : list (bytes * gval)) (rows : list (list gval)) (md : list (bytes * gval))
| Produced (runmd : list (bytes * gval)) (rows : list (list gval)) (md : list (bytes * gval)).

(** Fresh: before login. Ready. Failed: ignores everything until RESET. Gone: hung up.
    Garbled: the byte stream no longer consists of messages. *)
Inductive mode := Fresh | Ready | Failed | Gone | Garbled.

(** What a server decides freely: the versions it speaks, the outcome of the n-th request it
    judges, the metadata of the failure it reports for a request that is not allowed in its state,
    and whether it then also hangs up. *)
Record judge := mkJudge {
  j_versions : list Z;
  j_outcome : nat -> outcome;
  j_breach : list (bytes * gval);
  j_strict : bool
}.

(** The state of one session.
    [s_tx]: the open transaction: its database and the statements executed in it so far.
    [s_stream]: the result waiting to be pulled: the statement (None: a transaction-control
    statement of versions 1, 2) and its outcome.
    [s_perm]: the statements whose effects are permanent. [s_done]: every statement that was
    judged, with the outcome. [s_out]: responses not yet received by the client. [s_raw]: the
    unread part of the handshake answer. [s_hung]: the client closed the link. *)
Record srv := mkSrv {
  s_version : Z;
  s_mode : mode;
  s_next : nat;
  s_tx : option (option bytes * list stmt);
  s_stream : option (option stmt * outcome);
  s_perm : list stmt;
  s_done : list (stmt * outcome);
  s_out : list gval;
  s_raw : bytes;
  s_hung : bool
}.

Definition new_session : srv := mkSrv 0 Fresh 0 None None [] [] [] [] false.

(** Text that versions 1 and 2 treat as transaction control. *)
Inductive control := KBegin | KCommit | KRollback.
Definition control_of (text : bytes) : option control :=
  if bytes_eqb text (str "BEGIN") then Some KBegin
  else if bytes_eqb text (str "COMMIT") then Some KCommit
  else if bytes_eqb text (str "ROLLBACK") then Some KRollback
  else None.

Section Server.
Variable J : judge.

(** Components of the next state. *)
Definition answer_with (out : list gval) (s : srv) : srv :=
  mkSrv (s_version s) (s_mode s) (s_next s) (s_tx s) (s_stream s) (s_perm s) (s_done s) (s_out s ++ out) (s_raw s) (s_hung s).
Definition in_mode (m : mode) (s : srv) : srv :=
  mkSrv (s_version s) m (s_next s) (s_tx s) (s_stream s) (s_perm s) (s_done s) (s_out s) (s_raw s) (s_hung s).
Definition with_tx (tx : option (option bytes * list stmt)) (s : srv) : srv :=
  mkSrv (s_version s) (s_mode s) (s_next s) tx (s_stream s) (s_perm s) (s_done s) (s_out s) (s_raw s) (s_hung s).
Definition with_stream (st : option (option stmt * outcome)) (s : srv) : srv :=
  mkSrv (s_version s) (s_mode s) (s_next s) (s_tx s) st (s_perm s) (s_done s) (s_out s) (s_raw s) (s_hung s).
Definition judged (done : list (stmt * outcome)) (s : srv) : srv :=
  mkSrv (s_version s) (s_mode s) (S (s_next s)) (s_tx s) (s_stream s) (s_perm s) (s_done s ++ done) (s_out s) (s_raw s) (s_hung s).
Definition made_permanent (l : list stmt) (s : srv) : srv :=
  mkSrv (s_version s) (s_mode s) (s_next s) (s_tx s) (s_stream s) (s_perm s ++ l) (s_done s) (s_out s) (s_raw s) (s_hung s).

(** A failure: reported, the open transaction and result are discarded. *)
Definition fail_with (md : list (bytes * gval)) (s : srv) : srv :=
  in_mode Failed (with_tx None (with_stream None (answer_with [GFailure md] s))).
(** A request that the state does not allow. *)
Definition breach (s : srv) : srv :=
  if j_strict J then in_mode Gone (fail_with (j_breach J) s) else fail_with (j_breach J) s.
Definition reset_session (s : srv) : srv :=
  answer_with [GSuccess []] (in_mode Ready (with_tx None (with_stream None s))).

(** A completed statement takes effect: in the open transaction, else permanently. *)
Definition take_effect (st : stmt) (s : srv) : srv :=
  match s_tx s with
  | Some (db, l) => with_tx (Some (db, l ++ [st])) s
  | None => made_permanent [st] s
  end.

(** The database of a statement: that of the open transaction, else the one it names. *)
Definition run_db (md : list (bytes * pv)) (s : srv) : option bytes :=
  match s_tx s with Some (db, _) => db | None => db_of md end.

Definition run_md (o : outcome) : list (bytes * gval) :=
  match o with Refused _ => [] | Broken r _ _ | Produced r _ _ => r end.

(** RUN of an ordinary statement *)
Definition serve_run (st : stmt) (s : srv) : srv :=
  let o := j_outcome J (s_next s) in
  let s := judged [(st, o)] s in
  match o with
  | Refused md => fail_with md s
  | _ => answer_with [GSuccess (run_md o)] (with_stream (Some (Some st, o)) s)
  end.

(** A request to begin, commit or roll back; [text]: sent as the text of a RUN, so that an (empty)
    result is waiting afterwards. *)
Definition serve_control (k : control) (db : option bytes) (text : bool) (s : srv) : srv :=
  match k, s_tx s with
  | KBegin, Some _ | KCommit, None | KRollback, None =>
      if text then fail_with (j_breach J) s else breach s
  | _, _ =>
      let o := j_outcome J (s_next s) in
      let s := judged [] s in
      match o with
      | Refused md => fail_with md s
      | _ =>
          let s := answer_with [GSuccess (run_md o)] s in
          let s := if text then with_stream (Some (None, o)) s else s in
          match k, s_tx s with
          | KBegin, _ => with_tx (Some (db, [])) s
          | KCommit, Some (_, l) => with_tx None (made_permanent l s)
          | _, _ => with_tx None s
          end
      end
  end.

(** PULL ([rows]: send the rows) or DISCARD of the waiting result *)
Definition serve_pull (rows : bool) (st : option stmt) (o : outcome) (s : srv) : srv :=
  let s := with_stream None s in
  let recs (l : list (list gval)) := if rows then map GRecord l else [] in
  match st, o with
  | None, _ => answer_with [GSuccess []] s
  | Some st, Produced _ l md => take_effect st (answer_with (recs l ++ [GSuccess md]) s)
  | Some st, Broken _ l md => fail_with md (answer_with (recs l) s)
  | Some st, Refused md => fail_with md s
  end.

Definition serve (q : request) (s : srv) : srv :=
  match s_mode s with
  | Gone | Garbled => s
  | Fresh =>
      match q with
      | QLogin _ =>
          match j_outcome J (s_next s) with
          | Refused md => in_mode Gone (answer_with [GFailure md] (judged [] s))
          | o => in_mode Ready (answer_with [GSuccess (run_md o)] (judged [] s))
          end
      | QGoodbye => in_mode Gone s
      | _ => breach s
      end
  | Failed =>
      match q with
      | QReset => reset_session s
      | QGoodbye => in_mode Gone s
      | _ => answer_with [GIgnored] s
      end
  | Ready =>
      match q, s_stream s with
      | QReset, _ => reset_session s
      | QGoodbye, _ => in_mode Gone (with_tx None (with_stream None s))
      | QPull, Some (st, o) => serve_pull true st o s
      | QDiscard, Some (st, o) => serve_pull false st o s
      | _, Some _ => breach s
      | QRun text ps md, None =>
          match control_of text with
          | Some k => if s_version s <=? 2 then serve_control k None true s
                      else serve_run (mkStmt text ps (run_db md s)) s
          | None => serve_run (mkStmt text ps (run_db md s)) s
          end
      | QBegin md, None => serve_control KBegin (db_of md) false s
      | QCommit, None => serve_control KCommit None false s
      | QRollback, None => serve_control KRollback None false s
      | QPull, None | QDiscard, None | QLogin _, None | QBad, None => breach s
      end
  end.

(** ** Handshake *)

(** The 4-byte big-endian version numbers, the first proposal the server speaks, 0 if none. *)
Definition version_bytes (n : Z) : bytes := [x00; x00; x00; zb n].
Fixpoint chunks4 (n : nat) (b : bytes) : list bytes :=
  match n with O => [] | S n' => firstn 4 b :: chunks4 n' (skipn 4 b) end.
Definition speaks (prop : bytes) : option Z :=
  find (fun n => (1 <=? n) && (n <=? 255) && bytes_eqb prop (version_bytes n)) (j_versions J).
Fixpoint choose (props : list bytes) : Z :=
  match props with
  | [] => 0
  | p :: props' => match speaks p with Some n => n | None => choose props' end
  end.

(** The preamble 60 60 B0 17 and four proposals. *)
Definition serve_handshake (b : bytes) (s : srv) : srv :=
  if bytes_eqb (firstn 4 b) [x60; x60; xb0; x17] && Nat.eqb (length b) 20 then
    let n := choose (chunks4 4 (skipn 4 b)) in
    mkSrv n (if n =? 0 then Gone else Fresh) (s_next s) None None (s_perm s) (s_done s) [] (version_bytes n) (s_hung s)
  else in_mode Gone s.

End Server.
