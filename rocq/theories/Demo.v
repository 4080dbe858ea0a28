(** Concrete conforming servers, used by the examples and counterexamples of the Props files. *)
From Coq Require Import String ZArith List Bool.
From Verif Require Import Bytes GoVal GoErr Encoder Decoder SpecPack SpecValues SpecCodec SpecServer
  Messages Connection Link Wire SpecSession.
Import ListNotations.
Open Scope Z_scope.

(** A server that decides as listed, one outcome per request it judges (the login is the first). *)
Definition script (version : Z) (l : list outcome) (strict : bool) : judge :=
  mkJudge [version] (fun n => nth n l (Produced [] [] [])) [(str "code", GStr (str "Neo.ClientError.Request.Invalid"))] strict.
(** It packs its responses as the encoder of this library does, in one piece each. *)
Definition demo (v : ver) (J : judge) (looks : bool) : peer :=
  mkPeer J (fun _ g => fst (marshal v g)) (fun _ b => match b with [] => [] | _ => [b] end)
         (fun _ => None) (fun _ => None) looks (fun _ => None).

(** Everything a server with a script says. *)
Definition outcome_says (o : outcome) : list gval :=
  match o with
  | Refused md => [GFailure md; GSuccess []]
  | Broken rm l md => GSuccess rm :: GFailure md :: map GRecord l
  | Produced rm l md => GSuccess rm :: GSuccess md :: map GRecord l
  end.
Definition script_says (J : judge) (l : list outcome) : list gval :=
  [GSuccess []; GIgnored; GFailure (j_breach J)] ++ flat_map outcome_says l.
(** A response the client receives as it is. *)
Definition plain_response (v : ver) (g : gval) : Prop :=
  go_typed g = true /\ plain v g = true /\ forallb (size_ok signed_limits) (lens g) = true
  /\ received f32_to_f64 g = g /\ zlen (payload v g) <= 65535.

(** Calls made one after another, with their results; None: the fuel was too small. *)
Fixpoint play {St} (N : net St) (n : nat) (allowed : conn -> call -> bool) (calls : list call) (w : conn * St)
  : option (list (call * res answer) * (conn * St)) :=
  match calls with
  | [] => Some ([], w)
  | o :: calls' =>
      if allowed (fst w) o then
        match exec N (do_call n o) (fst w) (snd w) with
        | (_, _, NoFuel) => None
        | (c, s, r) =>
            match play N n allowed calls' (c, s) with
            | Some (l, w') => Some ((o, r) :: l, w')
            | None => None
            end
        end
      else None
  end.
(** Opening a connection and making calls. *)
Definition play_session (P : peer) (n : nat) (allowed : conn -> call -> bool) (user password : bytes) (calls : list call)
  : option (list (call * res answer) * (conn * wire)) :=
  match exec (wired P) (create_bolt_conn n) (fresh_conn user password) new_wire with
  | (c, w, Ok tt) => play (wired P) n allowed calls (c, w)
  | _ => None
  end.

Definition clean_b (c : conn) (m : gval) : bool :=
  sendable (codec (c_proto c)) (c_chunk c) m || refused (codec (c_proto c)) (c_chunk c) m.
Definition clean_call_b (c : conn) (o : call) : bool :=
  match o with
  | CQuery q ps db | CExec q ps db => clean_b c (run_msg c q ps db false)
  | CTxQuery _ q ps db | CTxExecDb _ q ps db => clean_b c (run_msg c q ps db true)
  | CTxExec _ q ps => clean_b c (run_msg c q ps [] false)
  | CBegin db => clean_b c (fst (get_begin_message (c_proto c) db (c_mode c)))
  | CSetChunk cs => (1 <=? cs) && (cs <=? 65535)
  | _ => true
  end.
