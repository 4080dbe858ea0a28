(** Statement-level vocabulary for the theorems about sharing connections. *)
From Coq Require Import String ZArith List Bool.
From Verif Require Import Bytes GoVal GoErr SpecValues SpecServer Messages Connection Link Wire SpecSession.
Import ListNotations.
Open Scope Z_scope.

(** ** One connection *)

(** The statement of the call, if it has one, is not transaction control in disguise. *)
Definition ordinary_call (p : proto) (o : call) : Prop :=
  match statement_of o with Some (q, _) => ordinary p q = true | None => True end.
Definition polite (c : conn) (o : call) : Prop := clean_call c o /\ ordinary_call (c_proto c) o.
(** Nothing is left of what was done with the connection before: nothing is under way, and neither side
    has a transaction open. *)
Definition rested (x : conn * wire) : Prop :=
  quiet (snd x) /\ s_tx (w_srv (snd x)) = None /\ forall t, tx_closed (fst x) t = true.

(** ** Sockets *)

(** The socket the events leave open: dialled, and not closed since. *)
Definition socket_after (b : bool) (e : event) : bool :=
  match e with VDial None => true | VHang _ => false | _ => b end.
Definition socket_open (tr : list event) : bool := fold_left socket_after tr false.

(** ** Networks that fall silent *)

(** [left s]: a bound on the messages still to come. *)
Record runs_dry {St} (N : net St) (left : St -> nat) : Prop := mkRunsDry {
  rd_send v cs m s : (left (fst (n_send N v cs m s)) <= left s)%nat;
  rd_recv v s : (left (fst (n_recv N v s)) <= left s)%nat;
  rd_recv_ok v s s' m : n_recv N v s = (s', Ok m) -> (left s' < left s)%nat;
  rd_recv_ends v s : snd (n_recv N v s) <> NoFuel;
  rd_hang s : (left (fst (n_hang N s)) <= left s)%nat;
  rd_dial s : (left (fst (n_dial N s)) <= left s)%nat;
  rd_write b s : (left (fst (n_write N b s)) <= left s)%nat;
  rd_read n s : (left (fst (n_read N n s)) <= left s)%nat;
  rd_probe s : (left (fst (n_probe N s)) <= left s)%nat
}.

(** ** The driver pool and those who use its connections *)
From Verif Require DriverPool SpecDriver.

(** A pool of [max] connections was made; things happened to it, and those who held a connection did
    things with it, [use c w w']. Everyone gives back only what they hold, and uses only that. *)
Inductive shared {W} (N : DriverPool.net W) (use : nat -> W -> W -> Prop) (max : Z) (w0 : W)
  : list (DriverPool.devent * DriverPool.dres) -> DriverPool.dpool -> W -> Prop :=
| sh_new : shared N use max w0 [] (DriverPool.new_driver_pool max) w0
| sh_event l d w e r d' w' : shared N use max w0 l d w ->
    match e with DriverPool.EvReclaim (Some c) => In c (SpecDriver.held l) | _ => True end ->
    DriverPool.do_event N e d w = (d', w', r) -> shared N use max w0 (l ++ [(e, r)]) d' w'
| sh_use l d w c w' : shared N use max w0 l d w -> In c (SpecDriver.held l) -> use c w w' -> shared N use max w0 l d w'.

(** What happens to connections, in any world. *)
Inductive cevent := WasMade (c : nat) | WasIdled (c : nat) (ok : bool) | WasUsed (c : nat) | WasClosed (c : nat).
Definition is_ok {A} (r : res A) : bool := match r with Ok _ => true | _ => false end.
(** The same connections with a record of that, the latest first. *)
Definition noted {W} (N : DriverPool.net W) : DriverPool.net (W * list cevent) :=
  DriverPool.mkNet
    (fun w => let '(w', r) := DriverPool.n_make N (fst w) in
              (w', match r with Ok c => WasMade c :: snd w | _ => snd w end, r))
    (fun c w => let '(w', b) := DriverPool.n_valid N c (fst w) in (w', snd w, b))
    (fun c w => let '(w', r) := DriverPool.n_close N c (fst w) in (w', WasClosed c :: snd w, r))
    (fun c w => let '(w', r) := DriverPool.n_idle N c (fst w) in (w', WasIdled c (is_ok r) :: snd w, r)).
Definition noted_use {W} (made : W -> list nat) (c : nat) (w w' : W * list cevent) : Prop :=
  snd w' = WasUsed c :: snd w /\ incl (made (fst w)) (made (fst w')).
(** The last thing that happened to [c]: it was made, or made idle with success. *)
Fixpoint prepared (c : nat) (l : list cevent) : bool :=
  match l with
  | [] => false
  | WasMade d :: l' => if Nat.eqb d c then true else prepared c l'
  | WasIdled d ok :: l' => if Nat.eqb d c then ok else prepared c l'
  | WasUsed d :: l' | WasClosed d :: l' => if Nat.eqb d c then false else prepared c l'
  end.

(** The connections of the pool are connections to conforming servers: [cell w c] is the connection
    [c] with its link, [P c] the peer at its other end. A call that never returns changes nothing. *)
Definition back {A} (r : res A) : res answer :=
  match r with Ok _ => Ok ADone | Err e => Err e | Panic => Panic | NoFuel => NoFuel end.
Record over_sessions {W} (N : DriverPool.net W) (made : W -> list nat) (p : nat -> proto) (P : nat -> peer) (user password : bytes)
  (cell : W -> nat -> conn * wire) : Prop := mkOverSessions {
  os_peers c : conforming (p c) (P c);
  os_login : zlen user <= 65535 /\ zlen password <= 65535;
  os_make w w' r : DriverPool.n_make N w = (w', r) ->
    (forall c, In c (made w') -> In c (made w) \/ r = Ok c)
    /\ (forall c, In c (made w) -> cell w' c = cell w c)
    /\ forall c, r = Ok c -> opens (wired (P c)) user password new_wire (cell w' c) (Ok tt);
  os_valid c w w' b : In c (made w) -> DriverPool.n_valid N c w = (w', b) ->
    made w' = made w /\ (forall d, d <> c -> cell w' d = cell w d)
    /\ does (wired (P c)) CValidate (cell w c) (cell w' c) (Ok (ABool b));
  os_close c w w' r : In c (made w) -> DriverPool.n_close N c w = (w', r) ->
    made w' = made w /\ (forall d, d <> c -> cell w' d = cell w d)
    /\ (if match r with NoFuel => true | _ => false end then cell w' c = cell w c
        else does (wired (P c)) CClose (cell w c) (cell w' c) (back r));
  os_idle c w w' r : In c (made w) -> DriverPool.n_idle N c w = (w', r) ->
    made w' = made w /\ (forall d, d <> c -> cell w' d = cell w d)
    /\ (if match r with NoFuel => true | _ => false end then cell w' c = cell w c
        else does (wired (P c)) CMakeIdle (cell w c) (cell w' c) (back r))
}.
(** A holder makes a call. *)
Definition session_use {W} (C : conn -> call -> Prop) (made : W -> list nat) (P : nat -> peer) (cell : W -> nat -> conn * wire) (c : nat) (w w' : W) : Prop :=
  made w' = made w /\ (forall d, d <> c -> cell w' d = cell w d)
  /\ exists o r, C (fst (cell w c)) o /\ does (wired (P c)) o (cell w c) (cell w' c) r.

(** ** The routing pool over sessions *)
From Verif Require Pool SpecPool.

(** The connections of a cluster are sessions with conforming servers. *)
Record cluster_sessions {W} (K : Pool.cluster W) (opened : W -> list nat) (p : nat -> proto) (P : nat -> peer)
  (cell : W -> nat -> conn * wire) : Prop := mkClusterSessions {
  cs_peers h : conforming (p h) (P h);
  cs_dial s w w' r : Pool.k_dial K s w = (w', r) ->
    (forall h, In h (opened w) -> cell w' h = cell w h)
    /\ forall h, r = Ok h -> exists user password, zlen user <= 65535 /\ zlen password <= 65535 /\ opens (wired (P h)) user password new_wire (cell w' h) (Ok tt);
  cs_valid h w w' b : Pool.k_valid K h w = (w', b) ->
    opened w' = opened w /\ (forall d, d <> h -> cell w' d = cell w d)
    /\ (In h (opened w) -> does (wired (P h)) CValidate (cell w h) (cell w' h) (Ok (ABool b)));
  cs_close h w w' e : Pool.k_close K h w = (w', e) ->
    opened w' = opened w /\ (forall d, d <> h -> cell w' d = cell w d)
    /\ (In h (opened w) -> cell w' h = cell w h
        \/ exists r, does (wired (P h)) CClose (cell w h) (cell w' h) r /\ (e = None <-> r = Ok ADone));
  cs_query h w w' v r : Pool.k_query K h w = (w', (v, r)) ->
    opened w' = opened w /\ (forall d, d <> h -> cell w' d = cell w d)
    /\ (In h (opened w) -> cell w' h = cell w h
        \/ exists q db r', does (wired (P h)) (CQuery q [] db) (cell w h) (cell w' h) r');
  cs_name w : opened (fst (Pool.k_name K w)) = opened w /\ forall d, cell (fst (Pool.k_name K w)) d = cell w d
}.
(** Looking at a connection, and dealing with other connections, leave it as it is. *)
Record inert {W X} (K : Pool.cluster W) (opened : W -> list nat) (cell : W -> nat -> X) : Prop := mkInert {
  it_dial s w h : In h (opened w) -> cell (fst (Pool.k_dial K s w)) h = cell w h;
  it_valid h' w h : In h (opened w) -> cell (fst (Pool.k_valid K h' w)) h = cell w h;
  it_close h' w h : In h (opened w) -> h <> h' -> cell (fst (Pool.k_close K h' w)) h = cell w h;
  it_query h' w h : In h (opened w) -> h <> h' -> cell (fst (Pool.k_query K h' w)) h = cell w h;
  it_name w h : In h (opened w) -> cell (fst (Pool.k_name K w)) h = cell w h
}.
