(** The discipline of a client towards any peer, as an automaton over what happens on the link. *)
From Coq Require Import String ZArith List Bool.
From Verif Require Import Bytes GoVal GoErr Messages Connection SpecSession.
Import ListNotations.
Open Scope Z_scope.

(** [Owes n]: the peer owes [n] answers. [Blamed]: it has reported a failure. [Resets]: RESET has been
    sent and not been answered. [Leaves]: GOODBYE has been sent. [Parted]: the link has been closed.
    [Lost]: an operation on the link has failed. *)
Inductive talk := Owes (n : nat) | Blamed | Resets | Leaves | Parted | Lost.

Definition is_reset (m : gval) : bool := match m with GReset => true | _ => false end.
Definition is_goodbye (m : gval) : bool := match m with GStructure 2 [] => true | _ => false end.
Definition unless {A} (e : option A) (st : talk) : option talk := Some match e with None => st | Some _ => Lost end.

(** What may happen next; None: nothing of the kind.
    - answers are read only while the peer owes one;
    - a failure is followed by RESET and nothing else, and RESET is sent only then;
    - GOODBYE is followed by closing the link and nothing else, and closing by nothing;
    - the link is dialled or looked at only if no answer is owed;
    - a failed operation is the last. *)
Definition talk_next (st : talk) (v : event) : option talk :=
  match st, v with
  | Owes n, VSend m e =>
      if is_reset m then None
      else if is_goodbye m then unless e Leaves
      else unless e (Owes (S n))
  | Owes (S n), VRecv (Ok m) =>
      Some match m with GRecord _ => Owes (S n) | GFailure _ => Blamed | _ => Owes n end
  | Owes (S _), VRecv _ | Resets, VRecv (Err _) | Resets, VRecv Panic | Resets, VRecv NoFuel => Some Lost
  | Owes _, VHang e | Leaves, VHang e => unless e Parted
  | Owes O, VDial e => unless e (Owes O)
  | Owes O, VWrite _ (_, e) | Owes O, VRead (_, e) => unless e (Owes O)
  | Owes O, VProbe _ => Some (Owes O)
  | Blamed, VSend m e => if is_reset m then unless e Resets else None
  | Resets, VRecv (Ok m) => Some match m with GIgnored => Resets | _ => Owes O end
  | _, _ => None
  end.
Fixpoint walk (st : talk) (tr : list event) : option talk :=
  match tr with
  | [] => Some st
  | v :: tr' => match talk_next st v with Some st' => walk st' tr' | None => None end
  end.
(** Where a conversation may end. *)
Definition settled_talk (st : talk) : bool := match st with Owes _ | Parted | Lost => true | _ => false end.

(** ** What a call asks of the peer *)
Inductive wish := WRun (q : bytes) (ps : gomap) | WPull | WBegin | WCommit | WRollback | WReset | WGoodbye | WOther.
Definition wish_of (m : gval) : wish :=
  match m with
  | GStructure 0x10 (GStr q :: GMap ps :: _) => WRun q ps
  | GStructure 0x11 _ => WBegin
  | GStructure 0x12 _ => WCommit
  | GStructure 0x13 _ => WRollback
  | GStructure 0x02 _ => WGoodbye
  | GPullAll | GStructure 0x3F _ => WPull
  | GReset => WReset
  | _ => WOther
  end.
Definition wishes (tr : list event) : list wish :=
  flat_map (fun v => match v with VSend m _ => [wish_of m] | _ => [] end) tr.
(** In versions 1 and 2 transactions are begun and ended by statements. *)
Definition control_wishes (n : Z) (w : wish) (text : bytes) : list wish := if 3 <=? n then [w] else [WRun text []; WPull].
Definition has_tx (c : conn) : bool := match c_transaction c with Some _ => true | None => false end.
(** What a call is to ask for; [tx]: whether the connection has a current transaction. *)
Definition errands (n : Z) (tx : bool) (o : call) : list wish :=
  match o with
  | CQuery q ps _ | CExec q ps _ | CTxQuery _ q ps _ | CTxExecDb _ q ps _ | CTxExec _ q ps => [WRun q ps; WPull]
  | CBegin _ => control_wishes n WBegin (str "BEGIN")
  | CCommit _ => control_wishes n WCommit (str "COMMIT")
  | CRollback _ => control_wishes n WRollback (str "ROLLBACK")
  | CMakeIdle => if tx then control_wishes n WRollback (str "ROLLBACK") else []
  | CClose => (if tx then control_wishes n WRollback (str "ROLLBACK") else []) ++ (if 3 <=? n then [WGoodbye] else [])
  | CValidate | CSetChunk _ => []
  end.
(** What it may ask for in addition once the peer has reported a failure. *)
Definition amends (n : Z) (w : wish) : Prop := w = WReset \/ w = WGoodbye \/ In w (control_wishes n WRollback (str "ROLLBACK")).
Definition no_blame (tr : list event) : Prop := forall md, ~ In (VRecv (Ok (GFailure md))) tr.
(** The statements among the requests (other than the one that ends a transaction). *)
Definition counted (w : wish) : bool := match w with WRun q _ => negb (bytes_eqb q (str "ROLLBACK")) | _ => false end.
