(** Statement-level vocabulary for deadlines. A schedule lists what the peer sends and when it can be
    read; a receiver waits at most [T] for the next piece. *)
From Coq Require Import ZArith List Bool.
From Verif Require Import Bytes GoVal GoErr.
Import ListNotations.
Open Scope Z_scope.

Definition schedule := list (Z * bytes).
(** All that is sent. *)
Definition sent_bytes (l : schedule) : bytes := concat (map snd l).
(** No empty pieces. *)
Definition solid (l : schedule) : Prop := Forall (fun p => snd p <> []) l.

(** [comes T now l k t]: a receiver that begins to wait at [now] and waits at most [T] for the next piece
    gets the first [k] bytes, the last of them at [t]. *)
Inductive comes (T : Z) : Z -> schedule -> nat -> Z -> Prop :=
| comes_nothing now l : comes T now l 0 now
| comes_part now a b l k : a <= now + T -> (0 < k < length b)%nat -> comes T now ((a, b) :: l) k (Z.max now a)
| comes_more now a b l k t : a <= now + T -> comes T (Z.max now a) l k t -> comes T now ((a, b) :: l) (length b + k) t.

(** [ends T close now l k t e]: such a receiver gets the first [k] bytes and then, at [t], the error [e]: the
    end of the stream if the peer has closed by then, otherwise the end of its patience. *)
Inductive ends (T : Z) (close : option Z) : Z -> schedule -> nat -> Z -> gerr -> Prop :=
| ends_silent now : close = None -> ends T close now [] 0 (now + T) EBadConn
| ends_closed now c : close = Some c -> c <= now + T -> ends T close now [] 0 (Z.max now c) EEOF
| ends_late_close now c : close = Some c -> now + T < c -> ends T close now [] 0 (now + T) EBadConn
| ends_late now a b l : now + T < a -> ends T close now ((a, b) :: l) 0 (now + T) EBadConn
| ends_more now a b l k t e : a <= now + T -> ends T close (Z.max now a) l k t e -> ends T close now ((a, b) :: l) (length b + k) t e.

(** Byte after byte, one every [T]. *)
Fixpoint trickle (T now : Z) (b : bytes) : schedule :=
  match b with
  | [] => []
  | x :: b' => (now + T, [x]) :: trickle T (now + T) b'
  end.

(** The sending side: [room] lists from when on there is room for each further byte. *)
(** When the last of these is there, seen from [now] on. *)
Definition latest (now : Z) (room : list Z) : Z := fold_left Z.max room now.
(** There is no room for a byte before [until] has passed. *)
Definition no_room (room : list Z) (until : Z) : Prop := match room with [] => True | a :: _ => until < a end.
(** Until [t], inclusive, nothing comes and the peer does not close. *)
Definition none_by (t : Z) (l : schedule) (close : option Z) : Prop := (forall a b, In (a, b) l -> t < a) /\ forall a, close = Some a -> t < a.
