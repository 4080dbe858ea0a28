(** Why a Go value cannot be sent: the obstacles in it, in the order in which the value is written
    from left to right. Refers to Go values and error values only. *)
From Coq Require Import ZArith List Bool.
From Verif Require Import Bytes GoVal GoErr.
Import ListNotations.
Open Scope Z_scope.

(** An obstacle: inside how many structures it lies, and the complaint. *)
Definition obstacle := (nat * etag)%type.
(** A collection or text with more than [limit] elements. *)
Definition too_many (d : nat) (t : etag) (limit n : Z) : list obstacle := if n <=? limit then [] else [(d, t)].
Definition four_bytes : Z := 4294967295.

Fixpoint obstacles (v : ver) (d : nat) (x : gval) : list obstacle :=
  let text d (s : bytes) := too_many d TStringTooLong four_bytes (zlen s) in
  let each d (l : list gval) := too_many d TSliceTooLong four_bytes (zlen l) ++ flat_map (obstacles v d) l in
  let props d (m : list (bytes * gval)) :=
    too_many d TMapTooLong four_bytes (zlen m) ++ flat_map (fun kv => text d (fst kv) ++ obstacles v d (snd kv)) m in
  let v2 := match v with V1 => [(d, TUnrecognizedType)] | V2 => [] end in
  match x with
  | GInt KUint64 z => if z <? 2 ^ 63 then [] else [(d, TIntegerTooBig)]
  | GStr s => text d s
  | GSlice l | GTSlice l => each d l
  | GMap m => props d m
  | GNode _ labels m =>
      too_many (S d) TSliceTooLong four_bytes (zlen labels) ++ flat_map (text (S d)) labels ++ props (S d) m
  | GRel _ _ _ ty m | GURel _ ty m => text (S d) ty ++ props (S d) m
  | GPath ns rs sq => each (S d) ns ++ each (S d) rs ++ too_many (S d) TSliceTooLong four_bytes (zlen sq)
  | GPoint2D ptr _ _ _ | GPoint3D ptr _ _ _ _ => if ptr then [] else [(d, TUnrecognizedType)]
  | GDate _ | GClock _ _ | GLocalClock _ | GLocalTime _ _ | GTime _ _ _ | GDuration _ => v2
  | GSuccess m | GFailure m => props (S d) m
  | GRecord l => each (S d) l
  | GStructure _ fs => too_many d TStructTooLong 65535 (zlen fs) ++ flat_map (obstacles v (S d)) fs
  | GOther => [(d, TUnrecognizedType)]
  | _ => []
  end.

(** The error reporting an obstacle: the complaint, wrapped once for each structure around it. *)
Definition reported (o : obstacle) : gerr := Nat.iter (fst o) (fun e => EWrap (Some e) 0) (ENew (snd o)).
Definition first_reported (l : list obstacle) : option gerr := match l with [] => None | o :: _ => Some (reported o) end.
