(** A reference reader for the wire format of SpecPack.v, as a server uses it: cuts a byte stream
    into messages and reads the item in each. Written from the format description; independent of
    the driver's decoder. [parse_frames], [parse_packs] (ParseFacts.v) show that it reads every
    valid framing and representation back, so both are unambiguous. *)
From Coq Require Import ZArith List Bool.
From Verif Require Import Bytes GoVal SpecPack.
Import ListNotations.
Open Scope Z_scope.

Definition byte_value (b : byte) : Z := Z.of_N (Byte.to_N b).

(** The first n bytes and the rest. *)
Definition take (n : Z) (b : bytes) : option (bytes * bytes) :=
  if (n <? 0) || (zlen b <? n) then None else Some (firstn (Z.to_nat n) b, skipn (Z.to_nat n) b).

(** An unsigned number of n bytes. *)
Definition number (n : Z) (b : bytes) : option (Z * bytes) :=
  match take n b with Some (s, r) => Some (be_value s, r) | None => None end.
(** A two's complement number of n bytes. *)
Definition signed_number (n : Z) (b : bytes) : option (Z * bytes) :=
  match number n b with
  | Some (u, r) => Some (if u <? 2 ^ (8 * n - 1) then u else u - 2 ^ (8 * n), r)
  | None => None
  end.

Section Collections.
  Variable item : bytes -> option (pv * bytes).
  Fixpoint several (n : nat) (b : bytes) : option (list pv * bytes) :=
    match n with
    | O => Some ([], b)
    | S n' =>
        match item b with
        | Some (p, r) => match several n' r with Some (l, r') => Some (p :: l, r') | None => None end
        | None => None
        end
    end.
  Fixpoint entries (n : nat) (b : bytes) : option (list (bytes * pv) * bytes) :=
    match n with
    | O => Some ([], b)
    | S n' =>
        match item b with
        | Some (PStr k, r) =>
            match item r with
            | Some (p, r') => match entries n' r' with Some (m, r'') => Some ((k, p) :: m, r'') | None => None end
            | None => None
            end
        | _ => None
        end
    end.
  (** Every element takes at least one byte. *)
  Definition p_string (n : Z) (b : bytes) : option (pv * bytes) :=
    match take n b with Some (s, r) => Some (PStr s, r) | None => None end.
  Definition p_list (n : Z) (b : bytes) : option (pv * bytes) :=
    if zlen b <? n then None
    else match several (Z.to_nat n) b with Some (l, r) => Some (PList l, r) | None => None end.
  Definition p_map (n : Z) (b : bytes) : option (pv * bytes) :=
    if zlen b <? n then None
    else match entries (Z.to_nat n) b with Some (m, r) => Some (PMap m, r) | None => None end.
  Definition p_struct (n : Z) (b : bytes) : option (pv * bytes) :=
    match b with
    | [] => None
    | sig :: b' =>
        if zlen b' <? n then None
        else match several (Z.to_nat n) b' with Some (l, r) => Some (PStruct (byte_value sig) l, r) | None => None end
    end.
  Definition with_size (n : Z) (f : Z -> bytes -> option (pv * bytes)) (b : bytes) : option (pv * bytes) :=
    match number n b with Some (k, r) => f k r | None => None end.
  Definition p_int (n : Z) (b : bytes) : option (pv * bytes) :=
    match signed_number n b with Some (z, r) => Some (PInt z, r) | None => None end.
  Definition p_float (b : bytes) : option (pv * bytes) :=
    match number 8 b with Some (z, r) => Some (PFloat z, r) | None => None end.

  Definition item_body (b : bytes) : option (pv * bytes) :=
    match b with
    | [] => None
    | m :: r =>
        let x := byte_value m in
        if x <? 128 then Some (PInt x, r)
        else if x <? 144 then p_string (x - 128) r
        else if x <? 160 then p_list (x - 144) r
        else if x <? 176 then p_map (x - 160) r
        else if x <? 192 then p_struct (x - 176) r
        else if 240 <=? x then Some (PInt (x - 256), r)
        else match m with
        | xc0 => Some (PNull, r)
        | xc1 => p_float r
        | xc2 => Some (PBool false, r)
        | xc3 => Some (PBool true, r)
        | xc8 => p_int 1 r
        | xc9 => p_int 2 r
        | xca => p_int 4 r
        | xcb => p_int 8 r
        | xd0 => with_size 1 p_string r
        | xd1 => with_size 2 p_string r
        | xd2 => with_size 4 p_string r
        | xd4 => with_size 1 p_list r
        | xd5 => with_size 2 p_list r
        | xd6 => with_size 4 p_list r
        | xd8 => with_size 1 p_map r
        | xd9 => with_size 2 p_map r
        | xda => with_size 4 p_map r
        | xdc => with_size 1 p_struct r
        | xdd => with_size 2 p_struct r
        | _ => None
        end
    end.
End Collections.

Fixpoint item_fuel (fuel : nat) (b : bytes) : option (pv * bytes) :=
  match fuel with
  | O => None
  | S f => item_body (item_fuel f) b
  end.
(** One item from the front of a byte sequence. *)
Definition parse_item (b : bytes) : option (pv * bytes) := item_fuel (S (length b)) b.

Fixpoint frame_fuel (fuel : nat) (b : bytes) : option (bytes * bytes) :=
  match fuel with
  | O => None
  | S f =>
      match number 2 b with
      | None => None
      | Some (n, r) =>
          if n =? 0 then Some ([], r)
          else match take n r with
          | None => None
          | Some (c, r') => match frame_fuel f r' with Some (p, r'') => Some (c ++ p, r'') | None => None end
          end
      end
  end.
(** One complete message from the front of a byte stream: its body and the rest of the stream. *)
Definition parse_frame (b : bytes) : option (bytes * bytes) := frame_fuel (S (length b)) b.

(** One complete message: [Some (Some p, rest)] if the body is exactly one item, [Some (None, rest)]
    if it is not, [None] if the message is not complete yet. *)
Definition parse_message (b : bytes) : option (option pv * bytes) :=
  match parse_frame b with
  | None => None
  | Some (body, rest) =>
      Some (match parse_item body with Some (p, []) => Some p | _ => None end, rest)
  end.
