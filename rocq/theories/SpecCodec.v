(** Statement-level vocabulary for the codec theorems: usage scenarios of Encoder and Decoder. *)
From Coq Require Import ZArith List Bool.
From Verif Require Import Bytes GoVal GoErr Encoder Decoder SpecPack SpecValues.
Import ListNotations.
Open Scope Z_scope.

(** The bytes of the message body that encoding a value produces (all writes, concatenated). *)
Definition payload (v : ver) (x : gval) : bytes := concat (fst (encode v x)).

(** An encoder with an empty buffer on a link that has carried [o] and will carry [left] more bytes. *)
Definition encoder_on (o : bytes) (left : option nat) (cs : Z) : encoder :=
  new_encoder (mkWriter o left) cs.

(** Messages for which every chunk stays within 65535 bytes: no byte string longer than the chunk
    size, or a body of at most 65535 bytes. *)
Definition modest (v : ver) (cs : Z) (x : gval) : Prop :=
  8 <= cs <= 65535 /\ Forall (fun n => n <= cs) (str_lens x)
  \/ 1 <= cs <= 65535 /\ zlen (payload v x) <= 65535.

(** Pieces of the given sizes are put one after another into a buffer that holds [r] bytes; whenever it
    then holds [cs] bytes or more, [cs] of them are cut off, once for each piece. So many are left. *)
Fixpoint left_over (cs r : Z) (ns : list Z) : Z :=
  match ns with
  | [] => r
  | n :: ns' => left_over cs (if cs <=? r + n then r + n - cs else r + n) ns'
  end.

(** A conversion of float32 to float64 bit patterns that keeps the number. *)
Definition exact_widening (widen : Z -> Z) : Prop :=
  forall b, 0 <= b < 2 ^ 32 -> num64 (widen b) = num32 b.

(** A value that comes back: well typed, with a received form, sizes below the signed limits. *)
Definition returns (v : ver) (x : gval) : Prop :=
  go_typed x = true /\ plain v x = true /\ forallb (size_ok signed_limits) (lens x) = true.

(** Sending several values one after another on one encoder, stopping at the first error. *)
Fixpoint encode_all (v : ver) (e : encoder) (xs : list gval) : encoder * option gerr :=
  match xs with
  | [] => (e, None)
  | x :: xs' =>
      match encoder_encode v e x with
      | (e', None) => encode_all v e' xs'
      | (e', Some err) => (e', Some err)
      end
  end.

(** Receiving n values one after another from one stream. *)
Fixpoint decode_n (v : ver) (tz : zones) (n : nat) (r : reader) : res (list gval * reader) :=
  match n with
  | O => Ok ([], r)
  | S n' =>
      match decoder_decode v tz r with
      | Ok (x, r') =>
          match decode_n v tz n' r' with
          | Ok (xs, r'') => Ok (x :: xs, r'')
          | Err e => Err e
          | Panic => Panic
          | NoFuel => NoFuel
          end
      | Err e => Err e
      | Panic => Panic
      | NoFuel => NoFuel
      end
  end.
