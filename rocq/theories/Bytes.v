(** Bytes, Go fixed-width integer conversions, and encoding/binary big endian.
    Model part only: the lemmas live in BytesFacts.v. *)
From Coq Require Import ZArith List Bool.
From Coq Require Export Strings.Byte.
Import ListNotations.
Open Scope Z_scope.

(** A Go []byte or string is a finite sequence of bytes. *)
Definition bytes := list byte.

(** len(x) of a Go string or slice. *)
Definition zlen {A} (l : list A) : Z := Z.of_nat (length l).

(** Numeric value 0..255 of a byte (Go: int(b)). *)
Definition bz (b : byte) : Z := Z.of_N (Byte.to_N b).

(** Go conversion byte(z): keeps the low 8 bits. *)
Definition zb (z : Z) : byte :=
  match Byte.of_N (Z.to_N (z mod 256)) with Some b => b | None => x00 end.

(** Go conversion to an unsigned integer of n bytes: keeps the low 8n bits. *)
Definition to_unsigned (n : nat) (z : Z) : Z := z mod (256 ^ Z.of_nat n).

(** Go conversion to a signed integer of n bytes (int8, int16, int32, int64 for n = 1, 2, 4, 8):
    keeps the low 8n bits and reads them as two's complement. *)
Definition to_signed (n : nat) (z : Z) : Z :=
  let m := 256 ^ Z.of_nat n in
  let u := z mod m in
  if u <? m / 2 then u else u - m.

Definition int8 := to_signed 1.
Definition int16 := to_signed 2.
Definition int32 := to_signed 4.
Definition int64 := to_signed 8.
Definition uint16 := to_unsigned 2.

(** binary.Write(w, binary.BigEndian, x) for an n-byte integer x hands exactly these n bytes to w
    in a single call of w.Write (encoding/binary fast path for fixed-size integers). *)
Fixpoint be (n : nat) (z : Z) : bytes :=
  match n with
  | O => []
  | S n' => be n' (z / 256) ++ [zb z]
  end.

(** Unsigned big-endian value of a byte sequence. *)
Definition unbe (l : bytes) : Z := fold_left (fun a b => a * 256 + bz b) l 0.

(** math.MinInt8 etc. *)
Definition MinInt8 := -128.
Definition MaxInt8 := 127.
Definition MinInt16 := -32768.
Definition MaxInt16 := 32767.
Definition MinInt32 := -2147483648.
Definition MaxInt32 := 2147483647.
Definition MinInt64 := -9223372036854775808.
Definition MaxInt64 := 9223372036854775807.
Definition MaxUint8 := 255.
Definition MaxUint16 := 65535.
Definition MaxUint32 := 4294967295.

(** Equality of byte strings. *)
Definition bytes_eqb (a b : bytes) : bool :=
  (fix go a b := match a, b with
                 | [], [] => true
                 | x :: a', y :: b' => Byte.eqb x y && go a' b'
                 | _, _ => false
                 end) a b.
