(** The functions of the Go package strings (and strconv) that the driver uses. *)
From Coq Require Import String ZArith List Bool.
From Verif Require Import Bytes.
Import ListNotations.
Open Scope Z_scope.

(** strings.HasPrefix(s, p) *)
Fixpoint has_prefix (p s : bytes) : bool :=
  match p, s with
  | [], _ => true
  | x :: p', y :: s' => Byte.eqb x y && has_prefix p' s'
  | _ :: _, [] => false
  end.
(** strings.Contains(s, sub) *)
Fixpoint contains (sub s : bytes) : bool :=
  has_prefix sub s || match s with [] => false | _ :: s' => contains sub s' end.
(** strings.Replace(s, old, "", -1) for a non-empty [old]; [skip] bytes are still to be dropped. *)
Fixpoint remove_from (skip : nat) (old s : bytes) : bytes :=
  match s with
  | [] => []
  | x :: s' =>
      match skip with
      | S k => remove_from k old s'
      | O => if has_prefix old s then remove_from (pred (length old)) old s' else x :: remove_from O old s'
      end
  end.
Definition remove_all (old s : bytes) : bytes := remove_from O old s.

(** strings.ToLower. Simplification: the result is only ever compared with ASCII text, so letters
    outside ASCII are kept as they are, except U+0130 and U+212A, whose lower case is ASCII. *)
Definition lower_byte (b : byte) : byte :=
  if (65 <=? bz b) && (bz b <=? 90) then zb (bz b + 32) else b.
Fixpoint to_lower (s : bytes) : bytes :=
  match s with
  | [] => []
  | xc4 :: s' => match s' with
                 | xb0 :: s'' => "i"%byte :: to_lower s''
                 | _ => xc4 :: to_lower s'
                 end
  | xe2 :: s' => match s' with
                 | x84 :: xaa :: s'' => "k"%byte :: to_lower s''
                 | _ => xe2 :: to_lower s'
                 end
  | b :: s' => lower_byte b :: to_lower s'
  end.
