(** errors/errors.go: chains of wrapped errors. *)
From Coq Require Import ZArith List Bool.
From Verif Require Import Bytes GoVal GoErr.
Import ListNotations.
Open Scope Z_scope.

(** errors.go:48-50 Inner: the wrapped error, nil if none. Defined on *Error only ([None] outside:
    the method does not exist there). *)
Definition inner (e : gerr) : option (option gerr) :=
  match e with
  | ENew _ | ESentinel _ => Some None
  | EWrap i _ => Some i
  | _ => None
  end.

(** e.(type) is *Error *)
Definition is_error (e : gerr) : bool := match inner e with Some _ => true | None => false end.

(** errors.go:53-63 InnerMost. On an error that is not an *Error the method does not exist; the
    value given here is the error itself, which is what callers who test the type first use. *)
Fixpoint inner_most (e : gerr) : gerr :=
  match e with
  | EWrap (Some i) _ =>
      match i with
      | EWrap _ _ => inner_most i
      | _ => i
      end
  | _ => e
  end.

(** errors.go:27-40 Wrap: the two branches differ only in the captured stack, which is not modelled. *)
Definition wrap (e : option gerr) (m : Z) : gerr := EWrap e m.
(** errors.go:18-24 New *)
Definition new_error (t : etag) : gerr := ENew t.
