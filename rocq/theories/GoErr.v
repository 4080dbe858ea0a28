(** Errors as values: errors/errors.go and the sentinel errors of the Go library. *)
From Coq Require Import ZArith List Bool.
From Verif Require Import Bytes GoVal.
Import ListNotations.
Open Scope Z_scope.

(** A non-nil Go error value.
    - [ENew t]      errors.New: an *errors.Error that wraps nothing (errors/errors.go:18-24)
    - [EWrap i m]   errors.Wrap: an *errors.Error wrapping [i]; [None] when Wrap was given a nil
                    error (errors/errors.go:27-40); [m] numbers the call site
    - [EFmt i t]    fmt.Errorf, with [i] the error wrapped by %w if any: not an *errors.Error
    - [EBadConn]    driver.ErrBadConn;  [EEOF] io.EOF;  [EUnexpectedEOF] io.ErrUnexpectedEOF
    - [ETimeout]    a net.Error whose Timeout() is true
    - [EIO n]       any other error of the operating system or network stack
    - [EFailure md] a messages.FailureMessage used as an error (responses.go:162-164)
    - [ESentinel t] the package-level errors of errors/defaults.go: *errors.Error values wrapping nothing *)
Inductive gerr : Type :=
| ENew (t : etag)
| EWrap (inner : option gerr) (m : Z)
| EFmt (inner : option gerr) (t : etag)
| EBadConn
| EEOF
| EUnexpectedEOF
| ETimeout
| EIO (n : Z)
| EFailure (md : list (bytes * gval))
| ESentinel (t : Z).

(** Outcome of a Go call returning (A, error): a value, an error, a run-time panic, or (only for
    loops modelled with fuel) fuel exhaustion. *)
Inductive res (A : Type) : Type :=
| Ok (a : A)
| Err (e : gerr)
| Panic
| NoFuel.
Arguments Ok {A} a.
Arguments Err {A} e.
Arguments Panic {A}.
Arguments NoFuel {A}.

Definition rbind {A B} (x : res A) (f : A -> res B) : res B :=
  match x with Ok a => f a | Err e => Err e | Panic => Panic | NoFuel => NoFuel end.
Notation "' p <- x ;; k" := (rbind x (fun p => k))
  (at level 100, p pattern, x at next level, right associativity).

(** errors.Wrap(err, ...) applied to the error of a result (errors/errors.go:27-40). *)
Definition rwrap {A} (m : Z) (x : res A) : res A :=
  match x with Err e => Err (EWrap (Some e) m) | _ => x end.
