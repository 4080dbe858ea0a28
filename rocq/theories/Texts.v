(** errors/errors.go and log/log.go: the texts of errors and of traced bytes. *)
From Coq Require Import String ZArith List Bool.
From Verif Require Import Bytes GoVal GoErr Messages Errors Log.
Import ListNotations.
Open Scope Z_scope.

(** ** errors/errors.go *)

(** What the model of errors leaves open. [w_new], [w_wrap], [w_sentinel]: the formatted message
    (errors.go:12, 20, 30, 36) of an error; [w_stack]: debug.Stack() at the place where it was made
    (errors.go:21, 38); for errors that are no *Error, [w_type]: %T and [w_other]: Error(). *)
Record wording := mkWording {
  w_new : etag -> bytes;
  w_wrap : Z -> bytes;
  w_sentinel : Z -> bytes;
  w_stack : gerr -> bytes;
  w_type : gerr -> bytes;
  w_other : gerr -> bytes }.

(** errors.go:12 the field msg *)
Definition e_msg (W : wording) (e : gerr) : bytes :=
  match e with ENew t => w_new W t | EWrap _ m => w_wrap W m | ESentinel t => w_sentinel W t | _ => [] end.
(** errors.go:18-40 the field stack: left empty only by Wrap of an *Error (28-33) *)
Definition e_stack (W : wording) (e : gerr) : bytes :=
  match e with EWrap (Some i) _ => if is_error i then [] else w_stack W e | _ => w_stack W e end.
(** errors.go:65-80 error; the level counts up from 0, so it is a natural number. [\n] and [\t] are the
    bytes 10 and 9. Defined on *Error only; other errors have the text [w_other]. *)
Fixpoint error_level (W : wording) (level : nat) (e : gerr) : bytes :=
  let msg := repeat x09 level ++ e_msg W e in
  let msg := match e with
             | EWrap (Some i) _ =>
                 if is_error i then msg ++ x0a :: error_level W (S level) i
                 else msg ++ x0a :: str "Internal Error(" ++ w_type W i ++ str "):" ++ w_other W i
             | _ => msg
             end in
  match e_stack W e with
  | [] => msg
  | st => msg ++ x0a :: x0a :: str " Stack Trace:" ++ x0a :: x0a :: st
  end.
(** errors.go:43-45 Error *)
Definition error_text (W : wording) (e : gerr) : bytes := if is_error e then error_level W 0 e else w_other W e.

(** connection.go:563-566: a failure came and the reset after it failed with [e]; the text of [e] is then the
    format, without arguments, of the message of the error (21 in Connection.v). *)
Definition after_reset (W : wording) (sprintf : bytes -> bytes) (e : gerr) : wording :=
  mkWording (w_new W) (fun m => if m =? 21 then sprintf (error_text W e) else w_wrap W m) (w_sentinel W) (w_stack W) (w_type W) (w_other W).

(** ** log/log.go *)

(** Sprintf("%x", b) of a byte: lower case, no leading zero *)
Definition hex_digit (n : Z) : byte := zb (if n <? 10 then 48 + n else 87 + n).
Definition hex_byte (b : byte) : bytes :=
  if bz b <? 16 then [hex_digit (bz b)] else [hex_digit (bz b / 16); hex_digit (bz b mod 16)].
(** log.go:63-70 what follows the byte number i *)
Definition gap (i : Z) : bytes :=
  if (i + 1) mod 16 =? 0 then [x0a; x0a; x09] else if (i + 1) mod 4 =? 0 then [x20; x20] else [x20].
(** log.go:62-71 *)
Fixpoint hex_loop (i : Z) (b : bytes) : bytes :=
  match b with [] => [] | x :: b' => hex_byte x ++ gap i ++ hex_loop (i + 1) b' end.
(** log.go:60-75 sprintByteHex; string(b) of a byte slice are the same bytes *)
Definition sprint_byte_hex (b : bytes) : bytes := x0a :: b ++ x0a :: x09 :: hex_loop 0 b ++ [x0a].
