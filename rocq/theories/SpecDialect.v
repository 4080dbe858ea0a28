(** The differences between versions 1 to 4 of the protocol that a client must know, from the published
    description, by version number. *)
From Coq Require Import String ZArith List Bool.
From Verif Require Import Bytes GoVal.
Import ListNotations.
Open Scope Z_scope.

Local Notation str s := (list_byte_of_string s%string).

(** Points, dates, times and durations exist from version 2 on. *)
Definition has_structs2 (n : Z) : bool := 2 <=? n.
Definition temporal (x : gval) : bool :=
  match x with
  | GDate _ | GClock _ _ | GLocalClock _ | GLocalTime _ _ | GTime _ _ _ | GDuration _ => true
  | _ => false
  end.
(** The signatures of the structures of version 2. *)
Definition sigs2 : list Z := [88; 89; 68; 116; 84; 100; 70; 102; 69].
(** BEGIN, COMMIT, ROLLBACK, GOODBYE and metadata of RUN exist from version 3 on. *)
Definition has_transactions (n : Z) : bool := 3 <=? n.
(** Several databases, and PULL and DISCARD with a number of records, exist from version 4 on. *)
Definition has_databases (n : Z) : bool := 4 <=? n.
(** The keys of the summary under which the server says how long it took (in milliseconds). *)
Definition first_key (n : Z) : bytes := if n <=? 2 then str "result_available_after" else str "t_first".
Definition last_key (n : Z) : bytes := if n <=? 2 then str "result_consumed_after" else str "t_last".
