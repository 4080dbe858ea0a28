(** Statement-level vocabulary for the texts of errors and of traced bytes. *)
From Coq Require Import String ZArith List Bool.
From Verif Require Import Bytes GoVal GoErr Messages SpecClient.
Import ListNotations.
Open Scope Z_scope.

(** ** Errors *)

(** One line for every message, each one tab further in than the one before. *)
Fixpoint outline (depth : nat) (ms : list bytes) : bytes :=
  match ms with
  | [] => []
  | m :: ms' => repeat x09 depth ++ m ++ [x0a] ++ outline (S depth) ms'
  end.
(** The stack trace at the end of the text, if there is one. *)
Definition trailer (st : bytes) : bytes :=
  match st with [] => [] | _ => [x0a; x0a] ++ str " Stack Trace:" ++ [x0a; x0a] ++ st end.
(** The texts [ms] occur in [s] one after the other. *)
Inductive in_order : list bytes -> bytes -> Prop :=
| in_order_none s : in_order [] s
| in_order_more a m ms s : in_order ms s -> in_order (m :: ms) (a ++ m ++ s).

(** ** Numbers written one after the other *)

(** A number of one or more hexadecimal digits. *)
Inductive hex_number : bytes -> Z -> Prop :=
| hex_first x n : hex_value x n -> hex_number [x] n
| hex_next s m x n : hex_number s m -> hex_value x n -> hex_number (s ++ [x]) (16 * m + n).
(** Blanks: spaces, tabs and line ends. *)
Definition blanks (s : bytes) : Prop := s <> [] /\ Forall (fun b => In b [x20; x09; x0a]) s.
(** Numbers with blanks after each. *)
Inductive hex_list : list Z -> bytes -> Prop :=
| hex_none : hex_list [] []
| hex_more n s w l t : hex_number s n -> blanks w -> hex_list l t -> hex_list (n :: l) (s ++ w ++ t).
