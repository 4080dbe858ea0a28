(** What a log shows: for C116 and C117. *)
From Coq Require Import ZArith List.
From Verif Require Import Bytes Log Texts.
Import ListNotations.

(** the bytes shown in a log, and the text they are shown as *)
Fixpoint shown (l : list line) : bytes :=
  match l with
  | [] => []
  | ShownBytes b :: l' => b ++ shown l'
  | _ :: l' => shown l'
  end.
Fixpoint written (l : list line) : bytes :=
  match l with
  | [] => []
  | ShownBytes b :: l' => sprint_byte_hex b ++ written l'
  | _ :: l' => written l'
  end.
