(** Statement-level vocabulary for what the text of an error reveals. *)
From Coq Require Import String ZArith List Bool.
From Verif Require Import Bytes GoVal GoErr Messages SpecClient.
Import ListNotations.
Open Scope Z_scope.

(** The text [t] contains [s]. *)
Definition mentions (s t : bytes) : Prop := exists a b, t = a ++ s ++ b.
(** A printable character of ASCII that is the same between quotation marks. *)
Definition clear_char (b : byte) : Prop := 32 <= bz b <= 126 /\ ~ In b (str """\").
(** The characters that end the part of an address with the user and the password. *)
Definition ends_authority (b : byte) : Prop := In b (str "/?#").
(** The characters that may stand there. *)
Definition authority_char (b : byte) : Prop := password_char b \/ b = "%"%byte.
(** How a reader takes a text between quotation marks, up to the closing one: what is between them, and the
    rest; \ makes the next character stand for itself. *)
Fixpoint read_quoted (t : bytes) : option (bytes * bytes) :=
  match t with
  | [] => None
  | c :: t' =>
      if Byte.eqb c """" then Some ([], t')
      else if Byte.eqb c "\" then
        match t' with
        | [] => None
        | d :: t'' => match read_quoted t'' with Some (a, r) => Some (d :: a, r) | None => None end
        end
      else match read_quoted t' with Some (a, r) => Some (c :: a, r) | None => None end
  end.
(** A reader of the text [t] finds [s] in it between quotation marks. *)
Definition tells (s t : bytes) : Prop := exists a b r, t = a ++ str """" ++ b /\ read_quoted b = Some (s, r).
Definition printable_char (b : byte) : Prop := 32 <= bz b <= 126.
(** [a] is the word [w], in small letters or capitals. *)
Definition spelled (w a : bytes) : Prop := Forall2 (fun c d => c = d \/ 97 <= bz c <= 122 /\ bz d = bz c - 32) w a.
