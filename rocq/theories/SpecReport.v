(** Statement-level vocabulary: what the server complains about, and how an error tells it. *)
From Coq Require Import String ZArith List Bool.
From Verif Require Import Bytes GoVal GoErr Decoder Messages Connection Errors SpecSession Result Texts.
Import ListNotations.
Open Scope Z_scope.

(** The metadata of the FAILURE messages that arrived, in order. *)
Definition complaints (tr : list event) : list gomap :=
  flat_map (fun v => match v with VRecv (Ok (GFailure md)) => [md] | _ => [] end) tr.
(** The network itself reported an error that leads to a FAILURE message. *)
Definition second_hand (tr : list event) (md : gomap) : Prop :=
  exists v e, In v tr /\ (transport_error v = Some e \/ v = VDial (Some e)) /\ inner_most e = EFailure md.
(** The texts of a FAILURE message are those its own method gives. *)
Definition plain_failures (W : wording) : Prop := forall md, w_other W (EFailure md) = failure_text md.
(** What a reader is told of [key]: the text that the server sent, that it sent none, or that it sent something that is no text. *)
Inductive hears (md : gomap) (key : bytes) : bytes -> Prop :=
| hears_it s : map_get md key = Some (GStr s) -> hears md key s
| hears_none : map_get md key = None -> hears md key (str "none")
| hears_odd_code v : key = str "code" -> map_get md key = Some v -> (forall s, v <> GStr s) -> hears md key (str "failed to parse code string")
| hears_odd_message v : key = str "message" -> map_get md key = Some v -> (forall s, v <> GStr s) -> hears md key (str "failed to parse message to string").
(** What is known of Sprintf without arguments: text before a % sign stays, and a % sign with a letter after it is
    taken for the place of an argument that is missing. *)
Definition formats (F : bytes -> bytes) : Prop :=
  (forall s, ~ In "%"%byte s -> F s = s)
  /\ (forall a c b, ~ In "%"%byte a -> 97 <= bz c <= 122 -> F (a ++ "%"%byte :: c :: b) = a ++ str "%!" ++ c :: str "(MISSING)" ++ F b).
