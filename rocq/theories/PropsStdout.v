(** Theorems C129: what the decoders write to the standard output. Every theorem is followed by a concrete case of its hypotheses. *)
From Coq Require Import ZArith List Bool Permutation.
From Verif Require Import Bytes GoVal GoErr Encoder Decoder SpecPack ReadFacts Stdout SpecStdout StdoutFacts.
Import ListNotations.
Open Scope Z_scope.

(** ** C129 *)
(** In full: decoding a message writes nothing to the standard output. It is false of the second codec, which prints every
    local time it reads, and 0 for one that is not a number. *)
Theorem C129_refuted :
  ~ (forall v tz r, decoder_prints v tz r = [])
  /\ (forall tz, decode_printing V2 tz half_past = (Ok (GRecord [GLocalClock 4660; GLocalClock 42], []), [4660; 42]))
  /\ (forall tz, exists e, decode_printing V2 tz not_a_time = (Err e, [7; 0])).
Proof. exact (conj not_silent (conj half_past_printed not_a_time_printed)). Qed.
Print Assumptions C129_refuted.
(** What is printed changes nothing of what is decoded. *)
Theorem C129_aside v tz b : fst (decode_printing v tz b) = decode v tz b.
Proof. exact (decode_aside v tz b). Qed.
Print Assumptions C129_aside.
(** The first codec prints nothing, whatever is received and whatever becomes of it. *)
Theorem C129_first_partial tz r : decoder_prints V1 tz r = [].
Proof. exact (messages_silent tz r). Qed.
Print Assumptions C129_first_partial.
(** Of a valid message, however it is cut into chunks and reads, the local times in it are printed, in order, and nothing else. *)
Theorem C129_valid_partial v tz p w q g rest r :
  frames q w -> packs signed_limits p q -> meaning v p = Some g -> nonempty (r_frags r) -> r_bytes r = w ++ rest ->
  decoder_prints v tz r = clocks g.
Proof. exact (messages_print v tz p w q g rest r). Qed.
Print Assumptions C129_valid_partial.
(** Of any message that is accepted, all local times in it are printed. *)
Theorem C129_accepted_partial v tz r x r' : decoder_decode v tz r = Ok (x, r') -> within (clocks x) (decoder_prints v tz r).
Proof. exact (messages_within v tz r x r'). Qed.
Print Assumptions C129_accepted_partial.
(** Of any bytes, accepted or not, no more lines are printed than there are bytes 't': nothing, if there is none. *)
Theorem C129_bound_partial v tz b : (length (snd (decode_printing v tz b)) <= letters_t b)%nat.
Proof. exact (at_most_t v tz b). Qed.
Print Assumptions C129_bound_partial.
Example C129_case :
  meaning V2 (PStruct 113 [PList [PStruct 116 [PInt 4660]; PStruct 116 [PInt 42]]]) = Some (GRecord [GLocalClock 4660; GLocalClock 42])
  /\ clocks (GRecord [GLocalClock 4660; GLocalClock 42]) = [4660; 42]
  /\ letters_t half_past = 2%nat
  /\ (forall tz, decode_printing V2 tz twice = (Ok (GMap [([x61], GLocalClock 2)], []), [1; 2]))
  /\ within (clocks (GMap [([x61], GLocalClock 2)])) [1; 2].
Proof. repeat split. exists [1]. apply perm_swap. Qed.
Example C129_packs : packs signed_limits (PStruct 113 [PList [PStruct 116 [PInt 4660]; PStruct 116 [PInt 42]]]) half_past.
Proof.
  apply (pk_struct _ 113 _ [xb1] x71 [x92; xb1; x74; xc9; x12; x34; xb1; x74; x2a]); [|reflexivity|].
  { apply hd_tiny; vm_compute; [split; congruence|reflexivity]. }
  apply (ps_cons _ _ _ [x92; xb1; x74; xc9; x12; x34; xb1; x74; x2a] []); [|constructor].
  apply (pk_list _ _ [x92] [xb1; x74; xc9; x12; x34; xb1; x74; x2a]).
  { apply hd_tiny; vm_compute; [split; congruence|reflexivity]. }
  apply (ps_cons _ _ _ [xb1; x74; xc9; x12; x34] [xb1; x74; x2a]).
  { apply (pk_struct _ 116 _ [xb1] x74 [xc9; x12; x34]); [|reflexivity|].
    { apply hd_tiny; vm_compute; [split; congruence|reflexivity]. }
    apply (ps_cons _ _ _ [xc9; x12; x34] []); [|constructor]. apply pk_int16. vm_compute. repeat split; congruence. }
  apply (ps_cons _ _ _ [xb1; x74; x2a] []); [|constructor].
  apply (pk_struct _ 116 _ [xb1] x74 [x2a]); [|reflexivity|].
  { apply hd_tiny; vm_compute; [split; congruence|reflexivity]. }
  apply (ps_cons _ _ _ [x2a] []); [|constructor]. apply pk_int_tiny; vm_compute; repeat split; congruence.
Qed.
