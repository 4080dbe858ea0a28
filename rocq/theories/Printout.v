(** What the encoders write to the log (encoding_v2/encoderV2.go:82; encoderV1.go writes nothing). *)
From Coq Require Import ZArith List Bool.
From Verif Require Import Bytes GoVal GoErr Encoder Log.
Import ListNotations.
Open Scope Z_scope.

(** The lines that Encode (encoderV2.go:103-112) writes at level [now]: flush (encoderV2.go:79-100) shows the
    buffer if there is something in it. It comes to flush only if every part could be encoded and written. The
    encoder of version 1 (encoderV1.go:76-107) has no such call. *)
Definition encode_lines (now : level) (v : ver) (e : encoder) (x : gval) : list line :=
  match v with
  | V1 => []
  | V2 =>
      let '(ws, fin) := encode v x in
      let '(e1, r) := run_writes e ws in
      match r, fin with
      | None, None => if zlen (e_buf e1) >? 0 then log_run now (LTraceBytesFromBuf (Some (e_buf e1))) else []
      | _, _ => []
      end
  end.
