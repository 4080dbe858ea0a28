(** log/log.go: the level and the messages written. *)
From Coq Require Import String ZArith List Bool.
From Verif Require Import Bytes GoVal GoErr Messages GoStr.
Import ListNotations.
Open Scope Z_scope.

(** log.go:14-25 Level *)
Inductive level := NoneLevel | ErrorLevel | InfoLevel | TraceLevel | TraceBytesLevel.
(** the value of the constant (iota) *)
Definition level_number (l : level) : Z :=
  match l with NoneLevel => 0 | ErrorLevel => 1 | InfoLevel => 2 | TraceLevel => 3 | TraceBytesLevel => 4 end.
(** log.go:28: before SetLevel *)
Definition first_level : level := NoneLevel.
(** log.go:40-53 SetLevel *)
Definition set_level (levelStr : bytes) : level :=
  let s := to_lower levelStr in
  if bytes_eqb s (str "trace-bytes") then TraceBytesLevel
  else if bytes_eqb s (str "trace") then TraceLevel
  else if bytes_eqb s (str "info") then InfoLevel
  else if bytes_eqb s (str "error") then ErrorLevel
  else NoneLevel.
(** The loggers of log.go:27-37. *)
Inductive logger := TraceBytesLog | TraceLog | InfoLog | ErrorLog.
(** The exported functions that write and go on: log.go:77-91 TraceBytes and TraceBytesFromBuf (whose nil
    buffer is [LTraceBytesFromBuf None]), 94-133 Trace, Tracef, Info, Infof, Error, Errorf. Fatal and
    Fatalf (136-143) end the program whatever the level and are not modelled. Message texts are opaque. *)
Inductive log_call :=
| LTraceBytes (b : bytes) | LTraceBytesFromBuf (b : option bytes)
| LTrace (m : Z) | LTracef (m : Z) | LInfo (m : Z) | LInfof (m : Z) | LError (m : Z) | LErrorf (m : Z).
(** a line written: the logger, and the message or the bytes shown; start and end are the lines around
    the bytes *)
Inductive line := Line (l : logger) (m : Z) | StartBytes | ShownBytes (b : bytes) | EndBytes.
(** level >= l *)
Definition enabled (now l : level) : bool := level_number l <=? level_number now.
(** log.go:85-91 *)
Definition trace_bytes (now : level) (b : bytes) : list line :=
  if enabled now TraceBytesLevel then [StartBytes; ShownBytes b; EndBytes] else [].
(** log.go:77-133 *)
Definition log_run (now : level) (c : log_call) : list line :=
  match c with
  | LTraceBytes b => trace_bytes now b
  | LTraceBytesFromBuf None => []
  | LTraceBytesFromBuf (Some b) => trace_bytes now b
  | LTrace m | LTracef m => if enabled now TraceLevel then [Line TraceLog m] else []
  | LInfo m | LInfof m => if enabled now InfoLevel then [Line InfoLog m] else []
  | LError m | LErrorf m => if enabled now ErrorLevel then [Line ErrorLog m] else []
  end.
(** A program's use of the package: setting levels and logging. *)
Inductive log_step := SetLevel (s : bytes) | Call (c : log_call).
Fixpoint log_session (now : level) (l : list log_step) : list line :=
  match l with
  | [] => []
  | SetLevel s :: l' => log_session (set_level s) l'
  | Call c :: l' => log_run now c ++ log_session now l'
  end.
