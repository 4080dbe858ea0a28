(** Vocabulary for C143: what becomes of the connections a routing pool opens while goroutines use it. *)
From Coq Require Import List.
From Verif Require Import Bytes GoErr GoVal Pool SpecPool SpecBooks PoolRace.
Import ListNotations.

(** ValidateOpen has called the connection closed, and later open. *)
Definition rose (tr : list kevent) (h : nat) : Prop := exists later between before, tr = later ++ KValid h true :: between ++ KValid h false :: before.
(** The connections that are borrowed. *)
Definition lent_out (p : pool) : list nat := map (fun e => pw_conn (snd e)) (p_borrowed p).
(** The goroutine neither starts nor stops the pool. *)
Definition shares (t : task) : Prop := match t with TStart | TStop _ _ => False | _ => True end.
(** The goroutine has more to do. *)
Definition busy (t : gprog) : bool := match t with GDone _ | GEnd => false | _ => true end.
(** The pool has opened the connection, and it is nowhere: not told to close, not idle, not borrowed, not called closed and later open. *)
Definition adrift (p : pool) (tr : list kevent) (h : nat) : Prop :=
  (exists s, In (KDial s (Ok h)) tr) /\ ~ told_to_close tr h /\ ~ In h (idle p) /\ ~ In h (lent_out p) /\ ~ rose tr h.
(** A connection once called closed is called closed for good: [gone] are the connections that will be. *)
Record firm {W} (K : cluster W) (gone : W -> nat -> Prop) : Prop := mkFirm {
  m_dial s w h : gone w h -> gone (fst (k_dial K s w)) h;
  m_valid d w h : gone w h -> gone (fst (k_valid K d w)) h;
  m_close d w h : gone w h -> gone (fst (k_close K d w)) h;
  m_query d w h : gone w h -> gone (fst (k_query K d w)) h;
  m_name w h : gone w h -> gone (fst (k_name K w)) h;
  m_said h w w' : k_valid K h w = (w', false) -> gone w' h;
  m_stays h w : gone w h -> snd (k_valid K h w) = false
}.
(** A use of a connection, whatever it does to the world, makes and names no connections, and revives none. *)
Definition firm_use {W} (opened : W -> list nat) (named : W -> list bytes) (gone : W -> nat -> Prop) (h : nat) (w w' : W) : Prop :=
  opened w' = opened w /\ named w' = named w /\ forall d, gone w d -> gone w' d.
