(** A routing pool whose borrowers leave no transactions behind: a case. *)
From Coq Require Import String ZArith List Bool Lia.
From Verif Require Import Bytes GoVal GoErr SpecValues SpecServer Messages Connection Link Wire SpecSession SpecShare Demo DemoFacts Cases CaseFacts DemoShare SpecJourney SpecManners.
From Verif Require Pool SpecPool DemoPool.
Import ListNotations.
Open Scope Z_scope.

Lemma session_cluster_asks P n user password : asks_overview (session_cluster P n user password) opened_cells P cell_of.
Proof.
  intros h w w' v r. cbn [session_cluster Pool.k_query]. unfold opened_cells, cell_of. change (overview_call ?c) with (overview_of c).
  set (o := overview_of _). destruct (on_cell P n o h (fst w)) as [w1 r1] eqn:E. intros [= <- <- <-] Hh. cbn [fst].
  pose proof (on_cell_does _ _ _ _ _ _ _ Hh E) as H. destruct r1 as [r1|]; [right; now exists r1|left; now rewrite H].
Qed.
Lemma use_cell_held P n o h w : In h (opened_cells w) -> polite (fst (cell_of w h)) o -> snd (on_cell P n o h (fst w)) <> None ->
  holder_use opened_cells named_cells P cell_of h w (use_cell P n o h (fst w), snd w).
Proof. intros H1 H2 H3. split; [reflexivity|]. exact (use_cell_ok polite P n o h (fst w) H1 H2 H3). Qed.

(** The first holder runs a statement in a transaction and commits it; the second gets the same connection without it. *)
Definition town_start := Pool.run_pool (SpecPool.watch town_cluster) [Pool.OStart; Pool.OBorrow WriteMode] (DemoPool.demo_pool 2) (([], 0%nat), []).
Definition town_w0 : cells * nat := fst (snd (fst town_start)).
Definition town_w1 : cells * nat := (use_cell town 50 (CBegin []) 1 (fst town_w0), snd town_w0).
Definition town_w2 : cells * nat := (use_cell town 50 (CTxExecDb 0 q2 ps []) 1 (fst town_w1), snd town_w1).
Definition town_w3 : cells * nat := (use_cell town 50 (CCommit 0) 1 (fst town_w2), snd town_w2).
Definition town_back := Pool.do_pop (SpecPool.watch town_cluster) (Pool.OReclaim (str "1-") 1) (fst (fst town_start)) (town_w3, snd (snd (fst town_start))).
Definition town_next := Pool.do_pop (SpecPool.watch town_cluster) (Pool.OBorrow WriteMode) (fst (fst town_back)) (snd (fst town_back)).
Definition town_log : list (Pool.pop * Pool.presult) :=
  [(Pool.OStart, Pool.RDone); (Pool.OBorrow WriteMode, Pool.RLent (str "1-") 1); (Pool.OReclaim (str "1-") 1, Pool.RDone)].
Lemma town_courteous : courteous town_cluster (holder_use opened_cells named_cells town cell_of) (fun h w => no_loose_ends (fst (cell_of w h)))
  (DemoPool.demo_pool 2) ([], 0%nat) town_log (fst (fst town_back)) (fst (snd (fst town_back))) (snd (snd (fst town_back))).
Proof.
  change town_log with (([(Pool.OStart, Pool.RDone)] ++ [(Pool.OBorrow WriteMode, Pool.RLent (str "1-") 1)]) ++ [(Pool.OReclaim (str "1-") 1%nat, Pool.RDone)]).
  apply co_op with (p := fst (fst town_start)) (w := town_w3) (tr := snd (snd (fst town_start))).
  - apply co_use with (h := 1%nat) (w := town_w2); [|vm_compute; auto|].
    + apply co_use with (h := 1%nat) (w := town_w1); [|vm_compute; auto|].
      * apply co_use with (h := 1%nat) (w := town_w0); [|vm_compute; auto|].
        -- apply co_op with (p := fst (fst (Pool.do_pop (SpecPool.watch town_cluster) Pool.OStart (DemoPool.demo_pool 2) (([], 0%nat), []))))
             (w := fst (snd (fst (Pool.do_pop (SpecPool.watch town_cluster) Pool.OStart (DemoPool.demo_pool 2) (([], 0%nat), [])))))
             (tr := snd (snd (fst (Pool.do_pop (SpecPool.watch town_cluster) Pool.OStart (DemoPool.demo_pool 2) (([], 0%nat), []))))); [|exact Logic.I|vm_compute; reflexivity].
           change [(Pool.OStart, Pool.RDone)] with ([] ++ [(Pool.OStart, Pool.RDone)]).
           eapply co_op; [apply co_new|exact Logic.I|vm_compute; reflexivity].
        -- apply use_cell_held; [vm_compute; auto| |vm_compute; discriminate]. split; [apply clean_call_true; vm_compute; reflexivity|exact Logic.I].
      * apply use_cell_held; [vm_compute; auto| |vm_compute; discriminate]. split; [apply clean_call_true; vm_compute; reflexivity|vm_compute; reflexivity].
    + apply use_cell_held; [vm_compute; auto| |vm_compute; discriminate]. split; [apply clean_call_true; vm_compute; reflexivity|exact Logic.I].
  - split; [vm_compute; auto|]. split; [exists WriteMode; vm_compute; auto|]. intros [|[|t]]; vm_compute; reflexivity.
  - vm_compute. reflexivity.
Qed.

(** The second holder keeps it while the members of the cluster are asked for, and while somebody else is lent another
    connection and begins a transaction on it. *)
Definition care_asked := Pool.do_pop (SpecPool.watch town_cluster) Pool.ORefresh (fst (fst town_next)) (snd (fst town_next)).
Definition care_other := Pool.do_pop (SpecPool.watch town_cluster) (Pool.OBorrow ReadMode) (fst (fst care_asked)) (snd (fst care_asked)).
Definition care_w1 : cells * nat := (use_cell town 50 (CBegin []) 2 (fst (fst (snd (fst care_other)))), snd (fst (snd (fst care_other)))).
Definition care_w2 : cells * nat := (use_cell town 50 (CExec q2 [] []) 1 (fst care_w1), snd care_w1).
Definition care_log : list (Pool.pop * Pool.presult) := town_log ++ [(Pool.OBorrow WriteMode, Pool.RLent (str "1-") 1)].
Definition care_log2 : list (Pool.pop * Pool.presult) := (care_log ++ [(Pool.ORefresh, Pool.RDone)]) ++ [(Pool.OBorrow ReadMode, Pool.RLent (str "0-a") 2)].
Lemma use_cell_does P n o h w r : In h (opened_cells w) -> snd (on_cell P n o h (fst w)) = Some r ->
  does (wired (P h)) o (cell_of w h) (cell_of (use_cell P n o h (fst w), snd w) h) r.
Proof.
  intros Hh Hr. unfold cell_of, use_cell. cbn [fst]. destruct (on_cell P n o h (fst w)) as [w' r'] eqn:E. cbn [fst snd] in *. subst r'.
  exact (on_cell_does _ _ _ _ _ _ _ Hh E).
Qed.
Lemma town_care : in_care town_cluster opened_cells named_cells town cell_of 1
  (care_log, fst (fst town_next), fst (snd (fst town_next)), snd (snd (fst town_next))) ([] ++ [(CExec q2 [] [], Ok (AMeta []))])
  (care_log2, fst (fst care_other), care_w2, snd (snd (fst care_other))).
Proof.
  assert (H1 : In 1%nat (opened_cells care_w1)) by (vm_compute; auto).
  assert (Hp : polite (fst (cell_of care_w1 1)) (CExec q2 [] [])).
  { split; [apply clean_call_true; vm_compute; reflexivity|vm_compute; reflexivity]. }
  assert (Hr : snd (on_cell town 50 (CExec q2 [] []) 1 (fst care_w1)) = Some (Ok (AMeta []))) by (vm_compute; reflexivity).
  assert (Hu : holder_use opened_cells named_cells town cell_of 1 care_w1 care_w2).
  { assert (Hn : snd (on_cell town 50 (CExec q2 [] []) 1 (fst care_w1)) <> None) by (vm_compute; discriminate).
    exact (use_cell_held town 50 (CExec q2 [] []) 1 care_w1 H1 Hp Hn). }
  destruct Hu as (U1 & U2 & U3 & _).
  apply ic_own with (w := care_w1); [|exact U2|exact U1|exact U3|exact Hp|exact (use_cell_does town 50 (CExec q2 [] []) 1 care_w1 _ H1 Hr)].
  apply ic_other with (d := 2%nat) (w := fst (snd (fst care_other))); [|vm_compute; left; reflexivity|intros X; discriminate X|clear].
  - apply ic_op with (q := fst (fst care_asked)) (w := fst (snd (fst care_asked))) (tr := snd (snd (fst care_asked))); [|exact Logic.I|vm_compute; reflexivity].
    clear. apply ic_op with (q := fst (fst town_next)) (w := fst (snd (fst town_next))) (tr := snd (snd (fst town_next))); [apply ic_start|exact Logic.I|vm_compute; reflexivity].
  - apply use_cell_held; [vm_compute; auto| |vm_compute; discriminate]. split; [apply clean_call_true; vm_compute; reflexivity|exact Logic.I].
Qed.
Lemma courteous_weaken {W} (K : Pool.cluster W) (use use' : nat -> W -> W -> Prop) (fit fit' : nat -> W -> Prop) q0 w0 l q w tr :
  (forall h a b, use h a b -> use' h a b) -> (forall h a, fit h a -> fit' h a) -> courteous K use fit q0 w0 l q w tr -> courteous K use' fit' q0 w0 l q w tr.
Proof.
  intros H1 H2. induction 1 as [|l q w tr o q' w' tr' r C IH Ho E|l q w tr h w' C IH Hh U]; [constructor| |].
  - eapply co_op; [exact IH| |exact E]. destruct o; try exact Logic.I. destruct Ho as (A & B & D). auto.
  - eapply co_use; [exact IH|exact Hh|]. auto.
Qed.
Lemma care_courteous : courteous town_cluster (holder_use opened_cells named_cells town cell_of) (fun h w => no_loose_ends (fst (cell_of w h)))
  (DemoPool.demo_pool 2) ([], 0%nat) care_log (fst (fst town_next)) (fst (snd (fst town_next))) (snd (snd (fst town_next))).
Proof.
  apply co_op with (p := fst (fst town_back)) (w := fst (snd (fst town_back))) (tr := snd (snd (fst town_back))); [exact town_courteous|exact Logic.I|vm_compute; reflexivity].
Qed.
