(** A parameter that the server returns comes back to the caller. *)
From Coq Require Import String ZArith List Bool Lia ZifyBool.
From Verif Require Import Bytes GoVal GoErr Encoder Decoder SpecPack SpecValues SpecCodec SpecServer Messages Connection Link Wire SpecSession SpecEcho BytesFacts ValueFacts SessionFacts TxFacts WireFacts Demo DemoFacts Cases CaseFacts.
Import ListNotations.
Open Scope Z_scope.

Section Widen.
Variable widen : Z -> Z.
Notation rcv := (received widen).

Lemma meaning_list v l :
  Forall (fun x => go_typed x = true -> plain v x = true -> meaning v (item widen x) = Some (rcv x)) l ->
  forallb go_typed l = true -> forallb (plain v) l = true ->
  all_some (map (meaning v) (map (item widen) l)) = Some (map rcv l).
Proof.
  induction 1 as [|x l Hx _ IH]; intros Ht Hp; [reflexivity|].
  cbn [map forallb all_some] in *. bsplit. rewrite Hx, IH by assumption. reflexivity.
Qed.
Lemma meaning_map v m :
  Forall (fun kv => go_typed (snd kv) = true -> plain v (snd kv) = true -> meaning v (item widen (snd kv)) = Some (rcv (snd kv))) m ->
  nodupb (map fst m) = true ->
  forallb (fun kv => go_typed (snd kv)) m = true -> forallb (fun kv => plain v (snd kv)) m = true ->
  meaning v (PMap (map (fun kv => (fst kv, item widen (snd kv))) m)) = Some (GMap (map (fun kv => (fst kv, rcv (snd kv))) m)).
Proof.
  intros IH Hnd Ht Hp. cbn [meaning].
  replace (map fst (map (fun kv => (fst kv, item widen (snd kv))) m)) with (map fst m) by (rewrite map_map; reflexivity).
  rewrite Hnd.
  match goal with |- match ?A with _ => _ end = _ => enough (A = Some (map (fun kv => rcv (snd kv)) m)) as -> end.
  - f_equal. f_equal. clear. induction m as [|[k x] m IH]; [reflexivity|]. cbn in *. now rewrite IH.
  - clear Hnd. induction IH as [|[k x] m Hx _ IHm]; [reflexivity|].
    cbn [map forallb all_some fst snd] in *. bsplit. rewrite Hx, IHm by assumption. reflexivity.
Qed.
Lemma nodes_again ns : forallb (fun x => match x with GNode _ _ _ => true | _ => false end) ns = true ->
  all_some (map node_of (map rcv ns)) = Some (map rcv ns).
Proof.
  induction ns as [|x ns IH]; intros H; [reflexivity|]. cbn [map forallb all_some] in *. bsplit.
  destruct x; try discriminate. cbn [node_of received]. now rewrite IH.
Qed.
Lemma urels_again ns : forallb (fun x => match x with GURel _ _ _ => true | _ => false end) ns = true ->
  all_some (map urel_of (map rcv ns)) = Some (map rcv ns).
Proof.
  induction ns as [|x ns IH]; intros H; [reflexivity|]. cbn [map forallb all_some] in *. bsplit.
  destruct x; try discriminate. cbn [urel_of received]. now rewrite IH.
Qed.
(** The item that represents a value means the value it should be received as. *)
Theorem meaning_item v x : go_typed x = true -> plain v x = true -> meaning v (item widen x) = Some (rcv x).
Proof.
  induction x using gval_ind'; intros Ht Hp; cbn [go_typed plain] in Ht, Hp; cbn [item received];
    try reflexivity; try discriminate.
  - cbn [meaning]. now rewrite (meaning_list v l H Ht Hp).
  - cbn [meaning]. now rewrite (meaning_list v l H Ht Hp).
  - bsplit. now apply meaning_map.
  - bsplit. erewrite meaning_struct.
    2:{ cbn [map all_some]. rewrite (meaning_map v m H) by assumption. cbn [meaning].
        rewrite (proj1 (all_some_strs v ls)). reflexivity. }
    unfold struct_meaning. cbn [Z.eqb Pos.eqb]. now rewrite (proj2 (all_some_strs v ls)).
  - bsplit. erewrite meaning_struct.
    2:{ cbn [map all_some]. rewrite (meaning_map v m H) by assumption. reflexivity. }
    reflexivity.
  - bsplit. erewrite meaning_struct.
    2:{ cbn [map all_some]. rewrite (meaning_map v m H) by assumption. reflexivity. }
    reflexivity.
  - bsplit. erewrite meaning_struct.
    2:{ cbn [map all_some meaning]. rewrite (meaning_list v ns), (meaning_list v rs) by assumption.
        rewrite (proj1 (all_some_ints v sq)). reflexivity. }
    unfold struct_meaning. cbn [Z.eqb Pos.eqb].
    now rewrite nodes_again, urels_again, (proj2 (all_some_ints v sq)).
  - destruct v; [discriminate|]. cbn in Hp. destruct p; [|discriminate]. reflexivity.
  - destruct v; [discriminate|]. cbn in Hp. destruct p; [|discriminate]. reflexivity.
  - destruct v; [discriminate|]. reflexivity.
  - destruct v; [discriminate|]. reflexivity.
  - destruct v; [discriminate|]. reflexivity.
  - destruct v; [discriminate|]. reflexivity.
  - destruct v; [discriminate|]. bsplit. change (2 ^ 31) with 2147483648 in *.
    cbn [meaning map all_some]. unfold struct_meaning. cbn [Z.eqb Pos.eqb].
    replace ((0 <=? n) && (n <? 1000000000) && (-2147483648 <=? o) && (o <? 2147483648)) with true by lia.
    repeat f_equal; lia.
  - bsplit. erewrite meaning_struct.
    2:{ cbn [map all_some]. rewrite (meaning_map v m H) by assumption. reflexivity. }
    reflexivity.
  - bsplit. erewrite meaning_struct.
    2:{ cbn [map all_some]. rewrite (meaning_map v m H) by assumption. reflexivity. }
    reflexivity.
  - erewrite meaning_struct.
    2:{ cbn [map all_some meaning]. rewrite (meaning_list v l) by assumption. reflexivity. }
    reflexivity.
Qed.
End Widen.

Lemma typed_run c q ps db b : go_typed (run_msg c q ps db b) = true -> Forall (fun kv => go_typed (snd kv) = true) ps.
Proof.
  unfold run_msg, get_run_message. intros H. rewrite Forall_forall. intros kv I. destruct (c_proto c), b; unfold autocommit_run, unmanaged_run, run_message, run_with_metadata in H; cbn [negb go_typed forallb] in H; bsplit;
  match goal with X : forallb _ ps = true |- _ => rewrite forallb_forall in X; now apply X end.
Qed.
Lemma typed_params c o q ps : statement_of o = Some (q, ps) -> goes_out c o -> Forall (fun kv => go_typed (snd kv) = true) ps.
Proof.
  destruct o; try discriminate; cbn [statement_of]; intros [= -> ->] [_ G]; unfold sendable in G; bsplit; eapply typed_run; eassumption.
Qed.
Theorem echo_back p P user password l c w o q ps c' w' r :
  session clean_call p P user password l (c, w) -> ready w -> statement_of o = Some (q, ps) ->
  match o with CQuery _ _ _ | CTxQuery _ _ _ _ => True | _ => False end -> goes_out c o -> ordinary p q = true ->
  Forall (fun kv => plain (codec p) (snd kv) = true) ps -> does (wired P) o (c, w) (c', w') r ->
  (forall st x, s_done (w_srv w') = s_done (w_srv w) ++ [(st, x)] -> echoes (codec p) st x) ->
  exists widen md, exact_widening widen /\ r = Ok (ARows [map (fun kv => received widen (snd kv)) ps] md).
Proof.
  intros HS HR HO HQ HG HP HL HD HE.
  destruct (statement_judged p P user password l c w o q ps c' w' r HS HR HO HG HP HD) as (_ & _ & HT & (st & Hst & [_ (widen & Hw & Hc)] & _) & _).
  destruct (HE _ _ Hst) as (rm & row & md & Hx & Hrow). rewrite Hx in HT. cbn [told] in HT. exists widen, md. split; [exact Hw|].
  pose proof (typed_params c o q ps HO HG) as Ht.
  assert (row = map (fun kv => received widen (snd kv)) ps) as <-.
  2:{ rewrite HT. destruct o; try contradiction; reflexivity. }
  clear - Hc Hrow HL Ht. revert row Hrow. induction Hc as [|[k x] [k' y] ps ps' [_ H] _ IH]; intros row Hrow; inversion Hrow; subst; [reflexivity|].
  inversion_clear HL. inversion_clear Ht. cbn [map snd] in *. f_equal; [|now apply IH].
  rewrite H in * by assumption. rewrite meaning_item in * by assumption. congruence.
Qed.

(** A uint above the largest int64 comes back negative. *)
Definition mirror : outcome := Produced [] [[GInt KInt64 (-1)]] [].
Lemma echo_wrong : exists P l c w c' w' st,
  session clean_call P4 P (str "neo4j") (str "secret") l (c, w) /\ ready w
  /\ does (wired P) (CQuery q1 [(str "x", GInt KUint (2 ^ 64 - 1))] []) (c, w) (c', w') (Ok (ARows [[GInt KInt64 (-1)]] []))
  /\ s_done (w_srv w') = s_done (w_srv w) ++ [(st, mirror)] /\ echoes (codec P4) st mirror.
Proof.
  played P4 [done; done; mirror] false [CQuery q1 [] []].
  match goal with |- context [session _ _ ?P _ _ _ (?c, ?w)] =>
    let y := eval vm_compute in (exec (wired P) (do_call 50 (CQuery q1 [(str "x", GInt KUint (2 ^ 64 - 1))] [])) c w) in
    match y with (?c', ?w', Ok ?a) => exists c', w' end end.
  eexists. split; [session_of P4 [done; done; mirror] false [CQuery q1 [] []]|]. split; [repeat split|]. split; [apply (then_does _ 50); [vm_compute; reflexivity|discriminate]|].
  split; [vm_compute; reflexivity|]. do 3 eexists. split; [reflexivity|]. constructor; [reflexivity|constructor].
Qed.
