(** Facts about the differences between protocol versions: C84-C86. *)
From Coq Require Import String ZArith List Bool Lia ZifyBool.
From Verif Require Import Bytes BytesFacts GoVal GoErr Encoder Decoder SpecPack SpecValues SpecGrammar SpecRefuse SpecCodec SpecServer SpecDialect
  GrammarFacts RefuseFacts Messages Connection Link Wire ExecFacts SpecSession CallFacts OpenFacts SessionFacts WireFacts AnyNetFacts WatchFacts Result.
Import ListNotations.
Open Scope Z_scope.

Lemma temporal_sent p x : go_typed x = true -> temporal x = true ->
  (snd (encode (codec p) x) = None <-> has_structs2 (proto_number p) = true).
Proof.
  intros Ht Hx. rewrite (refused_first _ _ Ht). destruct x; try discriminate Hx; destruct p; cbn; split; try reflexivity; discriminate.
Qed.
Lemma structs_known p sig : In sig sigs2 -> (fields_of (codec p) sig <> None <-> has_structs2 (proto_number p) = true).
Proof.
  intros H. unfold sigs2 in H.
  repeat match goal with H : In _ (_ :: _) |- _ => destruct H as [<-|H] end; [..|contradiction];
    destruct p; cbn; split; try reflexivity; try discriminate; intros H; now elim H.
Qed.
Definition struct_markers : bytes := [xb0; xb1; xb2; xb3; xb4; xb5; xb6; xb7; xb8; xb9; xba; xbb; xbc; xbd; xbe; xbf].
Lemma struct_refused tz h s b : In h struct_markers -> In (bz s) sigs2 -> decode V1 tz (h :: s :: b) = Err (ENew TUnrecognizedStruct).
Proof.
  intros Hh Hs. rewrite decode_step. transitivity (dec_struct V1 tz (decode V1 tz) (s :: b)).
  - unfold struct_markers in Hh. repeat (destruct Hh as [<-|Hh]; [reflexivity|]). contradiction.
  - unfold dec_struct. unfold sigs2 in Hs.
    repeat match goal with H : In _ (_ :: _) |- _ => destruct H as [E|H]; [rewrite <- E; reflexivity|] end. contradiction.
Qed.
Lemma proto_codec p : codec p = if has_structs2 (proto_number p) then V2 else V1.
Proof. now destruct p. Qed.
Lemma struct_received p tz h s b x r : In h struct_markers -> In (bz s) sigs2 ->
  decode (codec p) tz (h :: s :: b) = Ok (x, r) -> has_structs2 (proto_number p) = true.
Proof.
  intros Hh Hs E. rewrite proto_codec in E. destruct (has_structs2 _); [reflexivity|]. rewrite (struct_refused _ _ _ _ Hh Hs) in E. discriminate.
Qed.

(** ** Close *)
Lemma watched_extends {St A} (N : net St) (p : prog A) c s l c' s' l' r :
  exec (watched N) p c (s, l) = (c', (s', l'), r) -> exists d, l' = l ++ d.
Proof.
  rewrite watched_prefix. destruct (exec (watched N) p c (s, [])) as [[c1 [s1 l1]] r1]. cbn [fst snd]. intros E. injection E as _ _ <- _. eauto.
Qed.
Lemma close_farewell {St} (N : net St) c s tr c' s' tr' a : does (watched N) CClose (c, (s, tr)) (c', (s', tr')) (Ok a) ->
  exists before, tr' = tr ++ before ++ (if has_transactions (proto_number (c_proto c)) then [VSend (GStructure 2 []) None] else []) ++ [VHang None]
  /\ (c_transaction c = None -> before = []).
Proof.
  intros (n & E & _). cbn [fst snd do_call] in E. unfold pmap in E. rewrite exec_bind in E.
  destruct n as [|n]; [discriminate|]. cbn [close] in E. unfold close_with in E. rewrite exec_get in E.
  destruct (c_closed c); [discriminate|]. rewrite exec_bind in E.
  assert (exists before, exists c1 s1, (c_transaction c = None -> before = []) /\
    exec (watched N) match c_transaction c with Some t => rollback n t | None => ok_unit end c (s, tr) = (c1, (s1, tr ++ before), Ok tt)) as (bef & c1 & s1 & Hb & E1).
  { destruct (exec (watched N) match c_transaction c with Some t => rollback n t | None => ok_unit end c (s, tr)) as [[c1 [s1 l1]] r1] eqn:E1.
    destruct r1 as [[]| | |]; try discriminate. destruct (watched_extends _ _ _ _ _ _ _ _ _ E1) as [d ->]. exists d, c1, s1. split; [|reflexivity].
    intros Hn. rewrite Hn in E1. cbn in E1. injection E1 as _ _ E1. now apply (app_inv_head tr); rewrite app_nil_r. }
  rewrite E1 in E. clear E1. rewrite exec_bind in E. exists bef. split; [|exact Hb].
  destruct (c_proto c); cbn [get_close_message has_transactions proto_number Z.leb Z.compare Pos.compare Pos.compare_cont] in *.
  1,2: cbn [exec ok_unit watched n_hang] in E; destruct (n_hang N (fst (s1, tr ++ bef))) as [s2 [e|]]; cbn in E; [discriminate|];
    injection E as _ _ <- _; now rewrite <- app_assoc.
  all: unfold send_message in E; rewrite exec_get in E; cbn [exec watched n_send fst snd] in E;
    destruct (n_send N _ _ _ s1) as [s2 [e|]]; cbn [exec ok_unit fail] in E; [discriminate|]; cbn [watched n_hang fst snd] in E;
    destruct (n_hang N s2) as [s3 [e|]]; cbn in E; [discriminate|]; injection E as _ _ <- _; rewrite <- !app_assoc; reflexivity.
Qed.

(** ** Requests and summaries *)
Lemma dialect p db mode :
  snd (get_begin_message p db mode) = has_transactions (proto_number p)
  /\ snd (get_commit_message p) = has_transactions (proto_number p)
  /\ snd (get_rollback_message p) = has_transactions (proto_number p)
  /\ get_close_message p = (if has_transactions (proto_number p) then Some (GStructure 2 []) else None)
  /\ multi_database p = has_databases (proto_number p)
  /\ available_after_key p = first_key (proto_number p)
  /\ consumed_after_key p = last_key (proto_number p).
Proof. destruct p; repeat split; reflexivity. Qed.
Lemma available_old n md z : n <= 2 -> map_get md (first_key n) = Some (GInt KInt64 z) -> get_available_after md = z.
Proof. intros Hn E. unfold first_key in E. replace (n <=? 2) with true in E by lia. unfold get_available_after. now rewrite E. Qed.
Lemma available_new n md : 3 <= n -> (forall k, k <> first_key n -> map_get md k = None) -> get_available_after md = -1.
Proof.
  intros Hn E. unfold get_available_after. rewrite E; [reflexivity|]. unfold first_key. replace (n <=? 2) with false by lia.
  intros H. vm_compute in H. discriminate H.
Qed.
