(** From the connection string of a client to the address a routing pool asks. *)
From Coq Require Import String ZArith List Bool Lia.
From Verif Require Import Bytes GoVal GoErr Messages GoStr Url Pool Client SpecPool SpecClient BytesFacts UrlFacts ClientFacts ClientCases SteadyFacts LifeFacts EraseFacts.
Import ListNotations.
Open Scope Z_scope.

Lemma contains_split pat s : contains pat s = true -> exists a b, s = a ++ pat ++ b.
Proof.
  induction s as [|c s IH]; cbn [contains]; intros H; apply orb_prop in H; destruct H as [H|H]; try discriminate H.
  - apply has_prefix_split in H. destruct H as (t & H). now exists [], t.
  - apply has_prefix_split in H. destruct H as (t & H). now exists [], t.
  - destruct (IH H) as (a & b & ->). now exists (c :: a), b.
Qed.
Lemma contains_mid pat a b : contains pat (a ++ pat ++ b) = true.
Proof.
  induction a as [|c a IH]; cbn [app].
  - destruct (pat ++ b) eqn:E; [destruct pat; [reflexivity|discriminate E]|]. cbn [contains]. rewrite <- E, has_prefix_app. reflexivity.
  - cbn [contains]. now rewrite IH, orb_true_r.
Qed.
(** The scheme is freed of +routing and nothing else changes. *)
Lemma seed_address s who hp l r : address_of s who hp l -> (forall a b, s = a ++ str "+routing" ++ b -> a = str "bolt") -> erased (str "+routing") s r ->
  address_of r who hp l /\ forall a b, r <> a ++ str "+routing" ++ b.
Proof.
  assert (G : forall scheme rest r, In scheme [str "bolt"; str "bolt+routing"] ->
    (forall a b, scheme ++ str "://" ++ rest = a ++ str "+routing" ++ b -> a = str "bolt") -> erased (str "+routing") (scheme ++ str "://" ++ rest) r ->
    r = str "bolt" ++ str "://" ++ rest /\ forall a b, r <> a ++ str "+routing" ++ b).
  { assert (N : forall rest, contains (str "+routing") (str "://" ++ rest) = false -> forall a b, str "bolt" ++ str "://" ++ rest <> a ++ str "+routing" ++ b).
    { intros rest C a b X. assert (contains (str "+routing") (str "bolt" ++ str "://" ++ rest) = true) by (rewrite X; apply contains_mid).
      cbn in H, C. congruence. }
    intros scheme rest x I O E. apply erased_iff in E; [|discriminate]. destruct I as [<-|[<-|[]]].
    - destruct (contains (str "+routing") (str "bolt" ++ str "://" ++ rest)) eqn:C.
      + apply contains_split in C. destruct C as (a & b & C). pose proof (O _ _ C) as ->. discriminate C.
      + pose proof (erased_absent (str "+routing") _ ltac:(discriminate) C) as A. apply erased_iff in A; [|discriminate].
        split; [congruence|]. rewrite A in E. subst x. apply N. exact C.
    - destruct (contains (str "+routing") (str "://" ++ rest)) eqn:C.
      + exfalso. apply contains_split in C. destruct C as (a & b & C).
        assert (X : str "bolt+routing" ++ str "://" ++ rest = (str "bolt+routing" ++ a) ++ str "+routing" ++ b) by now rewrite C, <- app_assoc.
        apply O in X. discriminate X.
      + pose proof (erased_absent (str "+routing") _ ltac:(discriminate) C) as A.
        assert (B : erased (str "+routing") (str "bolt+routing" ++ str "://" ++ rest) (str "bolt" ++ str "://" ++ rest)).
        { change (str "bolt+routing" ++ str "://" ++ rest) with (str "bolt" ++ str "+routing" ++ str "://" ++ rest).
          do 4 (apply erased_next; [intros t; discriminate|]). apply erased_here. exact A. }
        apply erased_iff in B; [|discriminate]. split; [congruence|]. rewrite B in E. subst x. apply N. exact C. }
  intros A O E. destruct A as [scheme who h p ds Hs Hw Hh Hd|scheme who h p ds l q Hs Hw Hh Hd Hq].
  - destruct (G _ _ _ Hs O E) as (-> & X). split; [|exact X]. apply (address_plain (str "bolt") who h p ds); auto. now left.
  - destruct (G _ _ _ Hs O E) as (-> & X). split; [|exact X]. apply (address_query (str "bolt") who h p ds l q); auto. now left.
Qed.
Theorem seed_config {W} (K : cluster W) os c s who hp l n p0 pops w0 p w log : new_client os = Ok c -> last_word string_opt os = Some s -> s <> [] ->
  address_of s who hp l -> (forall a b, s = a ++ str "+routing" ++ b -> a = str "bolt") ->
  new_routing_driver c n = Ok p0 -> run_pool K pops p0 w0 = (p, w, log) ->
  address_of (p_leader p) who hp l /\ conn_from_string (p_leader p) = conn_from_string s
  /\ forall a b, p_leader p <> a ++ str "+routing" ++ b.
Proof.
  intros A B N C D E F. assert (R : erased (str "+routing") s (p_leader p)).
  { rewrite <- (client_string os c s A B N). eapply seed_stays; eauto. }
  destruct (seed_address s who hp l _ C D R) as (X & Y).
  split; [exact X|]. split; [|exact Y]. now rewrite (address_conn_with _ _ _ _ X), (address_conn_with _ _ _ _ C).
Qed.
