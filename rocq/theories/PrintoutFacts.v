(** The byte log: C116, C117. *)
From Coq Require Import String ZArith List Bool Lia ZifyBool.
From Verif Require Import Bytes BytesFacts GoVal GoErr Encoder Messages Connection Log Texts Printout SpecPrintout SpecRefusal SpecCodec FrameFacts.
Import ListNotations.
Open Scope Z_scope.

Theorem quiet now v e x : v = V1 \/ now <> TraceBytesLevel -> encode_lines now v e x = [].
Proof.
  intros [->|H]; [reflexivity|]. unfold encode_lines. destruct v; [reflexivity|]. destruct (encode V2 x) as [ws fin]. destruct (run_writes e ws) as [e1 [r|]]; [reflexivity|]. destruct fin; [reflexivity|].
  destruct (_ >? 0); [|reflexivity]. cbn. unfold trace_bytes. destruct now; try reflexivity. now destruct H.
Qed.

Definition total (ws : list bytes) : Z := zlen (concat ws).
Lemma total_cons p ws : total (p :: ws) = zlen p + total ws. Proof. unfold total. cbn [concat]. apply zlen_app. Qed.
Lemma residual_le cs ws : 1 <= cs -> forall r, residual cs r ws <= r + total ws.
Proof.
  intros Hc. induction ws as [|p ws IH]; intros r; cbn [residual]; [unfold total; cbn; lia|]. rewrite total_cons. specialize (IH (step_res cs r (zlen p))). unfold step_res in *. destruct (_ >=? _); lia.
Qed.
Lemma residual_all cs ws : forall r, r + total ws < cs -> residual cs r ws = r + total ws.
Proof.
  induction ws as [|p ws IH]; intros r Hr; cbn [residual]; [unfold total; cbn; lia|]. rewrite total_cons in *. pose proof (zlen_nonneg (concat ws)). fold (total ws) in *.
  rewrite IH; unfold step_res; destruct (Z.geb_spec (r + zlen p) cs); lia.
Qed.
Lemma residual_less cs ws : 1 <= cs -> forall r, r < cs <= r + total ws -> residual cs r ws < r + total ws.
Proof.
  intros Hc. induction ws as [|p ws IH]; intros r Hr; cbn [residual]; [unfold total in *; cbn in *; lia|]. rewrite total_cons in *.
  pose proof (residual_le cs ws Hc (step_res cs r (zlen p))). specialize (IH (step_res cs r (zlen p))). unfold step_res in *. destruct (Z.geb_spec (r + zlen p) cs); lia.
Qed.

(** on a working link, from an empty buffer *)
Theorem shows x o cs : 1 <= cs -> snd (encode V2 x) = None ->
  exists pl b, payload V2 x = pl ++ b /\ encode_lines TraceBytesLevel V2 (encoder_on o None cs) x = (if zlen b >? 0 then [StartBytes; ShownBytes b; EndBytes] else [])
    /\ zlen b = residual cs 0 (fst (encode V2 x)).
Proof.
  intros Hc He. unfold encode_lines, payload. destruct (encode V2 x) as [ws fin]. cbn in *. subst fin.
  destruct (run_writes_ok cs ws ltac:(lia) o []) as (w & b & pl & E & _ & P & Z1). unfold encoder_on, new_encoder. rewrite E. cbn [e_buf].
  exists pl, b. split; [now rewrite P|]. split; [reflexivity|]. exact Z1.
Qed.
Lemma shown_bytes (b : bytes) : shown (if zlen b >? 0 then [StartBytes; ShownBytes b; EndBytes] else []) = b.
Proof. destruct b as [|c b]; [reflexivity|]. rewrite zlen_cons. pose proof (zlen_nonneg b). destruct (Z.gtb_spec (1 + zlen b) 0); [|lia]. cbn. now rewrite app_nil_r. Qed.
Theorem shows_end x o cs : 1 <= cs -> snd (encode V2 x) = None ->
  (exists pl, payload V2 x = pl ++ shown (encode_lines TraceBytesLevel V2 (encoder_on o None cs) x))
  /\ (shown (encode_lines TraceBytesLevel V2 (encoder_on o None cs) x) = payload V2 x <-> zlen (payload V2 x) < cs).
Proof.
  intros Hc He. destruct (shows x o cs Hc He) as (pl & b & P & -> & Z1). rewrite shown_bytes. split; [now exists pl|].
  pose proof (residual_all cs (fst (encode V2 x)) 0) as A. pose proof (residual_less cs (fst (encode V2 x)) Hc 0) as L. unfold total in *. fold (payload V2 x) in *.
  split.
  - intros ->. destruct (Z.ltb_spec (zlen (payload V2 x)) cs); lia.
  - intros H. rewrite (A ltac:(lia)) in Z1. assert (Hp : zlen pl = 0) by (rewrite P, zlen_app in Z1; lia). destruct pl; [now rewrite P|]. rewrite zlen_cons in Hp. pose proof (zlen_nonneg pl). lia.
Qed.

Lemma str_hdr_shape n : 0 <= n <= 65535 -> exists l, str_hdr n = (l, None) /\ zlen (concat l) <= 5.
Proof.
  intros H. unfold str_hdr, w_ok. change MaxUint8 with 255. change MaxUint16 with 65535. change MaxUint32 with 4294967295.
  repeat match goal with |- context [if ?c then _ else _] => destruct c eqn:? end; try lia;
    (eexists; split; [reflexivity|]; cbn [concat app]; rewrite ?app_nil_r, ?zlen_cons, ?be_len; cbn; lia).
Qed.
Lemma enc_str_shape s : zlen s <= 65535 -> exists l h, enc_str s = (l, None) /\ concat l = h ++ s /\ zlen h <= 5.
Proof.
  intros H. pose proof (zlen_nonneg s). destruct (str_hdr_shape (zlen s) ltac:(lia)) as (l & E & L). unfold enc_str. rewrite E. exists (l ++ [s]), (concat l).
  split; [reflexivity|]. rewrite concat_app. cbn [concat]. now rewrite app_nil_r.
Qed.
Lemma mentions_cons s c t : mentions s t -> mentions s (c :: t).
Proof. intros (a & b & ->). now exists (c :: a), b. Qed.
Lemma mentions_after s a t : mentions s t -> mentions s (a ++ t).
Proof. intros (a' & b & ->). exists (a ++ a'), b. now rewrite app_assoc. Qed.
Lemma mentions_here s t : mentions s (s ++ t). Proof. now exists [], t. Qed.
Lemma login_payload p user password : p <> P1 -> zlen user <= 32000 -> zlen password <= 32000 ->
  mentions password (payload V2 (get_init_message p client_id (auth_basic user password)))
  /\ 0 < zlen (payload V2 (get_init_message p client_id (auth_basic user password))) < 65535
  /\ snd (encode V2 (get_init_message p client_id (auth_basic user password))) = None.
Proof.
  intros Hp Hu Hw. destruct (enc_str_shape user ltac:(lia)) as (lu & hu & Eu & Cu & Lu). destruct (enc_str_shape password ltac:(lia)) as (lw & hw & Ew & Cw & Lw).
  pose proof (zlen_nonneg user). pose proof (zlen_nonneg password). pose proof (zlen_nonneg hu). pose proof (zlen_nonneg hw).
  assert (E : exists ws, encode V2 (get_init_message p client_id (auth_basic user password)) = (ws, None) /\ mentions password (concat ws) /\ 0 < zlen (concat ws) < 65535).
  { unfold encode. destruct p; [congruence|..]; cbn -[enc_str w_then zlen]; rewrite Eu, Ew; (eexists; split; [cbn; reflexivity|]);
    repeat first [rewrite concat_app|rewrite Cu|rewrite Cw|progress cbn [concat app]|rewrite <- app_assoc];
    (split; [repeat first [apply mentions_here|apply mentions_cons|apply mentions_after]|]);
    repeat (rewrite ?zlen_cons, ?zlen_app, ?app_nil_r); change (zlen []) with 0; lia. }
  destruct E as (ws & E & M & L). unfold payload. rewrite E. auto.
Qed.
Theorem login_shown p user password o : p <> P1 -> zlen user <= 32000 -> zlen password <= 32000 ->
  mentions password (written (encode_lines TraceBytesLevel (codec p) (encoder_on o None 65535) (get_init_message p client_id (auth_basic user password)))).
Proof.
  intros Hp Hu Hw. destruct (login_payload p user password Hp Hu Hw) as (M & L & E). replace (codec p) with V2 by (destruct p; [congruence|reflexivity..]).
  destruct (shows _ o 65535 ltac:(lia) E) as (pl & b & P & -> & Zb). pose proof (proj2 (proj2 (shows_end _ o 65535 ltac:(lia) E)) (proj2 L)) as W.
  destruct (shows _ o 65535 ltac:(lia) E) as (pl' & b' & P' & E' & Zb'). rewrite E', shown_bytes in W. subst b'.
  assert (b = payload V2 (get_init_message p client_id (auth_basic user password))) as ->.
  { rewrite Zb' in L. rewrite <- Zb in L. rewrite P in Zb'. rewrite zlen_app in Zb'. assert (zlen pl = 0) by lia. destruct pl; [now rewrite P|]. rewrite zlen_cons in *. pose proof (zlen_nonneg pl). lia. }
  destruct (Z.gtb_spec (zlen (payload V2 (get_init_message p client_id (auth_basic user password)))) 0); [|lia]. cbn [written]. rewrite app_nil_r.
  unfold sprint_byte_hex. apply mentions_cons. destruct M as (a & c & ->). rewrite <- !app_assoc. apply mentions_after, mentions_here.
Qed.
