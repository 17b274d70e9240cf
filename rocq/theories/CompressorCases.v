From stdpp Require Import list list_numbers.
From Coq Require Import Reals Lra Lia.
From Verif Require Import Base Buffer BufferSpec BufferProofs EffectSpec EffectProofs Envelope EnvelopeSpec EnvelopeProofs EnvelopeNode.
From Verif Require Import MixerR MixerSpec Level LevelProofs Compressor CompressorSpec CompressorProofs CompressorNode.
Local Open Scope R_scope.

Lemma session_from n limit : n ≠ 0%nat → ∀ blocks c fs, Forall (cblock_ok n limit) blocks →
  length (cp_envelopes c) = n → wf (cp_gain c) → channels (cp_gain c) = n → frames (cp_gain c) = limit →
  (∀ ch, (ch < n)%nat → cp_envelopes c !! ch = Some (fs ch)) →
  ∃ outs c', comp_session c blocks = Ok (outs, c') ∧ length outs = length blocks ∧
    ∀ k b out, blocks !! k = Some b → outs !! k = Some out →
      compressed n (λ ch, frun (fs ch) (concat ((λ b, told b ch) <$> take k blocks))) b out.
Proof.
  intros Hn. induction blocks as [|b blocks IH]; intros c fs Hb Hl Hw Hc Hf Hfs.
  { exists [], c. done. }
  apply Forall_cons in Hb as [Hb Hbs].
  destruct (process_ok n limit b Hb Hn c fs Hl Hw Hc Hf Hfs) as (c1 & out & E & L1 & W1 & C1 & F1 & H1 & HC).
  cbn [comp_session]. rewrite E. cbn [rbind].
  destruct (IH c1 (λ ch, frun (fs ch) (told b ch)) Hbs L1 W1 C1 F1 H1) as (outs & c2 & E2 & L2 & H2). rewrite E2. cbn [rbind].
  eexists (out :: outs), c2. split; [done|]. split; [cbn; by rewrite L2|].
  intros [|k] b' out' Hb' Ho; cbn in Hb', Ho.
  - injection Hb' as <-. injection Ho as <-. cbn [take fmap list_fmap concat frun fold_left]. exact HC.
  - specialize (H2 k b' out' Hb' Ho). cbn beta in H2. cbn [take fmap list_fmap concat].
    assert (Ee : ∀ ch, frun (fs ch) (told b ch ++ concat ((λ b, told b ch) <$> take k blocks)) = frun (frun (fs ch) (told b ch)) (concat ((λ b, told b ch) <$> take k blocks))).
    { intros ch. unfold frun. apply fold_left_app. }
    unfold compressed in *. cbn zeta in *. eapply written_mono; [exact H2|]. cbn beta. intros ch fr x y _ _ (x0 & kn & t & r & w & d & HH).
    exists x0, kn, t, r, w, d. replace (mean_level n _ b' fr) with (mean_level n (λ ch, frun (frun (fs ch) (told b ch)) (concat ((λ b, told b ch) <$> take k blocks))) b' fr); [done|].
    unfold mean_level, sum_over. f_equal. f_equal. apply list_fmap_ext. intros i c0 _. by rewrite <-Ee.
Qed.
Lemma session_compressed n limit rate blocks : n ≠ 0%nat → Forall (cblock_ok n limit) blocks →
  ∃ outs c', comp_session (new_compressor n rate limit) blocks = Ok (outs, c') ∧ length outs = length blocks ∧
    ∀ k b out, blocks !! k = Some b → outs !! k = Some out → compressed n (follower_at rate blocks k) b out.
Proof.
  intros Hn Hb. destruct (session_from n limit Hn blocks (new_compressor n rate limit) (λ _, new_follower (INR rate) (1 / 1000) (10 / 1000)) Hb) as (outs & c' & H).
  - apply replicate_length.
  - apply new_buffer_wf.
  - done.
  - done.
  - intros ch Hch. by apply lookup_replicate_2.
  - exists outs, c'. exact H.
Qed.

(** ** A full-scale sample at the default threshold, with attack time 0 *)
Definition full_scale : cblock :=
  CBlock (CompParams [0] [10] [0] [0] [3] [1] [0]) (Owned [1] 1 1 1) Whole (new_buffer (Some 0) 1 1 1) Whole.
Lemma full_scale_ok : cblock_ok 1 1 full_scale.
Proof.
  unfold cblock_ok. cbn. do 7 (split; [done|]). split; [done|]. split; [|repeat split; repeat constructor; lra].
  intros l Hl. repeat (apply elem_of_cons in Hl as [-> |Hl]; [done|]). by apply elem_of_nil in Hl.
Qed.
Lemma full_scale_level : mean_level 1 (follower_at 1 [full_scale] 0) full_scale 0 = 1.
Proof.
  unfold mean_level, sum_over, follower_at. cbn. unfold set_attack_time. cbn [fl_attack_time new_follower].
  destruct (Req_EM_T (1 / 1000) (0 / 1000)) as [H|_]; [lra|]. unfold set_release_time. cbn [fl_level fl_attack fl_release fl_rate fl_release_time new_follower].
  destruct (Req_EM_T (10 / 1000) (10 / 1000)) as [_|H]; [|done]. cbn [fl_level fl_attack fl_release follow].
  change (default 0 (seen _ Whole 0 0)) with 1. rewrite Rabs_R1.
  destruct (Rlt_dec 0 1) as [_|H]; [|lra]. unfold follow_coefficient. destruct (Req_EM_T _ _) as [_|H]; [field|]. exfalso. apply H. field.
Qed.
Lemma nan_at_threshold : gain_law 1 0 0 3 = None.
Proof.
  unfold gain_law. cbn zeta. rewrite as_db_unity. destruct (Rlt_dec _ _); [lra|]. destruct (Req_EM_T 0 (0 + 0 / 2)) as [_|H]; [|lra].
  destruct (Req_EM_T 0 0); done.
Qed.
Lemma full_scale_nan : ∃ outs c', comp_session (new_compressor 1 1 1) [full_scale] = Ok (outs, c') ∧ ∃ out, outs !! 0%nat = Some out ∧ seen out Whole 0 0 = Some None.
Proof.
  destruct (session_compressed 1 1 1 [full_scale]) as (outs & c' & E & L & H); [done|apply Forall_singleton, full_scale_ok|].
  exists outs, c'. split; [done|]. destruct outs as [|out [|]]; try done. exists out. split; [done|].
  destruct (H 0%nat full_scale out eq_refl eq_refl) as (_ & _ & _ & Hw). destruct (Hw 0%nat 0%nat) as (x & y & _ & Sy & x0 & k & t & r & w & d & _ & Hk & Ht & Hr & _ & _ & _ & Hm).
  { cbn. lia. } { cbn. lia. }
  cbn in Hk, Ht, Hr. injection Hk as <-. injection Ht as <-. injection Hr as <-. rewrite full_scale_level, nan_at_threshold in Hm.
  rewrite Hm in Sy; [done|]. exists 1. split; [by constructor|]. rewrite Rabs_R1. lra.
Qed.

(** ** A soft knee: louder in, softer out *)
Lemma soft_knee_falls : ∃ e1 e2 g1 g2, / 10 ^ 9 < e1 ∧ e1 < e2 ∧ gain_law e1 20 (-20) 3 = Some g1 ∧ gain_law e2 20 (-20) 3 = Some g2 ∧ e2 * g2 < e1 * g1 ∧ as_db e2 - -20 < 128.
Proof.
  set (e1 := from_db (-11)). set (e2 := from_db (-9)).
  assert (A1 : as_db e1 = -11) by (apply as_db_from_db; lra). assert (A2 : as_db e2 = -9) by (apply as_db_from_db; lra).
  exists e1, e2, 1, (from_db (- ((1 - 1 / 3) * (-9 - -20)))).
  assert (E1 : e1 = Rpower 10 (-11 / 20)). { unfold e1, from_db, minus_infinity_db. destruct (Rle_dec _ _); [lra|done]. }
  assert (E2 : e2 = Rpower 10 (-9 / 20)). { unfold e2, from_db, minus_infinity_db. destruct (Rle_dec _ _); [lra|done]. }
  split; [rewrite E1; apply floor_above; lra|]. split; [rewrite E1, E2; apply Rpower10_lt; lra|]. split.
  { unfold gain_law. cbn zeta. rewrite A1. destruct (Rlt_dec _ _); [done|lra]. }
  split.
  { unfold gain_law. cbn zeta. rewrite A2. destruct (Rlt_dec _ _); [lra|]. destruct (Req_EM_T _ _); [lra|done]. }
  split; [|rewrite A2; lra]. unfold from_db, minus_infinity_db. destruct (Rle_dec _ _); [lra|]. rewrite E1, E2, <-Rpower_plus, Rmult_1_r. apply Rpower10_lt. lra.
Qed.
