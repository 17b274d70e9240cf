From stdpp Require Import list.
From Coq Require Import Reals Lra Lia.
From Verif Require Import Base Buffer BufferSpec BufferProofs EffectSpec EffectProofs ResampleSpec Complex Convolution ConvolutionSpec ConvolutionProofs.
Local Open Scope R_scope.

Lemma session_reverberated impulse maximum l : wf impulse → frames impulse ≠ 0%nat → maximum ≠ 0%nat → Forall (vblock_ok (channels impulse)) l →
  ∃ c outs, new_convolution impulse maximum = Ok c ∧ vsession c l = Ok outs ∧ all_reverberated impulse (λ _, []) l outs.
Proof.
  intros Hw Hf Hm Hl. destruct (new_ok impulse Hw Hf maximum Hm) as (c & E & Hc). destruct (vsession_ok impulse Hf maximum Hm l Hl _ c Hc) as (outs & E' & H).
  by exists c, outs.
Qed.
Lemma whole_signal_from impulse past l outs k b out' : all_reverberated impulse past l outs → l !! k = Some b → outs !! k = Some out' →
  written (vb_out b) (vb_ov b) out' (λ ch fr old new, ∃ s w d,
    seen (vb_in b) (vb_iv b) ch fr = Some s ∧ vb_wet b !! fr = Some w ∧ vb_dry b !! fr = Some d ∧
    new = old + s * d + w * convolved_at (row_from 0 impulse Whole ch 0) (past ch ++ signal l ch) (length (past ch) + length (signal (take k l) ch) + fr)).
Proof.
  revert past outs k. induction l as [|b0 l IH]; intros past [|o outs] k H Hb Ho; [done|done|done|]. destruct H as [H1 H2]. destruct k as [|k].
  - cbn in Hb, Ho. injection Hb as ->. injection Ho as ->. eapply written_mono; [exact H1|]. cbn beta. intros ch fr x y _ _ (s & w & d & Hs & Hw & Hd & ->).
    exists s, w, d. do 3 (split; [done|]). cbn [take signal fmap list_fmap concat length]. do 2 f_equal. unfold signal. cbn [fmap list_fmap concat take length].
    rewrite app_assoc, Nat.add_0_r. symmetry. apply convolved_at_app. rewrite app_length.
    assert (fr < length (heard b ch))%nat; [|lia]. unfold seen in Hs. case_decide as Hc; [|done]. unfold heard, row_from. rewrite fmap_length, seq_length. lia.
  - cbn in Hb, Ho. eapply written_mono; [exact (IH _ _ k H2 Hb Ho)|]. cbn beta. intros ch fr x y _ _ (s & w & d & Hs & Hw & Hd & ->).
    exists s, w, d. do 3 (split; [done|]). do 2 f_equal. unfold signal. cbn [fmap list_fmap concat take]. rewrite !app_length, app_assoc. f_equal. lia.
Qed.
Lemma whole_signal impulse l outs k b out' : all_reverberated impulse (λ _, []) l outs → l !! k = Some b → outs !! k = Some out' →
  written (vb_out b) (vb_ov b) out' (λ ch fr old new, ∃ s w d,
    seen (vb_in b) (vb_iv b) ch fr = Some s ∧ vb_wet b !! fr = Some w ∧ vb_dry b !! fr = Some d ∧
    new = old + s * d + w * convolved_at (row_from 0 impulse Whole ch 0) (signal l ch) (length (signal (take k l) ch) + fr)).
Proof. exact (whole_signal_from impulse (λ _, []) l outs k b out'). Qed.

(** ** cases *)
Lemma stereo_ok : wf stereo_impulse ∧ frames stereo_impulse ≠ 0%nat ∧ Forall (vblock_ok (channels stereo_impulse)) [stereo_block; stereo_block].
Proof.
  split; [done|]. split; [done|]. assert (H : vblock_ok 2 stereo_block); [|by apply Forall_cons; split; [|apply Forall_singleton]].
  unfold vblock_ok. cbn. split_and!; done || lia.
Qed.
Lemma stereo_outs : ∃ outs, all_reverberated stereo_impulse (λ _, []) [stereo_block; stereo_block] outs ∧ is_Some (outs !! 1%nat).
Proof.
  destruct stereo_ok as (H1 & H2 & H3). destruct (session_reverberated stereo_impulse 2 _ H1 H2 ltac:(done) H3) as (c & outs & _ & _ & H). exists outs. split; [done|].
  destruct outs as [|o [|o' outs]]; [done| |by eexists]. by destruct H as [_ H].
Qed.
Lemma stereo_value : convolved_at [1; 2] (signal [stereo_block; stereo_block] 0) 3 = 4 + 2 * 3 ∧ convolved_at [1; 2] (signal [stereo_block; stereo_block] 0) 2 = 3 + 2 * 4.
Proof.
  assert (E : signal [stereo_block; stereo_block] 0 = [3; 4; 3; 4]) by reflexivity. rewrite E.
  unfold convolved_at, MixerSpec.sum_over. cbn [length seq fmap list_fmap foldr lookup list_lookup default from_option].
  split; cbn.
  - rewrite !decide_True by lia. lra.
  - rewrite !decide_True by lia. lra.
Qed.
Lemma empty_impulse_aborts : vblock_ok 1 mono_block ∧ ∃ c, new_convolution empty_impulse 2 = Ok c ∧ vsession c [mono_block] = Panic IndexOutOfRange.
Proof. split; [unfold vblock_ok; cbn; split_and!; done || lia|]. eexists. split; reflexivity. Qed.
Lemma stereo_input_aborts : ∃ c, new_convolution mono_impulse 2 = Ok c ∧
  conv_process [1; 1] [0; 0] (Owned [3; 4; 5; 6] 2 2 1) Whole (Owned [0; 0] 1 2 1) Whole c = Panic UnwrapNone.
Proof. eexists. split; [reflexivity|]. reflexivity. Qed.
Lemma mono_input_aborts : ∃ c, new_convolution stereo_impulse 2 = Ok c ∧
  conv_process [1; 1] [0; 0] (Owned [3; 4] 1 2 1) Whole (Owned [0; 0; 0; 0] 2 2 1) Whole c = Panic IndexOutOfRange.
Proof. eexists. split; [reflexivity|]. reflexivity. Qed.
