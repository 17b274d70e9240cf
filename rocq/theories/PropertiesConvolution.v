(** Properties of the convolution node (C45, C76). *)
From stdpp Require Import list.
From Coq Require Import Reals Lra Lia.
From Verif Require Import Base Buffer BufferSpec EffectSpec ResampleSpec Convolution ConvolutionSpec ConvolutionProofs ConvolutionCases.
Local Open Scope R_scope.

(** ** C45 *)
(** Whatever the blocks and the maximal block size the context was made with: the node never
    aborts and adds, at every frame, the dry gain times the input and the wet gain times the
    linear convolution of everything the channel received so far. *)
Theorem C45_session impulse maximum l : wf impulse → frames impulse ≠ 0%nat → maximum ≠ 0%nat → Forall (vblock_ok (channels impulse)) l →
  ∃ c outs, new_convolution impulse maximum = Ok c ∧ vsession c l = Ok outs ∧ all_reverberated impulse (λ _, []) l outs.
Proof. exact (session_reverberated impulse maximum l). Qed.
Print Assumptions C45_session.
Example C45_session_case : wf stereo_impulse ∧ frames stereo_impulse ≠ 0%nat ∧ Forall (vblock_ok (channels stereo_impulse)) [stereo_block; stereo_block].
Proof. exact stereo_ok. Qed.
(** The partition into blocks does not matter: frame [fr] of block [k] is the sample of the
    convolution of the whole signal at the number of frames before it. *)
Theorem C45_partition impulse l outs k b out' : all_reverberated impulse (λ _, []) l outs → l !! k = Some b → outs !! k = Some out' →
  written (vb_out b) (vb_ov b) out' (λ ch fr old new, ∃ s w d,
    seen (vb_in b) (vb_iv b) ch fr = Some s ∧ vb_wet b !! fr = Some w ∧ vb_dry b !! fr = Some d ∧
    new = old + s * d + w * convolved_at (row_from 0 impulse Whole ch 0) (signal l ch) (length (signal (take k l) ch) + fr)).
Proof. exact (whole_signal impulse l outs k b out'). Qed.
Print Assumptions C45_partition.
Example C45_partition_case : ∃ outs, all_reverberated stereo_impulse (λ _, []) [stereo_block; stereo_block] outs ∧ is_Some (outs !! 1%nat).
Proof. exact stereo_outs. Qed.
(** what the second block of the example sounds like *)
Example C45_value : convolved_at [1; 2] (signal [stereo_block; stereo_block] 0) 3 = 4 + 2 * 3 ∧ convolved_at [1; 2] (signal [stereo_block; stereo_block] 0) 2 = 3 + 2 * 4.
Proof. exact stereo_value. Qed.
(** An impulse response without frames makes the node abort. *)
Theorem C45_empty_impulse_refuted : vblock_ok 1 mono_block ∧ ∃ c, new_convolution empty_impulse 2 = Ok c ∧ vsession c [mono_block] = Panic IndexOutOfRange.
Proof. exact empty_impulse_aborts. Qed.
Print Assumptions C45_empty_impulse_refuted.

(** ** C76 *)
(** a stereo input and a mono impulse response *)
Theorem C76_stereo_input_refuted : ∃ c, new_convolution mono_impulse 2 = Ok c ∧
  conv_process [1; 1] [0; 0] (Owned [3; 4; 5; 6] 2 2 1) Whole (Owned [0; 0] 1 2 1) Whole c = Panic UnwrapNone.
Proof. exact stereo_input_aborts. Qed.
Print Assumptions C76_stereo_input_refuted.
(** a mono input and a stereo impulse response *)
Theorem C76_mono_input_refuted : ∃ c, new_convolution stereo_impulse 2 = Ok c ∧
  conv_process [1; 1] [0; 0] (Owned [3; 4] 1 2 1) Whole (Owned [0; 0; 0; 0] 2 2 1) Whole c = Panic IndexOutOfRange.
Proof. exact mono_input_aborts. Qed.
Print Assumptions C76_mono_input_refuted.
