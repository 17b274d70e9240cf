(** Properties of the waveshaper (C44, C75). *)
From stdpp Require Import list.
From Coq Require Import Reals Lra Lia.
From Verif Require Import Base Buffer BufferSpec EffectSpec ResampleSpec Waveshaper WaveshaperSpec WaveshaperProofs WaveshaperCases.
Local Open Scope R_scope.

(** ** C44 *)
(** Every sample of every block becomes the mixture of itself and of the table at its driven
    value, divided by the drive.  No other sample matters: the odd samples of the
    oversampling buffer are never used. *)
Theorem C44_session f shaper sample_rate limit l :
  (∀ i, (i < 511)%nat → shaper (point i) = Some (f (point i))) → sample_rate ≠ 0%nat → Forall (wblock_ok sample_rate limit) l →
  ∃ outs, wsession (new_waveshaper shaper sample_rate limit) l = Ok outs ∧ Forall2 (waved (shaped_by f)) l outs.
Proof. exact (session_waved f shaper sample_rate limit l). Qed.
Print Assumptions C44_session.
Example C44_session_case : wblock_ok 1 1 nan_block ∧ ∀ i, (i < 511)%nat → tanh_curve (point i) = Some (2 * tanh (point i / 2)).
Proof. split; [exact nan_block_ok|done]. Qed.
Theorem C44_bounded f M b out' sample_rate limit : wblock_ok sample_rate limit b →
  (∀ i, (i < 511)%nat → Rabs (f (point i)) <= M) → waved (shaped_by f) b out' →
  written (wb_out b) (wb_ov b) out' (λ ch fr _ z, ∃ x m y,
    seen (wb_in b) (wb_iv b) ch fr = Some x ∧ wb_mix b !! fr = Some m ∧ z = Some y ∧ Rabs y <= m * M + (1 - m) * Rabs x).
Proof. exact (waved_bounded f M b out' sample_rate limit). Qed.
Print Assumptions C44_bounded.
Example C44_bounded_case : ∀ i, (i < 511)%nat → Rabs (hard_clip (/ 2) (point i)) <= / 2.
Proof. intros i _. apply hard_bounded. lra. Qed.
Theorem C44_dry f b out' : waved (shaped_by f) b out' →
  written (wb_out b) (wb_ov b) out' (λ ch fr _ z, wb_mix b !! fr = Some 0 → z = seen (wb_in b) (wb_iv b) ch fr).
Proof. exact (waved_dry f b out'). Qed.
Print Assumptions C44_dry.
Theorem C44_odd table x y : table ≠ [] → odd_table table → shaped table x y → shaped table (- x) (- y).
Proof. exact (shaped_odd table x y). Qed.
Print Assumptions C44_odd.
Theorem C44_monotone table x x' y y' : table ≠ [] → rising_table table → x <= x' → shaped table x y → shaped table x' y' → y <= y'.
Proof. exact (shaped_rising table x x' y y'). Qed.
Print Assumptions C44_monotone.
Example C44_odd_monotone_case : odd_table (curve_table (λ x, 2 * tanh (x / 2))) ∧ rising_table (curve_table (λ x, 2 * tanh (x / 2))).
Proof. exact tanh_odd_rising. Qed.
(** A soft saturator with its threshold at 0 dB, which the constructor accepts, has NaN as its
    last table entry (0/0): a full-scale sample becomes NaN even with mix 0. *)
Theorem C44_nan_refuted : wblock_ok 1 1 nan_block ∧
  ∃ outs out', wsession (new_waveshaper (soft_curve 1) 1 1) [nan_block] = Ok outs ∧ outs !! 0%nat = Some out' ∧ seen out' Whole 0 0 = Some None.
Proof. exact (conj nan_block_ok soft_nan). Qed.
Print Assumptions C44_nan_refuted.
(** A block without frames aborts. *)
Theorem C44_empty_block_refuted : wsession (new_waveshaper tanh_curve 1 1) [empty_block] = Panic IndexOutOfRange.
Proof. reflexivity. Qed.
Print Assumptions C44_empty_block_refuted.

(** ** C75: the curves of the constructors.  1/255 is the distance of the table's points. *)
Theorem C75_tanh x y : shaped_by (λ x, 2 * tanh (x / 2)) x (Some y) → Rabs (y - 2 * tanh (clamped x / 2)) <= 1 / 255.
Proof. intros (r & [= <-] & H). exact (shaped_near (λ x, 2 * tanh (x / 2)) 1 x y (λ u v _ _, tanh_lipschitz u v) H). Qed.
Print Assumptions C75_tanh.
Theorem C75_soft threshold x y : 0 <= threshold < 1 →
  (∀ i, soft_curve threshold (point i) = Some (soft_clip threshold (point i))) ∧
  (shaped_by (soft_clip threshold) x (Some y) → Rabs (y - soft_clip threshold (clamped x)) <= 1 / 255).
Proof.
  intros Ht. split; [intros i; apply soft_curve_clip; lra|].
  intros (r & [= <-] & H). exact (shaped_near (soft_clip threshold) 1 x y (λ u v Hu Hv, soft_lipschitz threshold u v Ht Hu Hv) H).
Qed.
Print Assumptions C75_soft.
(** Hard clipping never exceeds its threshold and is exact below it. *)
Theorem C75_hard threshold x y : 0 <= threshold →
  (∀ i, hard_curve threshold (point i) = Some (hard_clip threshold (point i))) ∧
  (shaped_by (hard_clip threshold) x (Some y) → Rabs y <= threshold ∧
    Rabs (y - hard_clip threshold (clamped x)) <= 1 / 255 ∧
    (Rabs x <= 1 → Rabs x <= threshold - 1 / 255 → y = x)).
Proof. exact (hard_laws threshold x y). Qed.
Print Assumptions C75_hard.
Example C75_hard_case : ∃ y, shaped_by (hard_clip (/ 2)) (/ 4) (Some y) ∧ y = / 4.
Proof.
  destruct (shaped_ok (curve_table (hard_clip (/ 2))) (/ 4)) as (y & _ & H); [rewrite curve_length; lia|]. exists y.
  assert (S : shaped_by (hard_clip (/ 2)) (/ 4) (Some y)) by (by exists y). split; [done|].
  apply (proj2 (C75_hard (/ 2) (/ 4) y ltac:(lra))); [done| |]; rewrite Rabs_right by lra; lra.
Qed.
(** The table ends at 1: a clipper with its threshold at 2 (+6 dB) clips at 1. *)
Theorem C75_refuted : shaped_by (hard_clip 2) (3 / 2) (Some 1) ∧ hard_clip 2 (3 / 2) = 3 / 2.
Proof. exact loud_refuted. Qed.
Print Assumptions C75_refuted.
