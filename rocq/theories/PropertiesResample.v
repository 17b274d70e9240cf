(** Properties of sample-rate conversion (C57). *)
From stdpp Require Import list list_numbers.
From Coq Require Import Reals Lra ZArith Lia.
From Verif Require Import Base Buffer BufferSpec BufferProofs EffectSpec Float Arith Resample ResampleSpec ResampleProofs ResampleFloat ResampleCases.

(** With exact arithmetic: each frame written is the linear interpolation of the source at
    the time of the frame; the other samples stay. *)
Theorem C57_interpolates (dst : owned R) dv src sv sc sf dc df cc : fitting dst dv src sv sc sf dc df cc → rate dst ≠ 0 →
  ∃ dst', sample_rate_convert_from exact dst dv src sv sc sf dc df cc = Ok dst' ∧
    written dst dv dst' (λ ch fr x y, if decide (dc ≤ ch < dc + cc ∧ df ≤ fr)
      then linear (row_from 0%R src sv (sc + (ch - dc)) sf) (INR (fr - df) * (INR (rate src) / INR (rate dst))) y else y = x).
Proof. exact (convert_linear dst dv src sv sc sf dc df cc). Qed.
Print Assumptions C57_interpolates.
Theorem C57_range (source : list R) t y lo hi : source ≠ [] → Forall (λ x, lo <= x <= hi)%R source → linear source t y → (lo <= y <= hi)%R.
Proof. exact (linear_range source t y lo hi). Qed.
Print Assumptions C57_range.
Theorem C57_equal_rates (dst : owned R) dv src sv sc sf dc df cc : fitting dst dv src sv sc sf dc df cc → rate dst ≠ 0 → rate src = rate dst →
  ∃ dst', sample_rate_convert_from exact dst dv src sv sc sf dc df cc = Ok dst' ∧
    written dst dv dst' (λ ch fr x y, dc ≤ ch < dc + cc → df ≤ fr → sf + (fr - df) < v_frames src sv →
      seen src sv (sc + (ch - dc)) (sf + (fr - df)) = Some y).
Proof. exact (convert_equal dst dv src sv sc sf dc df cc). Qed.
Print Assumptions C57_equal_rates.
(** halving the rate takes every second sample; doubling it puts the mean of neighbours in between *)
Example C57_case :
  let src := Owned [0; 1; 4]%R 1 3 2 in
  fitting (Owned [7; 7; 7; 7; 7; 7]%R 1 6 4) Whole src Whole 0 0 0 0 1 ∧
  linear (row_from 0%R src Whole 0 0) (INR 3 * (INR 2 / INR 4)) (5 / 2) ∧
  linear (row_from 0%R src Whole 0 0) (INR 9 * (INR 2 / INR 4)) 4.
Proof.
  cbn zeta. split; [unfold fitting, wf, valid_view; cbn; lia|].
  change (row_from _ _ _ _ _) with [0; 1; 4]%R. split.
  - exists 1. change (signal _ 1) with 1%R. change (signal _ 2) with 4%R. rewrite !INR_IZR_INZ. repeat match goal with |- context [Z.of_nat ?n] => let z := eval compute in (Z.of_nat n) in change (Z.of_nat n) with z end. lra.
  - exists 4. change (signal _ 4) with 4%R. change (signal _ 5) with 4%R. rewrite !INR_IZR_INZ. repeat match goal with |- context [Z.of_nat ?n] => let z := eval compute in (Z.of_nat n) in change (Z.of_nat n) with z end. lra.
Qed.

(** In binary32, equal rates copy the first 2^24 + 1 frames. *)
Theorem C57_equal_rates_f32_partial (dst : owned Z) dv src sv sc sf dc df cc :
  fitting dst dv src sv sc sf dc df cc → rate dst ≠ 0 → rate src = rate dst → Forall is_f32 (data src) →
  ∃ dst', sample_rate_convert_from binary32 dst dv src sv sc sf dc df cc = Ok dst' ∧
    written dst dv dst' (λ ch fr x y, dc ≤ ch < dc + cc → df ≤ fr → sf + (fr - df) < v_frames src sv → (Z.of_nat (fr - df) <= 2 ^ 24)%Z →
      seen src sv (sc + (ch - dc)) (sf + (fr - df)) = Some y).
Proof. exact (convert_equal32 dst dv src sv sc sf dc df cc). Qed.
Print Assumptions C57_equal_rates_f32_partial.
Example C57_equal_rates_f32_case n : fitting (step_dst n) Whole (step_src n) Whole 0 0 0 0 1 ∧ Forall is_f32 (data (step_src n)).
Proof. exact (conj (step_fitting n) (step_f32 n)). Qed.

(** But the index of a frame is rounded to 24 bits: at equal rates frame 2^24 + 1 gets frame
    2^24 of the source (after 5 minutes 50 seconds at 48 kHz), here silence instead of full scale. *)
Theorem C57_equal_rates_refuted : let n := Z.to_nat (2 ^ 24 + 1) in
  fitting (step_dst n) Whole (step_src n) Whole 0 0 0 0 1 ∧ rate (step_dst n) = rate (step_src n) ∧
  ∃ dst', sample_rate_convert_from binary32 (step_dst n) Whole (step_src n) Whole 0 0 0 0 1 = Ok dst' ∧
    seen (step_src n) Whole 0 n = Some one32 ∧ seen dst' Whole 0 n = Some 0%Z.
Proof. exact (step_refuted (Z.to_nat (2 ^ 24 + 1)) late_lost_at). Qed.
Print Assumptions C57_equal_rates_refuted.
(** And rounding leaves the range of the source: a constant of 0.1 converted from 44.1 kHz to 48 kHz. *)
Theorem C57_range_refuted : let tenth := f32_div (f32_of_Z 1) (f32_of_Z 10) in
  let src := Owned (replicate 3 tenth) 1 3 (Z.to_nat 44100) in
  let dst := Owned (replicate 3 0%Z) 1 3 (Z.to_nat 48000) in
  fitting dst Whole src Whole 0 0 0 0 1 ∧ Forall (λ x, x <= tenth)%Z (data src) ∧
  ∃ dst' y, sample_rate_convert_from binary32 dst Whole src Whole 0 0 0 0 1 = Ok dst' ∧ seen dst' Whole 0 2 = Some y ∧ (tenth < y)%Z.
Proof. exact tenth_range. Qed.
Print Assumptions C57_range_refuted.
(** An empty source aborts. *)
Theorem C57_empty_refuted : let src := Owned ([] : list R) 1 0 2 in let dst := Owned [7]%R 1 1 2 in
  wf src ∧ wf dst ∧ sample_rate_convert_from exact dst Whole src Whole 0 0 0 0 1 = Panic IndexOutOfRange.
Proof. done. Qed.
Print Assumptions C57_empty_refuted.
