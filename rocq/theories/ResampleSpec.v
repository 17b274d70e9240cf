(** What sample-rate conversion computes. *)
From stdpp Require Import list.
From Coq Require Import Reals ZArith.
From Verif Require Import Base Buffer BufferSpec Float EffectSpec Arith Resample.
Local Open Scope R_scope.

(** A sequence of samples as a signal in continuous time: linear between samples, and
    constant after the last one. *)
Definition signal (source : list R) (n : nat) : R := default 0 (source !! (n `min` (length source - 1))%nat).
Definition linear (source : list R) (t : R) (y : R) : Prop :=
  ∃ n, INR n <= t < INR n + 1 ∧ y = signal source n + (t - INR n) * (signal source (S n) - signal source n).

(** the samples a conversion reads: a channel of a slice from a frame on *)
Definition row_from {N} (zero : N) (b : owned N) (v : view) (ch fr : nat) : list N :=
  (λ i, default zero (seen b v ch (fr + i))) <$> seq 0 (v_frames b v - fr).

(** binary32 numbers, in units of 2^-149 *)
Definition is_f32 (x : Z) : Prop := ∃ m e, (0 ≤ e ∧ x = m * 2 ^ e ∧ Z.abs m ≤ 2 ^ 24)%Z.
(** the rectangles of a conversion lie inside the slices, and the source is not empty *)
Definition fitting {N} (dst : owned N) (dv : view) (src : owned N) (sv : view) (sc sf dc df cc : nat) : Prop :=
  (wf dst ∧ valid_view dst dv ∧ wf src ∧ valid_view src sv ∧
  sc + cc ≤ v_channels src sv ∧ dc + cc ≤ v_channels dst dv ∧ sf < v_frames src sv ∧ df ≤ v_frames dst dv)%nat.

(** silence of n frames, then one sample of full scale; and room for it *)
Definition step_src (n : nat) : owned Z := Owned (replicate n 0%Z ++ [one32]) 1 (S n) 1.
Definition step_dst (n : nat) : owned Z := new_buffer 0%Z (S n) 1 1.
