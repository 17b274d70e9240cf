(** What the oscillator should play. *)
From stdpp Require Import list.
From Coq Require Import Reals ZArith.
From Verif Require Import Base Buffer BufferSpec EffectSpec Arith Oscillator MixerR.

(** the phase after a list of frequencies, without reading the table *)
Definition phase_after {N} (a : arith N) (fuel : nat) (rate : Z) (phase : N) (frequencies : list N) : res N :=
  rfold (λ p f, increment_phase a fuel p f rate) frequencies phase.

(** binary64 numbers, in units of 2^-1074 *)
Definition is_f64 (x : Z) : Prop := ∃ m e, (0 ≤ e ∧ x = m * 2 ^ e ∧ Z.abs m ≤ 2 ^ 53)%Z.
(** non-negative frequencies up to [limit] Hz *)
Definition frequencies_ok (limit : Z) (frequencies : list Z) : Prop :=
  Forall (λ f, is_f64 f ∧ 0 ≤ f ≤ limit * Float.one64)%Z frequencies.
Definition total (l : list Z) : Z := foldr Z.add 0%Z l.

Section wave.
Local Open Scope R_scope.
Definition frac (x : R) : R := x - IZR (Int_part x).
(** entry [k] of the table repeated for ever *)
Definition entry (wavetable : list R) (k : nat) : R := nth (k mod length wavetable) wavetable 0.
(** the waveform [x] cycles after its start: the table stretched over one cycle, linearly
    interpolated, repeated *)
Definition wave (wavetable : list R) (x : R) : R :=
  let position := frac x * INR (length wavetable) in
  let k := Z.to_nat (Int_part position) in
  let w := frac position in
  (1 - w) * entry wavetable k + w * entry wavetable (S k).
(** cycles completed by a list of frequencies, one per sample *)
Definition cycles (rate : nat) (frequencies : list R) : R := foldr Rplus 0 frequencies / INR rate.

(** Blocks of a session: frequency and gain values, output slice *)
Record osc_block := OscBlock { ob_freq : list R; ob_gain : list R; ob_out : owned R; ob_view : view }.
Definition osc_process_R (fuel : nat) (wavetable : list R) (phase : R) (frequencies gains : list R) (out : owned R) (ov : view) :=
  osc_process exact (λ x, x) (λ x, x) 0 (λ g, close32R g 0) (λ g, close32R g 1) Rmult fuel wavetable phase frequencies gains out ov.
Definition osc_step (fuel : nat) (wavetable : list R) (s : R * list (owned R)) (b : osc_block) : res (R * list (owned R)) :=
  let? (phase, out) := osc_process_R fuel wavetable s.1 (ob_freq b) (ob_gain b) (ob_out b) (ob_view b) in
  Ok (phase, s.2 ++ [out]).
Definition osc_block_ok (rate_ : nat) (limit : R) (b : osc_block) : Prop :=
  wf (ob_out b) ∧ valid_view (ob_out b) (ob_view b) ∧ rate (ob_out b) = rate_ ∧ (0 < v_channels (ob_out b) (ob_view b))%nat ∧
  length (ob_freq b) = v_frames (ob_out b) (ob_view b) ∧ length (ob_gain b) = v_frames (ob_out b) (ob_view b) ∧
  Forall (λ f, 0 < f <= limit * INR rate_) (ob_freq b).
(** all channels of a block show the waveform times the gain *)
Definition plays (wavetable : list R) (rate_ : nat) (before : list R) (b : osc_block) (out' : owned R) : Prop :=
  written (ob_out b) (ob_view b) out' (λ ch fr _ y, ∃ g, ob_gain b !! fr = Some g ∧
    let v := wave wavetable (cycles rate_ (before ++ take (S fr) (ob_freq b))) in
    Rabs (y - v * g) <= / 2 ^ 22 * Rabs v).
Fixpoint plays_all (wavetable : list R) (rate_ : nat) (before : list R) (bs : list osc_block) (outs : list (owned R)) : Prop :=
  match bs, outs with
  | [], [] => True
  | b :: bs, out :: outs => plays wavetable rate_ before b out ∧ plays_all wavetable rate_ (before ++ ob_freq b) bs outs
  | _, _ => False
  end.
(** no sample falls on a whole number of cycles *)
Definition never_whole (rate_ : nat) (frequencies : list R) : Prop :=
  ∀ n, (0 < n ≤ length frequencies)%nat → ∀ k : Z, cycles rate_ (take n frequencies) ≠ IZR k.
End wave.
