(** The oscillator: src/effects/oscillator/oscillator_processor.rs. *)
From stdpp Require Import list.
From Coq Require Import ZArith.
From Verif Require Import Base Buffer BufferSpec Arith.

Section phase.
  Context {N : Type} (a : arith N).

  (** l.20-22 *)
  Fixpoint wrap_phase (fuel : nat) (phase : N) : res N :=
    if a_ltb a (a_one a) phase then
      match fuel with O => Panic OutOfFuel | S fuel => wrap_phase fuel (a_sub a phase (a_one a)) end
    else Ok phase.
  (** l.18-23 *)
  Definition increment_phase (fuel : nat) (phase frequency : N) (sample_rate : Z) : res N :=
    wrap_phase fuel (a_add a phase (a_div a frequency (a_of a sample_rate))).
  (** l.43-45 *)
  Definition interpolate (x y amount_of_y : N) : N :=
    a_add a (a_mul a (a_sub a (a_one a) amount_of_y) x) (a_mul a amount_of_y y).
  (** l.25-40; `as usize` maps negative numbers to 0 *)
  Definition table_value (wavetable : list N) (phase : N) : res N :=
    let offset := a_mul a phase (a_of a (Z.of_nat (length wavetable))) in
    let offset_before := Z.to_nat (a_floor a offset) in
    let offset_after := Z.to_nat (a_ceil a offset) in
    let? value_before := runwrap (wavetable !! offset_before) IndexOutOfRange in
    let value_after := default (a_zero a) (wavetable !! offset_after) in
    Ok (interpolate value_before value_after (a_sub a offset (a_of a (a_floor a offset)))).

  (** l.63-66: the samples for a list of frequencies, and the phase they end with *)
  Fixpoint osc_samples (fuel : nat) (sample_rate : Z) (wavetable : list N) (phase : N) (frequencies : list N) : res (N * list N) :=
    match frequencies with
    | [] => Ok (phase, [])
    | f :: frequencies =>
        let? phase := increment_phase fuel phase f sample_rate in
        let? y := table_value wavetable phase in
        let? (phase', ys) := osc_samples fuel sample_rate wavetable phase frequencies in
        Ok (phase', y :: ys)
    end.
End phase.

(** duplicate_channel of a slice: mutable_borrowed_audio_buffer.rs l.89-97 adds the
    offsets of the slice *)
Definition duplicate_channel_in {A} (b : owned A) (v : view) (ch fr to_ch n : nat) : res (owned A) :=
  duplicate_channel b (ch + off_ch v) (fr + off_fr v) (to_ch + off_ch v) n.

(** l.47-79.  [frequencies] and [gains] are the parameter values of the block, [wide] and
    [narrow] the conversions from and to f32, [is_zero] and [is_one] the tests of
    apply_gain. *)
Section process.
  Context {N A : Type} (a : arith N) (wide : A → N) (narrow : N → A).
  Context (zero : A) (is_zero is_one : A → bool) (mul : A → A → A).

  Definition osc_process (fuel : nat) (wavetable : list N) (phase : N) (frequencies gains : list A) (out : owned A) (ov : view) :
      res (N * owned A) :=
    let? (st, en) := locate out ov 0 0 in
    let? (phase', row) := osc_samples a fuel (Z.of_nat (rate out)) wavetable phase (wide <$> take (en - st) frequencies) in
    let out1 := with_data out (seg_zip (λ y _, y) (data out) st (narrow <$> row)) in
    let? out2 := apply_gain zero is_zero is_one mul out1 ov gains in
    let? out3 := rfold (λ b ch, duplicate_channel_in b ov 0 0 ch (v_frames b ov)) (seq 1 (v_channels out ov - 1)) out2 in
    Ok (phase', out3).
End process.
