(** Automations in a network: what a node does whose parameters a program automates. *)
From stdpp Require Import gmap list list_numbers strings.
From Coq Require Import ZArith Reals.
From Verif Require Import Base Graph Buffer BufferSpec DspGraph DspGraphSpec Float Timestamp Processor ProcessorSpec
  AudioParam AudioParamR Mixer MixerR MixerSpec ResampleSpec Biquad BiquadSpec Convolution ConvolutionSpec OscillatorSpec
  Node NodeSpec Chain ChainSpec Effects EffectsSpec StreamSpec AutomationSpec.
Local Open Scope R_scope.

(** the calls of the program [os] on parameter [name] of node [n] ask, in any order, for the moves [l] from the value [v]; no call: [l] is empty *)
Definition asks_for (q : Z) (on : bool) (pos : nat) (os : list (nop R R effect)) (n : id) (name : string) (v : R) (l : list move) : Prop :=
  in_turn l ∧ all_fit v l ∧ ∃ calls, calls_ask q n name on pos os calls ∧ calls ≡ₚ l.

(** The node makes [y] of [x]: [frames] frames from frame [pos] on; [asks name v l]: the parameter [name], at first [v], is asked to move along [l]. *)
Definition follows_automation (sr pos frames : nat) (asks : string → R → list move → Prop) (d : device) (x y : stream R) : Prop :=
  match d with
  | DGain cc gain => ∀ l, asks "gain" gain l → ∀ ch i, (ch < cc)%nat → (i < frames)%nat →
      Rabs (at_ (y ch) i - at_ (x ch) i * automation gain l (pos + i)) <= / 2 ^ 22 * Rabs (at_ (x ch) i)
  | DPan pan => ∀ l, asks "pan" pan l → ∀ i, (i < frames)%nat →
      let p := automation pan l (pos + i) in
      at_ (y 0%nat) i = at_ (x 0%nat) i * (if Rle_dec p 0 then 1 else 1 - p) ∧
      at_ (y 1%nat) i = at_ (x 1%nat) i * (if Rle_dec 0 p then 1 else 1 + p)
  | DBiquad cc t frequency q shelf_gain gain => ∀ lf lq ls lg,
      asks "frequency" frequency lf → asks "q" q lq → asks "shelf-gain" shelf_gain ls → asks "gain" gain lg →
      ∀ ch, (ch < cc)%nat → ∃ v,
        follows (/ 10 ^ 8) ((λ k, calculate_coefficients t (FilterParameters (automation frequency lf k) (automation q lq k) (automation shelf_gain ls k)) sr) <$> seq pos frames)
          (x ch) v ∧
        ∀ i, (i < frames)%nat → Rabs (at_ (y ch) i - at_ v i * automation gain lg (pos + i)) <= / 2 ^ 22 * Rabs (at_ v i)
  | DConvolution impulse _ wet dry => ∀ lw ld, asks "wet" wet lw → asks "dry" dry ld →
      ∀ ch i, (ch < channels impulse)%nat → (i < frames)%nat →
        at_ (y ch) i = at_ (x ch) i * automation dry ld (pos + i) + automation wet lw (pos + i) * convolved_at (row_from 0 impulse Whole ch 0) (x ch) i
  | DOscillator outputs fuel wavetable frequency gain => ∀ lf lg, asks "frequency" frequency lf → asks "gain" gain lg →
      let fs := automation frequency lf <$> seq pos frames in
      Forall (λ f, 0 < f <= INR fuel * INR sr) fs →
      ∀ ch i, (ch < outputs)%nat → (i < frames)%nat →
        let v := wave wavetable (cycles sr (take (S i) fs)) in Rabs (at_ (y ch) i - v * automation gain lg (pos + i)) <= / 2 ^ 22 * Rabs v
  | _ => True
  end.
