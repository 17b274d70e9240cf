(** What the filter node does to a tone. *)
From stdpp Require Import list.
From Coq Require Import Reals Lra.
From Verif Require Import Base Buffer BufferSpec Biquad BiquadSpec BiquadProofs BiquadCases PropertiesBiquad FilterSpec.
Local Open Scope R_scope.

Lemma nominal_ok (t : filter_type) (sample_rate : nat) (f q s w : R) : audible f (INR sample_rate) → 0 < q → 0 < s → 0 <= w < PI →
  ∃ theta, responds (calculate_coefficients t (FilterParameters f q s) sample_rate) w (nominal_gain t q s (detuning w f (INR sample_rate))) theta.
Proof.
  intros Ha Hq Hs Hw. destruct t; cbn [calculate_coefficients p_frequency p_q p_shelf_gain nominal_gain].
  - by apply (C48_high_pass f (INR sample_rate) q).
  - by apply (C48_low_pass f (INR sample_rate) q).
  - by apply (C48_band_pass f (INR sample_rate) q).
  - by apply (C48_notch f (INR sample_rate) q).
  - by apply (C48_high_shelf f (INR sample_rate) s).
  - by apply (C48_low_shelf f (INR sample_rate) s).
Qed.

Lemma node_tone (t : filter_type) (sample_rate : nat) (f q s w : R) : audible f (INR sample_rate) → 0 < q → 0 < s → 0 <= w < PI →
  ∃ theta C r K, 0 <= r < 1 ∧ ∀ n l A phi, Forall (qblock_ok n) l → unchanging f q s l →
    (∀ ch i, (ch < n)%nat → (i < played l)%nat → at_ (received l ch) i = A * cos (w * INR i + phi)) →
    ∃ outs y, qsession (new_biquad sample_rate n t) l = Ok outs ∧ sounds y l outs ∧
      ∀ ch i, (ch < n)%nat → (i < played l)%nat →
        Rabs (at_ (y ch) i - nominal_gain t q s (detuning w f (INR sample_rate)) * A * cos (w * INR i + phi + theta)) <= C * Rabs A * r ^ i + K.
Proof.
  intros Ha Hq Hs Hw. destruct (nominal_ok t sample_rate f q s w Ha Hq Hs Hw) as [theta H]. exists theta. exact (C48_tone _ _ _ _ _ _ _ _ H).
Qed.
