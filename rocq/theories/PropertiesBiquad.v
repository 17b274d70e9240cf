(** Biquad filters (C48, C77, C78) and the parameters of nodes (C79). *)
From stdpp Require Import list strings.
From Coq Require Import Reals Lra Lia.
From Verif Require Import Base Buffer BufferSpec EffectSpec Biquad BiquadSpec BiquadFilters BiquadProofs BiquadCases NodeParameters NodeParametersProofs.
Local Open Scope R_scope.

(** ** C78: the node computes the difference equation of its filter *)
(** For every sequence of blocks, whatever their sizes and however the parameters move:
    nothing panics, every channel's output follows the difference equation whose
    coefficients at each frame are those of the parameters at that frame (with nothing
    lost at the block boundaries, and samples up to 10^-8 forgotten), and the blocks sound like that
    output with the gains applied. *)
Theorem C78_session (t : filter_type) (sample_rate n : nat) (l : list qblock) :
  Forall (qblock_ok n) l →
  ∃ outs y, qsession (new_biquad sample_rate n t) l = Ok outs ∧
    (∀ ch, (ch < n)%nat → follows (/ 10 ^ 8) (settings t sample_rate l) (received l ch) (y ch)) ∧
    sounds y l outs.
Proof. exact (session_ok t sample_rate n l). Qed.
Print Assumptions C78_session.
Example C78_session_inhabited : Forall (qblock_ok 1)
  [click [1000; 2000; 3000] [1; 1; 2] [1; 1; 1] 2 (Z.to_nat 48000); click [4000; 4000] [1; 1] [0; 1] 1 (Z.to_nat 48000)].
Proof. repeat (constructor; [by apply click_ok|]). constructor. Qed.

(** ** C48: the filters are stable and have the responses their names promise *)
(** With unchanging parameters, stability of the coefficients bounds the node's output by a
    multiple of the input, and a response says what becomes of a sinusoid. *)
Theorem C48_bounded (t : filter_type) (sample_rate : nat) (f q s : R) :
  is_stable (calculate_coefficients t (FilterParameters f q s) sample_rate) →
  ∃ K, ∀ n l M, Forall (qblock_ok n) l → unchanging f q s l → 0 <= M → (∀ ch i, (ch < n)%nat → Rabs (at_ (received l ch) i) <= M) →
    ∃ outs y, qsession (new_biquad sample_rate n t) l = Ok outs ∧ sounds y l outs ∧ ∀ ch i, (ch < n)%nat → Rabs (at_ (y ch) i) <= K * (M + / 10 ^ 8).
Proof. exact (bounded_ok t sample_rate f q s). Qed.
Print Assumptions C48_bounded.
Theorem C48_tone (t : filter_type) (sample_rate : nat) (f q s w g theta : R) :
  responds (calculate_coefficients t (FilterParameters f q s) sample_rate) w g theta →
  ∃ C r K, 0 <= r < 1 ∧ ∀ n l A phi, Forall (qblock_ok n) l → unchanging f q s l →
    (∀ ch i, (ch < n)%nat → (i < played l)%nat → at_ (received l ch) i = A * cos (w * INR i + phi)) →
    ∃ outs y, qsession (new_biquad sample_rate n t) l = Ok outs ∧ sounds y l outs ∧
      ∀ ch i, (ch < n)%nat → (i < played l)%nat → Rabs (at_ (y ch) i - g * A * cos (w * INR i + phi + theta)) <= C * Rabs A * r ^ i + K.
Proof. exact (tone_ok t sample_rate f q s w g theta). Qed.
Print Assumptions C48_tone.

(** The low-pass filter: a constant passes unchanged, the Nyquist frequency is removed, the
    centre frequency comes out with q times the amplitude and a quarter period late, and in
    between the amplitude is that of a second-order Butterworth-style low pass. *)
Theorem C48_low_pass (f sample_rate q : R) : audible f sample_rate → 0 < q →
  is_stable (low_pass f sample_rate q) ∧
  responds (low_pass f sample_rate q) 0 1 0 ∧ responds (low_pass f sample_rate q) PI 0 0 ∧
  responds (low_pass f sample_rate q) (omega f sample_rate) q (- (PI / 2)) ∧
  ∀ w, 0 <= w < PI → let t := detuning w f sample_rate in
    ∃ theta, responds (low_pass f sample_rate q) w (sqrt (1 / ((1 - t) ^ 2 + t / q ^ 2))) theta.
Proof.
  intros Ha Hq. split; [by apply low_stable|]. split; [by apply low_dc|]. split; [by apply low_nyquist|]. split; [by apply low_centre|].
  intros w Hw. by apply low_curve.
Qed.
Print Assumptions C48_low_pass.
Theorem C48_high_pass (f sample_rate q : R) : audible f sample_rate → 0 < q →
  is_stable (high_pass f sample_rate q) ∧
  responds (high_pass f sample_rate q) 0 0 0 ∧ responds (high_pass f sample_rate q) PI 1 0 ∧
  responds (high_pass f sample_rate q) (omega f sample_rate) q (PI / 2) ∧
  ∀ w, 0 <= w < PI → let t := detuning w f sample_rate in
    ∃ theta, responds (high_pass f sample_rate q) w (sqrt (t ^ 2 / ((1 - t) ^ 2 + t / q ^ 2))) theta.
Proof.
  intros Ha Hq. split; [by apply high_stable|]. split; [by apply high_dc|]. split; [by apply high_nyquist|]. split; [by apply high_centre|].
  intros w Hw. by apply high_curve.
Qed.
Print Assumptions C48_high_pass.
Theorem C48_band_pass (f sample_rate q : R) : audible f sample_rate → 0 < q →
  is_stable (band_pass f sample_rate q) ∧
  responds (band_pass f sample_rate q) 0 0 0 ∧ responds (band_pass f sample_rate q) PI 0 0 ∧
  responds (band_pass f sample_rate q) (omega f sample_rate) 1 0 ∧
  ∀ w, 0 <= w < PI → let t := detuning w f sample_rate in
    ∃ theta, responds (band_pass f sample_rate q) w (sqrt (t / q ^ 2 / ((1 - t) ^ 2 + t / q ^ 2))) theta.
Proof.
  intros Ha Hq. split; [by apply band_stable|]. split; [by apply band_dc|]. split; [by apply band_nyquist|]. split; [by apply band_centre|].
  intros w Hw. by apply band_curve.
Qed.
Print Assumptions C48_band_pass.
Theorem C48_notch (f sample_rate q : R) : audible f sample_rate → 0 < q →
  is_stable (notch f sample_rate q) ∧
  responds (notch f sample_rate q) 0 1 0 ∧ responds (notch f sample_rate q) PI 1 0 ∧
  responds (notch f sample_rate q) (omega f sample_rate) 0 0 ∧
  ∀ w, 0 <= w < PI → let t := detuning w f sample_rate in
    ∃ theta, responds (notch f sample_rate q) w (sqrt ((1 - t) ^ 2 / ((1 - t) ^ 2 + t / q ^ 2))) theta.
Proof.
  intros Ha Hq. split; [by apply notch_stable|]. split; [by apply notch_dc|]. split; [by apply notch_nyquist|]. split; [by apply notch_centre|].
  intros w Hw. by apply notch_curve.
Qed.
Print Assumptions C48_notch.
(** The shelves multiply one end of the spectrum by the shelf's gain, and leave the other. *)
Theorem C48_low_shelf (f sample_rate G : R) : audible f sample_rate → 0 < G →
  is_stable (low_shelf f sample_rate G) ∧
  responds (low_shelf f sample_rate G) 0 G 0 ∧ responds (low_shelf f sample_rate G) PI 1 0 ∧
  ∀ w, 0 <= w < PI → let t := detuning w f sample_rate in
    ∃ theta, responds (low_shelf f sample_rate G) w (sqrt (G * (G + t ^ 2) / (1 + G * t ^ 2))) theta.
Proof.
  intros Ha Hq. split; [by apply low_shelf_stable|]. split; [by apply low_shelf_dc|]. split; [by apply low_shelf_nyquist|].
  intros w Hw. by apply low_shelf_curve.
Qed.
Print Assumptions C48_low_shelf.
Theorem C48_high_shelf (f sample_rate G : R) : audible f sample_rate → 0 < G →
  is_stable (high_shelf f sample_rate G) ∧
  responds (high_shelf f sample_rate G) 0 1 0 ∧ responds (high_shelf f sample_rate G) PI G 0 ∧
  ∀ w, 0 <= w < PI → let t := detuning w f sample_rate in
    ∃ theta, responds (high_shelf f sample_rate G) w (sqrt (G * (1 + G * t ^ 2) / (G + t ^ 2))) theta.
Proof.
  intros Ha Hq. split; [by apply high_shelf_stable|]. split; [by apply high_shelf_dc|]. split; [by apply high_shelf_nyquist|].
  intros w Hw. by apply high_shelf_curve.
Qed.
Print Assumptions C48_high_shelf.
(** the default settings of the node at 48 kHz *)
Example C48_inhabited : audible 1000 48000 ∧ 0 < 1 / sqrt 2.
Proof. split; [unfold audible; lra|]. apply Rdiv_lt_0_compat; [lra|]. apply sqrt_lt_R0. lra. Qed.
Example C48_blocks_inhabited : let l := [click (replicate 2 1000) (replicate 2 1) (replicate 2 1) 1 (Z.to_nat 48000)] in Forall (qblock_ok 1) l ∧ unchanging 1000 1 1 l.
Proof. split; [constructor; [by apply click_ok|constructor]|]. repeat constructor. Qed.

(** ** C77: every accepted setting is stable *)
(** REFUTED.  The frequency may be set up to 20 kHz whatever the sample rate: at 24 kHz, a
    low-pass filter at 18 kHz answers one sample of full scale with output beyond any bound. *)
Theorem C77_high_frequency_refuted (M : R) :
  ∃ n k out z, let b := click (replicate (S n) 18000) (replicate (S n) 1) (replicate (S n) 1) n (Z.to_nat 24000) in
    qblock_ok 1 b ∧ accepted b ∧ qsession (new_biquad (Z.to_nat 24000) 1 LowPass) [b] = Ok [out] ∧ seen out Whole 0 k = Some z ∧ M < Rabs z.
Proof. exact (high_frequency_unstable M). Qed.
Print Assumptions C77_high_frequency_refuted.
(** REFUTED.  A shelf gain of 0, the lowest accepted: what the filter holds when the gain
    becomes 0 grows beyond any bound while the input is silent. *)
Theorem C77_zero_shelf_refuted (M : R) :
  ∃ n k out z, let b := click (replicate (S n) 1000) (replicate (S n) 1) (1 :: replicate n 0) n (Z.to_nat 48000) in
    qblock_ok 1 b ∧ accepted b ∧ qsession (new_biquad (Z.to_nat 48000) 1 LowShelf) [b] = Ok [out] ∧ seen out Whole 0 k = Some z ∧ M < Rabs z.
Proof. exact (zero_shelf_unstable M). Qed.
Print Assumptions C77_zero_shelf_refuted.
(** What holds: accepted settings with the frequency below half the sample rate, and a
    positive gain for a shelf. *)
Theorem C77_partial (t : filter_type) (sample_rate : nat) (f q s : R) :
  20 <= f <= 20000 → / 10 <= q <= 10 → 0 <= s <= 10 ^ 5 →
  f < INR sample_rate / 2 → (t = LowShelf ∨ t = HighShelf → s ≠ 0) →
  is_stable (calculate_coefficients t (FilterParameters f q s) sample_rate).
Proof.
  intros Hf Hq Hs Hsr Hne. assert (Ha : audible f (INR sample_rate)) by (unfold audible; lra). assert (0 < q) by lra.
  assert (Hpos : t = LowShelf ∨ t = HighShelf → 0 < s). { intros Ht. specialize (Hne Ht). destruct Hs as [[Hs|Hs] _]; [done|by symmetry in Hs]. }
  destruct t; cbn [calculate_coefficients p_frequency p_q p_shelf_gain].
  - by apply high_stable.
  - by apply low_stable.
  - by apply band_stable.
  - by apply notch_stable.
  - apply high_shelf_stable; auto.
  - apply low_shelf_stable; auto.
Qed.
Print Assumptions C77_partial.
Example C77_partial_inhabited : 20 <= 1000 <= 20000 ∧ / 10 <= 1 <= 10 ∧ 0 <= 2 <= 10 ^ 5 ∧ 1000 < INR (Z.to_nat 48000) / 2.
Proof. rewrite rate_48000. lra. Qed.

(** ** C79: the parameters of nodes *)
(** Creating a node's parameters makes exactly the named ones, for the node and for its
    processor alike. *)
Theorem C79_created {P} (options : list (string * P)) : NoDup options.*1 →
  let (params, realtime) := create_parameters options in
  (∀ name p, (name, p) ∈ options → get_parameter params name = Ok p ∧ get_parameter realtime name = Ok p) ∧
  (∀ name, name ∉ options.*1 → get_parameter params name = Panic UnwrapNone ∧ get_parameter realtime name = Panic UnwrapNone).
Proof. exact (created_parameters options). Qed.
Print Assumptions C79_created.
(** a processor finds every parameter it reads *)
Theorem C79_processors {P} (k : node_kind) (options : list (string * P)) (name : string) :
  options_for k options → name ∈ processor_reads k →
  ∃ p, (name, p) ∈ options ∧ get_parameter (create_parameters options).2 name = Ok p.
Proof. exact (processors_find k options name). Qed.
Print Assumptions C79_processors.
(** every other method returns the parameter it is documented to return *)
Theorem C79_methods_partial {P} (k : node_kind) (options : list (string * P)) (method name : string) :
  options_for k options → (method, name) ∈ documented k → method ≠ "shelf_gain"%string →
  ∃ p, (name, p) ∈ options ∧ call_method k options method = Ok p.
Proof. exact (methods_find k options method name). Qed.
Print Assumptions C79_methods_partial.
(** REFUTED for the biquad's shelf gain: the method always panics *)
Theorem C79_shelf_gain_refuted {P} (options : list (string * P)) :
  options_for BiquadNode options →
  ("shelf_gain", "shelf-gain")%string ∈ documented BiquadNode ∧ call_method BiquadNode options "shelf_gain" = Panic UnwrapNone.
Proof. intros H. split; [by do 2 right; left|by apply shelf_gain_missing]. Qed.
Print Assumptions C79_shelf_gain_refuted.
Example C79_inhabited : options_for BiquadNode [("frequency", 1000); ("q", 1); ("shelf-gain", 1); ("gain", 1)]%string.
Proof. done. Qed.
