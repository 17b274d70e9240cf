(** What the processors of Effects.v need to go on for ever, and the nodes the library makes. *)
From stdpp Require Import gmap list strings sorting.
From Coq Require Import ZArith Reals.
From Verif Require Import Base Buffer BufferSpec Float Timestamp EventProcessor EventProcessorSpec Mixer MixerR Biquad Convolution ConvolutionSpec Adsr Sampler
  Compressor Waveshaper Recorder Envelope EnvelopeSpec AudioParam AudioParamR Node NodeSpec Effects.

(** a matrix as mixer_matrix.rs makes them *)
Definition matrix_ok (m : matrix R) : Prop := m_inputs m ≤ 8 ∧ m_outputs m ≤ 8 ∧ length (m_cells m) = 64.
(** what a convolution of the impulse response comes to, block by block *)
Inductive convolving (impulse : owned R) (maximum : nat) : convolution → Prop :=
| convolving_new c : new_convolution impulse maximum = Ok c → convolving impulse maximum c
| convolving_block c b c' out : convolving impulse maximum c → vblock_ok (channels impulse) b →
    conv_process (vb_wet b) (vb_dry b) (vb_in b) (vb_iv b) (vb_out b) (vb_ov b) c = Ok (c', out) → convolving impulse maximum c'.

(** Channels, parameters and state with which a processor does not abort in blocks of at most [max_fr] frames.
    Not among them are oscillators, which abort at the end of a cycle (C43), samplers, whose loop need not end (C32),
    compressors and waveshapers, which can make NaN (C74, C44) and abort at times below 0 and in empty blocks,
    recorders, which can run out of buffers (C30), and envelopes, which abort in short blocks (C70). *)
Definition effect_good (max_fr sr : nat) (inputs outputs : nat) (names : gset string) (p : effect) : Prop :=
  match p with
  | FGain => "gain" ∈ names
  | FPan => "pan" ∈ names ∧ inputs = 2 ∧ outputs = 2
  | FMixer x inbox => matrix_ok (mx_proc x) ∧ Forall matrix_ok (mx_channel x) ∧ Forall (Forall matrix_ok) inbox
  | FBiquad b => {[ "frequency"; "q"; "shelf-gain"; "gain" ]} ⊆ names ∧ inputs = outputs ∧ length (bq_delays b) = outputs
  | FConvolution c => {[ "wet"; "dry" ]} ⊆ names ∧
      ∃ impulse maximum, wf impulse ∧ 0 < frames impulse ∧ 0 < maximum ∧ inputs = channels impulse ∧ outputs = channels impulse ∧
        convolving impulse maximum c
  | FAdsr a inbox => (0 < Z.of_nat sr <= 2 ^ 29)%Z ∧ block_ok sr max_fr ∧ ep_rate (as_queue a) = sr ∧ max_fr ≤ length (as_buffer a) ∧
      StronglySorted ev_before (ep_pending (as_queue a)) ∧ Forall (λ e, ev_clear e = false) (ep_channel (as_queue a)) ∧
      Forall (Forall (λ e, ev_clear e = false)) inbox
  | FOscillator _ _ _ | FSampler _ _ _ _ _ _ | FCompressor _ | FWaveshaper _ | FRecorder _ _ _ | FEnvelope _ _ _ _ _ => False
  end.

(** ** New nodes *)
Definition params (l : list (string * R)) : gmap string (param R) := list_to_map ((λ '(name, v), (name, new_param R_num v)) <$> l).
(** gain_node.rs l.37-61 *)
Definition gain_node (gain : R) : dspstate R effect := DspState (params [("gain", gain)]) FGain.
(** pan_node.rs l.36-60 *)
Definition pan_node (pan : R) : dspstate R effect := DspState (params [("pan", pan)]) FPan.
(** biquad_node.rs l.32-79 *)
Definition biquad_node (sr channel_count : nat) (t : filter_type) (frequency q shelf_gain gain : R) : dspstate R effect :=
  DspState (params [("frequency", frequency); ("q", q); ("shelf-gain", shelf_gain); ("gain", gain)]) (FBiquad (new_biquad sr channel_count t)).
(** convolution_node.rs l.29-59 *)
Definition convolution_node (c : convolution) (wet dry : R) : dspstate R effect :=
  DspState (params [("wet", wet); ("dry", dry)]) (FConvolution c).
(** oscillator_node.rs l.97-137 *)
Definition oscillator_node (fuel : nat) (wavetable : list R) (frequency gain : R) : dspstate R effect :=
  DspState (params [("frequency", frequency); ("gain", gain)]) (FOscillator fuel wavetable 0).
(** adsr_node.rs l.19-42; no parameters *)
Definition adsr_node (sr maximum : nat) (inbox : list (list (event adsr_action))) : dspstate R effect :=
  DspState ∅ (FAdsr (new_adsr sr maximum) inbox).
(** mixer_node.rs l.30-51; no parameters *)
Definition mixer_node (x : mixer R) (inbox : list (list (matrix R))) : dspstate R effect := DspState ∅ (FMixer x inbox).
(** sampler_node.rs l.15-41; no parameters *)
Definition sampler_node (fuel sr : nat) (smp : owned R) (fade : list R) (inbox : list (list (event sample_action))) : dspstate R effect :=
  DspState ∅ (FSampler fuel smp fade (new_evproc sr) new_sampler inbox).
(** compressor_node.rs l.35-68, compressor_parameters.rs l.3-24 *)
Definition compressor_node (sr max_fr channel_count : nat) : dspstate R effect :=
  DspState (params [("attack", 1); ("release", 10); ("ratio", 3); ("threshold", 0); ("knee", 0); ("wet", 1); ("dry", 0)]%R)
    (FCompressor (new_compressor channel_count sr max_fr)).
(** waveshaper_node.rs l.79-122, parameters.rs l.1-9 *)
Definition waveshaper_node (sr max_fr : nat) (shaper : R → option R) : dspstate R effect :=
  DspState (params [("overdrive", 0); ("mix", 1)]%R) (FWaveshaper (new_waveshaper shaper sr max_fr)).
(** recorder_node.rs l.27-76; in the code [count] and [size] are [code_buffer_count] and [code_buffer_size] *)
Definition recorder_node (sr count size channel_count : nat) (inbox : list (list (rop R))) : dspstate R effect :=
  DspState ∅ (FRecorder (new_recorder 0%R count size channel_count sr) [] inbox).
(** envelope_node.rs l.25-73 *)
Definition envelope_node (fuel : nat) (e : envelope) (inbox : list (list eop)) : dspstate R effect :=
  DspState ∅ (FEnvelope fuel e [] [] inbox).
