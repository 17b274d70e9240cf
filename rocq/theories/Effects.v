(** The processors of the library side by side in one engine: what Dsp::process_audio
    (src/graph/dsp.rs l.73-96) calls for each kind of node, over the real numbers. *)
From stdpp Require Import list strings.
From Coq Require Import Reals.
From Verif Require Import Base Buffer Float Timestamp EventProcessor Mixer MixerR Biquad Convolution Arith Oscillator Adsr Sampler OscillatorSpec
  Compressor Waveshaper Recorder Envelope EnvelopeSpec.
Local Open Scope R_scope.

(** States of the processors.  An [inbox] holds what the processor will find in its channel at the
    start of its blocks, the next one first; nothing once it is empty.  A recorder and an envelope go with
    their control sides: [inbox] is what these do before each of the blocks, [got] what the client has got
    from them so far. *)
Inductive effect :=
| FGain                                                              (* gain_processor.rs *)
| FPan                                                               (* pan_processor.rs *)
| FMixer (x : mixer R) (inbox : list (list (matrix R)))              (* mixer_processor.rs *)
| FBiquad (b : biquad)                                               (* biquad_processor.rs *)
| FConvolution (c : convolution)                                     (* convolution_processor.rs *)
| FOscillator (fuel : nat) (wavetable : list R) (phase : R)          (* oscillator_processor.rs *)
| FAdsr (a : adsr) (inbox : list (list (event adsr_action)))         (* adsr_processor.rs *)
| FSampler (fuel : nat) (smp : owned R) (fade : list R) (q : evproc sample_action) (s : sampler)
    (inbox : list (list (event sample_action)))                      (* sampler_processor.rs *)
| FCompressor (c : compressor)                                       (* compressor_processor.rs *)
| FWaveshaper (w : waveshaper)                                       (* waveshaper_processor.rs *)
| FRecorder (r : recorder R) (got : list (owned R)) (inbox : list (list (rop R)))                              (* recorder_processor.rs *)
| FEnvelope (fuel : nat) (e : envelope) (unread : list note) (got : list (list note)) (inbox : list (list eop)). (* envelope_processor.rs *)

(** Compressors and waveshapers can make NaN, which is no real number: the model does not go on after a block with one. *)
Definition all_finite (b : owned (option R)) : res (owned R) :=
  match mapM (λ x, x) (data b) with
  | Some l => Ok (Owned l (channels b) (frames b) (rate b))
  | None => Panic NotANumber
  end.

(** channel.rs: the matrices arrive behind those that wait *)
Definition mixer_deliver (ms : list (matrix R)) (x : mixer R) : mixer R :=
  MixerNode (mx_matrix x) (mx_channel x ++ ms) (mx_proc x).
Definition deliver {P} (es : list (event P)) (q : evproc P) : evproc P := fold_left (λ q e, send_event e q) es q.

(** process_audio of the processors: gain_processor.rs l.12-31, pan_processor.rs l.12-38,
    mixer_processor.rs l.25-64, biquad_processor.rs l.69-130, convolution_processor.rs l.195-206,
    oscillator_processor.rs l.47-79, adsr_processor.rs l.89-121, sampler_processor.rs l.39-73,
    compressor_processor.rs l.180-194, waveshaper_processor.rs l.91-117, recorder_processor.rs l.135-162,
    envelope_processor.rs l.43-83 (the last two do not write to their output) *)
Definition effect_run (p : effect) (t : timestamp) (values : string → res (list R)) (i o : owned R) : res (effect * owned R) :=
  match p with
  | FGain =>
      let? g := values "gain" in
      let? o' := gain_process_R g i Whole o Whole in Ok (FGain, o')
  | FPan =>
      let? g := values "pan" in
      let? o' := pan_process_R g i Whole o Whole in Ok (FPan, o')
  | FMixer x inbox =>
      let? (x', o') := mixer_process_R (mixer_deliver (default [] (head inbox)) x) i Whole o Whole in
      Ok (FMixer x' (tail inbox), o')
  | FBiquad b =>
      let? frequency := values "frequency" in
      let? q := values "q" in
      let? shelf_gain := values "shelf-gain" in
      let? gain := values "gain" in
      let? (b', o') := bq_process frequency q shelf_gain gain i Whole o Whole b in Ok (FBiquad b', o')
  | FConvolution c =>
      let? wet := values "wet" in
      let? dry := values "dry" in
      let? (c', o') := conv_process wet dry i Whole o Whole c in Ok (FConvolution c', o')
  | FOscillator fuel wavetable phase =>
      let? frequency := values "frequency" in
      let? gain := values "gain" in
      let? (phase', o') := osc_process_R fuel wavetable phase frequency gain o Whole in
      Ok (FOscillator fuel wavetable phase', o')
  | FAdsr a inbox =>
      let q := deliver (default [] (head inbox)) (as_queue a) in
      let? (a', o') := adsr_process (ep_rate q) t i Whole o Whole (AdsrState q (as_env a) (as_buffer a)) in
      Ok (FAdsr a' (tail inbox), o')
  | FSampler fuel smp fade q s inbox =>
      let? (q', s', o') := sampler_block 1 Rplus Rmult smp fade (ep_rate q) fuel t Whole (deliver (default [] (head inbox)) q) s o in
      Ok (FSampler fuel smp fade q' s' (tail inbox), o')
  | FCompressor c =>
      let? attack := values "attack" in
      let? release := values "release" in
      let? knee := values "knee" in
      let? threshold := values "threshold" in
      let? ratio := values "ratio" in
      let? wet := values "wet" in
      let? dry := values "dry" in
      let? (c', out) := comp_process (CompParams attack release knee threshold ratio wet dry) i Whole (finite_buffer o) Whole c in
      let? o' := all_finite out in Ok (FCompressor c', o')
  | FWaveshaper w =>
      let? overdrive := values "overdrive" in
      let? mix := values "mix" in
      let? (w', out) := ws_process overdrive mix i Whole (finite_buffer o) Whole w in
      let? o' := all_finite out in Ok (FWaveshaper w', o')
  | FRecorder r got inbox =>
      let? (r', got') := rrun 0 code_note_capacity code_event_capacity r got (default [] (head inbox) ++ [RecordBlock t i Whole]) in
      Ok (FRecorder r' got' (tail inbox), o)
  | FEnvelope fuel e unread got inbox =>
      let? (e', unread', got') := rfold (estep fuel) (default [] (head inbox) ++ [EBlock (i, Whole)]) ((e, unread), got) in
      Ok (FEnvelope fuel e' unread' got' (tail inbox), o)
  end.
