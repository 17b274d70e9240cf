(** What goes through an engine as streams of samples, one for each channel, and what the library's
    nodes make of them. *)
From stdpp Require Import gmap list strings.
From Coq Require Import ZArith Reals.
From Verif Require Import Base Graph Buffer BufferSpec DspGraph DspGraphSpec Float Timestamp EventProcessor EventProcessorSpec Processor ProcessorSpec
  AudioParam AudioParamR Mixer MixerR MixerSpec ResampleSpec Biquad BiquadSpec Convolution ConvolutionSpec Adsr AdsrSpec OscillatorSpec Sampler SamplerSpec
  Recorder RecorderSpec Envelope EnvelopeSpec Compressor CompressorSpec Waveshaper WaveshaperSpec
  Node NodeSpec Chain ChainSpec Effects EffectsSpec.

(** channel by channel the samples, in order *)
Notation stream A := (nat → list A).

Section streams.
Context {V A P : Type} (zero : A) (max_ch : nat).
Implicit Types os : list (nop V A P).

(** what a node connected to the input gets while the engine runs: silence beyond the channels of the callback and
    the engine.  Only silence if [from_input] is false. *)
Fixpoint input_stream (from_input : bool) (on : bool) os (ch : nat) : list A :=
  match os with
  | [] => []
  | NStart :: os => input_stream from_input true os ch
  | NStop :: os => input_stream from_input false os ch
  | NCallback inp iv out ov :: os =>
      (if on then (λ fr, if decide (from_input = true ∧ ch < v_channels inp iv ∧ ch < max_ch) then heard_at zero inp (off_ch iv + ch) (off_fr iv + fr) else zero)
        <$> seq 0 (v_frames out ov) else []) ++ input_stream from_input on os ch
  | _ :: os => input_stream from_input on os ch
  end.

(** the outputs of the callbacks are the samples of [y] in order, silence beyond the channels of the engine and
    while it is stopped; nothing outside the slices is written *)
Fixpoint heard_as (on : bool) os (outputs : list (owned A)) (y : stream A) : Prop :=
  match os with
  | [] => outputs = []
  | NStart :: os => heard_as true os outputs y
  | NStop :: os => heard_as false os outputs y
  | NCallback inp iv out ov :: os =>
      ∃ out' outputs', outputs = out' :: outputs' ∧
      if on then same_dims out out' ∧
        (∀ ch fr, ch < v_channels out ov → fr < v_frames out ov →
           if decide (ch < max_ch) then is_Some (y ch !! fr) ∧ sample out' (off_ch ov + ch) (off_fr ov + fr) = y ch !! fr
           else sample out' (off_ch ov + ch) (off_fr ov + fr) = Some zero) ∧
        (∀ ch fr, ¬ in_rect (off_ch ov) (off_fr ov) (v_channels out ov) (v_frames out ov) ch fr → sample out' ch fr = sample out ch fr) ∧
        heard_as on os outputs' (λ ch, drop (v_frames out ov) (y ch))
      else silenced zero out ov out' ∧ heard_as on os outputs' y
  | _ :: os => heard_as on os outputs y
  end.

(** what the rounds of a node take and give; silence on channels the node does not have *)
Definition taken (rs : list (@round V A)) : stream A := λ ch, rs ≫= λ r, heard_at zero (r_in r) ch <$> seq 0 (r_frames r).
Definition given (rs : list (@round V A)) : stream A := λ ch, rs ≫= λ r, heard_at zero (r_out r) ch <$> seq 0 (r_frames r).
End streams.

(** ** The library's nodes *)
(** An [inbox] as in Effects.v: what reaches the node at the start of each of its blocks. *)
Inductive device :=
| DGain (channels : nat) (gain : R)
| DPan (pan : R)
| DMixer (inputs outputs : nat) (inbox : list (list (matrix R)))
| DBiquad (channels : nat) (t : filter_type) (frequency q shelf_gain gain : R)
| DConvolution (impulse : owned R) (maximum : nat) (wet dry : R)
| DAdsr (channels : nat) (inbox : list (list (event adsr_action)))
| DOscillator (outputs fuel : nat) (wavetable : list R) (frequency gain : R)
| DSampler (outputs fuel : nat) (smp : owned R) (fade : list R) (inbox : list (list (event sample_action)))
| DCompressor (channels : nat)
| DWaveshaper (channels : nat) (curve : R → R)
| DRecorder (channels count size : nat) (inbox : list (list (rop R)))
| DEnvelope (channels fuel : nat) (attack release frequency : R) (inbox : list (list eop)).

Definition device_inputs (d : device) : nat :=
  match d with
  | DGain cc _ | DBiquad cc _ _ _ _ _ | DAdsr cc _ | DCompressor cc | DWaveshaper cc _ | DRecorder cc _ _ _ | DEnvelope cc _ _ _ _ _ => cc
  | DPan _ => 2
  | DMixer inputs _ _ => inputs
  | DConvolution impulse _ _ _ => channels impulse
  | DOscillator _ _ _ _ _ | DSampler _ _ _ _ _ => 0
  end.
Definition device_outputs (d : device) : nat :=
  match d with
  | DGain cc _ | DBiquad cc _ _ _ _ _ | DAdsr cc _ | DCompressor cc | DWaveshaper cc _ | DEnvelope cc _ _ _ _ _ => cc
  | DPan _ => 2
  | DRecorder _ _ _ _ => 0
  | DMixer _ outputs _ => outputs
  | DConvolution impulse _ _ _ => channels impulse
  | DOscillator outputs _ _ _ _ | DSampler outputs _ _ _ _ => outputs
  end.
(** the new node in an engine of sample rate [sr] with blocks of at most [max_fr] frames *)
Definition device_state (sr max_fr : nat) (d : device) : res (dspstate R effect) :=
  match d with
  | DGain _ gain => Ok (gain_node gain)
  | DPan pan => Ok (pan_node pan)
  | DMixer inputs outputs inbox => let? x := mixer_new 0%R inputs outputs in Ok (mixer_node x inbox)
  | DBiquad cc t frequency q shelf_gain gain => Ok (biquad_node sr cc t frequency q shelf_gain gain)
  | DConvolution impulse maximum wet dry => let? c := new_convolution impulse maximum in Ok (convolution_node c wet dry)
  | DAdsr _ inbox => Ok (adsr_node sr max_fr inbox)
  | DOscillator _ fuel wavetable frequency gain => Ok (oscillator_node fuel wavetable frequency gain)
  | DSampler _ fuel smp fade inbox => Ok (sampler_node fuel sr smp fade inbox)
  | DCompressor cc => Ok (compressor_node sr max_fr cc)
  | DWaveshaper _ curve => Ok (waveshaper_node sr max_fr (λ x, Some (curve x)))
  | DRecorder cc count size inbox => Ok (recorder_node sr count size cc inbox)
  | DEnvelope cc fuel attack release frequency inbox =>
      let? e := new_envelope sr cc attack release frequency in Ok (envelope_node fuel e inbox)
  end.
(** what the nodes assume; the control sides of recorders and envelopes process no blocks *)
Definition no_block (o : rop R) : Prop := match o with RecordBlock _ _ _ => False | _ => True end.
Definition no_eblock (o : eop) : Prop := match o with EBlock _ => False | _ => True end.
Definition device_ok (sr max_fr : nat) (d : device) : Prop :=
  match d with
  | DMixer _ _ inbox => Forall (Forall matrix_ok) inbox
  | DConvolution impulse maximum _ _ => wf impulse ∧ 0 < frames impulse ∧ 0 < maximum
  | DAdsr _ inbox => (0 < Z.of_nat sr <= 2 ^ 29)%Z ∧ block_ok sr max_fr ∧ Forall (Forall (λ e, ev_clear e = false)) inbox
  | DSampler _ _ smp fade _ => (0 < Z.of_nat sr <= 2 ^ 29)%Z ∧ block_ok sr max_fr ∧ wf smp ∧ 0 < length fade ∧ (Z.of_nat (frames smp) <= 2 ^ 40)%Z
  | DGain _ _ | DPan _ | DBiquad _ _ _ _ _ _ | DCompressor _ => True
  | DWaveshaper _ _ => 0 < sr
  | DRecorder _ _ size inbox => 0 < size ∧ (0 < Z.of_nat sr <= 2 ^ 29)%Z ∧ block_ok sr max_fr ∧ Forall (Forall no_block) inbox
  | DEnvelope cc _ _ _ _ inbox => 0 < cc ∧ Forall (Forall no_eblock) inbox
  | DOscillator outputs _ wavetable _ _ => 0 < sr ∧ 0 < outputs ∧ head wavetable = Some 0%R
  end.

(** the values of a parameter: those it has on its own, going through its events *)
Definition valued (sr : nat) (initial : R) (events : list (pevent R)) (vs : list R) : Prop :=
  ∃ p, run_events R_num sr (new_param R_num initial) events = Ok (p, vs).
Definition length_of (blocks : list (timestamp * nat)) : nat := sum_list blocks.*2.

(** the matrix in force in each frame: the last that arrived *)
Fixpoint in_force (m : matrix R) (inbox : list (list (matrix R))) (blocks : list (timestamp * nat)) : list (matrix R) :=
  match blocks with
  | [] => []
  | (_, fc) :: blocks =>
      let m := default m (last (default [] (head inbox))) in replicate fc m ++ in_force m (tail inbox) blocks
  end.
(** the actions handled in each block *)
Fixpoint arrives (sr : nat) (waiting : list (event adsr_action)) (inbox : list (list (event adsr_action))) (blocks : list (timestamp * nat))
    (ds : list (list (event adsr_action))) : Prop :=
  match blocks, ds with
  | [], [] => True
  | (t, fc) :: blocks, d :: ds => ∃ rest, delivers sr t fc (waiting ++ default [] (head inbox)) d rest ∧ arrives sr rest (tail inbox) blocks ds
  | _, _ => False
  end.
(** the blocks as the sampler gets them *)
Fixpoint sampler_blocks (sr outputs : nat) (inbox : list (list (event sample_action))) (blocks : list (timestamp * nat)) : list (sblock (A := R)) :=
  match blocks with
  | [] => []
  | (t, fc) :: blocks => SBlock (default [] (head inbox)) t (new_buffer 0%R fc outputs sr) Whole :: sampler_blocks sr outputs (tail inbox) blocks
  end.

(** what a follower is told that hears [x] while attack and release, in milliseconds, take the values [attack] and [release] *)
Definition steered (attack release x : list R) : list fop :=
  concat (zip_with (λ s '(a, r), [FAttack (a / 1000); FRelease (r / 1000); FSample s])%R x (zip attack release)).

(** The node makes [y] of [x]: [blocks] are the times and sizes of its blocks, [events] what happens to its parameters. *)
Section performs.
Local Open Scope R_scope.
Definition performs (sr : nat) (blocks : list (timestamp * nat)) (events : string → list (pevent R)) (d : device) (x y : stream R) : Prop :=
  let n := length_of blocks in
  (∀ ch, length (y ch) = n) ∧ (∀ ch, (device_outputs d ≤ ch)%nat → y ch = replicate n 0) ∧
  match d with
  | DGain cc gain => ∃ g, valued sr gain (events "gain") g ∧
      ∀ ch i, (ch < cc)%nat → (i < n)%nat → Rabs (at_ (y ch) i - at_ (x ch) i * at_ g i) <= / 2 ^ 22 * Rabs (at_ (x ch) i)
  | DPan pan => ∃ p, valued sr pan (events "pan") p ∧ ∀ i, (i < n)%nat →
      at_ (y 0%nat) i = at_ (x 0%nat) i * (if Rle_dec (at_ p i) 0 then 1 else 1 - at_ p i) ∧
      at_ (y 1%nat) i = at_ (x 1%nat) i * (if Rle_dec 0 (at_ p i) then 1 else 1 + at_ p i)
  | DMixer inputs outputs inbox => ∀ o i m, (o < outputs)%nat → in_force (matrix_empty 0) inbox blocks !! i = Some m →
      Rabs (at_ (y o) i - sum_over inputs (λ ch, level_at 0 m ch o * at_ (x ch) i)) <= / 2 ^ 51 * sum_over inputs (λ ch, Rabs (at_ (x ch) i))
  | DBiquad cc t frequency q shelf_gain gain => ∃ fs qs ss gs,
      valued sr frequency (events "frequency") fs ∧ valued sr q (events "q") qs ∧
      valued sr shelf_gain (events "shelf-gain") ss ∧ valued sr gain (events "gain") gs ∧
      ∀ ch, (ch < cc)%nat → ∃ v,
        follows (/ 10 ^ 8) ((λ i, calculate_coefficients t (FilterParameters (at_ fs i) (at_ qs i) (at_ ss i)) sr) <$> seq 0 n) (x ch) v ∧
        ∀ i, (i < n)%nat → Rabs (at_ (y ch) i - at_ v i * at_ gs i) <= / 2 ^ 22 * Rabs (at_ v i)
  | DConvolution impulse _ wet dry => ∃ ws ds, valued sr wet (events "wet") ws ∧ valued sr dry (events "dry") ds ∧
      ∀ ch i, (ch < channels impulse)%nat → (i < n)%nat →
        at_ (y ch) i = at_ (x ch) i * at_ ds i + at_ ws i * convolved_at (row_from 0 impulse Whole ch 0) (x ch) i
  | DAdsr cc inbox => ∃ ds, arrives sr [] inbox blocks ds ∧
      let values := env_values sr (concat (zip_with (λ b d, block_history sr b.1 b.2 d) blocks ds)) in
      ∀ ch i, (ch < cc)%nat → (i < n)%nat → at_ (y ch) i = at_ (x ch) i * at_ values i
  | DOscillator outputs fuel wavetable frequency gain => ∃ fs gs, valued sr frequency (events "frequency") fs ∧ valued sr gain (events "gain") gs ∧
      (Forall (λ f, 0 < f <= INR fuel * INR sr) fs → never_whole sr fs ∧
       ∀ ch i, (ch < outputs)%nat → (i < n)%nat →
         let v := wave wavetable (cycles sr (take (S i) fs)) in Rabs (at_ (y ch) i - v * at_ gs i) <= / 2 ^ 22 * Rabs v)
  | DSampler outputs fuel smp fade inbox =>
      let bs := sampler_blocks sr outputs inbox blocks in
      ∃ ds, handled sr [] bs ds ∧ (accurate_run 1 smp fade sr 0 (new_ideal) bs ds →
        ∀ ch k b hs fr, (ch < outputs)%nat → blocks !! k = Some b → ideal_run 1 smp fade sr new_ideal bs ds !! k = Some hs → (fr < b.2)%nat →
          at_ (y ch) (length_of (take k blocks) + fr) = mix Rplus Rmult smp ch 0 (default [] (hs !! fr)))
  | DCompressor cc => ∃ attack release ratio threshold knee wet dry,
      valued sr 1 (events "attack") attack ∧ valued sr 10 (events "release") release ∧ valued sr 3 (events "ratio") ratio ∧
      valued sr 0 (events "threshold") threshold ∧ valued sr 0 (events "knee") knee ∧ valued sr 1 (events "wet") wet ∧ valued sr 0 (events "dry") dry ∧
      (Forall (λ t, 0 <= t) attack → Forall (λ t, 0 <= t) release → Forall (λ r, 1 <= r) ratio → Forall (λ k, 0 <= k) knee →
       ∀ ch i, (ch < cc)%nat → (i < n)%nat →
         let level := sum_over cc (λ ch, at_ (levels (new_follower (INR sr) (1 / 1000) (10 / 1000)) (steered attack release (x ch))) i) / INR cc in
         (Forall (λ w, w = 0) wet → at_ (y ch) i = at_ (x ch) i * at_ dry i) ∧
         match gain_law level (at_ knee i) (at_ threshold i) (at_ ratio i) with
         | Some gain => Rabs (at_ (y ch) i - at_ (x ch) i * (gain * at_ wet i + at_ dry i)) <= / 2 ^ 22 * (Rabs (at_ wet i) + 2) * Rabs (at_ (x ch) i)
         | None => Rabs (at_ wet i) <= / 2 ^ 22
         end)
  | DWaveshaper cc curve => ∃ overdrive mix, valued sr 0 (events "overdrive") overdrive ∧ valued sr 1 (events "mix") mix ∧
      (Forall (λ o, 0 <= o <= 1) overdrive → Forall (λ m, 0 <= m <= 1) mix →
       ∀ ch i, (ch < cc)%nat → (i < n)%nat → let d := drive (at_ overdrive i) in
         ∃ s, shaped (curve_table curve) (at_ (x ch) i * d) s ∧ at_ (y ch) i = at_ mix i * (s / d) + (1 - at_ mix i) * at_ (x ch) i)
  | DRecorder _ _ _ _ => True
  | DEnvelope _ _ _ _ _ _ => ∀ ch, y ch = replicate n 0
  end.
End performs.

(** ** What recorders and envelopes report *)
(** the frames from [pos] of a stream of [cc] channels, as a buffer of [fc] frames *)
Definition cut (sr cc : nat) (x : stream R) (pos fc : nat) : owned R := Owned (seq 0 cc ≫= λ ch, take fc (drop pos (x ch))) cc fc sr.
(** a recorder's history: its blocks are those of the stream [x], before each of them the control side acts *)
Fixpoint tape (sr cc : nat) (x : stream R) (pos : nat) (inbox : list (list (rop R))) (blocks : list (timestamp * nat)) : list (rop R) :=
  match blocks with
  | [] => []
  | (t, fc) :: blocks => default [] (head inbox) ++ RecordBlock t (cut sr cc x pos fc) Whole :: tape sr cc x (pos + fc) (tail inbox) blocks
  end.
Fixpoint metering (sr cc : nat) (x : stream R) (pos : nat) (inbox : list (list eop)) (blocks : list (timestamp * nat)) : list eop :=
  match blocks with
  | [] => []
  | (_, fc) :: blocks => default [] (head inbox) ++ EBlock (cut sr cc x pos fc, Whole) :: metering sr cc x (pos + fc) (tail inbox) blocks
  end.
(** What is there for the client in the end: [p] is the processor with its control side.  What the client of a recorder
    has got, whatever else it does now, is the recorded part of the stream [x] or the beginning of it (C29); an envelope has
    reported the peaks of [x] (C69). *)
Definition reports (sr : nat) (blocks : list (timestamp * nat)) (d : device) (x : stream R) (p : effect) : Prop :=
  match d with
  | DRecorder cc _ _ inbox => ∃ r got rest, p = FRecorder r got rest ∧
      ∀ more r' got', Forall no_block more → rrun 0%R code_note_capacity code_event_capacity r got more = Ok (r', got') →
        ∃ w s on sound, rec_run sr [] [] false (tape sr cc x 0 inbox blocks ++ more) w s on sound ∧
          received got' r' `prefix_of` sound ∧
          (rp_notes (rc_proc r') = [] → rc_is_recording r' = on ∧ (on = false → received got' r' = sound))
  | DEnvelope cc _ attack release frequency inbox => ∃ fuel e unread got rest, p = FEnvelope fuel e unread got rest ∧
      let interval := (INR sr / frequency)%R in
      (envelope_ok interval cc 0 0 (metering sr cc x 0 inbox blocks) → ∀ ch, ch < cc →
         of_channel ch (concat got ++ unread ++ ev_channel e) =
         omap (λ x, x) (meter interval 0 (new_follower (INR sr) attack release) 0%R ((λ b, row_of b ch) <$> EnvelopeSpec.blocks_of (metering sr cc x 0 inbox blocks))))
  | _ => True
  end.

(** the first [n] frames of a stream of [cc] channels *)
Definition stream_frames (cc : nat) (x : stream R) (n : nat) : list (list R) := (λ i, (λ ch, at_ (x ch) i) <$> seq 0 cc) <$> seq 0 n.
(** a request to record before the first of [S m] blocks and one to stop before the last; between them the control side only
    handles notifications *)
Definition one_take (m : nat) (inbox : list (list (rop R))) : Prop :=
  ∃ first between final, inbox = (RecordNow :: first) :: between ++ [final ++ [StopNow]] ∧ S (length between) = m ∧
    Forall (λ o, o = HandleNote) first ∧ Forall (Forall (λ o, o = HandleNote)) between ∧ Forall (λ o, o = HandleNote) final.

(** the nodes of which a program cannot make an engine abort: not oscillators (C43), samplers (C32), compressors (C74), waveshapers (C44),
    recorders (C30) and envelopes (C70) *)
Definition lasting (d : device) : Prop := match d with DOscillator _ _ _ _ _ | DSampler _ _ _ _ _ | DCompressor _ | DWaveshaper _ _ | DRecorder _ _ _ _ | DEnvelope _ _ _ _ _ _ => False | _ => True end.

(** the values of parameters with which compressors and waveshapers always give numbers *)
Definition in_range (d : device) (name : string) (v : R) : Prop :=
  match d with
  | DCompressor _ =>
      if decide (name = "attack" ∨ name = "release") then (0 <= v)%R else
      if decide (name = "ratio") then (1 <= v)%R else
      if decide (name = "knee") then (0 < v)%R else True
  | DWaveshaper _ _ => (0 <= v <= 1)%R
  | _ => True
  end.
(** a round in which the node gets a block of input and values in range, whatever its output *)
Definition in_range_round (sr max_fr : nat) (d : device) (names : gset string) (r : @round R R) : Prop :=
  is_block (r_in r) (device_inputs d) (r_frames r) ∧ 0 < r_frames r ≤ max_fr ∧
  ∀ name, name ∈ names → ∃ vs, r_values r !! name = Some vs ∧ length vs = r_frames r ∧ Forall (in_range d name) vs.
Definition request_of (r : @round R R) : timestamp * nat * gmap string (list R) * owned R := (r_time r, r_frames r, r_values r, r_in r).

(** [ks]: the new nodes [ds] with their ids *)
Definition made (sr max_fr : nat) (ds : list (id * device)) (ks : list (link R effect)) : Prop :=
  Forall2 (λ d k, k_id k = d.1 ∧ k_ins k = device_inputs d.2 ∧ k_outs k = device_outputs d.2 ∧ device_state sr max_fr d.2 = Ok (k_state k) ∧
    device_ok sr max_fr d.2) ds ks.

(** one stream before each node and one behind the last; [events n name] is what happens to the parameters of node [n] *)
Definition streams_through (sr : nat) (blocks : list (timestamp * nat)) (events : id → string → list (pevent R)) (ds : list (id * device))
    (xs : list (stream R)) : Prop :=
  length xs = S (length ds) ∧
  ∀ i n d x y, ds !! i = Some (n, d) → xs !! i = Some x → xs !! S i = Some y → performs sr blocks (events n) d x y.
