# Formal model of rawdio in Rocq (Coq 8.16.1)

The code in `/repo` is read as text only. Everything below is about a Gallina
model of it; the tie to the code is the file/line citation on every definition.

## Conventions

* A function that mutates through `&mut` returns the new value. A panic
  (`assert!`, `unwrap`, `expect`, slice out of range, `usize` underflow) is an
  explicit error value of the result type `res` (`Base.v`): `Ok a` or
  `Panic reason`. Loops are folds, structural recursion, or recursion on fuel
  whose exhaustion is the distinct error `Panic OutOfFuel`; theorems exclude it.
* `std::collections::HashMap` iteration order is *arbitrary*: every iteration
  goes through an oracle `shuffle : nat -> list id -> list id` (one index per
  iteration performed) which theorems only assume to return a permutation of
  its argument. Theorems quantify over all oracles.
* Sizes, indices and frame counts are `nat`; overflow of `usize` is not
  modelled (underflow is, as a panic). Fixed-point time is `Z` (raw 2^-32 s).
* Samples are an abstract type with `zero` and `add` where only routing
  matters (then results hold for floats too, as no algebraic law is assumed),
  and the reals `R` where numeric behaviour matters. The difference between
  `R` and `f32`/`f64` rounding is *not* covered by the `R` results; where
  rounding matters it is modelled explicitly (see Timestamp, and `Binary64.v`
  for ramps).
* Layout: `X.v` model, `XSpec.v` independent specification where needed,
  `XProofs.v` proofs, `PropertiesX.v` only property theorems (`exact lemma.` +
  `Print Assumptions`) and examples showing that hypotheses are satisfiable.

## Trusted base

Coq's kernel; the `Print Assumptions` output of each property theorem
(listed at the end); the model's reading of the code, with the
simplifications stated in the comments of the definitions.

## Plan per property

| id | model | proof |
|----|-------|-------|
| C01-C03 | `Graph.v`: nodes/edges maps, linked lists, all operations | refinement to an insertion-ordered edge list (`GraphSpec.v`), induction over operation lists |
| C04-C06 | `TopoSort.v` with hash-order oracle | loop invariant count = indegree - processed sources; finite acyclicity gives progress; C06 refuted with a two-edge witness |
| C07-C12, C58 | `Buffer.v`, `DspGraph.v` with pools, prepare/mix functions, abstract node processors | simulation against a direct denotation of the graph (`DspGraphSpec.v`); C08, C12, C58 refuted by witnesses plus exact statement of what happens |
| C13-C16 | `Processor.v`: command queue, start/stop, chunk loop, position | induction over histories |
| C17-C18 | `Timestamp.v`: raw `Z`, round-to-nearest-even | arithmetic over `Z`; C18 refuted by witness, with the one-frame-early bound proved |
| C19-C26, C62 | `AudioParam.v` (any number type; binary64 and `R` instances) | induction over frames and schedules; ramps over `R`; the distance of ramps in rounded arithmetic (`Binary64.v`, Flocq's rounding without overflow; exp and ln with any bounded relative error) from the exact ramps, by a step by step error bound; C21-C26, C62 refuted by witnesses plus exact behaviour |
| C27-C28 | `EventProcessor.v` | invariant over pending queue, history induction |
| C29-C30 | `Recorder.v` | invariant: buffers sent ++ current = frames recorded |
| C31-C34, C63-C65 | `Sampler.v`, `SamplerFade.v` | refinement to a frame-by-frame machine (`SamplerSpec.v`) under an error budget for time stamps; drift, dropped starts, short and empty loops, stops while looping, self-starting loops and cancellations refuted by witnesses; fade table over `R` |
| C35-C38, C66, C67 | `Mixer.v`, `MixerR.v` | what a processor writes into its slice (`EffectSpec.v`), generically, then error bounds over `R`; sessions of level changes and blocks; mono pan and full channel refuted |
| C39, C40, C68 | `Adsr.v` | range invariant over `R`; closed form of each stage, least-frame arguments; event queue refinement reused for the node; slow and stuck releases refuted |
| C41, C42, C69, C70 | `Envelope.v` | follower invariants and closed form over `R`; catch-up loop as floor arithmetic; node refined to a per-channel meter (`EnvelopeSpec.v`); lost peaks, aborts, endless loop and blocking refuted by witnesses |
| C43, C71, C72 | `Oscillator.v` over `Arith.v` (the same code over binary64 and over `R`) | binary64: phase in [0,1] and exact wrap, index bound by nearest-rounding argument, accumulated error; refuted at phase exactly 1 by computation. `R`: refined to the cyclic interpolated table (`OscillatorSpec.v`) for whole sessions |
| C46, C47, C73, C74 | `Level.v`, `Compressor.v` over `R`, with NaN as `None` | logarithm identities; the three branches of the curve reduced to one law; sessions of blocks refined to followers, mean level and one gain per frame (`CompressorSpec.v`); NaN at a hard knee and falling soft knees refuted |
| C44, C75 | `Waveshaper.v` over `R`, with NaN as `None` | both conversions of the oversampling reduced to the even samples; sessions of blocks refined to a piecewise linear table (`WaveshaperSpec.v`); slopes by the mean value theorem; NaN table entries and the end of the table refuted |
| C45, C76 | `Convolution.v` over `R`, `Complex.v` (discrete Fourier transform by definition) | convolution theorem for the transform (`ComplexProofs.v`); the kept input is the end of the signal received, the used end of the cyclic convolution is the linear one; sessions of blocks refined to `ConvolutionSpec.v`; unequal channel counts refuted by witness |
| C48, C77, C78 | `Biquad.v` over `R`; nominal gains per filter type in `FilterSpec.v` (coefficients, coefficient cache, memory with flushing, node) | sessions refined to a difference equation with varying coefficients (`BiquadSpec.v`) with a per-channel memory invariant; stability from the coefficient triangle by a quadratic energy function (`BiquadStable.v`); frequency responses by superposition of the forced solution and the decaying rest (`BiquadResponse.v`); above half the sample rate and shelf gain 0 refuted by explicit unbounded solutions |
| C79 | `NodeParameters.v` (tables of names, creation and lookup) | induction on the options, case analysis on nodes; refuted for `shelf_gain` |
| C80-C86 | `Threads.v`: steps of clients, audio thread and collector on the command channel, atomic time, id counter and bounded garbage channel | simulation of every interleaving by a sequential history of `Processor.v` (`ThreadsSpec.v`); counting invariants; endless callbacks, one time change and 513 removals refuted by schedules |
| C87-C90 | `Node.v` (a node's parameters and processor, the commands of a client program) on `Processor.v` and `AudioParam.v` | the abstract engine of C13-C16 projected to one node: block by block sessions (`NodeSpec.v`), per-parameter event lists; gain node over `R` joined with C37 and C20; totality of every callback by an invariant tying the program's own picture of its graph to the engine's (`LimitsSpec.v`) |
| C91-C92 | `EventChannel.v` (the bounded channels between the ADSR and sampler nodes and their processors) on `Adsr.v`, `Sampler.v`, `EventProcessor.v` | a call waits exactly when a burst of requests between two blocks exceeds 32 (`EventChannelSpec.v`); order of effects by the stable sort of C50 |
| C93 | `Chain.v` (the macro `connect_nodes!`) on `Node.v` | simultaneous sessions of all nodes of the chain along a history, each hearing the one before it in the same block (`ChainSpec.v`) |
| C94 | `Effects.v` (all processors as one type of node) on `Node.v` | C90's invariant with one predicate for all processors (`EffectsSpec.v`: `effect_good`); each processor keeps it and does not abort |
| C95 | `Effects.v`, `Chain.v` | C93's sessions turned into streams of samples (`StreamSpec.v`); for each kind of node its own session theorem (C27–C75) gives what it makes of its stream |
| C96 | `Node.v`, `DspGraph.v` | as C93 with the graph's connections as they are: `NetSpec.v` says what an input hears in one frame; induction over the history with the wiring as invariant |
| C97 | `Effects.v` | C96 with the nodes' session theorems, as C95 |
| C98 | `Effects.v` with `Recorder.v` and `Envelope.v` as nodes | C97's streams are what the nodes' sessions hear; the recorder's theorem (C29) and the meter's (C69) are applied to the history made of the stream's blocks and the client's calls |
| C99 | `EventChannel.v` (`requests`: the calls' events, numbered), `Effects.v` | `MelodyProofs.v`: by induction on the blocks the delivered events are the calls in order, each on its frame (C27's timing), so the envelope's history is the score; then C35's note theorem note by note; `NetMelody.v` puts it into C97 |
| C100 | `EventChannel.v` (`sampler_sends`, `requests`), `Sampler.v`, `Effects.v` | `ScoreProofs.v` (what is delivered is the score, shared with C99); `TrackProofs.v`: the pieces of every block are the operations of an ideal sampler (C31's refinement), then clip by clip; `NetTrack.v` |
| C101 | `AudioParam.v`, `Node.v`; the curve and the calls in `AutomationSpec.v` | `AutomationProofs.v`: the state of the parameter while the moves are played, by induction on the frames of a block and on the history; the calls of a program as such a history; a gain node by C89; every node of a network by C97 (`NetAutomation.v`; what a node with automated parameters does is in `NetAutomationSpec.v`) |
| C102 | `Signals.v` (`copy_within`, `step`, `sine`) | the rectangle updates of C49, channel by channel |
| C103 | all of the above; what is asked for in `ProgramSpec.v` | `NetProgram.v`: C99, C100 and C101 for one pair of streams per node, from C97; at these rates every request lands on its frame |
| C104 | as C99; the history of the envelope in `AnyNotesSpec.v`, the curves there and in `NotesCurveSpec.v` | `AnyNotes.v`: every request lands as in C99, so the history is the one asked for; `ShortNotes.v`, `NotesCurve.v`: induction on the notes with C40_cut and C40_retrigger |
| C105 | `level.rs` clamp in `Level.v` and `LevelClamp.v` | case analysis over the real numbers |
| C106 | add_sample and channel_is_silent in `Buffer.v` | `SampleAccess.v`: from get_sample, set_sample and get_channel_data in `BufferProofs.v` |
| C107 | conversions of seconds and beats in `Timestamp.v` | `TimeUnits.v`: from the errors of single roundings (`FloatProofs.v`, `TimestampProofs.v`), in integer arithmetic |
| C49-C57, C59, C60 | `Buffer.v`, `Kernels.v`, `Notifiers.v`, `Resample.v` | list/index lemmas; kernels on a flat memory with addresses; notifier answers from an oracle; conversion over `Arith.v` in `R` and binary32; C53 refuted, C50 refuted beyond equal channel counts, C57 refuted in binary32 |

## Not modelled

Weak memory orderings (Threads.v assumes sequential consistency), the blocking
of channels other than the garbage channel (modelled as queues with the capacity
named where it matters), allocation, SIMD instruction semantics
(kernels are modelled by their prefix/body/suffix split), `rustfft` (modelled
by the DFT), `rand`, wall-clock measurement (`scoped_time_measure.rs`).

## Source files

Where each file of `/repo/src` is modelled (files `mod.rs` other than
`dsp/mod.rs` only re-export).

| source | model |
|--------|-------|
| `buffer/audio_buffer.rs` | `Buffer.v`, `Resample.v`, `Signals.v` |
| `buffer/borrowed_audio_buffer.rs` | `Buffer.v` |
| `buffer/buffer_pool.rs` | `DspGraph.v`, `Recorder.v` |
| `buffer/mutable_borrowed_audio_buffer.rs` | `Buffer.v`, `Oscillator.v` |
| `buffer/owned_audio_buffer.rs` | `Buffer.v`, `Signals.v` |
| `buffer/sample_location.rs` | `Buffer.v` |
| `commands/command.rs` | `Node.v`, `Processor.v` |
| `commands/id.rs` | `Graph.v`, `GraphSpec.v`, `Threads.v` |
| `commands/notifier.rs` | not modelled: trait |
| `commands/parameter_change_request.rs` | record, part of the commands in `Node.v` |
| `dsp/mod.rs` | `Kernels.v` |
| `effects/adsr/adsr_envelope.rs` | `Adsr.v` |
| `effects/adsr/adsr_event.rs` | `Adsr.v`, `EventChannel.v` |
| `effects/adsr/adsr_node.rs` | `EffectsSpec.v`, `EventChannel.v` |
| `effects/adsr/adsr_processor.rs` | `Adsr.v`, `Effect.v`, `Effects.v`, `EventProcessor.v` |
| `effects/biquad/biquad_coefficients.rs` | `Biquad.v` |
| `effects/biquad/biquad_node.rs` | `BiquadSpec.v`, `EffectsSpec.v`, `NodeParameters.v` |
| `effects/biquad/biquad_processor.rs` | `Biquad.v`, `Effects.v`, `NodeParameters.v` |
| `effects/biquad/filter_type.rs` | `Biquad.v` |
| `effects/compressor/compressor_node.rs` | `EffectsSpec.v`, `NodeParameters.v` |
| `effects/compressor/compressor_parameters.rs` | `Compressor.v`, `EffectsSpec.v` |
| `effects/compressor/compressor_processor.rs` | `Compressor.v`, `Effects.v`, `NodeParameters.v` |
| `effects/convolution/convolution_node.rs` | `EffectsSpec.v`, `NodeParameters.v` |
| `effects/convolution/convolution_processor.rs` | `Convolution.v`, `Effects.v`, `NodeParameters.v` |
| `effects/envelope/envelope_node.rs` | `EffectsSpec.v`, `Envelope.v` |
| `effects/envelope/envelope_notification.rs` | `Envelope.v` |
| `effects/envelope/envelope_processor.rs` | `Effects.v`, `Envelope.v` |
| `effects/gain/gain_node.rs` | `EffectsSpec.v`, `NodeParameters.v` |
| `effects/gain/gain_processor.rs` | `Effects.v`, `Mixer.v`, `Node.v`, `NodeParameters.v` |
| `effects/mixer/mixer_event.rs` | not modelled: type aliases |
| `effects/mixer/mixer_matrix.rs` | `EffectsSpec.v`, `Mixer.v` |
| `effects/mixer/mixer_node.rs` | `EffectsSpec.v`, `Mixer.v` |
| `effects/mixer/mixer_processor.rs` | `Effects.v`, `Mixer.v` |
| `effects/oscillator/oscillator_node.rs` | `EffectsSpec.v`, `NodeParameters.v` |
| `effects/oscillator/oscillator_processor.rs` | `Effect.v`, `Effects.v`, `NodeParameters.v`, `Oscillator.v` |
| `effects/pan/pan_node.rs` | `EffectsSpec.v`, `NodeParameters.v` |
| `effects/pan/pan_processor.rs` | `Effects.v`, `Mixer.v`, `MixerR.v`, `NodeParameters.v` |
| `effects/recorder/recorder_event.rs` | `Recorder.v` |
| `effects/recorder/recorder_node.rs` | `EffectsSpec.v`, `Recorder.v` |
| `effects/recorder/recorder_notification.rs` | `Recorder.v` |
| `effects/recorder/recorder_processor.rs` | `Effects.v`, `EventProcessor.v`, `Recorder.v` |
| `effects/sampler/sampler_event.rs` | `EventChannel.v`, `Sampler.v` |
| `effects/sampler/sampler_fade.rs` | `Sampler.v`, `SamplerFade.v` |
| `effects/sampler/sampler_node.rs` | `EffectsSpec.v`, `EventChannel.v`, `Sampler.v` |
| `effects/sampler/sampler_processor.rs` | `Effects.v`, `EventProcessor.v`, `Sampler.v` |
| `effects/sampler/sampler_voice.rs` | `Sampler.v` |
| `effects/utility/envelope_follower.rs` | `Envelope.v` |
| `effects/utility/event_processor.rs` | `EventProcessor.v`, `Timestamp.v` |
| `effects/utility/periodic_notification.rs` | `Envelope.v` |
| `effects/waveshaper/parameters.rs` | `EffectsSpec.v`, `NodeParameters.v`, `Waveshaper.v` |
| `effects/waveshaper/shape.rs` | `Waveshaper.v` |
| `effects/waveshaper/waveshaper_node.rs` | `EffectsSpec.v`, `NodeParameters.v`, `Waveshaper.v` |
| `effects/waveshaper/waveshaper_processor.rs` | `Effects.v`, `NodeParameters.v`, `Waveshaper.v` |
| `engine/audio_process.rs` | not modelled: trait, implemented by `realtime/processor.rs` |
| `engine/command_queue.rs` | not modelled: trait, implemented by `engine/root.rs` |
| `engine/context.rs` | `Notifiers.v` |
| `engine/root.rs` | `Node.v`, `Notifiers.v`, `Processor.v`, `Threads.v` |
| `graph/assigned_buffer_pool.rs` | `DspGraph.v` |
| `graph/connect_nodes.rs` | `Chain.v` |
| `graph/connection.rs` | `DspGraph.v` |
| `graph/dsp.rs` | `DspGraph.v`, `Effects.v`, `Node.v` |
| `graph/dsp_node.rs` | `NodeParameters.v` |
| `graph/dsp_parameters.rs` | `Node.v`, `NodeParameters.v` |
| `graph/endpoint.rs` | `DspGraph.v` |
| `graph/graph_node.rs` | `Chain.v`, `DspGraphSpec.v`, `Node.v`, `Processor.v` |
| `lib.rs` | not modelled: re-exports |
| `parameter/audio_parameter.rs` | `AudioParam.v`, `Node.v` |
| `parameter/parameter_change.rs` | `AudioParam.v` |
| `parameter/parameter_id.rs` | not modelled: type alias |
| `parameter/parameter_range.rs` | `AudioParam.v` |
| `parameter/parameter_value.rs` | not modelled: type alias for an atomic number, see `AudioParam.v` and `Threads.v` |
| `parameter/parameters.rs` | `EffectsSpec.v`, `NodeParameters.v`, `Waveshaper.v` |
| `parameter/realtime_parameter.rs` | `AudioParam.v`, `Binary64.v`, `Node.v` |
| `realtime/dsp_graph.rs` | `Chain.v`, `DspGraph.v`, `Node.v`, `Threads.v` |
| `realtime/edge.rs` | `Graph.v` |
| `realtime/garbage_collector.rs` | `Threads.v` |
| `realtime/graph.rs` | `Graph.v`, `Threads.v` |
| `realtime/node.rs` | `Graph.v` |
| `realtime/processor.rs` | `Node.v`, `Processor.v`, `Threads.v` |
| `realtime/topological_sort.rs` | `TopoSort.v` |
| `utility/create_parameters.rs` | `NodeParameters.v`, `NodeSpec.v` |
| `utility/level.rs` | `Level.v`, `LevelClamp.v`, `Mixer.v`, `MixerR.v` |
| `utility/scoped_time_measure.rs` | not modelled: measures wall-clock time |
| `utility/timestamp.rs` | `Binary64.v`, `Timestamp.v` |

## Assumptions

What `Print Assumptions` lists for the property theorems: nothing, or axioms of
the standard library (`ClassicalDedekindReals.sig_forall_dec`,
`ClassicalDedekindReals.sig_not_dec`, `Classical_Prop.classic`,
`FunctionalExtensionality.functional_extensionality_dep`), which its real
numbers rest on.

### Closed under the global context

* `PropertiesBiquad.v`: C79_created, C79_processors, C79_methods_partial, C79_shelf_gain_refuted
* `PropertiesBuffer.v`: C49_copy_exactly_region, C49_mix_exactly_region, C49_mix_with_gain_exactly_region, C50_fill_from_interleaved, C50_copy_to_interleaved, C50_interleaved_round_trip, C50_more_channels_refuted, C51_slice_translates, C51_mutable_slice_channels, C51_slice_channels_refuted, C51_slice_channels_swapped, C51_slice_isolation_refuted, C52_extended, C52_extended_aborts, C52_padded, C52_padded_aborts, C53_constant_gain_partial, C53_gain_zero_refuted, C53_gain_curve, C55_frame_iteration, C59_copy_of_slice, C59_fill, C59_clear_range, C59_duplicate_channel, C60_mono_from_slice, C60_from_slice_refuted, C60_from_slice_aborts
* `PropertiesChain.v`: C93_chain
* `PropertiesChannel.v`: C91_bursts_partial, C91_adsr_refuted, C91_adsr_fits_partial, C91_sampler_refuted, C92_adsr_order_partial, C92_sampler_order_partial, C92_stop_now_refuted
* `PropertiesDspGraph.v`: C07_C09_C11_history_refines, C07_mix_of_connections, C08_limited_connection_refuted, C08_only_connected_channels_partial, C09_enough_buffers, C10_deterministic_partial, C10_deterministic_refuted, C12_system_input_refuted, C12_system_input_alone_partial, C58_wide_node_refuted, C61_drop_connected_node_refuted
* `PropertiesEvents.v`: C27_block, C27_C28_queue_refines, C27_exactly_once, C27_not_early, C27_not_late, C28_cancel_all
* `PropertiesGraph.v`: C01_connections_in_order, C02_disconnect_exactly_one, C02_disconnect_undoes_connect, C03_abort_iff_illegal, C04_C05_processing_order, C06_acyclic_is_processed_refuted
* `PropertiesKernels.v`: C54_mix_into, C54_mix_into_with_gain, C54_mix_into_with_gains, C54_mix, C54_subtract_from, C54_multiply, C54_multiply_by_value, C54_unequal_lengths, C56_notifiers
* `PropertiesMixer.v`: C36_independent_cells, C36_set_exists, C36_splitter, C36_unity, C67_many_levels_refuted
* `PropertiesNet.v`: C96_network
* `PropertiesNode.v`: C87_node_session, C88_direct_node, C90_careful_program_never_aborts
* `PropertiesOscillator.v`: C43_phase_partial, C43_phase_one_refuted, C72_pitch
* `PropertiesParam.v`: C19_requests_in_range, C20_immediate_changes, C20_binary64_steady, C21_last_due_wins_refuted, C21_one_per_frame_partial, C22_rounding_refuted, C22_48000_refuted, C22_slow_ramp_refuted, C23_in_range_refuted, C24_zero_panics, C25_split_partial, C25_times_agree, C25_split_refuted, C26_cancel_after_refuted, C26_cancel_partial, C26_ramp_not_cancelled_refuted, C62_ramp_starts_on_time_refuted, C62_ramp_starts_on_time_partial
* `PropertiesProcessor.v`: C13_C14_C15_C16_engine_refines, C13_stopped_engine_silent, C14_C16_started_engine_renders, C14_callback_does_not_abort, C14_zero_maximum_never_returns, C15_time_is_frames_played, C15_time_never_decreases
* `PropertiesRecorder.v`: C29_recording_is_input, C29_take, C30_buffers_conserved, C30_only_starvation_aborts, C30_never_runs_out
* `PropertiesResample.v`: C57_equal_rates_f32_partial, C57_equal_rates_refuted, C57_range_refuted
* `PropertiesSample.v`: C106_add_sample, C106_add_sample_aborts, C106_silent
* `PropertiesSampler.v`: C31_C33_C34_sampler_refines, C31_plays_from, C31_whole_sample, C31_drift_refuted, C31_start_dropped_refuted, C33_loops, C33_short_loop_refuted, C33_empty_loop_refuted, C33_backward_loop_refuted, C34_stops_partial, C34_reachable_states, C34_loop_outlives_stop_refuted, C63_silent_until_started_partial, C63_loop_starts_itself_refuted, C64_cancel_loop_refuted, C65_cancel_all_refuted
* `PropertiesSignals.v`: C102_copy_within, C102_step
* `PropertiesThreads.v`: C80_interleavings_are_sequential, C81_commands_taken_partial, C81_bounded_callback_refuted, C82_times_read_never_decrease, C83_ids_distinct, C84_two_changes_confirm, C84_one_change_confirms_refuted, C85_no_wait_partial, C85_waiting_stalls, C85_callback_waits_refuted, C86_nodes_accounted_for
* `PropertiesTimeUnits.v`: C107_seconds_nearest, C107_seconds_round_trip, C107_seconds_added, C107_seconds_order, C107_beats, C107_beats_added, C107_beats_order, C107_as_beats, C107_beats_round_trip, C107_late_seconds_refuted
* `PropertiesTimestamp.v`: rounding_is_nearest, C17_conversion_error, C17_order_kept, C17_round_trip, C17_round_trip_error, C17_half_tick_refuted, C18_event_frame_refuted, C18_at_most_one_early_partial, C18_event_before_block_end, C18_event_not_in_earlier_block, C18_exact_for_dividing_rates_partial
* `PropertiesTrack.v`: C33_called
* `PropertiesWaveshaper.v`: C44_empty_block_refuted

### `functional_extensionality_dep`, `sig_forall_dec`

* `PropertiesConvolution.v`: C45_partition
* `PropertiesEnvelope.v`: C42_rate, C70_empty_block_refuted
* `PropertiesLevel.v`: C105_clamp, C105_clamp_aborts
* `PropertiesMixer.v`: C35_C36_matrix_product, C35_matrix_product_error, C37_gain_exact, C37_gain_error, C37_small_gain_refuted, C38_pan, C38_gains, C66_mono_pan_refuted, C66_mono_pan_leak_refuted
* `PropertiesOscillator.v`: C71_plays_table_partial, C71_whole_cycle_aborts, C71_last_interval_refuted
* `PropertiesResample.v`: C57_interpolates, C57_range, C57_equal_rates, C57_empty_refuted
* `PropertiesWaveshaper.v`: C44_odd, C44_monotone, C75_soft, C75_hard, C75_refuted

### `functional_extensionality_dep`, `sig_forall_dec`, `sig_not_dec`

* `PropertiesBiquad.v`: C78_session, C48_bounded, C48_tone, C77_high_frequency_refuted, C77_zero_shelf_refuted, C77_partial
* `PropertiesConvolution.v`: C45_session, C45_empty_impulse_refuted, C76_stereo_input_refuted, C76_mono_input_refuted
* `PropertiesEnvelope.v`: C41_time_constant, C69_reports_partial, C69_complete_when_aligned_partial, C69_all_samples_refuted, C70_stereo_meter_refuted, C70_short_block_refuted, C70_unread_refuted
* `PropertiesSampler.v`: C32_gains_bounded, C32_fade_in_rises, C32_fade_out_complements, C32_crossfade
* `PropertiesSignals.v`: C102_sine

### `classic`, `functional_extensionality_dep`, `sig_forall_dec`, `sig_not_dec`

* `PropertiesAdsr.v`: C39_range, C39_C40_node, C40_contour, C40_attack, C40_release, C40_C68_release_ends, C40_release_time_refuted, C68_stuck_note, C68_release_ends_refuted
* `PropertiesAdsrCut.v`: C40_cut, C40_retrigger, C40_staccato
* `PropertiesAnyNotes.v`: C104_any_notes, C104_short_notes
* `PropertiesAutomation.v`: C101_automation, C101_parameter, C101_gain
* `PropertiesAutomationNet.v`: C101_network
* `PropertiesBiquad.v`: C48_low_pass, C48_high_pass, C48_band_pass, C48_notch, C48_low_shelf, C48_high_shelf
* `PropertiesCompressor.v`: C47_db_round_trip, C47_linear_round_trip, C47_monotone, C47_zero_db_is_unity, C47_refuted, C46_never_amplifies, C46_quiet_unchanged, C46_gain_law, C46_refuted, C73_hard_knee_monotone, C73_refuted, C74_session
* `PropertiesEnvelope.v`: C41_bounded, C41_towards, C41_constant, C41_converges
* `PropertiesFilter.v`: C48_node
* `PropertiesLibrary.v`: C94_library_program_never_aborts, C94_new_nodes_fit, C95_streams, C95_dynamics_go_on
* `PropertiesMelody.v`: C99_melody
* `PropertiesNet.v`: C97_library_network, C98_network_reports, C98_take
* `PropertiesNode.v`: C89_gain_node, C89_scheduled_gain, C90_gain_program_never_aborts
* `PropertiesNotesCurve.v`: C104_curves, C104_curves_apply
* `PropertiesParam.v`: C22_linear_ramp_aligned, C22_C23_linear_ramp_block_partial, C23_one_step_partial, C24_exponential_ramp_aligned
* `PropertiesProgram.v`: C103_program
* `PropertiesRounding.v`: C22_rounding_bound, C24_rounding_bound, C24_exponential_ramp_block_partial, C24_48000_refuted, C24_slow_ramp_refuted
* `PropertiesTrack.v`: C100_track
* `PropertiesWaveshaper.v`: C44_session, C44_bounded, C44_dry, C44_nan_refuted, C75_tanh
