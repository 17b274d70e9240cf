{
 "claims": [
  {
   "property": "C01",
   "status": "proved",
   "theorems": [
    "C01_connections_in_order"
   ],
   "note": "Refinement for all histories and hash orders; freshness of Id::generate is the NoDup hypothesis."
  },
  {
   "property": "C02",
   "status": "proved",
   "theorems": [
    "C02_disconnect_exactly_one",
    "C02_disconnect_undoes_connect"
   ],
   "note": ""
  },
  {
   "property": "C03",
   "status": "proved",
   "theorems": [
    "C03_abort_iff_illegal",
    "C01_connections_in_order"
   ],
   "note": "Totality of the queries is part of C01 (observes)."
  },
  {
   "property": "C04",
   "status": "proved",
   "theorems": [
    "C04_C05_processing_order"
   ],
   "note": ""
  },
  {
   "property": "C05",
   "status": "proved",
   "theorems": [
    "C04_C05_processing_order"
   ],
   "note": ""
  },
  {
   "property": "C06",
   "status": "partial",
   "theorems": [
    "C06_acyclic_is_processed_refuted",
    "C04_C05_processing_order"
   ],
   "note": "REFUTED by the code: two connections between the same ordered pair of nodes make the sort fail with the cycle assertion for every hash order. Holds exactly for graphs without parallel connections (C05)."
  },
  {
   "property": "C07",
   "status": "proved",
   "theorems": [
    "C07_C09_C11_history_refines",
    "C07_mix_of_connections"
   ],
   "note": "For every history that does not abort; abstract samples and addition, arbitrary processors."
  },
  {
   "property": "C08",
   "status": "partial",
   "theorems": [
    "C08_limited_connection_refuted",
    "C08_only_connected_channels_partial"
   ],
   "note": "REFUTED for a single connection from channel 0 to channel 0: the channel count is ignored and all source channels are delivered. Holds in every other case."
  },
  {
   "property": "C09",
   "status": "proved",
   "theorems": [
    "C07_C09_C11_history_refines",
    "C09_enough_buffers"
   ],
   "note": "After every history all buffers are in the pool and silent; with at most nbuf-2 nodes (1022 of 1024) a renderable graph never aborts."
  },
  {
   "property": "C10",
   "status": "partial",
   "theorems": [
    "C10_deterministic_partial",
    "C10_deterministic_refuted"
   ],
   "note": "REFUTED if two nodes are joined by two connections and one is removed: the removed one depends on the hash order. Proved for all histories that never have two such connections."
  },
  {
   "property": "C11",
   "status": "proved",
   "theorems": [
    "C07_C09_C11_history_refines"
   ],
   "note": "output_is in the abstract engine; the output buffer is cleared by the caller (C13/C14)."
  },
  {
   "property": "C12",
   "status": "partial",
   "theorems": [
    "C12_system_input_refuted",
    "C12_system_input_alone_partial",
    "C07_C09_C11_history_refines"
   ],
   "note": "REFUTED: a connection from another node replaces the system input (or a single 0 to 0 connection hides it). Without connections the input is heard exactly; the general case is characterised by heard."
  },
  {
   "property": "C13",
   "status": "proved",
   "theorems": [
    "C13_stopped_engine_silent",
    "C13_C14_C15_C16_engine_refines"
   ],
   "note": "Every history, every hash order; the whole output region is silence, the rest of the buffer and the time are unchanged, the graph has only received the queued commands."
  },
  {
   "property": "C14",
   "status": "proved",
   "theorems": [
    "C14_C16_started_engine_renders",
    "C14_callback_does_not_abort",
    "C14_zero_maximum_never_returns",
    "C13_C14_C15_C16_engine_refines"
   ],
   "note": "Every callback length and positive maximum block size. With maximum 0 the callback never returns (C14_zero_maximum_never_returns)."
  },
  {
   "property": "C15",
   "status": "proved",
   "theorems": [
    "C15_time_is_frames_played",
    "C15_time_never_decreases",
    "C17_conversion_error"
   ],
   "note": "Monotone for less than 2^53 frames; the single rounding is bounded by C17_conversion_error."
  },
  {
   "property": "C16",
   "status": "proved",
   "theorems": [
    "C13_C14_C15_C16_engine_refines",
    "C13_stopped_engine_silent",
    "C14_C16_started_engine_renders"
   ],
   "note": "Every sequence of sends and callbacks on one logical queue; concurrent sends during a callback are not modelled."
  },
  {
   "property": "C17",
   "status": "proved",
   "theorems": [
    "C17_conversion_error",
    "C17_order_kept",
    "C17_round_trip",
    "C17_round_trip_error",
    "C17_half_tick_refuted",
    "rounding_is_nearest"
   ],
   "note": "Exact binary64 model without overflow to infinity. The sharper bound of half a tick is refuted 12 days into a stream at 44.1 kHz."
  },
  {
   "property": "C18",
   "status": "partial",
   "theorems": [
    "C18_event_frame_refuted",
    "C18_at_most_one_early_partial",
    "C18_event_before_block_end",
    "C18_event_not_in_earlier_block",
    "C18_exact_for_dividing_rates_partial"
   ],
   "note": "REFUTED: at 44.1 kHz an event at frame 2 acts on frame 1. Events are never late and never more than one frame early; exact for sample rates dividing 2^32."
  },
  {
   "property": "C19",
   "status": "proved",
   "theorems": [
    "C19_requests_in_range"
   ],
   "note": "For every range accepted by the constructor and every setter."
  },
  {
   "property": "C20",
   "status": "proved",
   "theorems": [
    "C20_immediate_changes",
    "C20_binary64_steady"
   ],
   "note": "Over all histories of arriving immediate changes and blocks; a change takes effect at the first frame after its arrival whose time has reached its own. The frame times are those computed by the code."
  },
  {
   "property": "C21",
   "status": "partial",
   "theorems": [
    "C21_last_due_wins_refuted",
    "C21_one_per_frame_partial"
   ],
   "note": "REFUTED by the code: changes due at once are applied one per frame. The partial theorem says exactly which values are produced."
  },
  {
   "property": "C22",
   "status": "partial",
   "theorems": [
    "C22_linear_ramp_aligned",
    "C22_C23_linear_ramp_block_partial",
    "C22_rounding_refuted",
    "C22_48000_refuted",
    "C22_slow_ramp_refuted",
    "C22_rounding_bound"
   ],
   "note": "REFUTED as stated, in three ways: accumulated binary64 rounding, frame times that fall between ticks (48 kHz), and ramps whose increment is below the tolerance of the test for a resting parameter. Proved over the reals at sample rates dividing 2^32; at any rate the exact value of every frame of a block is given. With binary64 rounding frame n is off by at most (n + 3) * 2^-51 of the larger end, and the target is exact from the end on."
  },
  {
   "property": "C23",
   "status": "partial",
   "theorems": [
    "C23_in_range_refuted",
    "C23_one_step_partial",
    "C22_C23_linear_ramp_block_partial"
   ],
   "note": "REFUTED by the code: a ramp ending between frames overshoots. Proved over the reals: by at most one step."
  },
  {
   "property": "C24",
   "status": "partial",
   "theorems": [
    "C24_exponential_ramp_aligned",
    "C24_rounding_bound",
    "C24_exponential_ramp_block_partial",
    "C24_48000_refuted",
    "C24_slow_ramp_refuted",
    "C24_zero_panics"
   ],
   "note": "REFUTED as stated, in two ways: frame times that fall between ticks (48 kHz), and ramps whose ratio is within the tolerance of the test for a resting parameter. Proved over the reals at sample rates dividing 2^32; with binary64 rounding and an exp and ln of bounded relative error the frames are exact up to a factor with an explicit bound; at any rate the exact value over the reals of every frame of a block is given."
  },
  {
   "property": "C25",
   "status": "partial",
   "theorems": [
    "C25_split_partial",
    "C25_times_agree",
    "C25_split_refuted",
    "C22_slow_ramp_refuted"
   ],
   "note": "REFUTED by the code at rates that do not divide 2^32 and for slow ramps. Proved when the frame times agree (they do at rates dividing 2^32) and no state is mistaken for a resting one."
  },
  {
   "property": "C26",
   "status": "partial",
   "theorems": [
    "C26_cancel_after_refuted",
    "C26_cancel_partial",
    "C26_ramp_not_cancelled_refuted"
   ],
   "note": "REFUTED by the code: the comparison is the wrong way round. The partial theorem is an exact description."
  },
  {
   "property": "C27",
   "status": "proved",
   "theorems": [
    "C27_block",
    "C27_C28_queue_refines",
    "C27_exactly_once",
    "C27_not_early",
    "C27_not_late"
   ],
   "note": "Blocks of at most 2^16 frames with frames * sample rate at most 2^32 (the running time of the loop accumulates rounding beyond that) and sample rates up to 2^29. Also: the splitting loop terminates and never underflows. Whether the frame is the intended one is C18."
  },
  {
   "property": "C28",
   "status": "proved",
   "theorems": [
    "C28_cancel_all",
    "C27_C28_queue_refines"
   ],
   "note": "Same ranges as C27."
  },
  {
   "property": "C29",
   "status": "proved",
   "theorems": [
    "C29_recording_is_input",
    "C29_take"
   ],
   "note": "For every history of requests, blocks (any sizes), handled notifications and takes, over any buffer size and channel capacities. Blocks have the node's channel count (Dsp::process_audio asserts it) and non-negative start times."
  },
  {
   "property": "C30",
   "status": "proved",
   "theorems": [
    "C30_buffers_conserved",
    "C30_only_starvation_aborts",
    "C30_never_runs_out"
   ],
   "note": "The condition under which it never runs out is keeps_up (RecorderSpec.v). The example rec_unread_waits shows that with the code's constants the audio thread waits on the full notification channel at the 32nd unread buffer."
  },
  {
   "property": "C31",
   "status": "partial",
   "theorems": [
    "C31_plays_from",
    "C31_whole_sample",
    "C31_C33_C34_sampler_refines",
    "C31_drift_refuted",
    "C31_start_dropped_refuted"
   ],
   "note": "REFUTED as stated in two ways: rounded time stamps add up (a sample played in very many blocks loses its last frame) and a start during a cross-fade is dropped. Proved for every sample, start position and block partition as long as the rounding errors stay below half a frame (at 44.1 kHz: about 94000 blocks); the refinement theorem covers all request histories."
  },
  {
   "property": "C32",
   "status": "proved",
   "theorems": [
    "C32_gains_bounded",
    "C32_fade_in_rises",
    "C32_fade_out_complements",
    "C32_crossfade"
   ],
   "note": "Over the reals, for every fade length; the rounding to binary32 is not modelled."
  },
  {
   "property": "C33",
   "status": "partial",
   "theorems": [
    "C33_loops",
    "C33_called",
    "C31_C33_C34_sampler_refines",
    "C33_short_loop_refuted",
    "C33_empty_loop_refuted",
    "C33_backward_loop_refuted"
   ],
   "note": "REFUTED for loops shorter than the fade and for empty loops (the callback does not return). Proved for all other loops, every sample and block partition, while rounding errors stay below half a frame."
  },
  {
   "property": "C34",
   "status": "partial",
   "theorems": [
    "C34_stops_partial",
    "C34_reachable_states",
    "C34_loop_outlives_stop_refuted"
   ],
   "note": "REFUTED by the code when a loop is enabled. Proved, from every reachable state, when none is."
  },
  {
   "property": "C35",
   "status": "proved",
   "theorems": [
    "C35_C36_matrix_product",
    "C35_matrix_product_error"
   ],
   "note": "Sessions of any length mixing set_level calls and blocks, over R; exact for levels that are 0, 1 or at least 2^-51 away from both, within 2^-51 of the input otherwise. At most 32 level changes between two blocks (see C67)."
  },
  {
   "property": "C36",
   "status": "proved",
   "theorems": [
    "C36_independent_cells",
    "C36_set_exists",
    "C36_splitter",
    "C36_unity",
    "C35_C36_matrix_product"
   ],
   "note": "Every size up to 8x8, every pair of cells, every level type."
  },
  {
   "property": "C37",
   "status": "proved",
   "theorems": [
    "C37_gain_exact",
    "C37_gain_error",
    "C37_small_gain_refuted"
   ],
   "note": "Over R. Exact unless all gains of the block are within 2^-22 of 0 or all of 1; always within 2^-22 of the sample; C37_small_gain_refuted shows the tolerance is needed."
  },
  {
   "property": "C38",
   "status": "proved",
   "theorems": [
    "C38_pan",
    "C38_gains"
   ],
   "note": "Over R, every pan curve and input."
  },
  {
   "property": "C39",
   "status": "proved",
   "theorems": [
    "C39_range",
    "C39_C40_node"
   ],
   "note": "Every history of actions and frames (times not negative, sustain in [0,1]); over the real numbers. The node theorem carries the range through the event queue and the block loop to the output samples."
  },
  {
   "property": "C40",
   "status": "partial",
   "theorems": [
    "C40_contour",
    "C40_attack",
    "C40_release",
    "C40_C68_release_ends",
    "C39_C40_node",
    "C40_cut",
    "C40_retrigger",
    "C40_staccato",
    "C40_release_time_refuted"
   ],
   "note": "REFUTED as stated: a note released above its sustain level (during attack or decay) takes up to ln 11/ln(10 s+1) times the release time. Proved: the whole contour (exact curves, stage ends on the first frame not before the programmed time) for a note held past attack and decay, after any history; attack within its time from every level; release within its time from at most the sustain level; the exact curves of notes cut short in any stage and of notes started at any level; sample-accurate delivery through the node. Over the real numbers."
  },
  {
   "property": "C41",
   "status": "proved",
   "theorems": [
    "C41_bounded",
    "C41_towards",
    "C41_constant",
    "C41_time_constant",
    "C41_converges"
   ],
   "note": "Over the real numbers, for every history of samples and time settings."
  },
  {
   "property": "C42",
   "status": "proved",
   "theorems": [
    "C42_rate"
   ],
   "note": "Every sample rate, frequency and block partition, over the real numbers; termination of the catch-up loop included (fuel bound)."
  },
  {
   "property": "C43",
   "status": "partial",
   "theorems": [
    "C43_phase_one_refuted",
    "C43_phase_partial"
   ],
   "note": "REFUTED: the wrap tests phase > 1.0, so a phase of exactly 1.0 stays and indexes one past the table: 750 Hz at 48 kHz aborts on the 64th sample, 784 Hz at 44.1 kHz on the 225th (binary64 arithmetic, any table). Proved in binary64: this is the only way to fail; otherwise the phase stays in [0,1) and the index inside the table, for every frequency, rate and table length."
  },
  {
   "property": "C44",
   "status": "partial",
   "theorems": [
    "C44_nan_refuted",
    "C44_empty_block_refuted",
    "C44_session",
    "C44_bounded",
    "C44_dry",
    "C44_odd",
    "C44_monotone"
   ],
   "note": "REFUTED for the soft saturator with threshold 0 dB, whose last table entry is 0/0: full-scale samples become NaN even with mix 0; a block without frames aborts. Proved over the real numbers for every finite curve and session of blocks."
  },
  {
   "property": "C45",
   "status": "proved",
   "theorems": [
    "C45_session",
    "C45_partition",
    "C45_empty_impulse_refuted"
   ],
   "note": "Exact arithmetic, the discrete Fourier transform by its definition (rustfft is not modelled). Every impulse response with at least one frame, every number of channels, maximal block size, history of blocks of any length. An impulse response without frames aborts."
  },
  {
   "property": "C46",
   "status": "partial",
   "theorems": [
    "C46_refuted",
    "C46_never_amplifies",
    "C46_quiet_unchanged",
    "C46_gain_law"
   ],
   "note": "REFUTED: with knee 0 (the default) a level exactly at the threshold computes 0/0 and the gain, hence the output, is NaN. Proved over the real numbers: whenever the gain is a number it lies in [0,1], and it is exactly 1 below threshold minus half the knee; the exact gain at every level."
  },
  {
   "property": "C47",
   "status": "partial",
   "theorems": [
    "C47_refuted",
    "C47_db_round_trip",
    "C47_linear_round_trip",
    "C47_monotone",
    "C47_zero_db_is_unity"
   ],
   "note": "REFUTED at the floor: as_db tests 1e-9 (-180 dB) while from_db tests -128 dB, so 2e-9 reads as less than silence and does not survive the round trip. Proved over the real numbers: everything else above -128 dB."
  },
  {
   "property": "C48",
   "status": "proved",
   "theorems": [
    "C48_low_pass",
    "C48_high_pass",
    "C48_band_pass",
    "C48_notch",
    "C48_low_shelf",
    "C48_high_shelf",
    "C48_bounded",
    "C48_tone",
    "C48_node"
   ],
   "note": "Over the real numbers, for 0 < frequency < sample rate / 2, q > 0, shelf gain > 0. Besides DC, Nyquist and centre, the amplitude at every frequency. The flushing of memory samples below 10^-8 is modelled and bounded."
  },
  {
   "property": "C49",
   "status": "proved",
   "theorems": [
    "C49_copy_exactly_region",
    "C49_mix_exactly_region",
    "C49_mix_with_gain_exactly_region"
   ],
   "note": "For whole buffers and arbitrarily nested slices; samples and arithmetic abstract."
  },
  {
   "property": "C50",
   "status": "partial",
   "theorems": [
    "C50_fill_from_interleaved",
    "C50_copy_to_interleaved",
    "C50_interleaved_round_trip",
    "C50_more_channels_refuted"
   ],
   "note": "REFUTED for data with more channels than the buffer (stride is the clamped channel count). Round trip and exact placement proved otherwise."
  },
  {
   "property": "C51",
   "status": "partial",
   "theorems": [
    "C51_slice_translates",
    "C51_mutable_slice_channels",
    "C51_slice_channels_refuted",
    "C51_slice_channels_swapped",
    "C51_slice_isolation_refuted"
   ],
   "note": "REFUTED in two ways: immutable slice_channels swaps channel and frame counts; channels beyond the slice are accessible. Translation and frame isolation proved."
  },
  {
   "property": "C52",
   "status": "proved",
   "theorems": [
    "C52_extended",
    "C52_extended_aborts",
    "C52_padded",
    "C52_padded_aborts"
   ],
   "note": "Padding to a shorter length aborts (proved)."
  },
  {
   "property": "C53",
   "status": "partial",
   "theorems": [
    "C53_constant_gain_partial",
    "C53_gain_zero_refuted",
    "C53_gain_curve"
   ],
   "note": "REFUTED for gain zero on more than one channel (only the first channel is cleared). Exact behaviour for all gains proved; per-frame gain curves proved correct on all channels."
  },
  {
   "property": "C54",
   "status": "proved",
   "theorems": [
    "C54_mix_into",
    "C54_mix_into_with_gain",
    "C54_mix_into_with_gains",
    "C54_mix",
    "C54_subtract_from",
    "C54_multiply",
    "C54_multiply_by_value",
    "C54_unequal_lengths"
   ],
   "note": "Any element type, addresses and alignment; equal lengths (the debug-asserted precondition) and a destination that overlaps no source. C54_unequal_lengths shows what release builds do otherwise."
  },
  {
   "property": "C55",
   "status": "proved",
   "theorems": [
    "C55_frame_iteration"
   ],
   "note": ""
  },
  {
   "property": "C56",
   "status": "proved",
   "theorems": [
    "C56_notifiers"
   ],
   "note": "Every history of registrations and process calls, every sequence of answers."
  },
  {
   "property": "C57",
   "status": "partial",
   "theorems": [
    "C57_equal_rates_refuted",
    "C57_range_refuted",
    "C57_empty_refuted",
    "C57_interpolates",
    "C57_range",
    "C57_equal_rates",
    "C57_equal_rates_f32_partial"
   ],
   "note": "REFUTED in binary32: the frame index is rounded to 24 bits, so equal rates do not copy from frame 2^24+1 on; rounding leaves the range of the source by an ulp; an empty source aborts. Proved with exact arithmetic: linear interpolation, range, identity at equal rates, no reads outside; in binary32 identity up to frame 2^24."
  },
  {
   "property": "C58",
   "status": "partial",
   "theorems": [
    "C58_wide_node_refuted",
    "C09_enough_buffers"
   ],
   "note": "REFUTED: a node with more channels than the engine aborts the block. Nodes within the maximum never do."
  },
  {
   "property": "C59",
   "status": "proved",
   "theorems": [
    "C59_copy_of_slice",
    "C59_fill",
    "C59_clear_range",
    "C59_duplicate_channel"
   ],
   "note": ""
  },
  {
   "property": "C60",
   "status": "partial",
   "theorems": [
    "C60_mono_from_slice",
    "C60_from_slice_refuted",
    "C60_from_slice_aborts"
   ],
   "note": "REFUTED: with two or more channels and non-empty data from_slice always aborts (the buffer is allocated with one channel). Holds for one channel."
  },
  {
   "property": "C61",
   "status": "partial",
   "theorems": [
    "C61_drop_connected_node_refuted",
    "C03_abort_iff_illegal"
   ],
   "note": "REFUTED: the removal of a connected node aborts; it aborts exactly in that case (C03)."
  },
  {
   "property": "C62",
   "status": "partial",
   "theorems": [
    "C62_ramp_starts_on_time_refuted",
    "C62_ramp_starts_on_time_partial"
   ],
   "note": "REFUTED by the code when another change ends first. Proved for a ramp that is the only pending change."
  },
  {
   "property": "C63",
   "status": "partial",
   "theorems": [
    "C63_silent_until_started_partial",
    "C63_loop_starts_itself_refuted"
   ],
   "note": "REFUTED by the code: enabling a loop starts playback at the loop end. Proved for all other requests."
  },
  {
   "property": "C64",
   "status": "partial",
   "theorems": [
    "C64_cancel_loop_refuted"
   ],
   "note": "REFUTED by the code: the sample is taken to end one sample length after the start, however often it has looped. The exact behaviour is C31_C33_C34_sampler_refines."
  },
  {
   "property": "C65",
   "status": "partial",
   "theorems": [
    "C65_cancel_all_refuted",
    "C34_stops_partial"
   ],
   "note": "REFUTED by the code: it also stops the playing sample and clears the loop (C34_stops_partial)."
  },
  {
   "property": "C66",
   "status": "partial",
   "theorems": [
    "C66_mono_pan_refuted",
    "C66_mono_pan_leak_refuted"
   ],
   "note": "REFUTED by the code: with one input channel it aborts, or plays the neighbouring channel of the buffer on the right side."
  },
  {
   "property": "C67",
   "status": "partial",
   "theorems": [
    "C67_many_levels_refuted",
    "C35_matrix_product_error"
   ],
   "note": "REFUTED by the code: the 33rd level set before a block is processed waits for ever if nothing processes audio. Up to 32 are proved to work."
  },
  {
   "property": "C68",
   "status": "partial",
   "theorems": [
    "C68_release_ends_refuted",
    "C68_stuck_note",
    "C40_C68_release_ends"
   ],
   "note": "REFUTED: with sustain level 0 and a positive release time the release coefficient is 1, so a note released during attack or decay stays at its level for ever. Proved: with a positive sustain level every released note ends, with an explicit bound."
  },
  {
   "property": "C69",
   "status": "partial",
   "theorems": [
    "C69_all_samples_refuted",
    "C69_reports_partial",
    "C69_complete_when_aligned_partial"
   ],
   "note": "REFUTED: of a block that reaches beyond the end of an interval only the part before it is heard, so a peak there is never reported. Proved: the exact reports of the node (per channel, for every history on which it does not fail), and that nothing is missed when blocks end with the intervals."
  },
  {
   "property": "C70",
   "status": "partial",
   "theorems": [
    "C70_stereo_meter_refuted",
    "C70_short_block_refuted",
    "C70_empty_block_refuted",
    "C70_unread_refuted",
    "C69_reports_partial"
   ],
   "note": "REFUTED: the loop runs over channel_count instead of frame_count, so a stereo meter aborts when a notification falls on the first frame of a block (44.1 kHz, 60 Hz, 256 frames: the 90th block); blocks shorter than the channel count abort, empty blocks never end, and 65 unread notifications block. Proved: no failure on the histories admitted by envelope_ok."
  },
  {
   "property": "C71",
   "status": "partial",
   "theorems": [
    "C71_last_interval_refuted",
    "C71_plays_table_partial",
    "C71_whole_cycle_aborts"
   ],
   "note": "REFUTED: behind the last entry the code interpolates towards 0 instead of the first entry. Proved over the real numbers: tables starting with 0 are played exactly as specified, for every session of blocks, as long as no sample falls on a whole number of cycles (where it aborts, C43)."
  },
  {
   "property": "C72",
   "status": "proved",
   "theorems": [
    "C72_pitch"
   ],
   "note": "In binary64, all frequencies from 0 to the sample rate."
  },
  {
   "property": "C73",
   "status": "partial",
   "theorems": [
    "C73_refuted",
    "C73_hard_knee_monotone"
   ],
   "note": "REFUTED for soft knees: the first branch reaches up to threshold + knee/2, so the soft-knee formula never applies inside the knee and the output drops at its upper end. Proved for hard knees."
  },
  {
   "property": "C74",
   "status": "proved",
   "theorems": [
    "C74_session"
   ],
   "note": "Over the real numbers, within 2^-22 * (|wet| + 2) of the input (the tests for gain 0 and 1 round); NaN gains (C46) give NaN."
  },
  {
   "property": "C75",
   "status": "partial",
   "theorems": [
    "C75_refuted",
    "C75_tanh",
    "C75_soft",
    "C75_hard"
   ],
   "note": "REFUTED outside the table: it covers [-1, 1] only, so a clipper with threshold +6 dB clips at 0 dB. Proved: within the spacing of the table (1/255) of the curve at the sample brought into [-1, 1]."
  },
  {
   "property": "C76",
   "status": "partial",
   "theorems": [
    "C76_stereo_input_refuted",
    "C76_mono_input_refuted"
   ],
   "note": "REFUTED: more input channels than impulse channels abort the audio thread (expect), and so do fewer (index out of range reading the dry signal). For equal counts see C45."
  },
  {
   "property": "C77",
   "status": "partial",
   "theorems": [
    "C77_high_frequency_refuted",
    "C77_zero_shelf_refuted",
    "C77_partial"
   ],
   "note": "REFUTED: a frequency above half the sample rate (accepted up to 20 kHz at any sample rate) makes the filter diverge, and so does a shelf gain of 0. Proved for accepted settings below half the sample rate with positive shelf gain."
  },
  {
   "property": "C78",
   "status": "proved",
   "theorems": [
    "C78_session"
   ],
   "note": "Over the real numbers; the gain up to a relative error of 2^-22 (its tests for 0 and 1 round)."
  },
  {
   "property": "C79",
   "status": "partial",
   "theorems": [
    "C79_shelf_gain_refuted",
    "C79_methods_partial",
    "C79_processors",
    "C79_created"
   ],
   "note": "REFUTED for Biquad::shelf_gain, which looks up shelf_gain while the parameter is shelf-gain and panics on every call. Proved for all other methods and for all processors."
  },
  {
   "property": "C80",
   "status": "proved",
   "theorems": [
    "C80_interleavings_are_sequential"
   ],
   "note": "Schedules of at most 2^64 steps; sequentially consistent memory. Only calls that returned are compared; a callback under way is bounded by C81."
  },
  {
   "property": "C81",
   "status": "partial",
   "theorems": [
    "C81_bounded_callback_refuted",
    "C81_commands_taken_partial"
   ],
   "note": "REFUTED: the callback drains the command channel until it is empty, so a client that keeps sending keeps it from rendering, for any number of commands. Proved: it takes at most one step more than there are commands waiting or sent meanwhile."
  },
  {
   "property": "C82",
   "status": "proved",
   "theorems": [
    "C82_times_read_never_decrease"
   ],
   "note": "For at most 2^53 frames."
  },
  {
   "property": "C83",
   "status": "proved",
   "theorems": [
    "C83_ids_distinct"
   ],
   "note": "For at most 2^64 steps (the counter wraps)."
  },
  {
   "property": "C84",
   "status": "partial",
   "theorems": [
    "C84_one_change_confirms_refuted",
    "C84_two_changes_confirm"
   ],
   "note": "REFUTED for one change of the time: the command may have been sent after the callback had emptied the channel. Proved for two changes."
  },
  {
   "property": "C85",
   "status": "partial",
   "theorems": [
    "C85_callback_waits_refuted",
    "C85_waiting_stalls",
    "C85_no_wait_partial"
   ],
   "note": "REFUTED: the channel to the collector holds 512 nodes and the send blocks, so 513 removals while the collector sleeps (up to a second) stall the audio thread. Proved: no callback waits while no more removals have been sent than 512 plus the nodes collected."
  },
  {
   "property": "C86",
   "status": "proved",
   "theorems": [
    "C86_nodes_accounted_for"
   ],
   "note": "As an equation of numbers, in every reachable state."
  },
  {
   "property": "C87",
   "status": "proved",
   "theorems": [
    "C87_node_session"
   ],
   "note": "For an arbitrary processor and arbitrary parameter arithmetic; the last operation is a callback (no command left unprocessed)."
  },
  {
   "property": "C88",
   "status": "proved",
   "theorems": [
    "C88_direct_node"
   ],
   "note": "Same generality as C87."
  },
  {
   "property": "C89",
   "status": "proved",
   "theorems": [
    "C89_gain_node",
    "C89_scheduled_gain"
   ],
   "note": "Over the reals, within 2^-22 of the input (C37: gains within that of 0 or 1 are rounded to it). Gain changes on different frames and without cancellations for the second theorem (C20); the first covers all."
  },
  {
   "property": "C90",
   "status": "proved",
   "theorems": [
    "C90_careful_program_never_aborts",
    "C90_gain_program_never_aborts"
   ],
   "note": "For every processor that does not abort when it has its parameters, and for gain nodes. What happens beyond the limits is refuted elsewhere (C06, C58, C61)."
  },
  {
   "property": "C91",
   "status": "partial",
   "theorems": [
    "C91_adsr_refuted",
    "C91_sampler_refuted",
    "C91_bursts_partial",
    "C91_adsr_fits_partial"
   ],
   "note": "REFUTED: the channels hold 32 requests and the send blocks: 9 set_adsr calls (4 requests each), or 33 other calls, between two blocks make the client wait for the audio thread. Proved: no call waits if and only if at most 32 requests are sent between any two blocks."
  },
  {
   "property": "C92",
   "status": "partial",
   "theorems": [
    "C92_stop_now_refuted",
    "C92_adsr_order_partial",
    "C92_sampler_order_partial"
   ],
   "note": "REFUTED: requests for now carry time 0 and are sorted before those with a time, so start_from_position_at_time(current time) followed by stop_now in the same block leaves the sampler playing. Proved: a later request overtakes an earlier one only if it has a strictly earlier time."
  },
  {
   "property": "C93",
   "status": "proved",
   "theorems": [
    "C93_chain"
   ],
   "note": "For any number of nodes, arbitrary processors and parameter arithmetic; nothing else is connected to the nodes of the chain, and the last operation is a callback (no command left unprocessed)."
  },
  {
   "property": "C94",
   "status": "proved",
   "theorems": [
    "C94_library_program_never_aborts",
    "C94_new_nodes_fit"
   ],
   "note": "Over the reals (as the processors' own theorems). Oscillators and samplers are excluded: C43 and C32 refute that they never abort or hang."
  },
  {
   "property": "C95",
   "status": "proved",
   "theorems": [
    "C95_streams",
    "C95_dynamics_go_on"
   ],
   "note": "Over the reals; the error bounds are those of the nodes' own tests for 0 and 1 (gain, mixer, filter). What arrives at a mixer, envelope or sampler is given block by block (its inbox). An oscillator's clause assumes positive frequencies and a wavetable beginning with 0, a sampler's an accurate_run (C31). The model of the engine has only real numbers: where a compressor or waveshaper gives a NaN (C46, C44) its run ends, which C95_dynamics_go_on excludes for settings in range."
  },
  {
   "property": "C96",
   "status": "proved",
   "theorems": [
    "C96_network"
   ],
   "note": "Nodes in the network are connected among themselves by the requests ws; histories before are arbitrary, afterwards they are not dropped, reconnected or disconnected. The mixing rule (first connection overwrites what the callback hands in, a single straight connection passes all channels) is spelled out in hears (NetSpec.v), as dsp_graph.rs has it."
  },
  {
   "property": "C97",
   "status": "proved",
   "theorems": [
    "C97_library_network"
   ],
   "note": "As C95 for any network; inputs are sums (mix_of). A cyclic network makes the engine abort (C05), so that the hypothesis of a successful run excludes it."
  },
  {
   "property": "C98",
   "status": "proved",
   "theorems": [
    "C98_network_reports",
    "C98_take"
   ],
   "note": "The calls a client makes on the recorder or envelope between two blocks are the block's entry of the node's inbox. The envelope's clause assumes what C69 and C70 need (envelope_ok): blocks and intervals at least as many frames as channels, and at most 64 notifications uncollected."
  },
  {
   "property": "C99",
   "status": "proved",
   "theorems": [
    "C99_melody"
   ],
   "note": "Over the reals. set_adsr is called before the first block, and calls are in the order of their frames. Frames up to 2^46 and 2^30 seconds; sample rates up to 2^29. The number of the first request is arbitrary (the counter is shared by all nodes)."
  },
  {
   "property": "C100",
   "status": "proved",
   "theorems": [
    "C100_track"
   ],
   "note": "Over the reals. Calls are in the order of their frames; the next clip begins later than the fade after the one before it, and every clip with its fade ends inside the sample. Frames up to 2^40 and 2^30 seconds, clips begin within the first 2^20 frames of the sample; blocks and clips limited by clock_holds (beyond that: C31_drift_refuted)."
  },
  {
   "property": "C101",
   "status": "proved",
   "theorems": [
    "C101_automation",
    "C101_parameter",
    "C101_gain",
    "C101_network"
   ],
   "note": "Over the reals, at sample rates that divide 2^32, where times of frames are exact (other rates move a change by at most one frame, C20 and C24). Ramps with a step below 2^-52 are taken for rest (C22_slow_ramp_refuted, C24_slow_ramp_refuted) and are excluded. The gain up to a relative error of 2^-22 (its tests for 0 and 1 round). C101_network: any parameters of gains, panners, filters, convolutions and oscillators anywhere in a network; the case shown running has a gain, a filter and a panner."
  },
  {
   "property": "C102",
   "status": "proved",
   "theorems": [
    "C102_copy_within",
    "C102_step",
    "C102_sine"
   ],
   "note": "sine over the reals; buffers with at least one channel (step and sine abort on buffers without)."
  },
  {
   "property": "C103",
   "status": "proved",
   "theorems": [
    "C103_program"
   ],
   "note": "Over the reals, at sample rates that divide 2^32; other rates move requests by at most one frame (C99, C100). The number of blocks of a program with clips is limited (C31_drift_refuted). Two programs are shown to run: an automated gain and an ADSR node, and a sampler."
  },
  {
   "property": "C104",
   "status": "proved",
   "theorems": [
    "C104_any_notes",
    "C104_short_notes",
    "C104_curves",
    "C104_curves_apply"
   ],
   "note": "Over the reals. The levels in C104_any_notes are those of the envelope model run on the history of settings, starts and ends, in any pattern. C104_curves gives them in closed form for notes of any length that do not overlap, at rates that divide 2^32 and with attack and release longer than 0; C104_curves_apply shows that it is for all such notes; C104_short_notes is the case of notes shorter than the attack. Programs are shown to run."
  },
  {
   "property": "C105",
   "status": "proved",
   "theorems": [
    "C105_clamp",
    "C105_clamp_aborts"
   ],
   "note": "Over the real numbers; f64::clamp also aborts when a bound is NaN, which is outside the model."
  },
  {
   "property": "C106",
   "status": "proved",
   "theorems": [
    "C106_add_sample",
    "C106_add_sample_aborts",
    "C106_silent"
   ],
   "note": "As in C51, channels are only checked against the underlying buffer, not against the slice."
  },
  {
   "property": "C107",
   "status": "proved",
   "theorems": [
    "C107_seconds_nearest",
    "C107_seconds_round_trip",
    "C107_seconds_added",
    "C107_seconds_order",
    "C107_beats",
    "C107_beats_added",
    "C107_beats_order",
    "C107_as_beats",
    "C107_beats_round_trip",
    "C107_late_seconds_refuted"
   ],
   "note": "f64 arithmetic bit for bit (Float.v), timestamps without the limit of their 64 bits. Beyond 2^21 s an f64 does not hold every time (C107_late_seconds_refuted)."
  }
 ]
}