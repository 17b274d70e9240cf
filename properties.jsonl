{"id": "C01", "title": "Connections of a node are exactly the live ones, in the order they were made", "statement": "After any sequence of adding nodes, connecting, disconnecting and removing nodes, walking the outgoing (incoming) connections of a node visits exactly the connections that were made from (to) it and not yet removed, each once, in the order they were made; the walk always terminates.", "quantifier": "every finite sequence of node/connection operations, every hash-map iteration order, every node and direction", "why_tests_cant": "the connections are stored as two interleaved intrusive linked lists through hash maps; a stale pointer only shows after a particular history of removals, so no finite set of histories settles it", "anchors": ["src/realtime/graph.rs: Graph::add_edge, remove_edge, EdgeIterator, NodeIterator, replace_connections"]}
{"id": "C02", "title": "Disconnecting removes exactly one connection of the named pair and nothing else", "statement": "Disconnecting a source from a destination removes exactly one connection between that ordered pair if there is one (nothing otherwise); every other connection survives with its relative order, and disconnecting the only connection of a pair restores the state before it was made.", "quantifier": "every graph reachable by any operation sequence, every ordered pair of nodes, every hash-map iteration order", "why_tests_cant": "the removed connection is found by hash-map iteration, so which of several is removed and how pointers are spliced depends on history and hash seed", "anchors": ["src/realtime/graph.rs: Graph::remove_edge, find_edge_between_nodes, replace_edge_connections, replace_node_connections"]}
{"id": "C03", "title": "Graph operations abort exactly when they are illegal", "statement": "Adding a node aborts exactly when its id is already present; connecting aborts exactly when one of the two nodes is absent; removing a node aborts exactly when it is present and some connection still touches it; no other graph operation or query aborts or diverges.", "quantifier": "every operation sequence and every operation appended to it", "why_tests_cant": "an abort on the audio thread depends on the whole history of operations", "anchors": ["src/realtime/graph.rs: add_node_with_id, add_edge, remove_node", "src/realtime/dsp_graph.rs: add_dsp, remove_dsp, add_connection"]}
{"id": "C04", "title": "Every node is processed once per block and after everything that feeds it", "statement": "Whenever the engine orders the graph successfully, the processing order contains every node exactly once and places the source of every connection before its destination.", "quantifier": "every reachable graph, every hash-map iteration order at every iteration", "why_tests_cant": "the order is driven by std HashMap iteration, which is randomised per process; a test sees one order per run", "anchors": ["src/realtime/topological_sort.rs: TopologicalSort::sort", "src/realtime/dsp_graph.rs: DspGraph::process_dsps"]}
{"id": "C05", "title": "Exactly which graphs can be ordered", "statement": "Ordering the graph terminates; it succeeds exactly when the connections contain no cycle and no ordered pair of nodes is joined by two or more connections, and then for every hash order; otherwise it always fails with the cycle assertion and never with another panic.", "quantifier": "every reachable graph, every hash-map iteration order", "why_tests_cant": "quantifies over all graph shapes and all hash orders", "anchors": ["src/realtime/topological_sort.rs: TopologicalSort::sort, node_without_dependencies", "src/realtime/graph.rs: connection_count, is_connected_to"]}
{"id": "C06", "title": "Any acyclic set of connections can be processed", "statement": "If the connections made through the API contain no cycle then processing a block does not abort with a cycle error, including when two channels of one node are connected to another node by two separate connect_channels_to calls.", "quantifier": "every acyclic connection history", "why_tests_cant": "the failing shape is a particular multi-graph (two parallel connections), not exercised by the unit tests", "anchors": ["src/graph/graph_node.rs: connect_channels_to", "src/realtime/topological_sort.rs: sort"]}
{"id": "C07", "title": "A node hears exactly the mix of its connections", "statement": "While a block is processed, the input given to a node with two or more connections is, channel by channel and frame by frame, the sum in connection order of the connected source channels (source channel s+i to destination channel d+i for i below the connection's channel count), where the first connection overwrites and the others add; channels no connection reaches are silent.", "quantifier": "every acyclic graph, every node processor, every block, every channel and frame", "why_tests_cant": "buffers are recycled through shared pools, so stale data from another node or block would only show in particular graph shapes and histories", "anchors": ["src/realtime/dsp_graph.rs: prepare_input, prepare_n_input_node, copy_output_from_dependencies, mix_endpoint, process_dsp"]}
{"id": "C08", "title": "A connection limited to some channels delivers only those channels", "statement": "A connection made with connect_channels_to(node, s, d, count) delivers to the destination exactly the source channels s..s+count at destination channels d..d+count and nothing else, whatever other connections the destination has.", "quantifier": "every graph, every connection", "why_tests_cant": "the shortcut for single connections bypasses the channel mapping only for one combination of graph shape and arguments", "anchors": ["src/realtime/dsp_graph.rs: prepare_single_input_node", "src/graph/graph_node.rs: connect_channels_to"]}
{"id": "C09", "title": "Audio buffers are conserved and clean", "statement": "Processing a block returns every audio buffer to the free pool and every buffer in the pool is silent between blocks; no buffer is lost, duplicated or shared between two nodes, and no block aborts for lack of buffers while the graph has at most 1022 nodes.", "quantifier": "every sequence of blocks and graph changes, every graph size up to the bound", "why_tests_cant": "a leak of one buffer per unusual block only shows after 1024 of them; stale contents show only with particular pool orders", "anchors": ["src/realtime/dsp_graph.rs: DspGraph::process, process_dsp, get_buffer_with_endpoint", "src/buffer/buffer_pool.rs: BufferPool", "src/graph/assigned_buffer_pool.rs: AssignedBufferPool"]}
{"id": "C10", "title": "Rendering is deterministic", "statement": "The samples the engine produces and the state of every node after a block do not depend on hash-map iteration order: two runs with the same commands and input produce identical output, even for non-associative (floating point) addition.", "quantifier": "every graph without parallel connections, every two choices of all hash orders, every node processor, every block", "why_tests_cant": "hash order is randomised by the standard library, and a bit-exact dependency would only show for rare orders", "anchors": ["src/realtime/dsp_graph.rs: process, process_dsps, copy_output_from_dependencies", "src/realtime/topological_sort.rs: sort"]}
{"id": "C11", "title": "System output carries the output node, and silence without one", "statement": "After processing a block the system output equals, on every channel up to the configured maximum, the output of the last node connected to the output; channels and blocks with no connected (or a removed) output node are silent; the other nodes do not leak into the output.", "quantifier": "every graph, block, channel and frame", "why_tests_cant": "leaks depend on buffer reuse and history", "anchors": ["src/realtime/dsp_graph.rs: DspGraph::process, connect_to_output", "src/realtime/processor.rs: Processor::process"]}
{"id": "C12", "title": "System input reaches the node connected to it", "statement": "The node last connected to the system input receives the system input samples of the block added to whatever its other connections deliver.", "quantifier": "every graph, block, channel and frame", "why_tests_cant": "the input buffer is dropped or overwritten only for nodes that also have other connections", "anchors": ["src/realtime/dsp_graph.rs: DspGraph::process, prepare_single_input_node, copy_output_from_dependencies"]}
{"id": "C13", "title": "A stopped engine is silent and frozen", "statement": "While the engine is not started (before start or after stop), every process call writes silence to the whole output, advances neither the time nor the state of any node, and still applies queued commands.", "quantifier": "every history of commands and process calls, every output buffer content on entry", "why_tests_cant": "depends on every interleaving of commands and callbacks", "anchors": ["src/realtime/processor.rs: Processor::process, process_commands"]}
{"id": "C14", "title": "Callbacks of any size are processed completely, in order and within the maximum block size", "statement": "A started engine given a callback of n frames processes consecutive chunks that partition 0..n in order, each at most the configured maximum; every output frame is written by exactly the chunk that contains it.", "quantifier": "every callback length, every positive maximum block size", "why_tests_cant": "chunk boundary arithmetic must hold for every size pair", "anchors": ["src/realtime/processor.rs: Processor::process_graph"]}
{"id": "C15", "title": "Engine time is the number of frames processed, without drift", "statement": "After any history the engine's current time is the total number of frames processed while started divided by the sample rate, rounded once to the time resolution (no accumulated rounding error); it never decreases.", "quantifier": "every history of callbacks, every sample rate", "why_tests_cant": "accumulated rounding only shows after hours of audio", "anchors": ["src/realtime/processor.rs: update_position", "src/utility/timestamp.rs"]}
{"id": "C16", "title": "Commands take effect in the order they were sent", "statement": "All commands sent before a process call are applied, each exactly once, in the order sent, before any audio of that call is rendered; whether the engine runs is decided by the last Start/Stop.", "quantifier": "every sequence of sends and process calls", "why_tests_cant": "interleavings are unbounded", "anchors": ["src/realtime/processor.rs: process_commands, process", "src/engine/root.rs: Root::start, stop", "src/commands/command.rs"]}
{"id": "C17", "title": "Sample positions survive the conversion to time and back", "statement": "Converting a frame number to a timestamp gives frame / sample rate seconds to within half a timestamp tick plus 2^-53 of the time; distinct frames (up to 2^50) map to distinct, equally ordered timestamps for every sample rate up to 2^31; converting back and rounding to the nearest integer gives the frame back (up to 2^48 frames and 2^30 seconds).", "quantifier": "every frame number and sample rate in the stated ranges", "why_tests_cant": "the space of frames and sample rates is unbounded; the failing cases of truncation are scattered", "anchors": ["src/utility/timestamp.rs: Timestamp::from_samples, as_samples"]}
{"id": "C18", "title": "Scheduled events fire on the frame they were scheduled for", "statement": "An event scheduled at Timestamp::from_samples(n, sample_rate) takes effect at frame n of the stream.", "quantifier": "every frame n and sample rate", "why_tests_cant": "whether truncation hits the frame or the one before depends on the low bits of n / sample_rate", "anchors": ["src/effects/utility/event_processor.rs: EventProcessor::next_event", "src/utility/timestamp.rs: as_samples"]}
{"id": "C19", "title": "Parameter values requested by clients stay in the declared range", "statement": "Whatever value is requested through any of the setters, the target value sent to the engine lies within the parameter's declared minimum and maximum, and equals the requested value if that was already inside.", "quantifier": "every range with minimum <= default <= maximum, every requested value", "why_tests_cant": "value space is unbounded", "anchors": ["src/parameter/audio_parameter.rs", "src/parameter/parameter_range.rs: ParameterRange::clamp"]}
{"id": "C20", "title": "An immediate parameter change takes effect exactly at its time", "statement": "With only immediate changes scheduled at distinct frames, the value at every frame is the value of the latest change at or before that frame (or the initial value), whatever the block sizes.", "quantifier": "every schedule of immediate changes, every frame, every block partition", "why_tests_cant": "quantifies over all schedules and block partitions", "anchors": ["src/parameter/realtime_parameter.rs: process, value_at_time, add_parameter_change"]}
{"id": "C21", "title": "Several changes due at once: the last one wins at once", "statement": "If several immediate changes are due at or before a frame, the value at that frame is that of the last of them.", "quantifier": "every schedule", "why_tests_cant": "only particular schedules are affected", "anchors": ["src/parameter/realtime_parameter.rs: value_at_time"]}
{"id": "C22", "title": "A linear ramp moves monotonically from its start value to its target and reaches it", "statement": "During a linear ramp whose end lies on a frame, each frame's value lies between the start value and the target, moves by equal steps, and is exactly the target from the end frame on.", "quantifier": "every start value, target and duration", "why_tests_cant": "unbounded values and durations", "anchors": ["src/parameter/realtime_parameter.rs: value_at_time"]}
{"id": "C23", "title": "A ramp never leaves the interval between its endpoints", "statement": "For every ramp, at whatever times it starts and ends, every value produced lies between the value at its start and its target (hence in the parameter's declared range).", "quantifier": "every ramp, including ends between two frames", "why_tests_cant": "needs ends between frames; unit tests use frame-aligned ends", "anchors": ["src/parameter/realtime_parameter.rs: value_at_time"]}
{"id": "C24", "title": "An exponential ramp is geometric and reaches its target", "statement": "During an exponential ramp between positive values that ends on a frame, consecutive values have a constant ratio, lie between start and target, and the target is reached at the end frame and kept.", "quantifier": "every positive start value, positive target and duration", "why_tests_cant": "unbounded values and durations", "anchors": ["src/parameter/realtime_parameter.rs: value_at_time"]}
{"id": "C25", "title": "Parameter processing does not depend on how audio is split into blocks", "statement": "Processing n+m frames as one block yields the same values as processing n frames and then m frames.", "quantifier": "every parameter state, every schedule, every n and m", "why_tests_cant": "all splits of all schedules", "anchors": ["src/parameter/realtime_parameter.rs: process"]}
{"id": "C26", "title": "Cancelling scheduled changes after a time keeps the earlier ones and removes the later ones", "statement": "cancel_scheduled_changes_ending_after(t) removes exactly the pending changes that end after t; cancel_scheduled_changes removes all pending changes; neither touches the current value.", "quantifier": "every set of pending changes and every t", "why_tests_cant": "the direction of the comparison matters for every schedule", "anchors": ["src/parameter/realtime_parameter.rs: cancel_scheduled_changes_ending_after, cancel_scheduled_changes"]}
{"id": "C27", "title": "Events are delivered exactly once, in time order, inside their block", "statement": "Over any sequence of blocks, every event sent is delivered exactly once, in order of time (ties in order of sending among pending ones), never in a block that ends at or before its time, at a frame offset inside the block; the offsets within a block never go backwards and the segments between them partition the block.", "quantifier": "every sequence of sends and blocks, every event time", "why_tests_cant": "all interleavings of sends with blocks and all times", "anchors": ["src/effects/utility/event_processor.rs: EventProcessor"]}
{"id": "C28", "title": "Cancel-all drops everything sent before it and nothing sent after it", "statement": "When a cancelling event is received, all events received earlier and still pending are never delivered; events received later are unaffected.", "quantifier": "every sequence of sends", "why_tests_cant": "all interleavings", "anchors": ["src/effects/utility/event_processor.rs: receive_events"]}
{"id": "C29", "title": "A recording is exactly the input between start and stop", "statement": "The recording returned for a take equals, sample for sample on every channel, the input frames presented from the start of recording to its stop, whatever the block sizes and however many internal buffers they span.", "quantifier": "every input, every partition into blocks, every buffer size, every take length", "why_tests_cant": "buffer boundaries fall differently for every block partition", "anchors": ["src/effects/recorder/recorder_processor.rs: RecorderProcessor", "src/effects/recorder/recorder_node.rs: append_buffer, take_recording"]}
{"id": "C30", "title": "Recorder buffers are conserved", "statement": "Buffers circulate between the audio thread and the control thread without loss or duplication; recording never runs out of buffers while the control thread returns each buffer before 31 more are filled.", "quantifier": "every schedule of audio blocks and notification handling", "why_tests_cant": "all interleavings", "anchors": ["src/effects/recorder/recorder_processor.rs: next_buffer", "src/effects/recorder/recorder_node.rs: return_buffer"]}
{"id": "C31", "title": "A sampler plays the sample it was given", "statement": "Started at frame f from the beginning, the sampler outputs sample frame k at stream frame f+k, and silence once the sample ends; started from another position the content is the same from that position under a fade-in that ends at unity.", "quantifier": "every sample, start position, block partition", "why_tests_cant": "all sample lengths, positions and block partitions", "anchors": ["src/effects/sampler/sampler_voice.rs: Voice", "src/effects/sampler/sampler_processor.rs: SamplerDspProcess"]}
{"id": "C32", "title": "Fades are bounded, monotone and complementary", "statement": "Fade-in gains rise from 0 to 1, fade-out gains fall from 1 to 0, gains always lie in [0,1], and at every point of a cross-fade the fade-in and fade-out gains sum to 1.", "quantifier": "every fade length and position", "why_tests_cant": "every length and position", "anchors": ["src/effects/sampler/sampler_fade.rs"]}
{"id": "C33", "title": "A looping sampler jumps back exactly at the loop end", "statement": "While looping between two points, playback never renders a sample frame at or past the loop end outside the cross-fade tail, and jumps to the loop start when it reaches the loop end.", "quantifier": "every sample, loop points and block partition", "why_tests_cant": "boundary arithmetic over all partitions", "anchors": ["src/effects/sampler/sampler_processor.rs: next_loop_position, get_render_interval, process_sample"]}
{"id": "C34", "title": "A stopped sampler stays silent", "statement": "After a stop takes effect and its fade-out has elapsed, the sampler outputs silence until it is started again.", "quantifier": "every history of sampler events", "why_tests_cant": "only histories with an enabled loop fail", "anchors": ["src/effects/sampler/sampler_processor.rs: stop, next_loop_position, process_sample"]}
{"id": "C35", "title": "Mixer output is the matrix product", "statement": "Every output channel of the mixer is, frame by frame, the sum over the input channels of input times the level last set for that pair, up to 2^-51 of the input (the tolerance of the zero and unity tests).", "quantifier": "every matrix, input block, channel and frame", "why_tests_cant": "unbounded inputs; zero and unity gains take separate paths", "anchors": ["src/effects/mixer/mixer_processor.rs", "src/effects/mixer/mixer_matrix.rs"]}
{"id": "C36", "title": "Mixer levels are independent cells", "statement": "Setting the level of one (input, output) pair changes that level only, reading it back gives the value set; the ready-made mixers (mono to stereo, unity) have the documented levels.", "quantifier": "every matrix size, every pair of cells", "why_tests_cant": "index arithmetic over all sizes", "anchors": ["src/effects/mixer/mixer_matrix.rs"]}
{"id": "C37", "title": "Gain multiplies every sample by the gain of its frame", "statement": "The output of a gain node on each shared channel is the input sample times the gain parameter value at that frame, including the shortcuts for silence and unity, up to 2^-22 of the sample (the tolerance of the shortcuts).", "quantifier": "every input, every gain curve", "why_tests_cant": "the shortcuts are taken only for all-zero or all-one gain vectors", "anchors": ["src/effects/gain/gain_processor.rs", "src/buffer/audio_buffer.rs: apply_gain"]}
{"id": "C38", "title": "Pan keeps gains in range and is transparent in the centre", "statement": "For pan in [-1,1] both channel gains lie in [0,1], one of them is always 1, centre passes both channels unchanged, and hard left/right mutes exactly the other side.", "quantifier": "every pan value and input", "why_tests_cant": "real-valued parameter", "anchors": ["src/effects/pan/pan_processor.rs"]}
{"id": "C39", "title": "The ADSR envelope stays in [0,1]", "statement": "Whatever notes are switched on and off at whatever times and whatever the times and sustain level (in range), the envelope value stays in [0,1].", "quantifier": "every event history, every parameter setting", "why_tests_cant": "all histories", "anchors": ["src/effects/adsr/adsr_envelope.rs"]}
{"id": "C40", "title": "ADSR stages take their programmed time", "statement": "From zero, attack reaches 1 after the attack time in samples; decay reaches the sustain level and release reaches 0 within their programmed times; stages follow the order attack, decay, sustain, release, idle.", "quantifier": "every time setting, sample rate", "why_tests_cant": "real-valued parameters", "anchors": ["src/effects/adsr/adsr_envelope.rs"]}
{"id": "C41", "title": "The envelope follower is bounded by the signal", "statement": "The follower's level always lies between 0 and the largest absolute sample seen so far, moves towards the input's absolute value at every sample, and converges to it for constant input.", "quantifier": "every input sequence and time constants", "why_tests_cant": "all inputs", "anchors": ["src/effects/utility/envelope_follower.rs"]}
{"id": "C42", "title": "Periodic notifications have the requested long-term rate", "statement": "After n samples the number of notifications equals floor of n divided by the interval as long as no block is longer than the interval, and at most one per block otherwise; the phase never drifts.", "quantifier": "every interval and block partition", "why_tests_cant": "long-term drift", "anchors": ["src/effects/utility/periodic_notification.rs"]}
{"id": "C43", "title": "The oscillator never reads outside its wavetable", "statement": "For every frequency and sample rate the oscillator's phase stays in [0,1) after every sample and the wavetable index is inside the table, so no frequency makes it abort.", "quantifier": "every frequency, sample rate, number of samples", "why_tests_cant": "only phases hitting 1.0 exactly fail", "anchors": ["src/effects/oscillator/oscillator_processor.rs"]}
{"id": "C44", "title": "The waveshaper is bounded and transparent when dry", "statement": "Output never exceeds the mix of input and the extreme of the shaping table; with mix 0 the output is the input; the shaper is odd and monotone if its table is.", "quantifier": "every input and parameter setting", "why_tests_cant": "real-valued inputs", "anchors": ["src/effects/waveshaper/waveshaper_processor.rs"]}
{"id": "C45", "title": "Convolution reverb computes the linear convolution", "statement": "The wet signal at every frame is the sum over the impulse response of impulse[k] times the input k frames earlier, across block boundaries and for every block partition.", "quantifier": "every impulse, input, block partition", "why_tests_cant": "block-based FFT edge effects depend on lengths and partition", "anchors": ["src/effects/convolution/convolution_processor.rs"]}
{"id": "C46", "title": "The compressor never amplifies and leaves quiet signals alone", "statement": "The compressor's gain reduction is never positive (gain at most 1) and is exactly zero for levels below the threshold minus half the knee.", "quantifier": "every level and parameter setting", "why_tests_cant": "real-valued parameters", "anchors": ["src/effects/compressor/compressor_processor.rs: calculate_gain_reduction"]}
{"id": "C47", "title": "Decibel and linear levels convert back and forth", "statement": "Level::from_db and as_db are inverse to each other above the silence floor, monotone, and map 0 dB to unity.", "quantifier": "every level", "why_tests_cant": "real-valued inputs", "anchors": ["src/utility/level.rs"]}
{"id": "C48", "title": "Biquad filters have their nominal response", "statement": "A low-pass passes DC with unity gain and blocks Nyquist, a high-pass the reverse, a notch has zero gain at its centre frequency and a band-pass unity gain there; filters are stable for every frequency below Nyquist and every positive Q.", "quantifier": "every frequency in (0, sample rate/2), every positive Q", "why_tests_cant": "real-valued parameters", "anchors": ["src/effects/biquad/biquad_coefficients.rs", "src/effects/biquad/biquad_processor.rs"]}
{"id": "C49", "title": "Copying and mixing audio touches exactly the requested region", "statement": "copy_from and add_from change exactly the destination region given (channels d..d+count, frames f..f+n) to the source values (sum of both) and leave every other sample unchanged; they abort exactly when a region is outside its buffer.", "quantifier": "every pair of buffers, locations and sizes", "why_tests_cant": "index arithmetic over all sizes", "anchors": ["src/buffer/audio_buffer.rs: copy_from, add_from", "src/buffer/owned_audio_buffer.rs: get_channel_data_mut"]}
{"id": "C50", "title": "Interleaved audio round-trips", "statement": "Filling a buffer from interleaved data and copying it back out with the same channel count reproduces the data; with more interleaved channels than the buffer has, each buffer channel receives its own interleaved channel.", "quantifier": "every channel count, frame count and data", "why_tests_cant": "index arithmetic over all sizes", "anchors": ["src/buffer/audio_buffer.rs: fill_from_interleaved, copy_to_interleaved"]}
{"id": "C51", "title": "Slicing a buffer is a translation of coordinates", "statement": "Reading or writing a slice of a buffer at (channel, frame) reads or writes the underlying buffer at the slice's offset plus that position, and the slice exposes exactly its declared channels and frames.", "quantifier": "every buffer, range and position", "why_tests_cant": "index arithmetic over all sizes", "anchors": ["src/buffer/borrowed_audio_buffer.rs", "src/buffer/mutable_borrowed_audio_buffer.rs"]}
{"id": "C52", "title": "Appending and padding buffers preserve their content", "statement": "extended_with_buffer yields a buffer with both contents one after the other on every channel; padding to a length keeps the content and adds silence.", "quantifier": "every pair of buffers", "why_tests_cant": "all sizes", "anchors": ["src/buffer/owned_audio_buffer.rs: extended_with_buffer, padded_to_length"]}
{"id": "C53", "title": "Silence and scaling operate on all channels", "statement": "Applying a constant gain to a buffer multiplies every sample of every channel by it, including gain zero and one.", "quantifier": "every buffer and gain", "why_tests_cant": "only gain zero on multichannel buffers is affected", "anchors": ["src/buffer/audio_buffer.rs: apply_gain_value"]}
{"id": "C54", "title": "Vectorised kernels equal the scalar definition", "statement": "Each SIMD kernel (mix, mix with gain, multiply, subtract) writes at every index exactly the scalar result for that index and nothing beyond, for every length and alignment.", "quantifier": "every length, alignment and content", "why_tests_cant": "prefix/suffix handling depends on address alignment", "anchors": ["src/dsp/mod.rs"]}
{"id": "C55", "title": "Frame iteration visits every sample location exactly once", "statement": "Iterating over the sample locations of a buffer yields each (channel, frame) exactly once, and only those.", "quantifier": "every buffer size", "why_tests_cant": "all sizes, including empty", "anchors": ["src/buffer/audio_buffer.rs: FrameIterator"]}
{"id": "C56", "title": "Notifiers run until they say stop", "statement": "Each registered notifier is called once per process_notifications call, in registration order, until and including the first call on which it returns stop, and never afterwards; dropping one does not disturb the others.", "quantifier": "every set of notifiers and every history of their answers", "why_tests_cant": "all histories", "anchors": ["src/engine/root.rs: process_notifications"]}
{"id": "C57", "title": "Sample-rate conversion keeps levels and endpoints", "statement": "Linear-interpolating conversion produces values between neighbouring source samples (never exceeding the source's range), reproduces the source for equal rates, and never reads outside the source.", "quantifier": "every source buffer and pair of sample rates", "why_tests_cant": "all rate pairs", "anchors": ["src/buffer/audio_buffer.rs: sample_rate_convert_from"]}
{"id": "C58", "title": "Nodes with more channels than configured are refused safely", "statement": "Processing a node never aborts because of its channel counts: any node that can be created with the API can be processed whatever the engine's maximum channel count.", "quantifier": "every node channel count and engine configuration", "why_tests_cant": "depends on the combination of configuration and node", "anchors": ["src/realtime/dsp_graph.rs: process_dsp", "src/engine/root.rs: EngineOptions", "src/effects/mixer/mixer_node.rs"]}
{"id": "C59", "title": "Copying out, clearing and duplicating work on exactly the addressed samples", "statement": "An owned copy of a slice has the slice's shape and samples; clearing or filling a buffer, slice or range sets exactly the samples of that range; duplicating a channel copies exactly the requested frames onto the target channel and nothing else.", "quantifier": "every buffer, slice, range and channel pair", "why_tests_cant": "index arithmetic over all sizes", "anchors": ["src/buffer/owned_audio_buffer.rs: from_buffer, duplicate_channel", "src/buffer/audio_buffer.rs: fill_with_value, clear, clear_range"]}
{"id": "C60", "title": "A buffer built from sample data has the requested channels", "statement": "Building a buffer from a slice of samples with n channels yields an n-channel buffer in which every channel holds those samples.", "quantifier": "every slice of samples and channel count", "why_tests_cant": "tests use one channel only", "anchors": ["src/buffer/owned_audio_buffer.rs: from_slice"]}
{"id": "C61", "title": "Dropping a node never aborts the engine", "statement": "Letting go of a node handle while the node is still connected removes the node (and its connections) without aborting the audio thread.", "quantifier": "every graph and every node of it", "why_tests_cant": "needs a drop while connections exist on the audio thread; tests disconnect first", "anchors": ["src/graph/graph_node.rs: Drop", "src/realtime/graph.rs: remove_node"]}
{"id": "C62", "title": "A ramp starts at its start time", "statement": "A scheduled ramp starts at the first frame whose time has reached the ramp's start time, whatever other changes are pending.", "quantifier": "every schedule of changes, every ramp", "why_tests_cant": "only particular combinations of changes are affected", "anchors": ["src/parameter/realtime_parameter.rs: value_at_time, add_parameter_change"]}
{"id": "C63", "title": "A sampler is silent until it is started", "statement": "A sampler that has never been started outputs silence, whatever else is requested of it.", "quantifier": "every history of requests without a start, every block partition", "why_tests_cant": "histories are unbounded; only those that enable a loop fail", "anchors": ["src/effects/sampler/sampler_processor.rs: process_sample, finish_sample"]}
{"id": "C64", "title": "Cancelling a loop lets the sample play to its end", "statement": "After the loop is cancelled, playback goes on from where it is to the end of the sample and then stops.", "quantifier": "every sample, loop and cancellation time", "why_tests_cant": "depends on how many loops were completed before", "anchors": ["src/effects/sampler/sampler_node.rs: cancel_loop", "src/effects/sampler/sampler_processor.rs: next_loop_position"]}
{"id": "C65", "title": "Cancelling scheduled events leaves the playing sample alone", "statement": "cancel_all removes requests whose time has not come and changes nothing else.", "quantifier": "every history of requests", "why_tests_cant": "histories are unbounded", "anchors": ["src/effects/sampler/sampler_node.rs: cancel_all", "src/effects/sampler/sampler_processor.rs: process_event"]}
{"id": "C66", "title": "A pan node with one input pans that input", "statement": "A pan node can be created with one input channel; it then distributes that channel over the two outputs, and its output depends on its own input only.", "quantifier": "every mono input and pan curve", "why_tests_cant": "the constructor accepts any input count; tests use two", "anchors": ["src/effects/pan/pan_node.rs: Pan::new", "src/effects/pan/pan_processor.rs"]}
{"id": "C67", "title": "Setting mixer levels does not block", "statement": "Any number of mixer levels can be set at any time, before or while audio is processed, without the calling thread having to wait.", "quantifier": "every number of calls between blocks", "why_tests_cant": "needs more calls than the channel holds", "anchors": ["src/effects/mixer/mixer_node.rs: set_level, EVENT_CHANNEL_CAPACITY"]}
{"id": "C68", "title": "A released ADSR note always ends", "statement": "After note off the envelope eventually reaches 0, in whatever stage the note was and whatever the sustain level and release time.", "quantifier": "every history of notes and settings, every sustain level in [0,1], every release time", "why_tests_cant": "tests release from the sustain stage with a positive sustain level", "anchors": ["src/effects/adsr/adsr_envelope.rs: close, calculate_release_coefficient, process"]}
{"id": "C69", "title": "The envelope node reports the peak of all samples", "statement": "Once per notification interval, and for every channel, the envelope node reports the largest level its follower reached over all samples received since the previous report.", "quantifier": "every input, block partition, notification frequency and channel count", "why_tests_cant": "which samples are heard depends on how blocks and intervals line up", "anchors": ["src/effects/envelope/envelope_processor.rs: process_audio, send_notifications", "src/effects/envelope/envelope_node.rs: take_notifications"]}
{"id": "C70", "title": "The envelope node never aborts or stalls the audio thread", "statement": "Processing a block returns without a panic and without waiting, for every block length, channel count, notification frequency, and whether or not the notifications are collected.", "quantifier": "every block partition, notification frequency, channel count and reading schedule", "why_tests_cant": "the failing alignment may only occur after minutes", "anchors": ["src/effects/envelope/envelope_processor.rs: process_audio"]}
{"id": "C71", "title": "The oscillator plays its wavetable", "statement": "The output on every channel is the wavetable played once per period of the frequency parameter, linearly interpolated between the two nearest entries (cyclically), continuous across blocks, times the gain parameter.", "quantifier": "every wavetable, every sequence of frequency and gain values, every block partition", "why_tests_cant": "real-valued frequencies; continuity across arbitrary block partitions", "anchors": ["src/effects/oscillator/oscillator_processor.rs: process_audio, get_value", "src/effects/oscillator/oscillator_node.rs: Oscillator::new"]}
{"id": "C72", "title": "The oscillator does not drift", "statement": "After n samples the oscillator's phase, computed in double precision, differs from the exact sum of frequency/sample rate (modulo whole cycles) by at most n times 2^-52 of a cycle.", "quantifier": "every sequence of frequencies up to the sample rate, every number of samples", "why_tests_cant": "rounding errors accumulate over hours", "anchors": ["src/effects/oscillator/oscillator_processor.rs: increment_phase"]}
{"id": "C73", "title": "The compressor's curve rises", "statement": "A louder level at the compressor's detector never gives a quieter output level (level times gain), for hard and soft knees.", "quantifier": "every pair of levels and every threshold, ratio and knee", "why_tests_cant": "a step in the curve shows only for levels on both sides of it", "anchors": ["src/effects/compressor/compressor_processor.rs: calculate_gain_reduction"]}
{"id": "C74", "title": "The compressor scales its input by one gain per frame", "statement": "Every output sample is the input sample times (gain * wet + dry), where the gain follows from the mean over the channels of their envelope levels, the envelopes carrying on across blocks; all channels get the same gain, and a fully dry compressor returns its input times dry.", "quantifier": "every session of blocks, channel count, input and sequence of parameter values", "why_tests_cant": "state across blocks; all parameters may vary per sample", "anchors": ["src/effects/compressor/compressor_processor.rs: process_audio, process_envelope, process_gain_reduction, process_dry_signal"]}
{"id": "C75", "title": "The built-in shaping curves are followed", "statement": "Each shaped sample of the tanh, soft-saturator and hard-clip waveshapers is the value of that curve at the driven input sample, up to the resolution of the table; hard clipping never exceeds its threshold and leaves samples below it unchanged.", "quantifier": "every input sample and every threshold the constructor accepts", "why_tests_cant": "all real inputs and thresholds", "anchors": ["src/effects/waveshaper/waveshaper_node.rs: tanh, soft_saturator, hard_clip", "src/effects/waveshaper/shape.rs: shape_sample"]}
{"id": "C76", "title": "Convolution serves every input channel count", "statement": "A convolution node created with any positive input channel count and any impulse response produces on each output channel the reverberation of its input, and does not abort when processing.", "quantifier": "every input channel count and impulse channel count", "why_tests_cant": "the combinations of channel counts are only rejected (or not) while processing", "anchors": ["src/effects/convolution/convolution_node.rs: Convolution::new", "src/effects/convolution/convolution_processor.rs: consume_input, copy_dry_to_output"]}
{"id": "C77", "title": "Every accepted filter setting is stable", "statement": "With any frequency, q and shelf gain within the ranges the biquad node accepts, at any sample rate, bounded input gives bounded output.", "quantifier": "every filter type, sample rate and accepted parameter value", "why_tests_cant": "real-valued parameters; growth may take long to show", "anchors": ["src/effects/biquad/biquad_node.rs: Biquad::new", "src/effects/biquad/biquad_coefficients.rs"]}
{"id": "C78", "title": "The biquad node filters continuously across blocks", "statement": "However the signal is divided into blocks and however the parameters move from sample to sample, every channel's output is that of one second-order difference equation with the coefficients of the parameters at each sample, times the gain; channels do not influence each other.", "quantifier": "every session of blocks, every sequence of parameter values, every channel count", "why_tests_cant": "state across arbitrary partitions; coefficients are cached", "anchors": ["src/effects/biquad/biquad_processor.rs: process_audio"]}
{"id": "C79", "title": "Every parameter method returns its parameter", "statement": "Every parameter method of every node returns the documented parameter without a panic, and every processor finds the parameters it reads.", "quantifier": "every node type, every method, every parameter range", "why_tests_cant": "a name mismatch is found only when that method is called", "anchors": ["src/graph/dsp_node.rs: get_parameter_mut", "src/graph/dsp_parameters.rs: get_parameter", "src/utility/create_parameters.rs", "src/effects/biquad/biquad_node.rs: shelf_gain"]}
{"id": "C80", "title": "Concurrent use amounts to a sequential history", "statement": "However the steps of clients, audio thread and collector interleave, the audio produced is that of one sequential history of commands and callbacks, in which commands keep the order in which they were sent, a command sent before a callback begins precedes it and one sent after it returned follows it.", "quantifier": "every schedule of client, audio and collector steps, every graph and node behaviour", "why_tests_cant": "interleavings cannot be enumerated", "anchors": ["src/engine/root.rs", "src/realtime/processor.rs: process", "src/commands/id.rs: Id::generate"]}
{"id": "C81", "title": "A callback's command handling is bounded", "statement": "The number of commands one audio callback processes before it renders is bounded, whatever clients do meanwhile.", "quantifier": "every schedule", "why_tests_cant": "needs a client that keeps sending while the callback runs", "anchors": ["src/realtime/processor.rs: process_commands"]}
{"id": "C82", "title": "Times read by clients never go back", "statement": "The current times that clients read while the engine runs never decrease, and each is the time of a number of frames played.", "quantifier": "every schedule, every sample rate", "why_tests_cant": "races between reads and the audio thread", "anchors": ["src/engine/root.rs: current_time", "src/realtime/processor.rs: update_position"]}
{"id": "C83", "title": "Ids are unique", "statement": "No two ids given out, on any threads, are equal.", "quantifier": "every schedule of fewer than 2^64 steps", "why_tests_cant": "races", "anchors": ["src/commands/id.rs: Id::generate"]}
{"id": "C84", "title": "Seeing time pass confirms a command", "statement": "A client that sent a command and then sees the current time change knows the command has been applied.", "quantifier": "every schedule", "why_tests_cant": "depends on where in a callback the command was sent", "anchors": ["src/engine/root.rs: current_time", "src/realtime/processor.rs: process"]}
{"id": "C85", "title": "The audio callback never waits", "statement": "The audio callback never has to wait for another thread.", "quantifier": "every schedule", "why_tests_cant": "needs the collector to sleep while many nodes are removed", "anchors": ["src/realtime/dsp_graph.rs: remove_dsp", "src/realtime/garbage_collector.rs: run_garbage_collector"]}
{"id": "C86", "title": "Removed nodes are destroyed once, off the audio thread", "statement": "Every node sent to the engine is at any time in exactly one place: waiting in a command, in the graph, waiting for the collector, or destroyed by the collector thread.", "quantifier": "every schedule", "why_tests_cant": "ownership across three threads", "anchors": ["src/realtime/dsp_graph.rs: remove_dsp", "src/realtime/garbage_collector.rs"]}
{"id": "C87", "title": "A node's life in the engine", "statement": "Between its creation and its removal a node processes every block of the stream exactly once and in order, and each of its parameters takes the values it would take on its own given the changes and cancellations sent to it, whatever other nodes and connections do.", "quantifier": "every history of clients and callbacks, every hash order, every processor and every arithmetic", "why_tests_cant": "histories interleave many nodes; unit tests run processors outside an engine", "anchors": ["src/graph/dsp.rs: process_audio, request_parameter_change, cancel_parameter_changes", "src/graph/dsp_parameters.rs", "src/graph/graph_node.rs", "src/realtime/processor.rs"]}
{"id": "C88", "title": "A node between input and output hears and is heard", "statement": "A node that is connected to the input and the output of the engine receives exactly the frames of the callbacks' inputs, and its output frames are exactly those of the callbacks' outputs, however the host sizes its callbacks; the outputs are silent while the engine is stopped.", "quantifier": "every history and every sequence of callback sizes", "why_tests_cant": "buffer sizes and interleavings are unbounded", "anchors": ["src/graph/graph_node.rs: connect_to_input, connect_to_output", "src/realtime/dsp_graph.rs: process", "src/realtime/processor.rs: process"]}
{"id": "C89", "title": "A gain node from parameter to loudspeaker", "statement": "With a gain node between input and output every output frame is the input frame times the value of the gain parameter at that frame; a gain set for a time is heard from the first frame at or after that time.", "quantifier": "every history, every schedule of gain changes", "why_tests_cant": "end to end across parameter, node, graph and engine", "anchors": ["src/effects/gain/gain_processor.rs: process_audio", "src/effects/gain/gain_node.rs", "src/parameter/realtime_parameter.rs: process"]}
{"id": "C90", "title": "Programs within the limits never abort the engine", "statement": "If a program creates nodes within the channel limit, connects existing nodes once and within the channel limit, disconnects a node before dropping it, uses no exponential ramps, and whenever the engine runs the graph has no cycle and fits the buffer pool, then no callback ever aborts.", "quantifier": "every program that keeps to these rules, every sequence of callbacks, every hash order", "why_tests_cant": "absence of panics over all histories", "anchors": ["src/realtime/dsp_graph.rs", "src/realtime/processor.rs", "src/graph/dsp.rs", "src/effects/gain/gain_processor.rs"]}
{"id": "C91", "title": "Requests to a node never make the client wait", "statement": "Calls of the ADSR and sampler nodes (note on and off, set_adsr, start, stop, loop, cancel) return without waiting for the audio thread, however many are made and whenever the next block is processed.", "quantifier": "every sequence of calls and blocks", "why_tests_cant": "needs more requests between two blocks than the channel holds", "anchors": ["src/effects/adsr/adsr_node.rs: note_on_at_time, note_off_at_time, set_adsr", "src/effects/sampler/sampler_node.rs: send_event"]}
{"id": "C92", "title": "Requests that are due take effect in the order made", "statement": "When several requests to an ADSR or sampler node are due in the same block, a request made later takes effect after those made earlier: in particular after start and then stop the sampler is silent.", "quantifier": "every sequence of requests, times and blocks", "why_tests_cant": "depends on how the times of requests fall between blocks", "anchors": ["src/effects/sampler/sampler_node.rs: start_from_position_at_time, stop_now", "src/effects/utility/event_processor.rs: receive_events, next_event", "src/effects/adsr/adsr_processor.rs"]}
{"id": "C93", "title": "A chain of nodes passes the signal along", "statement": "After connect_nodes!(\"input\" => a => b => \u2026 => \"output\") on new nodes, the first node receives the frames of the callbacks' inputs (without \"input\": silence), every other node receives in each block exactly what the node before it produced in that block (no block of delay, channel for channel), and the callbacks' outputs are what the last produced, however long the chain and however the host sizes its callbacks.", "quantifier": "every chain length, every history around it, every sequence of callback sizes, every hash order, every processor", "why_tests_cant": "the order of processing depends on hash order; unbounded chains", "anchors": ["src/graph/connect_nodes.rs: connect_nodes", "src/graph/graph_node.rs: connect_to, connect_to_input, connect_to_output", "src/realtime/dsp_graph.rs: process"]}
{"id": "C94", "title": "Programs of library nodes within the limits never abort the engine", "statement": "A program that creates gain, pan, mixer, biquad, convolution and ADSR nodes, connects and disconnects them, sets and ramps (not exponentially) their parameters, sends them matrices and notes, drops them, starts and stops the engine and runs callbacks, and that keeps within the limits (channels, free ids, no cycle and enough buffers while running), never makes the audio thread panic.", "quantifier": "every such program mixing all of these node kinds, every sequence of callback sizes and contents, every hash order, everything that reaches the nodes' channels", "why_tests_cant": "unbounded programs; the kinds of node interact through one buffer pool and one graph", "anchors": ["src/graph/dsp.rs: process", "src/effects/gain/gain_processor.rs: process_audio", "src/effects/pan/pan_processor.rs: process_audio", "src/effects/mixer/mixer_processor.rs: process_audio", "src/effects/biquad/biquad_processor.rs: process_audio", "src/effects/convolution/convolution_processor.rs: process_audio", "src/effects/adsr/adsr_processor.rs: process_audio"]}
{"id": "C95", "title": "A chain of library nodes does to the stream what its nodes are for", "statement": "After connect_nodes!(\"input\" => a => b => \u2026 => \"output\") on new nodes of the library (or the same starting at a source such as an oscillator or sampler), there are streams of samples from the concatenated inputs of the callbacks to their concatenated outputs such that every gain node multiplies its stream by the values of its parameter, every panner attenuates the sides, every mixer applies the matrix in force, every filter obeys its difference equation with the coefficients of each frame, every convolution node convolves with its impulse response, every envelope node multiplies by its envelope, an oscillator gives its wave, a sampler the ideal playback, a compressor scales each frame by its gain and a waveshaper applies its curve: independently of the block sizes, the engine's internal chunks and the order of its hash maps.", "quantifier": "every chain of any length of these nodes, every history around it, every sequence of callback sizes and contents, all parameter changes, all notes and matrices sent, every hash order", "why_tests_cant": "end-to-end over unbounded histories, chains and sessions of all node kinds", "anchors": ["src/graph/connect_nodes.rs: connect_nodes", "src/graph/dsp.rs: process", "src/realtime/processor.rs: process", "src/realtime/dsp_graph.rs: process", "src/effects/gain/gain_processor.rs: process_audio", "src/effects/sampler/sampler_processor.rs: process_audio", "src/effects/oscillator/oscillator_processor.rs: process_audio"]}
{"id": "C96", "title": "Any network of nodes: every input hears exactly what its connections bring, frame by frame", "statement": "New nodes are created and connected in any way (fan-out, mixing, channel offsets, one of them at the engine's input, one at its output), then left alone apart from parameter changes. Every node is processed once for each block of the stream with its own parameters' values; in every frame each channel of its input is what the connections into it bring from the other nodes' outputs in that same frame (no delay, none missing, none twice), or the callback's input for the node at the input; the callbacks' output is what the node at the output gives.", "quantifier": "every set of new nodes of any size, every sequence of connection requests among them, every history before and after, every sequence of callback sizes, every hash order, any processors and samples", "why_tests_cant": "unbounded networks and histories; depends on processing order, buffer reuse and hash order", "anchors": ["src/realtime/dsp_graph.rs: process_dsps", "src/realtime/dsp_graph.rs: prepare_n_input_node", "src/realtime/dsp_graph.rs: copy_output_from_dependencies", "src/graph/graph_node.rs: connect_to", "src/graph/graph_node.rs: connect_channels_to", "src/realtime/processor.rs: process"]}
{"id": "C97", "title": "Any network of library nodes does to its streams what its nodes are for", "statement": "For a network of new gain, pan, mixer, filter, convolution, ADSR, oscillator, sampler, compressor and waveshaper nodes (recorders and envelope nodes may listen), connected in any way, there are streams of samples for all inputs and outputs such that every input is the sum of what its connections bring, every node makes of its input streams what its kind is for with the values of its parameters, and the concatenated outputs of the callbacks are the stream of the node at the output.", "quantifier": "every network of any size and shape of these nodes, every history around it, every sequence of callback sizes and contents, all parameter changes and messages, every hash order", "why_tests_cant": "end-to-end over unbounded histories and networks of all node kinds", "anchors": ["src/realtime/dsp_graph.rs: process_dsps", "src/realtime/dsp_graph.rs: mix_endpoint", "src/graph/graph_node.rs: connect_channels_to", "src/graph/dsp.rs: process", "src/effects/mixer/mixer_processor.rs: process_audio", "src/effects/biquad/biquad_processor.rs: process_audio"]}
{"id": "C98", "title": "Recorders and envelope nodes report what they hear, anywhere in a network", "statement": "A recorder or envelope node in any network of new library nodes hears at its input, frame by frame, the sum of what its connections bring. What the recorder hands out in the end is what its record and stop requests select from that stream, complete and in order once its notifications are read (a recorder started before the first block and stopped before the last hands out every frame in between); the envelope reports the peaks of that stream.", "quantifier": "every network, history around it, sequence of callback sizes and contents, every sequence of record, stop, note-reading and taking calls between blocks, every hash order", "why_tests_cant": "end-to-end over unbounded histories and networks, with three parties (client, engine, channel) involved", "anchors": ["src/effects/recorder/recorder_processor.rs: process_audio", "src/effects/recorder/recorder_node.rs: take_recording", "src/effects/envelope/envelope_processor.rs: process_audio", "src/realtime/dsp_graph.rs: process_dsps", "src/graph/graph_node.rs: connect_to"]}
{"id": "C99", "title": "A melody asked for by calls is the melody that is heard", "statement": "An ADSR node anywhere in a network of nodes is given attack, decay, sustain and release with set_adsr, and note_on_at_time and note_off_at_time are called for the times of frames of the stream, each before its frame comes. If every note is held for longer than attack and decay take and the next begins later than the release ends, then every note is played on the frames asked for, or one frame early (never early if the sample rate divides 2^32), in the order of the calls, however the callbacks divide the stream; and every sample of the node's output is the sample of its input in the same frame times the value of the melody: attack and decay curves from the start of a note, the sustain level, the release curve from its end, and silence otherwise.", "quantifier": "all sequences of notes, all times at which the calls are made, all sizes of callbacks, sample rates, envelope times and levels, networks of nodes, inputs and hash orders", "why_tests_cant": "the claim spans the client's calls, the event queue, the division into blocks and the envelope; a test plays a few notes with one block size", "anchors": ["src/effects/adsr/adsr_node.rs: Adsr::note_on_at_time, note_off_at_time, set_adsr", "src/effects/adsr/adsr_processor.rs: AdsrProcessor", "src/effects/adsr/adsr_envelope.rs: AdsrEnvelope", "src/utility/timestamp.rs: Timestamp", "src/effects/utility/event_processor.rs: EventProcessor"]}
{"id": "C100", "title": "Clips of a sample asked for by calls are the clips that are heard", "statement": "A sampler anywhere in a network plays the clips that were asked for with start_from_position_at_time and stop_at_time, in the order of the calls, each on its frames or at most one frame early (never early if the sample rate divides 2^32): from the requested position in the sample, faded in unless that is the beginning of the sample, faded out after the clip's end, and silence between the clips, sample by sample on every output channel.", "quantifier": "All networks, samples, fade lengths, clips that do not overlap with the fades of their neighbours, block splits, times of the calls before they take effect, and sample rates up to 2^29, within the number of blocks for which the engine's clock stays on its frame", "why_tests_cant": "Whether a clip comes out right depends on the block split, on when the calls arrive relative to the blocks, on the rounding of times and on what was played before; tests try a few.", "anchors": ["src/effects/sampler/sampler_node.rs: Sampler::start_from_position_at_time, stop_at_time", "src/effects/sampler/sampler_processor.rs: process, process_event, process_sample", "src/effects/sampler/sampler_voice.rs: render", "src/effects/utility/event_processor.rs"]}
{"id": "C101", "title": "An automation asked for by calls is the curve that is heard", "statement": "Jumps, linear ramps and exponential ramps of a parameter that follow one another without overlapping, asked for in any order and at any time before their first frame is played, give the parameter exactly the curve asked for, frame by frame: the value before the first move, each jump on its frame, each ramp from the value reached before to its target on its last frame, and the target held until the next move begins. Through a gain node the output is the input times that curve; in any network of nodes, gains, panners, filters, convolutions and oscillators have at each frame the values of the curves asked for.", "quantifier": "All sequences of moves that do not overlap, orders and times of the calls, block splits, starts and stops of the engine, and sample rates that divide 2^32; ramps not so slow that the engine takes them for rest; exponential ramps between positive values", "why_tests_cant": "The curve depends on the values reached by the moves before, on the order in which the calls arrive and on the block split; tests try single moves.", "anchors": ["src/parameter/audio_parameter.rs: set_value_at_time, linear_ramp_to_value, exponential_ramp_to_value", "src/parameter/realtime_parameter.rs: process, add_parameter_change", "src/effects/gain/gain_processor.rs: process", "src/effects/pan/pan_processor.rs: process", "src/effects/biquad/biquad_processor.rs: process"]}
{"id": "C102", "title": "Moving audio inside a buffer and generating test signals give the samples described", "statement": "AudioBuffer::copy_within moves exactly the requested frames of the requested channels: the destination holds what the source held before the move, also where the two overlap, nothing else changes, and the call aborts exactly if one of the two regions is not inside the buffer. OwnedAudioBuffer::step is 1 on the frames of its range and 0 elsewhere, and OwnedAudioBuffer::sine is amplitude * sin(2 pi frequency frame / sample rate), on every channel.", "quantifier": "All buffers, nested slices, ranges, destinations, frame and channel counts, sample rates, frequencies and amplitudes", "why_tests_cant": "Overlapping moves, moves at the edges and inside nested slices, and later channels of generated buffers are rarely tried; unit tests use one or two shapes.", "anchors": ["src/buffer/audio_buffer.rs: AudioBuffer::copy_within", "src/buffer/owned_audio_buffer.rs: OwnedAudioBuffer::step, sine, duplicate_channel"]}
{"id": "C103", "title": "A whole program is heard as its calls say", "statement": "A program makes nodes, wires them into a network, and asks, at a sample rate that divides 2^32 and each time before the frame concerned, for automations of parameters, for notes of ADSR nodes and for clips of samplers. All of it is carried out on exactly the frames asked for: every automated node has the values of its curves, every ADSR node multiplies its input by its melody, every sampler gives its clips, the nodes pass their sound on as wired, and what is heard is what the output node gives.", "quantifier": "All networks, automations, melodies, clips, orders and times of the calls, callback sizes, starts and stops of the engine, iteration orders of the graph's maps, and sample rates that divide 2^32; melodies whose notes are held longer than attack and decay and start after the release before, clips that start after the fade before", "why_tests_cant": "The features share the clock, the block splitting and the graph; tests try each alone, on one block size, and compare a few samples.", "anchors": ["src/engine/context.rs: Context", "src/realtime/processor.rs: process", "src/realtime/dsp_graph.rs: process", "src/parameter/realtime_parameter.rs: process", "src/effects/adsr/adsr_node.rs: note_on_at_time, note_off_at_time", "src/effects/sampler/sampler_node.rs: start_from_position_at_time, stop_at_time"]}
{"id": "C104", "title": "Notes of any length and at any distance are played as asked for", "statement": "The starts and ends of notes of an ADSR node may be asked for in any pattern: notes cut short in the attack or decay, begun again while they sound, ended twice, or following each other without a gap. Each start and end is carried out on its frame, in the order of the frames (or one frame early at sample rates that do not divide 2^32), and every sample of the node's output is the input times the level of the envelope after exactly these starts and ends. When notes do not overlap, each rises along the attack curve from the level at which it finds the envelope, decays to the sustain level once it has reached full level, and when it ends, in whatever stage, falls from the level it has reached along the release curve until the next begins: there is no jump back to silence.", "quantifier": "All networks, settings, patterns of starts and ends in the order of their frames, times of the calls before those frames, callback sizes, and starts and stops of the engine; for the curves, sample rates that divide 2^32", "why_tests_cant": "A cut note depends on the level that all earlier notes have left and on the frame that each call lands on; tests play one full note in one block.", "anchors": ["src/effects/adsr/adsr_node.rs: set_adsr, note_on_at_time, note_off_at_time", "src/effects/adsr/adsr_envelope.rs: note_on, note_off, process", "src/effects/adsr/adsr_processor.rs: prepare_envelope", "src/effects/utility/event_processor.rs: receive_events, next_event"]}
{"id": "C105", "title": "A clamped level is the nearest one in the range", "statement": "Level::clamp gives a level within the two bounds: the level itself if it is within them, and otherwise the bound that is nearest to it. It aborts if and only if the lower bound is above the upper one.", "quantifier": "every level and every pair of bounds", "why_tests_cant": "The levels are real numbers; tests try a few.", "anchors": ["src/utility/level.rs: clamp"]}
{"id": "C106", "title": "Single samples are changed in place and silence is found exactly", "statement": "add_sample adds to the sample at the given place of a buffer or slice, changes no other sample and no dimension, and aborts for a frame outside the slice or a channel outside the buffer. channel_is_silent is true if and only if every sample of that channel within the slice is zero.", "quantifier": "every buffer, nested slice, place and value", "why_tests_cant": "All dimensions and slices of slices; tests use one small buffer.", "anchors": ["src/buffer/audio_buffer.rs: add_sample, get_sample, set_sample, channel_is_silent"]}
{"id": "C107", "title": "Seconds and beats are taken to times and back as exactly as they can be", "statement": "A number of seconds becomes the nearest time that can be held, alone or added to another time, and keeps the order; up to 2^21 seconds a time is given in seconds exactly and taken back unchanged. b beats at a tempo of m a minute last 60 b / m seconds, alone or added to a time, up to half a tick of 2^-32 s and a relative error of 2^-51; the beats of a time are exact up to 2^-51 of their number; later beats are not earlier; and beats taken to a time and back differ by no more than the beats in half a tick and 2^-49 of their number.", "quantifier": "All finite f64 numbers of seconds and beats, all tempos of at least one beat a minute, all times (up to 2^21 s where times are converted back)", "why_tests_cant": "Two or three roundings follow each other; tests try three round numbers where all of them are exact.", "anchors": ["src/utility/timestamp.rs: from_seconds, as_seconds, from_beats, as_beats, incremented_by_seconds, incremented_by_beats"]}
