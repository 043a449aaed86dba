{"id": "C01", "title": "Rendering order respects the audio graph", "statement": "In every render quantum, a node that is rendered is rendered after every rendered node whose output feeds it (audio inputs and AudioParams alike), no node is rendered twice, and computing the order always terminates.", "quantifier": "every finite audio graph (any nodes, any connections, any cycles, any set of delay nodes)", "why_tests_cant": "The number of graph shapes is infinite; unit tests check a handful of diamonds and cycles.", "anchors": ["src/render/graph.rs: Graph::visit, Graph::order_nodes"]}
{"id": "C02", "title": "No node outside a cycle is muted; delays legalise cycles", "statement": "A node that is not part of any delay-free cycle is always rendered; in particular an acyclic graph, or a graph in which every cycle passes through a DelayNode, is rendered completely. Conversely, the documented rule that every node on a delay-free cycle is muted is checked.", "quantifier": "every finite audio graph and every placement of cycle breakers", "why_tests_cant": "Which nodes are muted depends on the traversal order and on the global cycle structure of the graph.", "anchors": ["src/render/graph.rs: Graph::visit, Graph::order_nodes", "src/node/delay.rs: DelayNode::new"]}
{"id": "C03", "title": "Topology changes take effect for every node", "statement": "After any sequence of node creations, connections and disconnections, the next rendered quantum processes every live node that is not in a cycle.", "quantifier": "every sequence of graph mutations between two quanta", "why_tests_cant": "The result depends on the interleaving of add/connect/disconnect operations; tests always use the same construct-then-connect pattern.", "anchors": ["src/render/graph.rs: Graph::add_node, add_edge, remove_edge, render"]}
{"id": "C04", "title": "A node input is the mix of exactly the connected outputs", "statement": "During a render quantum the input a node sees is the sum of the outputs, of this same quantum, of exactly the nodes connected to it; nothing of earlier quanta leaks in and nothing is added twice.", "quantifier": "every graph, every processor behaviour, every number of quanta", "why_tests_cant": "Requires reasoning about accumulated state across arbitrary graphs and quanta.", "anchors": ["src/render/graph.rs: Graph::render"]}
{"id": "C05", "title": "Node lifetime", "statement": "A node is removed from the rendering graph only if its control handle was dropped and it can no longer influence the output (no inputs and no tail, or no outputs and no side effects), or its processor panicked. The destination node and the listener are never removed, unless their processors panic. Once removed a node's identifier is released exactly once, and no edge to it remains.", "quantifier": "every sequence of messages and quanta, every processor behaviour", "why_tests_cant": "Depends on the whole history of handles, edges and tail-time answers.", "anchors": ["src/render/graph.rs: Node::can_free, Graph::render", "src/context/concrete_base.rs: mark_node_dropped"]}
{"id": "C06", "title": "Node identifiers are unique among live nodes", "statement": "The control thread never hands out an identifier that is still in use by a live node of the same context, whatever the interleaving of node creation, handle drops and rendering.", "quantifier": "every interleaving of control-thread and render-thread steps", "why_tests_cant": "Identifier reuse depends on the interleaving of two threads.", "anchors": ["src/context/concrete_base.rs: AudioNodeIdProvider::get, register", "src/render/graph.rs: render (reclaim_id)"]}
{"id": "C07", "title": "Control messages reach the render thread in order and exactly once", "statement": "Messages issued by the control thread (node creation, connections, parameter updates, ...) are applied by the render thread in the order issued, without loss or duplication, across any number of suspend and resume calls.", "quantifier": "every sequence of API calls including suspend/resume", "why_tests_cant": "Loss or reordering appears only for particular interleavings of suspension and API calls.", "anchors": ["src/context/concrete_base.rs: send_control_msg, suspend_control_msgs, resume_control_msgs", "src/context/online.rs: suspend, resume"]}
{"id": "C08", "title": "Connecting is idempotent and disconnecting complete", "statement": "Connecting the same output to the same input several times has the effect of one connection; after disconnect() no signal flows along the disconnected connections; the control thread's view of the connections and the render graph's edges agree.", "quantifier": "every sequence of connect/disconnect/drop calls", "why_tests_cant": "Requires relating two data structures maintained by two threads over arbitrary histories.", "anchors": ["src/context/concrete_base.rs: connect, disconnect, mark_node_dropped", "src/render/graph.rs: add_edge, remove_edge"]}
{"id": "C09", "title": "Control messages always refer to a registered node", "statement": "Whatever API calls are made, the render thread never receives a connect, disconnect, configuration or node message for a node it does not know, so it never panics on message handling.", "quantifier": "every sequence of API calls and processor behaviours", "why_tests_cant": "The registration order of nodes, params and the audio listener matters only in rare orders.", "anchors": ["src/context/concrete_base.rs: register, queue_audio_param_connect, ensure_audio_listener_present", "src/render/thread.rs: handle_control_message"]}
{"id": "C10", "title": "Render-quantum sample buffers are isolated (copy on write)", "statement": "Writing to one channel buffer never changes what is read through another channel buffer, the shared silence buffer stays zero forever, and a buffer returned to the pool is never referenced by a live channel.", "quantifier": "every sequence of allocate/clone/write/drop operations", "why_tests_cant": "Aliasing bugs require specific sequences of reference-count changes.", "anchors": ["src/render/quantum.rs: Alloc, AudioRenderQuantumChannel"]}
{"id": "C11", "title": "A silent channel contains only zeros", "statement": "Whenever a render quantum reports to be silent, all samples of all its channels are zero.", "quantifier": "every sequence of quantum operations", "why_tests_cant": "Silence is detected through pointer identity; correctness depends on aliasing over the whole history.", "anchors": ["src/render/quantum.rs: is_silent, make_silent, silence"]}
{"id": "C12", "title": "Channel mixing follows the Web Audio matrices", "statement": "Mixing a quantum to n channels yields exactly n channels; for speaker layouts each output channel is the linear combination of the Web Audio specification, for discrete layouts channels are kept, truncated or zero-filled; up-mixing then down-mixing restores the original for the layouts where the spec promises it.", "quantifier": "every channel count 1..32 pair, every interpretation, every sample value", "why_tests_cant": "All channel-count pairs times all samples.", "anchors": ["src/render/quantum.rs: mix, mix_inner"]}
{"id": "C13", "title": "Summing inputs obeys the channel count mode", "statement": "When several connections feed an input the computed number of channels is the one prescribed by channelCount/channelCountMode and the samples are the sum of the individually up/down-mixed signals; the optimised path for identical channels gives the same result as the plain path.", "quantifier": "every pair of quanta and every channel configuration", "why_tests_cant": "The fast path applies only when buffers are shared, which is invisible to tests comparing samples.", "anchors": ["src/render/quantum.rs: AudioRenderQuantum::add, all_channels_identical"]}
{"id": "C14", "title": "The hardware callback size does not change the audio", "statement": "For every sequence of hardware callback buffer sizes the concatenation of the produced frames is the same continuous stream of interleaved render quanta: no sample is dropped, duplicated or reordered at callback boundaries.", "quantifier": "every sequence of callback sizes and every number of channels", "why_tests_cant": "Left-over handling depends on arbitrary sequences of sizes modulo the quantum size.", "anchors": ["src/render/thread.rs: RenderThread::render_inner"]}
{"id": "C15", "title": "Offline rendering produces exactly the requested buffer", "statement": "Offline rendering returns a buffer of exactly the requested length and channel count whose samples are the first samples of the rendered quanta, and the clock advances by whole render quanta.", "quantifier": "every length, channel count and graph output", "why_tests_cant": "All lengths modulo the quantum size and all channel-count mismatches.", "anchors": ["src/render/thread.rs: render_audiobuffer_sync, render_audiobuffer, render_offline_quantum"]}
{"id": "C16", "title": "Offline suspension happens at the right time, exactly once", "statement": "Every accepted suspension of an offline context is executed exactly once, at the first render quantum boundary not earlier than the requested time, in time order.", "quantifier": "every set of suspension times and every render length", "why_tests_cant": "Depends on rounding of arbitrary times to quanta and on the order of scheduling.", "anchors": ["src/context/offline.rs: calculate_suspend_frame, suspend, suspend_sync", "src/render/thread.rs: render_audiobuffer_sync"]}
{"id": "C17", "title": "AudioParam values stay in the nominal range and are never NaN", "statement": "The value an AudioParam contributes to processing is always inside [min,max] and never NaN, whatever is scheduled or connected to it.", "quantifier": "every automation, every modulation input, including NaN and infinities", "why_tests_cant": "Floating point special values and arbitrary modulation inputs.", "anchors": ["src/param.rs: AudioParamProcessor::mix_to_output"]}
{"id": "C18", "title": "AudioParam automation timeline stays sorted and stable", "statement": "Automation events are processed in time order, and events with equal time in the order they were scheduled, whatever the order of the API calls; cancelScheduledValues(t) removes exactly the events at or after t.", "quantifier": "every sequence of scheduling calls", "why_tests_cant": "All permutations of event times.", "anchors": ["src/param.rs: AudioParamEventTimeline, handle_incoming_event"]}
{"id": "C19", "title": "AudioParam automation computes the specified curve", "statement": "For a schedule of set-value and linear-ramp events the value produced for every sample frame is the value the Web Audio specification assigns to that frame, independently of how time is cut into render quanta.", "quantifier": "every event list, every sample rate, every number of quanta", "why_tests_cant": "Errors appear only when events fall on or around quantum boundaries in specific orders.", "anchors": ["src/param.rs: compute_set_value_automation, compute_linear_ramp_automation, compute_exponential_ramp_automation, compute_buffer"]}
{"id": "C20", "title": "AudioParam automation never crashes the render thread", "statement": "No sequence of accepted automation calls makes the render thread panic or loop forever; each quantum yields one or 128 values.", "quantifier": "every sequence of accepted automation calls and all quanta", "why_tests_cant": "Panics depend on rare combinations of event order and elapsed time.", "anchors": ["src/param.rs: handle_incoming_event, compute_buffer"]}
{"id": "C21", "title": "Automation curve formulas interpolate their end points", "statement": "Linear and exponential ramps start at the previous value and end at the target value and stay between them; setTarget approaches its target monotonically and never crosses it; a value curve takes its first and last values at its ends and stays within its extreme values.", "quantifier": "all values, times and durations", "why_tests_cant": "A statement about all real parameters.", "anchors": ["src/param.rs: compute_linear_ramp_sample, compute_exponential_ramp_sample, compute_set_target_sample, compute_set_value_curve_sample"]}
{"id": "C22", "title": "AudioBuffer copies are exact and in bounds", "statement": "copy_from_channel/copy_to_channel with any offset and any slice length transfer exactly max(0,min(bufferLength-offset, sliceLength)) samples, leave all other samples unchanged, and never fail for a valid channel number.", "quantifier": "all buffers, slices and offsets", "why_tests_cant": "All combinations of lengths and offsets, including offsets past the end.", "anchors": ["src/buffer.rs: copy_from_channel_with_offset, copy_to_channel_with_offset"]}
{"id": "C23", "title": "Scheduled sources sound exactly between start and stop", "statement": "A constant source outputs its offset for exactly the frames whose time lies in [start, stop) and silence elsewhere, across any number of quanta; once it has ended it never sounds again; the ended event is emitted at most once.", "quantifier": "all start and stop times, all numbers of quanta", "why_tests_cant": "Start/stop times relative to quantum boundaries; long histories.", "anchors": ["src/node/constant_source.rs: ConstantSourceRenderer::process, before_drop", "src/node/scheduled_source.rs"]}
{"id": "C24", "title": "Oscillator phase stays in its table", "statement": "The oscillator phase stays in [0,1) forever and table look-ups never go out of bounds; an oscillator emits its ended event at most once.", "quantifier": "every frequency/detune automation, every number of frames", "why_tests_cant": "Floating point rounding at phase wrap-around only fails for tiny negative phases.", "anchors": ["src/node/oscillator.rs: OscillatorRenderer::process, generate_sample, unroll_phase"]}
{"id": "C25", "title": "A buffer source at unit rate plays the buffer sample by sample", "statement": "When started on a sample frame with playback rate 1, no loop and equal sample rates, an AudioBufferSourceNode outputs buffer sample k exactly k frames after its start, silence before and after, and ends after the last sample.", "quantifier": "all buffer lengths, start frames and numbers of quanta", "why_tests_cant": "All alignments of buffer start and end to render quanta.", "anchors": ["src/node/audio_buffer_source.rs: AudioBufferSourceRenderer::process"]}
{"id": "C26", "title": "A buffer source never reads outside its buffer and never hangs", "statement": "For every playback rate, loop setting, offset and duration the buffer source's per-sample computations terminate and only access existing samples.", "quantifier": "all playback settings", "why_tests_cant": "Boundary conditions of loop points, negative rates and interpolation.", "anchors": ["src/node/audio_buffer_source.rs: process (slow track), clamp_loop_boundaries"]}
{"id": "C27", "title": "The delay node delays by exactly the requested time", "statement": "With a constant delay of n whole frames not exceeding the maximum delay, the output at frame t is the input at frame t-n (and silence for t<n), for all times; fractional delays interpolate linearly between the two neighbouring frames; ring buffer accesses never collide with the block being written.", "quantifier": "all delays up to the maximum, all inputs, all times", "why_tests_cant": "Ring buffer wrap-around over unbounded time and all delay values.", "anchors": ["src/node/delay.rs: DelayWriter::process, DelayReader::process, get_playback_infos"]}
{"id": "C28", "title": "No echo from the past after a delay's input is gone", "statement": "After the input of a delay node has been disconnected and collected, the delay outputs the remaining delayed samples once and silence afterwards.", "quantifier": "all delays, maximum delays and inputs", "why_tests_cant": "Needs more than one ring buffer cycle after the writer is gone.", "anchors": ["src/node/delay.rs: DelayWriter drop, DelayReader::process"]}
{"id": "C29", "title": "Filters compute their difference equation", "statement": "BiquadFilterNode and IIRFilterNode outputs satisfy the difference equation given by their coefficients for every input signal of any length, from the initial rest state.", "quantifier": "all coefficient vectors, all input signals", "why_tests_cant": "All signals of unbounded length.", "anchors": ["src/node/biquad_filter.rs: process", "src/node/iir_filter.rs: IirFilterRenderer::filter"]}
{"id": "C30", "title": "Filter outputs never become NaN", "statement": "Whatever the input samples and coefficients (including NaN and infinities) a biquad or IIR filter never outputs NaN in its double precision result, and denormals are flushed to zero.", "quantifier": "all inputs including special values", "why_tests_cant": "Floating point special values over unbounded feedback histories.", "anchors": ["src/node/biquad_filter.rs: process", "src/node/iir_filter.rs: filter"]}
{"id": "C31", "title": "Wave shaping interpolates the curve within bounds", "statement": "The shaped sample is the linear interpolation of the curve at (x+1)/2*(n-1), input outside [-1,1] is clamped to the end points, and the curve is never accessed out of bounds.", "quantifier": "all curves and all inputs", "why_tests_cant": "All curve lengths and sample values.", "anchors": ["src/node/waveshaper.rs: apply_curve, onmessage"]}
{"id": "C32", "title": "The compressor delays its input by a fixed look-ahead", "statement": "The dynamics compressor reads exactly the block written look-ahead blocks before, for all times, and its output is that block scaled by its gain computation.", "quantifier": "all inputs and times", "why_tests_cant": "Ring buffer over unbounded time.", "anchors": ["src/node/dynamics_compressor.rs: process"]}
{"id": "C33", "title": "The analyser reports the most recent samples", "statement": "getFloatTimeDomainData returns the last fftSize samples in order, whatever number of quanta was written; byte data are the clamped conversion of the same samples; invalid settings are rejected and settings stay valid.", "quantifier": "all histories of writes and reads, all sizes", "why_tests_cant": "Ring buffer wrap-around over unbounded time.", "anchors": ["src/analysis.rs: AnalyserRingBuffer, Analyser"]}
{"id": "C34", "title": "ScriptProcessor double buffering", "statement": "Each input block of bufferSize frames is handed to the callback exactly once in order, and, if callbacks answer in time, their outputs are played back exactly once, in order, with a constant latency equal to the announced playback time.", "quantifier": "all buffer sizes, all input streams, all numbers of blocks", "why_tests_cant": "Unbounded histories of two interleaved buffers.", "anchors": ["src/node/script_processor.rs: ScriptProcessorRenderer::process, onmessage"]}
{"id": "C35", "title": "Channel splitter and merger route channels faithfully", "statement": "Output i of a channel splitter is channel i of its input, or silence if there is no such channel; channel i of a channel merger's output is its i-th input; merging the outputs of a splitter restores the signal.", "quantifier": "all channel counts and signals", "why_tests_cant": "All channel counts.", "anchors": ["src/node/channel_splitter.rs", "src/node/channel_merger.rs"]}
{"id": "C36", "title": "Stereo panning preserves power", "statement": "Equal power panning gains satisfy gl^2+gr^2=1 and are in [0,1]; hard left/right send everything to one side; centre is symmetric; panning a stereo signal at 0 leaves it unchanged.", "quantifier": "all pan values", "why_tests_cant": "A statement about all real pan values.", "anchors": ["src/node/stereo_panner.rs: get_stereo_gains, process", "src/node/panner.rs: apply_mono_to_stereo_gain, apply_stereo_to_stereo_gain"]}
{"id": "C37", "title": "Distance and cone gains are attenuations", "statement": "For all parameter values accepted by the setters the distance gain is a number in [0,1] that does not increase with distance, and the cone gain lies between the outer gain and 1.", "quantifier": "all positions, all accepted panner settings", "why_tests_cant": "All real parameter values including equal reference and maximum distances.", "anchors": ["src/node/panner.rs: dist_gain, cone_gain, setters"]}
{"id": "C38", "title": "Event handlers see each event once and in order", "statement": "Each emitted event is passed to the handler installed for its type at that time, once and in order; one-shot handlers run at most once; clearing or replacing a handler takes effect for all later events.", "quantifier": "all sequences of events and handler operations, including operations made inside handlers", "why_tests_cant": "Re-entrancy and ordering over arbitrary sequences.", "anchors": ["src/events.rs: EventLoop"]}
{"id": "C39", "title": "Re-chunking of media streams preserves samples", "statement": "Re-chunking decoded media into render-quantum sized buffers yields only full chunks whose concatenation is the concatenation of the source buffers followed by less than one chunk of silence.", "quantifier": "all sequences of source buffer lengths", "why_tests_cant": "All sequences of lengths.", "anchors": ["src/resampling.rs: Resampler::next", "src/buffer.rs: extend, split_off"]}
{"id": "C40", "title": "Performance statistics are consistent", "statement": "Minimum <= average <= maximum latency for any series of recordings and resets; underrun events never exceed underruns, which never exceed callbacks; the capacity event's ratios are in range.", "quantifier": "all sequences of recordings and resets", "why_tests_cant": "All histories.", "anchors": ["src/stats.rs: AudioStats", "src/capacity.rs: render_capacity_event"]}
{"id": "C41", "title": "Changing the audio sink neither loses nor reorders messages nor deadlocks", "statement": "Switching the output device preserves the audio graph and applies all pending control messages in order, and the call returns.", "quantifier": "all interleavings of the control thread and the old and new render threads", "why_tests_cant": "A race between three threads.", "anchors": ["src/context/online.rs: set_sink_id_sync", "src/render/thread.rs: CloseAndRecycle"]}
{"id": "C42", "title": "Periodic waves are normalised", "statement": "A normalised periodic wave table has peak absolute value one unless it is identically zero, and normalisation does not change its shape.", "quantifier": "all coefficient arrays", "why_tests_cant": "All arrays of real coefficients.", "anchors": ["src/periodic_wave.rs: generate_wavetable, normalize"]}
{"id": "C43", "title": "Context state machine", "statement": "The context state only changes along suspended/running/closed transitions that were requested, closed is final, each state change emits one statechange event, and the current time never decreases and does not advance while suspended or closed.", "quantifier": "all sequences of suspend/resume/close calls and render callbacks", "why_tests_cant": "All interleavings of control calls and callbacks.", "anchors": ["src/render/thread.rs: handle_control_message, set_state, render_inner", "src/context/online.rs: suspend_sync, resume_sync, close_sync", "src/context/concrete_base.rs: set_state"]}
{"id": "C44", "title": "The gain node multiplies", "statement": "The gain node's output is its input times the gain value, sample by sample; the optimised paths for gains near zero and one stay within one millionth of the exact product.", "quantifier": "all inputs and gain automations", "why_tests_cant": "All real inputs.", "anchors": ["src/node/gain.rs"]}
{"id": "C45", "title": "Source position geometry is in range", "statement": "The computed azimuth is in [-180,180] and the elevation in [-90,90] for every configuration of source and listener.", "quantifier": "all positions and orientations", "why_tests_cant": "All real vectors.", "anchors": ["src/spatial.rs: azimuth_and_elevation"]}
{"id": "C46", "title": "Biquad filters are stable", "statement": "With settings held constant a BiquadFilterNode's output never exceeds a fixed multiple of the largest input sample, however long it runs, and once its input stops the output decays exponentially to zero.", "quantifier": "all filter types, frequencies from 0 to half the sample rate, gains, Q values and input signals of any length", "why_tests_cant": "Unbounded time and a continuum of settings; instability shows only in long runs at particular settings.", "anchors": ["src/node/biquad_filter.rs: calculate_coefs, process"]}
{"id": "C47", "title": "getFrequencyResponse describes the filter", "statement": "A sine of any frequency up to half the sample rate leaves a BiquadFilterNode, after a transient that decays exponentially, with the magnitude and phase getFrequencyResponse reports for that frequency; at the nominal frequencies of each filter type (0, the cutoff or centre, half the sample rate) the reported magnitude is the one the type is defined by, and the allpass filter has magnitude 1 everywhere.", "quantifier": "all filter types, settings and signal frequencies", "why_tests_cant": "Relates two independent computations over a continuum of frequencies and unbounded time.", "anchors": ["src/node/biquad_filter.rs: get_frequency_response, calculate_coefs, process"]}
{"id": "C48", "title": "The compressor follows its compression curve", "statement": "The static compression curve is continuous and increasing with slope between 1/ratio and 1 and never amplifies; the smoothed attenuation stays between 0 and the largest attenuation asked for so far and converges to the curve's attenuation at a constant level; the makeup gain is the one of the specification; and a bad input sample does not spoil the output for good.", "quantifier": "all thresholds, knees, ratios, attack and release times, and level histories of any length", "why_tests_cant": "A continuum of settings and unbounded histories of a nonlinear recursion.", "anchors": ["src/node/dynamics_compressor.rs: process, db_to_lin, lin_to_db"]}
{"id": "C49", "title": "Analyser arrays of other sizes", "statement": "An array shorter than the analyser's data gets the beginning of the data; elements of a longer array beyond the data are left alone.", "quantifier": "all array sizes, FFT sizes and signals", "why_tests_cant": "All combinations of sizes and histories.", "anchors": ["src/analysis.rs: get_float_time_domain_data, get_byte_time_domain_data, AnalyserRingBuffer::read"]}
{"id": "C50", "title": "Frequency data are the smoothed spectrum", "statement": "The frequency data are the smoothed, windowed magnitude spectrum of the last fftSize samples in decibels, computed once per time step; levels are finite, at most 0 dB for signals in range, and reflect the current FFT size.", "quantifier": "all signals, sizes, smoothing constants and histories of requests", "why_tests_cant": "Unbounded histories of a recursive average over real-valued signals.", "anchors": ["src/analysis.rs: compute_fft, get_float_frequency_data, get_byte_frequency_data, generate_blackman"]}
{"id": "C51", "title": "A source pointing at the listener is not attenuated by its cone", "statement": "A panner whose source orientation points at the listener has cone gain 1; one pointing away has the outer gain.", "quantifier": "all positions, orientations and cone settings", "why_tests_cant": "All geometric configurations.", "anchors": ["src/node/panner.rs: cone_gain", "src/spatial.rs: angle"]}
{"id": "C52", "title": "Position automation of a panner is applied frame by frame", "statement": "When position, orientation or listener parameters are automated, each output frame is rendered with the positions at that frame.", "quantifier": "all automations of the fifteen parameters, all inputs", "why_tests_cant": "Automation curves are unbounded; tests use constant positions.", "anchors": ["src/node/panner.rs: PannerRenderer::process (single_valued), SpatialParams"]}
{"id": "C53", "title": "A panner with impulse responses plays its tail after every sound", "statement": "After each sound the panner keeps rendering until the head-related impulse responses have been played out.", "quantifier": "all sequences of sounds and silences, all lengths of responses", "why_tests_cant": "Histories of alternating sound and silence.", "anchors": ["src/node/panner.rs: PannerRenderer::process (tail_time_counter), HrtfState"]}
{"id": "C54", "title": "Latency statistics describe measured latencies", "statement": "The minimum, average and maximum output latency are those of the latencies measured since the last latency reset (with the one in effect at the reset).", "quantifier": "all series of measurements and resets", "why_tests_cant": "Depends on the whole history of measurements and resets.", "anchors": ["src/stats.rs AudioStats::reset_latency", "src/playback_stats.rs AudioPlaybackStats::new"]}
{"id": "C55", "title": "Capacity events describe their interval", "statement": "The average load of a capacity event does not exceed its peak load, and its underrun ratio is the ratio of late callbacks in the interval, rounded up to hundredths.", "quantifier": "all series of callbacks and all interleavings of callbacks with the reporting thread", "why_tests_cant": "Needs particular interleavings of two threads and particular counts.", "anchors": ["src/capacity.rs render_capacity_event, AudioRenderCapacityEvent::new", "src/stats.rs AudioStats::snapshot, take_peak_load"]}
{"id": "C56", "title": "Playback statistics are refreshed at most once per second", "statement": "Querying playback statistics shows the same values for a second after the last refresh, and the values do not change while the context is not running (unless the latency is reset).", "quantifier": "all series of queries at all times", "why_tests_cant": "Depends on the times of all queries.", "anchors": ["src/playback_stats.rs AudioPlaybackStats::current"]}
{"id": "C57", "title": "Periodic wave options are rejected exactly as documented", "statement": "Creating a PeriodicWave panics exactly when one of the arrays has fewer than two entries, when their lengths differ, or when there are more than 8192 components; any other options give a wave, by default one period of a sine.", "quantifier": "all options: presence, lengths and contents of the two arrays", "why_tests_cant": "lengths are unbounded and the rules combine; a missing rule shows only for the inputs nobody tries", "anchors": ["src/periodic_wave.rs PeriodicWave::new", "src/periodic_wave.rs generate_wavetable"]}
{"id": "C58", "title": "A ConvolverNode outputs the linear convolution", "statement": "The output of a ConvolverNode is the linear convolution of its input, mixed up to stereo, with its impulse response in the channel configuration of the specification, across all changes between mono, stereo and silent input and across the tail.", "quantifier": "all impulse responses of 1, 2 or 4 channels, all input histories", "why_tests_cant": "The tail and the pausing of the engine depend on the whole history of the input.", "anchors": ["src/node/convolver.rs: ConvolverRenderer::process, set_buffer"]}
{"id": "C59", "title": "Equal power normalization of the impulse response", "statement": "With normalization the impulse response is scaled by a finite positive gain such that its root mean square becomes the calibration constant, unless it is too quiet; whatever the samples of the buffer.", "quantifier": "all buffers, including NaN and infinite samples, all sample rates of a context", "why_tests_cant": "All float values, including overflow of the power.", "anchors": ["src/node/convolver.rs: normalize_buffer"]}
{"id": "C60", "title": "Audio worklet processor calls", "statement": "A user's audio worklet processor is constructed once, receives every posted message and every render quantum in order, is given exactly the samples of the node's inputs grouped per input and channel, and output buffers with the configured channel counts filled with zeros; what it leaves in them is the node's output, and the node only panics when the user's code does", "quantifier": "all processors, options, numbers of inputs and outputs, channel layouts varying from quantum to quantum and interleavings of messages", "why_tests_cant": "the regrouping is unsafe slice surgery whose correctness depends on every combination of channel counts over time", "anchors": ["src/worklet.rs: AudioWorkletNode::new, Processor::load, AudioWorkletRenderer::process, onmessage"]}
{"id": "C61", "title": "Media stream tracks deliver the source to every consumer", "statement": "Every consumer of a media stream track receives the buffers of the source in their order and each at most once, then the end of the stream for ever; a single consumer receives all of them, and with several consumers no buffer of the source is lost", "quantifier": "all sources, numbers of consumers, interleavings of their calls and moments of closing the track", "why_tests_cant": "the shared position, data and end flag are separate atomics; losing or repeating a buffer needs a particular interleaving of two calls", "anchors": ["src/media_streams/mod.rs: MediaStreamTrack, MediaStreamTrackInner, MediaStreamTrackIter::next, MediaStreamTrack::close"]}
{"id": "C62", "title": "Media stream destination never blocks rendering", "statement": "The stream of a media stream destination node yields rendered quanta in order, each at most once and always the newest one; a consumer that keeps pace loses nothing, a slow one never makes the render thread wait, and errors appear only after the node is gone", "quantifier": "all interleavings of the render thread and the consumer, including the end of the node", "why_tests_cant": "a blocking send on a full channel stalls audio only under a schedule in which the consumer stays away", "anchors": ["src/node/media_stream_destination.rs: MediaStreamAudioDestinationNode::new, DestinationRenderer::process, AudioDestinationNodeStream::next"]}
{"id": "C63", "title": "Media recorder hands out the whole recording", "statement": "The data events of a media recorder, put together, are a sound file whose header and samples hold every buffer the stream produced between start and stop, channel by channel; after the data come one error event if the stream failed and exactly one stop event, and the recorder can be started again", "quantifier": "all streams (lengths, channel counts, errors), and all interleavings of the recording thread with stop(), start() and callback changes", "why_tests_cant": "the blob, the active flag and the callbacks are guarded separately, so what is lost or repeated depends on where a call of stop() or start() meets the recording thread", "anchors": ["src/media_recorder/mod.rs: MediaRecorder::start, MediaRecorder::stop, MediaRecorderInner::record, flush, stop, handle_error, RecordedData::encode_first, encode_next"]}
{"id": "C64", "title": "Channel attributes obey the constraints of every node and reach the render thread", "statement": "For every node type and every options accepted by its constructor, whatever any number of threads do with channel_count, channel_count_mode and channel_interpretation setters: a call panics exactly if the value is forbidden for the node, a refused call changes nothing, accepted calls take effect one at a time in an order that keeps each thread's order, the render thread ends up with exactly the attributes the program reads, nothing deadlocks, and so convolver, compressor and panners never see more than two input channels, mergers see mono inputs, splitters exactly their number of outputs.", "quantifier": "all node kinds, options, numbers of threads, setter programs, schedules of the threads and the render thread, and all connected signals", "why_tests_cant": "Tests call setters from one thread; out-of-order message arrival needs a particular interleaving between storing and sending.", "anchors": ["src/node/audio_node.rs ChannelConfig", "src/node/channel_merger.rs", "src/node/channel_splitter.rs", "src/node/convolver.rs", "src/node/dynamics_compressor.rs", "src/node/panner.rs", "src/node/stereo_panner.rs", "src/node/script_processor.rs", "src/node/destination.rs", "src/param.rs", "src/spatial.rs", "src/render/graph.rs set_channel_count"]}
{"id": "C65", "title": "A media element plays its file, gapless when it loops", "statement": "A media element obeys its commands (play, pause, seek, loop, playback rate) in the order they were given. What its source node outputs is the file from the current position on, resampled to the context: nothing is skipped or repeated between render quanta, pauses are silent and do not move the position, a looping element goes on with the first frame right after the last one, and an element that does not loop plays its file to the end and then falls silent.", "quantifier": "all files (channels, lengths, sample rates), positions, sequences of commands and the calls between which they arrive, context sample rates, numbers of render quanta", "why_tests_cant": "Tests play one short file for a few quanta; gaps appear only for particular combinations of file length, position, rate and command timing, and the number of those is unbounded.", "anchors": ["src/media_element.rs:MediaElement, RTSStream", "src/node/mod.rs:MediaStreamRenderer", "src/node/media_element_source.rs", "src/resampling.rs:Resampler"]}
{"id": "C66", "title": "Decoding audio data gives the whole track or an error", "statement": "decode_audio_data returns the samples of all packets of the chosen track, in order, one after the other, resampled to the context's sample rate, as a well-formed buffer; if the file is damaged, or changes its sample rate or number of channels, the call fails and no partial audio is returned; it never panics.", "quantifier": "all files: any sequence of packets of any tracks, with any errors at any place", "why_tests_cant": "Every placement of errors, tracks, rate and channel changes in a file matters; tests decode a handful of sample files.", "anchors": ["src/decoding.rs:decode_media_data", "src/decoding.rs:MediaDecoder::next", "src/buffer.rs:AudioBuffer::extend", "src/context/base.rs:decode_audio_data_sync"]}
{"id": "C67", "title": "The microphone delivers what was captured, in order", "statement": "A microphone stream delivers the captured blocks in the order of capture, each sample in its channel and frame; a block is lost only when three blocks already wait, silence is delivered only when none waits, a reader that keeps pace gets everything without gaps, and after the device is gone the stream ends once all waiting blocks were delivered and stays ended.", "quantifier": "all interleavings of device callbacks and reads, all block sizes, channel counts and sample rates", "why_tests_cant": "The interleavings of the device's thread and the reader cannot be enumerated, and tests have no microphone.", "anchors": ["src/io/microphone.rs:MicrophoneStream::next", "src/io/microphone.rs:MicrophoneRender::render", "src/io/cpal.rs:build_input"]}
{"id": "C68", "title": "A fixed graph computes its dataflow equations", "statement": "While the application changes nothing, holds its nodes and there is no delay-free cycle, every quantum each node is processed exactly once, from its own state of the quantum before, on the mix of the signals that the nodes connected to it produce in the same quantum; the rendered audio is the destination's output. These equations have exactly one solution, so the audio is determined by the graph, not by the order of construction or traversal internals.", "quantifier": "every history of messages and quanta that leads to the graph, every behaviour of processors and mixing, any number of further quanta", "why_tests_cant": "Tests render a few fixed graphs for a few quanta; the property covers all graphs and unbounded rendering, across the moment when the order is computed and cached.", "anchors": ["src/render/graph.rs: Graph::render, order_nodes", "src/render/thread.rs: render_inner"]}
{"id": "C69", "title": "What is rendered is the sound of the graph that was built", "statement": "When an application creates and connects nodes, keeps them, and renders (offline for any length and channel count, or in real time with callbacks of any sizes), then every sample delivered is the sample the destination receives from the equations of the graph: sample j of channel i is sample j mod 128 of channel i in quantum j div 128; channels the destination does not have are silent; offline the buffer has exactly the requested shape.", "quantifier": "all graphs and control message sequences, all processors that do not panic, all lengths, channel counts, callback sizes, sample positions", "why_tests_cant": "A test renders a few graphs for a few lengths; the claim composes message handling, ordering, mixing, chunking and interleaving for all of them.", "anchors": ["src/render/thread.rs RenderThread::render_audiobuffer_sync", "src/render/thread.rs RenderThread::render", "src/render/graph.rs Graph::render", "src/context/offline.rs OfflineAudioContext::start_rendering_sync"]}
{"id": "C70", "title": "A mix of sources with envelopes is rendered as the sum of the products", "statement": "When a program creates any number of constant sources, connects each through its own gain node to the destination, automates offsets and gains, starts and stops the sources, and renders offline, then every sample of the buffer is the sum over the sources that sound at this frame of offset times gain at this frame (up to the millionth that the gain node neglects), on the speakers that a mono signal is up-mixed to; all other channels are silent. In floating point the samples are, bit for bit, the left-to-right sums of these products in an order of the sources that is the same for the whole buffer.", "quantifier": "all numbers of sources, all automations that the specification settles, all start and stop times, all channel counts 1..32, all buffer lengths", "why_tests_cant": "the result depends on control messages, graph ordering, parameters, mixing and the render loop together; tests fix a few graphs, curves and lengths", "anchors": ["src/node/constant_source.rs: ConstantSourceRenderer", "src/node/gain.rs: GainRenderer", "src/param.rs: AudioParamProcessor", "src/render/graph.rs: Graph::render", "src/render/thread.rs: render_audiobuffer_sync", "src/context/concrete_base.rs: register, mark_cycle_breaker", "src/render/quantum.rs: AudioRenderQuantum::add"]}
{"id": "C71", "title": "Oversampled wave shaping is gapless", "statement": "With oversampling 2x or 4x, each output channel of a WaveShaperNode is the input channel upsampled, shaped sample by sample by the curve and downsampled as one continuous signal, for any resampler; no history of inputs, channel counts and changes of the oversampling makes the node panic.", "quantifier": "all curves, resamplers, channel counts, numbers of quanta, histories of mode changes", "why_tests_cant": "The resamplers carry state from quantum to quantum: continuity concerns every history of silent and sounding quanta, channel counts and mode changes.", "anchors": ["src/node/waveshaper.rs: ResamplerConfig, Resampler, WaveShaperRenderer::process, onmessage"]}
{"id": "C72", "title": "A scheduled source is started once, stopped only after that, and its sound follows the accepted calls", "statement": "For every sequence of calls of the handle of a ConstantSourceNode, OscillatorNode or AudioBufferSourceNode, with any f64 arguments, mixed with rendered quanta: a call of start returns exactly when its times are finite and not negative and no earlier call of start returned; a call of stop returns exactly when its time is valid and a call of start returned before; a call that panics has no effect at all. The constant source sounds between the first accepted start and the latest accepted stop. An oscillator plays the waveform its handle reports, stays custom once a periodic wave is set, and its renderer never panics. A buffer source keeps the first buffer, the latest loop attributes (within the buffer), the duration of the accepted start and the latest accepted stop, and without loop its renderer never panics.", "quantifier": "all call histories with arbitrary arguments (NaN, infinities, negative values), interleaved arbitrarily with quanta, including calls that panic", "why_tests_cant": "Unit tests call start and stop once with valid times; the claim is about every interleaving of valid, invalid and repeated calls with rendering.", "anchors": ["src/node/constant_source.rs ConstantSourceNode::start_at", "src/node/oscillator.rs OscillatorNode::set_type", "src/node/audio_buffer_source.rs AudioBufferSourceNode::set_buffer", "src/node/scheduled_source.rs AudioScheduledSourceNode", "src/lib.rs assert_valid_time_value"]}
{"id": "C73", "title": "Sound of an oscillator", "statement": "Every sample an oscillator outputs is 0 outside the interval from start to stop and above half the sample rate, and otherwise the value of the waveform in force at the phase accumulated since the start; the phase is the sum of frequency times frame duration, with detune in cents, over the frames that sounded, and begins with the time since the start for a start between two frames. A tone of constant frequency f is the waveform at f times the time since the start; a sine is within 2e-6 of the mathematical sine.", "quantifier": "all histories of calls of start, stop, type and periodic wave (accepted or refused) between all quanta, all frequency and detune values per sample, all sample rates, tables and frames", "why_tests_cant": "the phase of a sample depends on every earlier sample of the history; a test checks a few frequencies and start times", "anchors": ["src/node/oscillator.rs:OscillatorRenderer::process", "src/node/oscillator.rs:generate_sample", "src/node/oscillator.rs:generate_waveform_sample", "src/node/oscillator.rs:poly_blep", "src/node/oscillator.rs:unroll_phase"]}
{"id": "C74", "title": "Sound of a buffer source", "statement": "Every sample a buffer source outputs is 0 before the start, after the stop time and after the duration, and otherwise the buffer, linearly interpolated, at the position reached: offset plus the sum of rate times frame duration (rate with detune in cents), taken into the loop once the loop is entered. The ended event comes with the quantum in which the stop time or the duration is reached or the position has left the buffer. At a constant rate r the position is offset + (t - when) * r, in a loop up to a multiple of its length. The sound is at most three times as loud as the buffer, in a loop not louder.", "quantifier": "all buffers, sample rates, offsets, durations, loops, playback rates and detunes per quantum (also negative), stop times set before any quantum, settings before and after the call of start, all frames and channels", "why_tests_cant": "the position of a sample depends on every earlier quantum, and two code paths (copying and interpolating) alternate; a test checks a few rates", "anchors": ["src/node/audio_buffer_source.rs:AudioBufferSourceRenderer::process", "src/node/audio_buffer_source.rs:handle_control_message", "src/node/audio_buffer_source.rs:clamp_loop_boundaries"]}
{"id": "C75", "title": "Every audio device has its own id, and the id selects this device", "statement": "The list of media devices has one entry for each usable device, no two entries have the same id, passing the id of an entry selects exactly that device, other ids select nothing, and ids do not depend on unrelated devices.", "quantifier": "every host with every list of input and output devices, names, channel counts and every hash function that does not collide on them", "why_tests_cant": "Devices of the same name and any number of them cannot be plugged into a test machine.", "anchors": ["src/media_devices/mod.rs: enumerate_devices_sync, DeviceId", "src/io/cpal.rs: enumerate_devices_sync, cpal_device_for_id, stable_device_id"]}
{"id": "C76", "title": "The context reports the rate and channels its device works with, also after a change of device", "statement": "A new context reports the sample rate and number of channels of its render thread and stream; the stream has the rate asked for unless the device refuses it; changing the output device keeps graph, state and rate and leads to the device asked for; a refused or failed change leaves the context as it was.", "quantifier": "every host, every pair of states of the host before and during a call, every history of device changes, suspensions, resumptions and closing", "why_tests_cant": "Needs devices that refuse configurations, disappear or fail at chosen moments.", "anchors": ["src/context/online.rs: try_new_inner, set_sink_id_sync, is_valid_sink_id", "src/io/cpal.rs: build_output, build_input", "src/io/none.rs: build_output", "src/media_devices/mod.rs: get_user_media_sync"]}
{"id": "C77", "title": "The latency hint determines the buffer size", "statement": "A custom latency gives the least power of two of frames that lasts as long, clamped to what the device supports; a longer latency never gives a smaller buffer; no latency makes the constructor panic.", "quantifier": "every latency and sample rate in floating point, every range of sizes of the device", "why_tests_cant": "Conversions from floating point, saturation and wrap-around only show for extreme values.", "anchors": ["src/io/mod.rs: buffer_size_for_latency_category", "src/io/cpal.rs: build_output"]}
{"id": "C78", "title": "A realtime context plays what an offline context renders", "statement": "If an OfflineAudioContext renders a graph, an AudioContext that is given the same graph delivers the same samples to the device, whatever the sizes of the hardware callbacks; messages sent at offline suspensions and by event handlers have the effect of the same messages arriving between the callbacks of a realtime context.", "quantifier": "every audio graph and processors, every number of channels and frames, every sequence of callback sizes, every suspension and message schedule", "why_tests_cant": "The realtime path (interleaving, leftovers, message polling) and the offline path (planar extension, suspensions) are different code; agreement must hold for all callback sizes and graphs.", "anchors": ["src/render/thread.rs: render_inner, render_audiobuffer_sync, render_offline_quantum", "src/context/offline.rs: suspend_sync"]}
{"id": "C79", "title": "The diagnostic report describes the audio graph and reaches its callback", "statement": "A report of run_diagnostics lists every registered node once, with counts, connections and ports that are right, and the connections are those the user made and the next quantum uses; after a quantum each node is either in the reported ordering, which the next quantum follows, or reported as excluded because of a cycle without delay; the callback of a request is called once with the report of this request.", "quantifier": "every history of graph messages and quanta, every graph and processors, every interleaving of control thread, render thread and event loop", "why_tests_cant": "The report is collected on another thread at an arbitrary point of the history and travels through the event queue; orderings, cycles, removals and overlapping requests give unboundedly many cases.", "anchors": ["src/context/diagnostics.rs", "src/render/graph.rs: diagnostics", "src/render/thread.rs: RunDiagnostics", "src/context/online.rs: run_diagnostics"]}
{"id": "C80", "title": "Connect and disconnect calls mean what they say", "statement": "For every history of node creations, connects, disconnects (all five forms), handle drops and requests for the listener, on any number of contexts: a call is rejected exactly when the nodes belong to different contexts, a port is out of bounds, or a disconnect names a destination to which no such link exists; a rejected call has no effect; an accepted connect or disconnect sends the render thread one message per link it names and no other; a DelayNode, although made of two graph nodes, behaves as one node and its inner path is never cut; a PannerNode stays connected to the listener; the listener enters the graph exactly once, at its first use.", "quantifier": "all histories of calls with identifiers handed out while unused (C06), any number of contexts and nodes", "why_tests_cant": "tests try a handful of call sequences; identifier reuse after drops, mixed forms of disconnect and compound nodes give unboundedly many", "anchors": ["src/node/audio_node.rs AudioNode::connect_from_output_to_input, disconnect*", "src/node/delay.rs DelayNode", "src/context/concrete_base.rs connect, disconnect, mark_node_dropped, ensure_audio_listener_present", "src/node/panner.rs PannerNode::new"]}
{"id": "C81", "title": "What is heard is the graph the program drew", "statement": "A program creates nodes and calls connect, disconnect and listener in any order on any number of contexts, keeping its handles. The renderer of each context then has, without any error, exactly the nodes made there, each with its processor, configuration, inputs and outputs, and exactly the connections that the calls left plus those the constructors make (parameters to their node, input to output within a delay, listener to panners); none is doubled if no existing link was connected again. If the drawing has no cycle without a delay, startRendering returns the samples of the solution of the equations of this graph.", "quantifier": "every list of API calls (constructors, connect, five forms of disconnect, listener) on any number of contexts, every assignment of processors, every length and channel count", "why_tests_cant": "Tests draw a few graphs; the correspondence between handles and rendered graph must hold after every sequence of calls.", "anchors": ["src/node/audio_node.rs: connect_from_output_to_input, disconnect", "src/context/concrete_base.rs: register, connect, disconnect, ensure_audio_listener_present", "src/render/thread.rs: handle_control_messages", "src/render/graph.rs: add_node, add_edge, remove_edge, render"]}
{"id": "C82", "title": "Attributes of effect nodes take effect in order and only when accepted", "statement": "For PannerNode, WaveShaperNode, BiquadFilterNode and ConvolverNode, whatever setters are called and whenever quanta are rendered in between: a getter returns the latest accepted value (the first one for the curve of a wave shaper), a value out of range is refused and changes nothing, and every quantum is rendered with the values the getters return at that moment. In particular a panner plays the position law for its current distance model, distances, cone and panning model; a filter obeys the difference equation of its current type with its earlier samples; a convolver convolves with the response last accepted, normalized according to the normalize attribute at the moment the response was set.", "quantifier": "all options, all sequences of setter calls with any arguments and render quanta with any input, any arithmetic for the control side, exact arithmetic for the sound", "why_tests_cant": "setters and rendering interleave without bound, and the value on the control side and the value on the render thread are two copies kept equal by messages", "anchors": ["src/node/panner.rs PannerNode::set_ref_distance, set_panning_model, PannerRenderer::onmessage", "src/node/waveshaper.rs set_curve, set_oversample, onmessage", "src/node/biquad_filter.rs set_type, onmessage", "src/node/convolver.rs set_buffer, set_normalize, onmessage"]}
{"id": "C83", "title": "Life of an OfflineAudioContext", "statement": "When an OfflineAudioContext is used through its asynchronous interface, by a program that changes the graph and resumes only while the context reports that it is suspended, then whatever the order in which the tasks run: the context is suspended before each quantum a suspension was scheduled for, and that quantum is rendered only after the suspension was reported and the program has resumed; the changes made meanwhile take effect at that quantum; the state goes from suspended to running, suspended and running again at each suspension, and closed at the end; every change is announced by one statechange event, handlers are called in this order, the complete event comes last, once, with the buffer that start_rendering returns; the rendering never gets stuck. Whatever the program does, rendering starts at most once, the quanta are rendered once and in order, and the complete event is emitted at most once. The synchronous interface goes through the same states and events and renders the same buffer.", "quantifier": "all programs (any sequence of suspend, resume, start_rendering and graph changes, futures dropped or not) and all interleavings of the tasks, all buffer lengths, quantum sizes, channel counts and graphs", "why_tests_cant": "tests fix one order of the tasks and a few suspensions; the property is about all schedules of asynchronous tasks", "anchors": ["src/context/offline.rs:OfflineAudioContext::start_rendering", "src/context/offline.rs:OfflineAudioContext::suspend", "src/context/offline.rs:OfflineAudioContext::resume", "src/render/thread.rs:RenderThread::render_audiobuffer", "src/context/concrete_base.rs:ConcreteBaseAudioContext::set_state", "src/events.rs:EventLoop::handle_pending_events", "src/context/offline.rs:OfflineAudioContext::start_rendering_sync", "src/context/offline.rs:OfflineAudioContext::suspend_sync", "src/render/thread.rs:RenderThread::render_audiobuffer_sync"]}
{"id": "C84", "title": "Calls of the cubeb backend", "statement": "With the cubeb backend, calls that resume, suspend or close the stream or ask for its latency may come from several threads at once. Each call returns exactly once and never waits forever; the commands are executed one after the other in the order in which the calls were made, and every call returns what its command answered. When close returns, the stream has been stopped and dropped and is never used again; calls made behind a close, even those already in the queue, return an error instead of hanging. When all handles are dropped the stream is dropped.", "quantifier": "all sequences and interleavings of calls, clones and drops of the handle by any number of threads, all behaviours of the stream, including errors", "why_tests_cant": "tests cannot enumerate the interleavings of callers with the owner thread, in particular calls that race with close", "anchors": ["src/io/cubeb.rs:owner_thread::CubebOwner::run", "src/io/cubeb.rs:owner_thread::CubebThreadHandle::request", "src/io/cubeb.rs:owner_thread::CubebOwner::close", "src/io/cubeb.rs:CubebBackend::close"]}
{"id": "C85", "title": "Changing the graph in the middle of an offline rendering", "statement": "If an application asks an OfflineAudioContext for suspensions and, in each of them, adds nodes, connects, disconnects, configures or automates nodes in any way, then in each stretch between two suspensions the rendered samples are those of the graph as changed so far, from the first sample frame of the stretch on; nodes that were not themselves changed continue from the state they were in (a reconnected oscillator does not jump); and nothing changed at a suspension is heard before it.", "quantifier": "all graphs, all kinds of processors, all numbers of suspensions at any quanta, all changes made in them (while the application keeps its nodes and draws no delay-free cycle), all lengths and channel numbers", "why_tests_cant": "Each graph, each sequence of changes and each position of the suspensions is another case; tests look at a few", "anchors": ["src/context/offline.rs start_rendering_sync, suspend_sync", "src/render/thread.rs render_audiobuffer_sync, handle_control_messages", "src/render/graph.rs render, add_node, add_edge, remove_edge"]}
{"id": "C86", "title": "The life of a processor and the one ended event of a source", "statement": "In an offline rendering that runs to its end, a node registered with some processor receives messages and calls, each in the state the one before left, and then exactly once, as the last thing, its destructor hook, be it taken out of the graph, be it because it panicked, or be it still there at the end; after a panic it is not called again. Hence a scheduled source sends at most one ended event, and sends one exactly when it is over in the end or has begun (or been stopped) by the last frame.", "quantifier": "every legal history of graph operations and quanta, every processor, every moment of removal", "why_tests_cant": "Depends on the interleaving of removal, panics, messages and the end of the rendering", "anchors": ["src/render/graph.rs Graph::render", "src/render/graph.rs Graph::before_drop", "src/render/thread.rs unload_graph", "src/node/constant_source.rs before_drop", "src/node/oscillator.rs before_drop", "src/node/audio_buffer_source.rs before_drop"]}
{"id": "C87", "title": "A feedback delay sounds as its series of echoes", "statement": "When a program connects a source to the destination and to a DelayNode, and the DelayNode to the destination and through a GainNode back to itself, every rendered frame is the source plus a series of echoes: one every delay time (but never less than one render quantum apart, because the delay is in a cycle), each one the gain times the one before. The rendering never fails. With a gain below one in magnitude the output stays bounded, however long it sounds.", "quantifier": "all sources, all whole numbers of frames as delay time up to the maximum, all gains, all lengths of the rendering", "why_tests_cant": "The cycle couples the order of rendering of the two halves of the delay, their shared ring buffer, the clamping of the delay time and the mixing of inputs over every quantum; a test sees a finite number of quanta of a few signals.", "anchors": ["src/node/delay.rs DelayNode, DelayReader, DelayWriter", "src/node/gain.rs GainRenderer", "src/render/graph.rs Graph::order_nodes, Graph::render"]}
{"id": "C88", "title": "A node connected to an AudioParam adds to its value", "statement": "When the output of a node is connected to an AudioParam, the parameter takes, at each frame, the sum of its automated value and of that output, limited to its range. A tremolo (a source through a gain to the destination, with a second source through its own gain connected to the parameter of the first gain, every offset and gain automated, both sources started and stopped) renders, at each frame, the carrier times the sum of its automated gain and of the modulator times its depth.", "quantifier": "for all sample rates, lengths of the buffer, channel counts, start and stop times and legal automations of the four parameters", "why_tests_cant": "the result depends on the order of the render graph, on the quanta in which the parameter has one or 128 values, on silence shortcuts and on the frame; tests sample a few", "anchors": ["src/node/audio_node.rs connect", "src/param.rs mix_to_output, process", "src/node/gain.rs process", "src/render/graph.rs render"]}
{"id": "C89", "title": "The value and the automation rate of an AudioParam read as assigned and as played", "statement": "For every interleaving of control threads and render thread: the value attribute of an AudioParam is within its nominal range and never NaN; after an assignment it reads as the assigned value, limited to the range, until another assignment or automation changes it; after a quantum it is the value of the first frame of this quantum. The automation rate reads as that of the last accepted call, is refused exactly when it is constrained and would change, and once the messages have arrived the render thread works at this rate.", "quantifier": "for all histories of assignments, automation calls, rate changes, readings, message arrivals and rendered quanta, in any interleaving of threads", "why_tests_cant": "the value is a cell written by several threads; which write comes last depends on the schedule", "anchors": ["src/param.rs AudioParam::value, set_value, set_value_raw, set_automation_rate, AudioParamProcessor::onmessage, compute_buffer"]}
{"id": "C90", "title": "Suspending and resuming a realtime context is gapless", "statement": "Suspending and resuming a realtime context neither loses, repeats nor reorders audio: what is heard is the sound of the context that was never suspended, with silence put in between. After a suspension only the rest of the quantum being played is still heard, then silence until the resumption, then the sound from exactly where it stopped. The current time counts what was rendered and stands still during the pause.", "quantifier": "for all hardware callback sizes, channel counts, graphs, numbers of pauses and moments at which they take effect, also in the middle of a callback", "why_tests_cant": "the callback size and the moment of suspension relative to the quantum and to the partially delivered quantum range over all combinations; tests drive one size", "anchors": ["src/render/thread.rs RenderThread::render_inner, handle_control_messages", "src/context/online.rs AudioContext::suspend, resume"]}
{"id": "C91", "title": "What happens in a node can be noticed only downstream of it", "statement": "If the processor of a node panics, ends or plays something else, then the nodes that are not connected downstream of it (directly, through other nodes or through AudioParams) get the same inputs and compute the same outputs as otherwise, in every following quantum; if the destination is not downstream, what is heard is the same. A panic in user code, in rendering or in message handling, stops only that node.", "quantifier": "for all graphs, sets of nodes with nothing connected to the outside, processors, moments of failure and numbers of quanta, as long as the application holds the nodes outside", "why_tests_cant": "it compares two runs over all graphs and failures: the removal of a node, its connections and the order of rendering must not disturb any of the others", "anchors": ["src/render/graph.rs Graph::render, route_message", "src/render/processor.rs report_error", "src/render/thread.rs handle_control_messages"]}
{"id": "C92", "title": "An event handler is called for the node it was installed on", "statement": "A callback installed on a node (for its end, its processor errors, its messages or its audio-processing requests) is only ever called with events that this very node sent: never with events of another node, also when nodes are dropped and new ones are made while events are waiting.", "quantifier": "all interleavings of the control thread, the render thread and the event thread; all histories of making, dropping and freeing nodes, installing and clearing handlers and sending events; all queue capacities", "why_tests_cant": "It depends on when the render thread frees a node, when its id is handed out again and what waits in the event queue at that moment; tests keep their nodes alive.", "anchors": ["src/context/concrete_base.rs AudioNodeIdProvider::get", "src/context/concrete_base.rs mark_node_dropped", "src/render/graph.rs render", "src/events.rs EventLoop", "src/node/scheduled_source.rs set_onended", "src/message_port.rs set_onmessage"]}
{"id": "C93", "title": "Data handed to nodes is disposed of once, and not by the render thread", "statement": "A buffer, periodic wave, impulse response or curve that is handed to a node is dropped exactly once, and not while the node still uses it; when the context has ended, everything has been dropped. In a realtime context the render thread does not drop such data, as this would deallocate memory: a separate thread does.", "quantifier": "all histories of constructors, setters, handled messages, removals of nodes and rounds of the garbage collector, interleaved, in realtime and offline contexts", "why_tests_cant": "Leaks, double drops and deallocations on the audio thread do not show in the output; they depend on the order in which messages, removals and the end of the context happen.", "anchors": ["src/render/thread.rs handle_control_message", "src/render/thread.rs run_garbage_collector_thread", "src/render/thread.rs drop", "src/node/audio_buffer_source.rs onmessage", "src/node/oscillator.rs onmessage", "src/node/convolver.rs onmessage", "src/node/waveshaper.rs onmessage", "src/node/panner.rs onmessage", "src/render/graph.rs render"]}
{"id": "C94", "title": "Capacity updates come from one collection, at its pace, until it is stopped", "statement": "start() of an AudioRenderCapacity replaces the collection in progress, if any; there is never more than one. A collection sends at most one update per interval. Once stop() has returned, no update is sent before start() is called again. start() and stop() return.", "quantifier": "all interleavings of the calls, the collecting threads, the event thread and other events; all queue capacities; any number of collections", "why_tests_cant": "It depends on where the collecting thread is when stop is called, on how full the event queue is and on who calls; a test sees one such moment.", "anchors": ["src/capacity.rs start", "src/capacity.rs stop", "src/context/online.rs close", "src/context/online.rs drop", "src/events.rs EventLoop"]}
{"id": "C95", "title": "The answer of an audio-processing callback goes to the script processor that asked", "statement": "The output buffer a client fills in its audio-processing callback is played by the script processor that sent the event and by no other node, and its arrival never brings the render thread down, whatever nodes are made, dropped and removed while the event is queued or the callback runs.", "quantifier": "all interleavings of node creation, handle drops, node removal with recycling of ids, blocks that fill up, callbacks that start and return, and delivery of control messages", "why_tests_cant": "the answer travels through two queues and two threads addressed by a node id that may be freed and given to another node in between; tests keep the node alive and run no other nodes", "anchors": ["src/node/script_processor.rs set_onaudioprocess, process, onmessage", "src/events.rs AudioProcessingEvent::drop", "src/render/graph.rs route_message", "src/render/node_collection.rs get_unchecked_mut", "src/context/concrete_base.rs AudioNodeIdProvider"]}
{"id": "C96", "title": "With the cubeb backend, too, every device has its own id, and the id selects this device", "statement": "The list of media devices has one entry for each device cubeb knows, with its kind, group and name; no two entries of a kind have the same id; opening a stream with the id of an entry opens exactly that device, and any other id is rejected.", "quantifier": "all lists of input and output devices, with any names, channel counts, groups and repetitions, and all hash functions", "why_tests_cant": "ids are hashes made unique by a counter, recomputed at each look-up from a list that depends on the machine; tests see one machine with few devices", "anchors": ["src/io/cubeb.rs cubeb_device_for_id, enumerate_cubeb_devices, cubeb_stable_device_id, stable_device_id, build_output, build_input", "src/media_devices/mod.rs DeviceId::as_string, enumerate_devices_sync"]}
{"id": "C97", "title": "A callback is given what it was installed for", "statement": "Every call of a callback (for the end of a source, processor errors, messages, audio processing, render capacity, state and sink changes, diagnostics, completion of offline rendering) is for something that happened, in order and at most once, to the node or context it was installed on, and the callback is given exactly that; no event brings the event thread down because a callback cannot unpack it, and events are handled until the context is closed.", "quantifier": "all histories of installing, replacing and clearing the nine kinds of callbacks, also while callbacks run, and all sequences of the nine kinds of events", "why_tests_cant": "events pass through one queue and one table as type-erased payloads; a mismatch between the type under which a callback is stored and the payload sent shows only for particular pairs and interleavings", "anchors": ["src/events.rs EventDispatch, EventLoop::handle_event", "src/node/scheduled_source.rs set_onended", "src/node/audio_node.rs set_onprocessorerror", "src/message_port.rs set_onmessage", "src/node/script_processor.rs set_onaudioprocess", "src/capacity.rs set_onupdate", "src/context/base.rs set_onstatechange", "src/context/online.rs set_onsinkchange, run_diagnostics", "src/context/offline.rs set_oncomplete"]}
{"id": "C98", "title": "Calls on a media recorder return", "statement": "Every call of stop() and of the functions that set or clear callbacks returns, and the recording thread never blocks for ever, however many threads use the recorder and whatever its callbacks do with it.", "quantifier": "any number of threads, each with any sequence of operations on one recorder, callbacks with any nested calls, all schedules", "why_tests_cant": "four locks are taken in nested fashion around user code; a deadlock needs a particular callback, or two threads at particular points", "anchors": ["src/media_recorder/mod.rs MediaRecorderInner::record, handle_error, flush, stop, MediaRecorder::set_ondataavailable, set_onstop, set_onerror, start, stop"]}
{"id": "C99", "title": "The clock of a context", "statement": "The time a context shows never goes back for any thread that reads it, goes forward with every block of 128 frames, equals the length of the audio rendered so far up to one rounding, and is the same clock the processors are given: the time read after k blocks is exactly the time of the first frame of block k.", "quantifier": "every usable sample rate, every interleaving of rendering, readings of any number of threads (with stale values as relaxed atomics allow) and changes of output device, up to 2^53 frames", "why_tests_cant": "The order of an atomic update and its readers, and the rounding of every one of 2^53 frame counts at every rate, cannot be enumerated by tests.", "anchors": ["src/context/concrete_base.rs: current_time", "src/render/thread.rs: render_offline_quantum, render_inner", "src/context/online.rs: set_sink_id"]}
{"id": "C100", "title": "Starting and stopping now", "statement": "A constant source that is started at the time the context shows plays from the first frame of the next block its processor renders, with nothing cut off and no delay; a buffer played at that time gives its samples one by one from that frame on; an oscillator started at that time begins with phase zero on that frame; a constant source that is stopped at the time the context shows is silent from the first frame of the next block on and sends its ended event in that block, once.", "quantifier": "every sample rate, every interleaving of rendering and readings of the clock, every delay of the message, all values of the offset, 97 days of floating-point time", "why_tests_cant": "Whether a time computed on one thread and one computed on another agree to the last bit depends on the rounding of every frame count at every rate, and on the interleaving.", "anchors": ["src/node/constant_source.rs: start, stop, process", "src/context/concrete_base.rs: current_time", "src/render/thread.rs: render_inner"]}
{"id": "C101", "title": "Setting a parameter now", "statement": "A parameter whose value is scheduled at the time the context shows has that value, exactly, in every frame from the first frame of the next block its node renders.", "quantifier": "every sample rate, every interleaving of rendering and readings of the clock, every delay of the message, all finite values in the nominal range, up to 2^48 frames", "why_tests_cant": "It depends on the bit-exact agreement of times computed on two threads and on which side of a block boundary a comparison falls, for every frame count, rate and interleaving.", "anchors": ["src/param.rs: set_value_at_time, compute_buffer, compute_set_value_automation", "src/context/concrete_base.rs: current_time"]}
