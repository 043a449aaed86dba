{
 "claims": [
  {
   "property": "C01",
   "status": "proved",
   "theorems": [
    "C01_ordering_terminates",
    "C01_params_are_current",
    "C01_rendering_order"
   ],
   "note": "For every legal history of messages and quanta and every processor behaviour. Edges out of delay writers that lie on a cycle are excepted (they carry earlier quanta)."
  },
  {
   "property": "C02",
   "status": "partial",
   "theorems": [
    "C02_all_cycle_nodes_muted_refuted",
    "C02_delays_legalise_cycles",
    "C02_every_cycle_interrupted",
    "C02_only_cycles_are_muted"
   ],
   "note": "Only nodes on delay-free cycles are muted, delays legalise cycles, every delay-free cycle is interrupted. The documented rule that every node of a delay-free cycle is muted is refuted by a computed witness."
  },
  {
   "property": "C03",
   "status": "partial",
   "theorems": [
    "C03_topology_changes_effective_partial",
    "C03_topology_changes_effective_refuted"
   ],
   "note": "Proved for histories in which no node is registered after the last (dis)connection before a quantum; refuted in general (finding 1)."
  },
  {
   "property": "C04",
   "status": "partial",
   "theorems": [
    "C04_inputs_are_the_mix_partial",
    "C04_nothing_stale_refuted"
   ],
   "note": "Proved for histories whose quanta had no delay-free cycle; refuted in general: the inputs of muted nodes accumulate (finding 4)."
  },
  {
   "property": "C05",
   "status": "proved",
   "theorems": [
    "C05_handle_keeps_node_alive",
    "C05_no_dangling_connections",
    "C05_only_reclaimed_nodes_leave",
    "C05_reclaimed_exactly_once",
    "C05_removed_iff_unneeded",
    "C05_removed_only_if_unneeded",
    "C05_render_thread_never_panics"
   ],
   "note": "All legal histories; the destination's processor is assumed not to panic."
  },
  {
   "property": "C06",
   "status": "partial",
   "theorems": [
    "C06_identifiers_are_unique_partial",
    "C06_identifiers_are_unique_refuted",
    "C06_never_dropped"
   ],
   "note": "Proved for every interleaving provided no processor panics while rendering; refuted otherwise (identifier given back while the program holds the node)."
  },
  {
   "property": "C07",
   "status": "partial",
   "theorems": [
    "C07_in_order_exactly_once_partial",
    "C07_in_order_exactly_once_refuted",
    "C07_pauses"
   ],
   "note": "Proved for every history in which suspend is not called twice before resume; refuted otherwise."
  },
  {
   "property": "C08",
   "status": "partial",
   "theorems": [
    "C08_connect_is_effective_partial",
    "C08_connect_is_idempotent_refuted",
    "C08_disconnect_is_complete_partial",
    "C08_disconnect_is_complete_refuted",
    "C08_views_agree_partial",
    "C08_views_agree_refuted"
   ],
   "note": "Views agree, connect effective and disconnect complete for nodes the program holds; refuted for duplicate connects (signal doubled), dropped destinations and a drop race."
  },
  {
   "property": "C09",
   "status": "partial",
   "theorems": [
    "C09_graph_histories_are_legal_partial",
    "C09_messages_never_panic_partial",
    "C09_messages_never_panic_refuted_after_processor_panic",
    "C09_messages_never_panic_refuted_by_failed_constructor",
    "C09_messages_never_panic_refuted_by_late_param"
   ],
   "note": "Proved for programs using the API as documented with non-panicking processors; graph histories are legal. Refuted after a processor panic, after a failed constructor, and for late params."
  },
  {
   "property": "C10",
   "status": "proved",
   "theorems": [
    "C10_channels_are_private_arrays",
    "C10_pool_is_unreferenced"
   ],
   "note": "Reference-counted buffers refine private arrays for every operation sequence; pool and silence invariants."
  },
  {
   "property": "C11",
   "status": "proved",
   "theorems": [
    "C11_silent_channel_is_zero",
    "C11_silent_quantum_is_zero"
   ],
   "note": "For channels of the reference-counted heap and for whole quanta."
  },
  {
   "property": "C12",
   "status": "proved",
   "theorems": [
    "C12_invalid_counts_are_refused",
    "C12_mixing_follows_the_matrices",
    "C12_quad_to_five_refuted",
    "C12_round_trip"
   ],
   "note": "Over real samples, all layouts of the specification; 4 to 5 channels (not a layout of the specification) is moved rather than kept, see C12_quad_to_five_refuted."
  },
  {
   "property": "C13",
   "status": "partial",
   "theorems": [
    "C13_all_connections_partial",
    "C13_identical_channels_refuted",
    "C13_order_of_connections_refuted",
    "C13_stereo_to_surround_refuted",
    "C13_sum_of_mixed_signals_partial"
   ],
   "note": "Sum of individually mixed signals for discrete, mono and stereo layouts. Refuted in general: identical channels of more than two channels, stereo to 5.1, and dependence on the order of connections."
  },
  {
   "property": "C14",
   "status": "proved",
   "theorems": [
    "C14_callback_sizes_are_irrelevant",
    "C14_callbacks_never_panic_partial",
    "C14_output_is_the_stream_of_quanta",
    "C14_silence_before_the_graph",
    "C14_stream"
   ],
   "note": "Any sequence of callback sizes and channel counts, any arrival of messages; the audio graph is a parameter."
  },
  {
   "property": "C15",
   "status": "proved",
   "theorems": [
    "C15_exactly_the_requested_buffer",
    "C15_offline_never_panics"
   ],
   "note": "Any length, channel count, graph and messages; assumes Vec::with_capacity allocates exactly the length."
  },
  {
   "property": "C16",
   "status": "partial",
   "theorems": [
    "C16_collision_refuted",
    "C16_executed_exactly_once_partial",
    "C16_executed_exactly_once_refuted",
    "C16_first_boundary",
    "C16_ieee_boundary_partial",
    "C16_ieee_time",
    "C16_late_refuted",
    "C16_schedule_is_ordered"
   ],
   "note": "Exact arithmetic: every suspension runs once, at the first boundary not before its time, except at the end of the last quantum (C16_executed_exactly_once_refuted). Floating point: within 1/2048 of a frame (C16_ieee_time). Refuted: the time computed for a boundary can give the next one (C16_late_refuted), so that two boundaries collide and the call panics (C16_collision_refuted)."
  },
  {
   "property": "C17",
   "status": "proved",
   "theorems": [
    "C17_values_in_range"
   ],
   "note": "IEEE f32/f64 arithmetic of the model; exp and powf arbitrary functions"
  },
  {
   "property": "C18",
   "status": "partial",
   "theorems": [
    "C18_always_sorted",
    "C18_cancel",
    "C18_processed_from_the_front",
    "C18_setter_after_target_refuted",
    "C18_setter_order_refuted",
    "C18_stable_sort"
   ],
   "note": "Sortedness, stable insertion, exact cancellation and front consumption proved for every reachable state; refuted for the value setter at the instant of a pending event and just after a target is reached"
  },
  {
   "property": "C19",
   "status": "partial",
   "theorems": [
    "C19_automation_curve_partial",
    "C19_envelope_partial",
    "C19_event_after_hold_refuted",
    "C19_frames_and_times",
    "C19_future_curve_refuted",
    "C19_krate_boundary_refuted",
    "C19_krate_late_ramp_refuted",
    "C19_krate_partial",
    "C19_ramp_after_target_refuted",
    "C19_sampled_curve_is_ideal",
    "C19_second_hold_refuted",
    "C19_settling_close",
    "C19_short_ramp_refuted"
   ],
   "note": "Over the reals every frame of an a-rate parameter and every quantum of a k-rate parameter has the specified value for all five kinds of events and the setter, any calls, quanta and modulation (order of times, targets and curves not scheduled far behind their predecessor; k-rate: no event exactly at the beginning of a quantum, ramps scheduled before they start); set-value events and linear ramps also over the rationals; rounding missing; k-rate boundary, k-rate late ramps, events after cancelAndHold, late curves, ramps after targets and very short ramps refuted"
  },
  {
   "property": "C20",
   "status": "partial",
   "theorems": [
    "C20_curve_index_refuted",
    "C20_early_ramp_refuted",
    "C20_event_in_curve_refuted",
    "C20_hold_order_refuted",
    "C20_never_crashes_exact_partial",
    "C20_never_crashes_partial"
   ],
   "note": "IEEE without value curves, exact arithmetic with value curves, under legal-use hypotheses; without these hypotheses refuted by four witnesses"
  },
  {
   "property": "C21",
   "status": "proved",
   "theorems": [
    "C21_exponential_ramp",
    "C21_future_target_refuted",
    "C21_linear_ramp",
    "C21_set_target",
    "C21_value_curve"
   ],
   "note": "Formulas over the real numbers; their use before the start time of a target is refuted separately"
  },
  {
   "property": "C22",
   "status": "proved",
   "theorems": [
    "C22_read",
    "C22_value_semantics",
    "C22_write"
   ],
   "note": "Heap model of the copy-on-write channels; refinement to value semantics for every sequence of operations, and sample by sample statements of both copies for every reachable state. Lengths are unbounded naturals (no usize overflow)."
  },
  {
   "property": "C23",
   "status": "partial",
   "theorems": [
    "C23_ended_once",
    "C23_ended_sent",
    "C23_exact",
    "C23_frame_time",
    "C23_ieee_partial",
    "C23_ieee_silent_after_ended_partial",
    "C23_silent_after_ended",
    "C23_sound_after_ended_refuted",
    "C23_start_late_refuted",
    "C23_stop_again_refuted"
   ],
   "note": "Exact arithmetic: full property (output, silence after ended, event sent once). Floating point: the same output with the code's own clock, which is proved to be within 2^-21 s of n/sr for 97 days; after the event at most one sample sounds. Refuted in floating point: a start time on the frame grid may be one frame late, one sample may sound after ended; a later stop() makes an ended source sound again."
  },
  {
   "property": "C24",
   "status": "partial",
   "theorems": [
    "C24_custom_without_wave_refuted",
    "C24_ended_once",
    "C24_exact",
    "C24_ieee_partial",
    "C24_negative_frequency_refuted"
   ],
   "note": "Exact arithmetic: full property for all frequencies. Floating point: for frequencies that are not negative (any libm exp2 with a sane range). Refuted: tiny negative frequencies make the phase 1.0 and the look-up panic; type Custom without wave panics. Ended at most once in any arithmetic."
  },
  {
   "property": "C25",
   "status": "partial",
   "theorems": [
    "C25_early_start_refuted",
    "C25_ended_once",
    "C25_exact",
    "C25_ieee_partial"
   ],
   "note": "Exact arithmetic: full statement for any start frame under a tolerance condition (C25_exact). Floating point, bit for bit, for starts not later than the present (C25_ieee_partial). The event is sent at most once. Refuted: the start is several frames early after 50 minutes (C25_early_start_refuted)."
  },
  {
   "property": "C26",
   "status": "partial",
   "theorems": [
    "C26_empty_loop_refuted",
    "C26_large_rate_refuted",
    "C26_loop_ieee_partial",
    "C26_loop_partial",
    "C26_loop_start_refuted",
    "C26_negative_rate_refuted",
    "C26_no_loop",
    "C26_sample_rate_refuted"
   ],
   "note": "Floating point, not looping: safe for all inputs (C26_no_loop). Looping: all reads are in bounds and the searches end for rates >= 0 and a loop start not after the last frame, in exact arithmetic (C26_loop_partial) and in floating point for loops of at least 2^(k-26) s at rates up to 2^k (C26_loop_ieee_partial). Refuted otherwise: five theorems with panics and a hang."
  },
  {
   "property": "C27",
   "status": "partial",
   "theorems": [
    "C27_exact",
    "C27_ieee_partial",
    "C27_muted_reader_refuted",
    "C27_output_before_input_refuted",
    "C27_safe",
    "C27_whole_frames"
   ],
   "note": "Exact arithmetic: C27_exact covers per-frame delays, cycles and channel changes; C27_whole_frames is the corollary for whole frames. Floating point: C27_safe (no access outside the ring for any order of quanta), C27_ieee_partial (frames and weights within 2^-22 of a frame, not in a cycle). Refuted: the rounded parameter limit lets the reader see the slot just written (C27_output_before_input_refuted), and a muted reader shifts the delay (C27_muted_reader_refuted)."
  },
  {
   "property": "C28",
   "status": "partial",
   "theorems": [
    "C28_delay_jumps_refuted",
    "C28_ghost_echo_refuted",
    "C28_rest_partial",
    "C28_silent_end_partial",
    "C28_tail_partial"
   ],
   "note": "C28_tail_partial gives the exact output after the input is collected: the remaining input is played at its time (C28_rest_partial), the reader stops after one turn of the ring, and silence follows if the last turn was silent (C28_silent_end_partial). In general the claim is false: C28_ghost_echo_refuted, C28_delay_jumps_refuted."
  },
  {
   "property": "C29",
   "status": "partial",
   "theorems": [
    "C29_biquad",
    "C29_biquad_edge",
    "C29_biquad_ieee",
    "C29_iir",
    "C29_iir_ieee"
   ],
   "note": "Exact arithmetic: biquad (all types, automation, channel changes, cookbook coefficients, edge frequencies) and IIR, full statement. Floating point: residual bounds for biquad and IIR with the coefficients the code computes. Missing: the error of the computed biquad coefficients (libm is left open)."
  },
  {
   "property": "C30",
   "status": "proved",
   "theorems": [
    "C30_biquad",
    "C30_iir",
    "C30_overflow"
   ],
   "note": "For every libm, input and setting: the run does not fail and each output sample is the f32 rounding of a finite, non-denormal f64. C30_overflow: the narrowing to f32 may give infinity."
  },
  {
   "property": "C31",
   "status": "partial",
   "theorems": [
    "C31_clamp",
    "C31_empty_curve_refuted",
    "C31_exact",
    "C31_ieee",
    "C31_long_curve_refuted",
    "C31_no_curve",
    "C31_safe"
   ],
   "note": "Exact arithmetic: full interpolation formula. Floating point: no index out of bounds for curves up to 2^24 points and any input, position and value error bounds, exact clamping. Oversampling is C71; empty and very long curves panic (refuted)."
  },
  {
   "property": "C32",
   "status": "proved",
   "theorems": [
    "C32_exact",
    "C32_latency",
    "C32_ring",
    "C32_tail_refuted"
   ],
   "note": "C32_ring for any arithmetic (IEEE included) and any run; C32_exact gives the gain of each frame from the whole history, C32_latency the length of the look-ahead. C32_tail_refuted: the node reports no tail while a burst is still in its ring."
  },
  {
   "property": "C33",
   "status": "proved",
   "theorems": [
    "C33_bytes",
    "C33_concurrent",
    "C33_create",
    "C33_exact",
    "C33_no_tail",
    "C33_overtaken_refuted",
    "C33_time"
   ],
   "note": "C33_time for any arithmetic, transform and history of operations; C33_exact identifies the mono signal and the byte conversion. C33_concurrent: reads interleaved with writes sample by sample (sequentially consistent memory) are right if at most one quantum is stored meanwhile; without this bound refuted (C33_overtaken_refuted)."
  },
  {
   "property": "C34",
   "status": "partial",
   "theorems": [
    "C34_answer_refuted",
    "C34_blocks",
    "C34_create",
    "C34_events",
    "C34_latency",
    "C34_no_outputs_refuted",
    "C34_playback_refuted",
    "C34_size_refuted"
   ],
   "note": "Full for the documented buffer sizes, at least one output channel and answers of the announced shape: each block of input handed out once and in order, timely answers played once and in order two blocks later, any arithmetic. The announced playback time is refuted (one quantum early); so are the rejection of undocumented sizes, nodes without outputs and answers of another shape."
  },
  {
   "property": "C35",
   "status": "proved",
   "theorems": [
    "C35_merge",
    "C35_round_trip",
    "C35_split"
   ],
   "note": "C35_split, C35_merge and C35_round_trip, for all numbers of channels and any content."
  },
  {
   "property": "C36",
   "status": "proved",
   "theorems": [
    "C36_float_partial",
    "C36_gains",
    "C36_panner",
    "C36_panner_float",
    "C36_power_float",
    "C36_stereo_float",
    "C36_stereo_panner"
   ],
   "note": "Panning law on quanta for StereoPannerNode and PannerNode (equal power) in exact arithmetic, gains, power, symmetry, ends. Floating point: every sample of both nodes within eps + 2^-19 of the amplitude from the law, power within six times that (eps: error of the library's sine and cosine); ends and middle exact for a libm with exact sin(0), sin(pi/2)."
  },
  {
   "property": "C37",
   "status": "partial",
   "theorems": [
    "C37_cone",
    "C37_cone_float_partial",
    "C37_cone_nan_refuted",
    "C37_distance",
    "C37_distance_float_partial",
    "C37_nan_refuted",
    "C37_setters"
   ],
   "note": "Exact: attenuation formulas, range, monotone, cone range. Floating point: linear and inverse gains and cone gain are numbers in [0,1], monotone. Refuted: NaN for accepted degenerate settings and for rounding above 1 in the arc cosine."
  },
  {
   "property": "C38",
   "status": "partial",
   "theorems": [
    "C38_clear_refuted",
    "C38_closed",
    "C38_dropped_refuted",
    "C38_ideal_cleared",
    "C38_ideal_kept",
    "C38_ideal_partial",
    "C38_in_order",
    "C38_once",
    "C38_panic_refuted",
    "C38_progress",
    "C38_replace_refuted",
    "C38_right_handler"
   ],
   "note": "In-order delivery, at-most-once one-shot calls and right-handler hold for all interleavings; the ideal registry is proved for runs in which handlers are not changed while a repeating callback for that type runs. Refuted in general: clearing or replacing inside the callback is undone; events dropped when 256 wait; a panicking callback ends the loop."
  },
  {
   "property": "C39",
   "status": "partial",
   "theorems": [
    "C39_channel_change_refuted",
    "C39_chunks_preserve_samples",
    "C39_empty_buffer_refuted",
    "C39_error_drops_samples_refuted",
    "C39_resample_keeps_ends",
    "C39_same_rate",
    "C39_short_buffer_refuted"
   ],
   "note": "Proved for every error-free stream with a constant number of channels (source buffers up to 2^40 frames, valid sample rates). Less than one chunk of silence needs non-empty source buffers: refuted for an empty last buffer. Further findings: NaN for a resampled length of one, samples dropped before an error, panic on a change of the number of channels."
  },
  {
   "property": "C40",
   "status": "partial",
   "theorems": [
    "C40_accepted",
    "C40_any_moment",
    "C40_capacity",
    "C40_counters",
    "C40_latency_partial",
    "C40_ratio_race_refuted",
    "C40_reset_race_refuted",
    "C40_seconds_partial",
    "C40_wrap_refuted"
   ],
   "note": "Order of min/average/max proved for whole operations (ns and f64 seconds) while the 64-bit sum does not wrap; counters proved for whole operations and, at every moment, for all interleavings; capacity event ranges proved in IEEE arithmetic for uninterrupted snapshots. Refuted: reset racing with a recording, wrapping sum, snapshot racing with a callback (ratio 2)."
  },
  {
   "property": "C41",
   "status": "partial",
   "theorems": [
    "C41_begins_partial",
    "C41_completes_partial",
    "C41_deadlock_refuted",
    "C41_messages_partial",
    "C41_recycle_during_callback_refuted",
    "C41_reordered_refuted"
   ],
   "note": "Synchronous calls, any number of threads, all interleavings, one quantum per callback when sinks change: every call can complete, the graph of the current render thread always holds an initial part of the messages sent in order and all of them when nothing is pending (C41_completes/begins/messages_partial). Missing because false: a message waiting at the time of the sink change deadlocks the call (C41_deadlock_refuted, for all continuations without close), the drain races with the render thread (C41_reordered_refuted), Recycle in the middle of a callback (C41_recycle_during_callback_refuted)."
  },
  {
   "property": "C42",
   "status": "partial",
   "theorems": [
    "C42_float_partial",
    "C42_infinite_refuted",
    "C42_normalized",
    "C42_peak_refuted",
    "C42_small_refuted",
    "C42_table"
   ],
   "note": "Exact arithmetic: proved for every set of options. Floating point: peak within one unit in the last place below one and shape within 2^-22 when the peak is between 2^-126 and 2^126; refuted beyond (peak not exactly one, small peak overflows, infinite samples give NaN)."
  },
  {
   "property": "C43",
   "status": "partial",
   "theorems": [
    "C43_changes_are_reported",
    "C43_clock_partial",
    "C43_close_at_startup_refuted",
    "C43_close_during_resume_refuted",
    "C43_close_hangs_refuted",
    "C43_close_then_run_refuted",
    "C43_closed_partial",
    "C43_monotone",
    "C43_returns_partial",
    "C43_running_without_callbacks_refuted",
    "C43_sink_events_refuted",
    "C43_sink_suspended_refuted",
    "C43_sink_window_refuted",
    "C43_suspend_before_start",
    "C43_suspend_lost_refuted",
    "C43_suspended_clock_stands_still_refuted",
    "C43_time_zero",
    "C43_transitions_partial",
    "C43_two_events_refuted"
   ],
   "note": "Synchronous calls on a started context: only requested transitions, one event each, closed final, clock monotone for every schedule and advancing only while running, calls return with the state they asked for. Refuted outside: calls during startup, asynchronous calls that overlap, sink changes, callbacks of several quanta (the C43_..._refuted theorems)."
  },
  {
   "property": "C44",
   "status": "proved",
   "theorems": [
    "C44_exact",
    "C44_ieee",
    "C44_product"
   ],
   "note": "C44_exact (real arithmetic), C44_ieee and C44_product (single precision): the rounded product, or within a millionth of the input on the fast paths."
  },
  {
   "property": "C45",
   "status": "partial",
   "theorems": [
    "C45_degenerate",
    "C45_direction",
    "C45_nan_refuted",
    "C45_range_float_partial"
   ],
   "note": "Exact: the angles are in range and describe the direction. Floating point: in range or NaN for a sane acos. Refuted: NaN when the dot product of unit vectors rounds above 1."
  },
  {
   "property": "C46",
   "status": "partial",
   "theorems": [
    "C46_bounded",
    "C46_decay",
    "C46_lowpass_zero_refuted"
   ],
   "note": "Proved in exact arithmetic for frequencies strictly inside (0, nyquist). Refuted for the lowpass filter at frequency 0 (no special case in the code): the output grows without bound. Rounding not covered."
  },
  {
   "property": "C47",
   "status": "partial",
   "theorems": [
    "C47_allpass",
    "C47_iir",
    "C47_iir_stable",
    "C47_nominal",
    "C47_steady"
   ],
   "note": "Exact arithmetic: steady state of biquad filters and of stable IIR filters, nominal gains, allpass. Rounding not covered."
  },
  {
   "property": "C48",
   "status": "partial",
   "theorems": [
    "C48_converges",
    "C48_curve",
    "C48_infinite_refuted",
    "C48_makeup_partial",
    "C48_makeup_refuted",
    "C48_range"
   ],
   "note": "Curve, range and convergence proved in exact arithmetic (attack and release > 0). Makeup gain agrees with the specification only when 0 dB is not in the knee (refuted for the default values); an infinite sample makes the output NaN for ever (refuted)."
  },
  {
   "property": "C49",
   "status": "partial",
   "theorems": [
    "C49_bytes_refuted",
    "C49_long",
    "C49_short_refuted"
   ],
   "note": "Float data of at least fftSize elements are as specified (C49_long). Refuted for short arrays (they get the end of the data) and for byte data (the excess elements are overwritten by 128)."
  },
  {
   "property": "C50",
   "status": "partial",
   "theorems": [
    "C50_bounded",
    "C50_finite",
    "C50_resize_refuted",
    "C50_spectrum"
   ],
   "note": "C50_spectrum in exact arithmetic with the DFT for the transform (levels > 0); C50_bounded; C50_finite in floating point for any transform. Refuted: after a change of the FFT size within the same time step the report is that of silence."
  },
  {
   "property": "C51",
   "status": "partial",
   "theorems": [
    "C51_cone_direction_refuted"
   ],
   "note": "Refuted: the cone is reversed, for every source that points at the listener."
  },
  {
   "property": "C52",
   "status": "partial",
   "theorems": [
    "C52_automation_partial",
    "C52_automation_refuted"
   ],
   "note": "Proved when a listener parameter is automated or all parameters are constant; refuted for automated source positions."
  },
  {
   "property": "C53",
   "status": "partial",
   "theorems": [
    "C53_direction",
    "C53_hrtf_output",
    "C53_tail_partial",
    "C53_tail_refuted"
   ],
   "note": "Proved while the total number of silent quanta stays below the length of the responses; refuted for the second sound."
  },
  {
   "property": "C54",
   "status": "partial",
   "theorems": [
    "C54_initial_refuted",
    "C54_measured_partial"
   ],
   "note": "Proved when the last reset follows a measurement; refuted for the reset made at creation, which counts a latency 0 never measured."
  },
  {
   "property": "C55",
   "status": "partial",
   "theorems": [
    "C55_peak_partial",
    "C55_peak_race_refuted",
    "C55_rounding_refuted"
   ],
   "note": "Average <= peak up to the recorded millionth within one uninterrupted interval; refuted: 7 of 100 is reported as 0.08; a callback between snapshot and peak makes average > peak."
  },
  {
   "property": "C56",
   "status": "proved",
   "theorems": [
    "C56_exposed",
    "C56_once_per_second"
   ],
   "note": "Every query sequence."
  },
  {
   "property": "C57",
   "status": "partial",
   "theorems": [
    "C57_default",
    "C57_options_partial",
    "C57_too_many_refuted"
   ],
   "note": "Length rules proved for any arithmetic; the documented limit of 8192 components is not enforced (refuted)."
  },
  {
   "property": "C58",
   "status": "partial",
   "theorems": [
    "C58_convolution_partial",
    "C58_no_buffer_refuted",
    "C58_no_buffer_silence",
    "C58_own_arrays",
    "C58_stereo_tail_refuted"
   ],
   "note": "Exact arithmetic, for any engine that convolves (crate fft_convolver abstract). Missing because false: right channel of a mono response when the input changes between stereo and mono (C58_stereo_tail_refuted); no response = pass-through (C58_no_buffer_refuted). Not covered: rounding in the FFT."
  },
  {
   "property": "C59",
   "status": "proved",
   "theorems": [
    "C59_constant_power",
    "C59_finite",
    "C59_gain"
   ],
   "note": "Formula and constant power in exact arithmetic, finite and positive in floating point for every buffer."
  },
  {
   "property": "C60",
   "status": "partial",
   "theorems": [
    "C60_calls_partial",
    "C60_constructor",
    "C60_not_zero_filled_refuted",
    "C60_options",
    "C60_zero_filled_partial"
   ],
   "note": "calls and outputs equal those of the user's program; the buffers keep the samples of the last quantum instead of zeros (refuted)"
  },
  {
   "property": "C61",
   "status": "partial",
   "theorems": [
    "C61_all_partial",
    "C61_in_order",
    "C61_last_buffer_refuted",
    "C61_never_stuck",
    "C61_once_partial",
    "C61_overlap_refuted",
    "C61_single"
   ],
   "note": "Order and finality for all schedules and any number of consumers; at-most-once and no loss when calls do not overlap, exact sequence for one consumer; with overlapping calls loss and repetition are refuted by a schedule, and the last buffer can be missed by a second consumer. Relaxed atomics are modelled as sequentially consistent."
  },
  {
   "property": "C62",
   "status": "proved",
   "theorems": [
    "C62_never_waits",
    "C62_newest",
    "C62_paced",
    "C62_received"
   ],
   "note": "All schedules of the render thread and one consumer of the channel; conversion of the quantum to a buffer is abstract."
  },
  {
   "property": "C63",
   "status": "partial",
   "theorems": [
    "C63_callbacks_needed",
    "C63_channel_change_refuted",
    "C63_data_after_stop_refuted",
    "C63_decode_partial",
    "C63_empty_refuted",
    "C63_one_stop_event",
    "C63_prefix_partial",
    "C63_restart_refuted",
    "C63_stop_loses_refuted",
    "C63_whole_partial"
   ],
   "note": "Whole recording when nobody stops it, prefix under every interleaving of one start with stops, at most one stop event per callback always, decoding for a constant channel count; refuted: channel count change, loss and late data around stop(), restart beside the old thread, empty stream. Callbacks that call back into the recorder (they deadlock on the lock held by flush) and time codes are not modelled."
  },
  {
   "property": "C64",
   "status": "proved",
   "theorems": [
    "C64_always_allowed",
    "C64_inputs_of_processors",
    "C64_no_deadlock",
    "C64_one_order",
    "C64_rejects_exactly_the_forbidden",
    "C64_render_thread_agrees"
   ],
   "note": "Every schedule with the lock modelled; messages of a closed context are not modelled."
  },
  {
   "property": "C65",
   "status": "partial",
   "theorems": [
    "C65_commands_in_order",
    "C65_commands_wait_refuted",
    "C65_done_for_good",
    "C65_end_of_file_partial",
    "C65_extreme_rate_refuted",
    "C65_gapless_loop",
    "C65_loops_seamlessly",
    "C65_negative_rate_forward_refuted",
    "C65_new_element",
    "C65_node_plays_stream",
    "C65_node_stops_at_error",
    "C65_play_after_end_refuted",
    "C65_plays_once",
    "C65_seek",
    "C65_seek_truncates_refuted",
    "C65_tail_lost_refuted",
    "C65_time_ignores_rate_refuted"
   ],
   "note": "Proved: commands in order; looping element delivers the endlessly repeated file for every schedule of pauses, resumptions and workable rates; not looping: once; the node plays any stream (resampled) and stops at errors; composed: gapless looping at the context's rate. Refuted with witnesses: last incomplete quantum lost, no restart after the end, clock ignores the rate, negative rates play forwards, extreme rates panic, seeks truncate, one command per call only. Seeks in the middle are not part of the tape theorems; the decoder is a file in memory."
  },
  {
   "property": "C66",
   "status": "partial",
   "theorems": [
    "C66_corrupt_packet_refuted",
    "C66_errors",
    "C66_never_panics",
    "C66_nothing",
    "C66_one_frame_refuted",
    "C66_too_many_channels_refuted",
    "C66_truncated_refuted",
    "C66_whole_track"
   ],
   "note": "all files without fatal errors, errors, no panic; corrupt packets and truncated files pass unnoticed, more than 32 channels accepted, one frame becomes NaN (refuted)"
  },
  {
   "property": "C67",
   "status": "proved",
   "theorems": [
    "C67_end",
    "C67_gapless",
    "C67_in_order"
   ],
   "note": "all interleavings; the device itself and its thread are outside the model"
  },
  {
   "property": "C68",
   "status": "proved",
   "theorems": [
    "C68_dataflow",
    "C68_one_solution",
    "C68_plays",
    "C68_solution_is_played"
   ],
   "note": "The equations (Flow_Spec.dataflow) speak of the graph after connections into loop breakers were cut at a delay-free cycle check (cut_at_breakers: delay writers only). Cases with messages between quanta are C03; with panicking processors C05; with delay-free cycles C02."
  },
  {
   "property": "C69",
   "status": "proved",
   "theorems": [
    "C69_offline",
    "C69_offline_no_panic",
    "C69_realtime",
    "C69_solution"
   ],
   "note": "composition of C14, C15 and C68; channel arrays have the length of a quantum (Rust array type); without suspensions"
  },
  {
   "property": "C70",
   "status": "proved",
   "theorems": [
    "C70_floats",
    "C70_mix"
   ],
   "note": "Composition of the models of messages, graph, AudioParams, nodes, mixing and offline thread. C70_mix is in exact arithmetic, C70_floats bit for bit from the values of the AudioParams. Other node types, modulation of parameters and suspensions are not in this theorem (see C69)."
  },
  {
   "property": "C71",
   "status": "partial",
   "theorems": [
    "C71_history",
    "C71_no_curve",
    "C71_old_sound_refuted",
    "C71_safe",
    "C71_silence_refuted",
    "C71_stream_partial"
   ],
   "note": "Exact arithmetic for every stream without skipped quanta (C71_stream_partial); any arithmetic and history: C71_history gives exactly which quanta are joined; no panic in floats. Refuted for silent quanta (the tail is cut and heard later) and for old contents after a change of mode."
  },
  {
   "property": "C72",
   "status": "partial",
   "theorems": [
    "C72_buffer_calls",
    "C72_buffer_safe",
    "C72_buffer_state",
    "C72_constant_calls",
    "C72_constant_exact",
    "C72_constant_ieee",
    "C72_custom_stays",
    "C72_oscillator_calls",
    "C72_oscillator_safe",
    "C72_oscillator_waveform",
    "C72_refused_no_effect",
    "C72_start_now"
   ],
   "note": "Calls of all three nodes in any arithmetic; sound of the constant source in exact and floating-point arithmetic (times of frames as in C23); safety of the oscillator for frequencies that are not negative (see C24), of the buffer source without loop (see C26); state of the buffer source's renderer. The sound of the oscillator for all histories is C73, of the buffer source C74."
  },
  {
   "property": "C73",
   "status": "partial",
   "theorems": [
    "C73_bounded",
    "C73_constant_tone",
    "C73_every_history",
    "C73_phase_ieee",
    "C73_sine",
    "C73_sine_ieee",
    "C73_subsample_start_refuted",
    "C73_triangle_ieee"
   ],
   "note": "Exact arithmetic for all histories; floating point for a start at time 0, detune 0 and any automation of the frequency below half the sample rate (sine and triangle samples, phase of all types). Refuted part: a start between the last frame of a quantum and the first frame of the next loses its offset (phase 0 at the first frame). Not covered in floating point: square and sawtooth samples, other start times, detune."
  },
  {
   "property": "C74",
   "status": "partial",
   "theorems": [
    "C74_constant_rate",
    "C74_loop",
    "C74_loop_duration_refuted",
    "C74_louder_refuted",
    "C74_loudness",
    "C74_offset_behind_loop_refuted",
    "C74_shift_refuted",
    "C74_sound_partial"
   ],
   "note": "Exact arithmetic, any rates, stops and settings around the call of start (C74_sound_partial), closed forms for constant rates and loops (C74_constant_rate, C74_loop), loudness (C74_loudness). Refuted: the duration of a loop over the whole buffer is rounded up to a quantum, a start behind the loop end never loops, a start between two quanta loses its offset, extrapolation after the last sample is louder than the buffer. Missing: rounding; changes of the loop during playback."
  },
  {
   "property": "C75",
   "status": "partial",
   "theorems": [
    "C75_distinct",
    "C75_entries",
    "C75_many_refuted",
    "C75_selects",
    "C75_total_partial",
    "C75_unknown",
    "C75_unplug_refuted"
   ],
   "note": "Proved for all hosts: ids distinct (any hash), entries, ids and selection characterised when hashes do not collide. Refuted: 257 equal devices overflow the index; an id moves to another device when its twin is unplugged."
  },
  {
   "property": "C76",
   "status": "partial",
   "theorems": [
    "C76_agree",
    "C76_change",
    "C76_channels_refuted",
    "C76_failed_change_refuted",
    "C76_fraction_refuted",
    "C76_gone_refuted",
    "C76_input_channels_refuted",
    "C76_kept_partial",
    "C76_microphone_default",
    "C76_microphone_named",
    "C76_microphone_stream",
    "C76_new",
    "C76_rate_refuted",
    "C76_refused",
    "C76_try_new_refuted"
   ],
   "note": "Proved: new contexts and all histories keep render thread and stream in agreement; with well-behaved devices nothing is lost. Refuted: stale rate and channel count after a change, failed change kills the context, default device under the name of a vanished one, try_new panics, microphones with more than 32 channels."
  },
  {
   "property": "C77",
   "status": "partial",
   "theorems": [
    "C77_hints",
    "C77_long_refuted",
    "C77_monotone_partial",
    "C77_panic_refuted",
    "C77_size_partial"
   ],
   "note": "Proved up to 2^31 frames; refuted beyond (32-bit cut, panic)."
  },
  {
   "property": "C78",
   "status": "proved",
   "theorems": [
    "C78_desk",
    "C78_desk_floats",
    "C78_same_sound",
    "C78_suspensions"
   ],
   "note": "Whole graph, any processors; corollaries for the mixing desk of C70 in exact arithmetic and bit for bit in floating point. Messages during rendering: for callbacks of one quantum."
  },
  {
   "property": "C79",
   "status": "partial",
   "theorems": [
    "C79_answered_partial",
    "C79_connections_made",
    "C79_connections_used",
    "C79_full_queue_refuted",
    "C79_inputs_refuted",
    "C79_nodes",
    "C79_ordering",
    "C79_ordering_between_quanta_refuted",
    "C79_two_requests_refuted"
   ],
   "note": "Content of the report and its delivery proved for all histories; false, and refuted: inputs are never reported as connected, the ordering is empty between a connection and the next quantum, overlapping requests lose a callback, a full event queue makes the render thread panic. The fields copied from backend and render thread are not modelled."
  },
  {
   "property": "C80",
   "status": "proved",
   "theorems": [
    "C80_calls",
    "C80_connect_message",
    "C80_delay_path",
    "C80_disconnect_messages",
    "C80_listener_once",
    "C80_panner_and_listener",
    "C80_ports",
    "C80_rejected"
   ],
   "note": "Outcomes and links of every history of calls (C80_calls etc.); every connect message names registered nodes with the ports it uses (C80_ports)."
  },
  {
   "property": "C81",
   "status": "proved",
   "theorems": [
    "C81_drawn",
    "C81_sound"
   ],
   "note": "From API calls to messages to the renderer's graph (equality of connections) to the offline sound. Hypotheses: identifiers fresh (C06), handles kept, listener parameters used after asking for the listener, and for the sound no delay-free cycle and no node made after the last link (C03 shows why)."
  },
  {
   "property": "C82",
   "status": "proved",
   "theorems": [
    "C82_biquad",
    "C82_convolver",
    "C82_convolver_options",
    "C82_convolver_safe",
    "C82_convolver_sound",
    "C82_panner",
    "C82_panner_options",
    "C82_panner_sound",
    "C82_shaper",
    "C82_shaper_safe",
    "C82_shaper_sound"
   ],
   "note": "Control side and delivery for any arithmetic; sound in exact arithmetic (rounding of the single nodes is in C29, C31, C36, C37, C59). An empty curve makes the render thread panic (C31_empty_curve_refuted), so curves are nonempty here."
  },
  {
   "property": "C83",
   "status": "partial",
   "theorems": [
    "C83_closed_for_good_refuted",
    "C83_dropped_refuted",
    "C83_early_resume_refuted",
    "C83_every_program",
    "C83_life",
    "C83_one_event_refuted",
    "C83_progress",
    "C83_reported_refuted",
    "C83_sound",
    "C83_start_once",
    "C83_suspended_heard_refuted",
    "C83_sync",
    "C83_sync_returns",
    "C83_sync_same",
    "C83_sync_twice"
   ],
   "note": "Proved for programs that change the graph and resume only while the state reads suspended: order of all changes, quanta and handler calls (C83_life), buffer equal to sequential rendering (C83_sound), never stuck (C83_progress); for every program: C83_every_program, C83_start_once; the synchronous interface: same life and same buffer (C83_sync, C83_sync_same), returns (C83_sync_returns). Refuted: two statechange events at the start, early resume cancels a suspension, a closed context can report running or suspended, no handler runs while suspended, a dropped future makes the rendering panic, a suspension in the last quantum panics. Not modelled: a dropped future of start_rendering, callbacks that panic."
  },
  {
   "property": "C84",
   "status": "proved",
   "theorems": [
    "C84_answers",
    "C84_closed",
    "C84_dropped",
    "C84_once",
    "C84_returns",
    "C84_stream"
   ],
   "note": "All interleavings and all streams. The behaviour of crossbeam channels is part of the model. How the stream is built, and stream operations that never return, are not modelled."
  },
  {
   "property": "C85",
   "status": "proved",
   "theorems": [
    "C85_causal",
    "C85_changes"
   ],
   "note": "C85_changes: the samples of each stage are the solution of the equations of the graph as changed so far, and nodes not sent a message go on from their state; C85_causal: no change is heard before its suspension. Assumes that the application keeps its nodes (no handle dropped), no delay-free cycle, registration before connection (C03 findings otherwise), and no panicking processor."
  },
  {
   "property": "C86",
   "status": "proved",
   "theorems": [
    "C86_buffer_source",
    "C86_constant_source",
    "C86_ended",
    "C86_hooks",
    "C86_life",
    "C86_messages",
    "C86_oscillator"
   ],
   "note": "course of a processor over any legal history; ended events counted; flag behaviour of the three sources in any arithmetic. Realtime contexts do not run the final hooks (no theorem)."
  },
  {
   "property": "C87",
   "status": "proved",
   "theorems": [
    "C87_bounded",
    "C87_echo"
   ],
   "note": "Exact arithmetic, mono signals, constant delay time (a whole number of frames) and gain; the floating-point delay line is C27."
  },
  {
   "property": "C88",
   "status": "proved",
   "theorems": [
    "C88_tremolo"
   ],
   "note": "In exact arithmetic, up to the 1e-6 that a GainNode neglects; the floating point run is an example."
  },
  {
   "property": "C89",
   "status": "partial",
   "theorems": [
    "C89_automation_rate",
    "C89_concurrent_assignments_refuted",
    "C89_krate_reads_played",
    "C89_not_finite_refused",
    "C89_reads_assigned_partial",
    "C89_reads_assigned_refuted",
    "C89_reads_first_frame_refuted",
    "C89_value_in_range_partial",
    "C89_value_never_nan_refuted"
   ],
   "note": "Proved: range up to NaN, reading back without an intervening quantum, k-rate reads as played (exact arithmetic), automation rate. Refuted: NaN, reading back in a running context, concurrent assignments, value of the first frame."
  },
  {
   "property": "C90",
   "status": "proved",
   "theorems": [
    "C90_gapless",
    "C90_silent_while_suspended",
    "C90_suspend_then_resume"
   ],
   "note": "Any number of suspensions and resumptions at any moment: the output is the uninterrupted sound with silence inserted (C90_gapless); what is heard while suspended is exact (C90_silent_while_suspended); one pause, sample by sample (C90_suspend_then_resume). Over an abstract graph whose only effects are rendering and messages."
  },
  {
   "property": "C91",
   "status": "partial",
   "theorems": [
    "C91_failure_is_contained",
    "C91_message_panic_refuted",
    "C91_only_downstream"
   ],
   "note": "Proved for rendering, over any number of quanta, for nodes whose handles are held and that do not read AudioParams inside the set (C91_only_downstream, C91_failure_is_contained). Refuted for message handling: a panic in onmessage is not caught and ends all rendering (C91_message_panic_refuted)."
  },
  {
   "property": "C92",
   "status": "partial",
   "theorems": [
    "C92_late_event_refuted",
    "C92_left_over_handler_refuted",
    "C92_own_events_of_kept_nodes_partial",
    "C92_own_events_partial"
   ],
   "note": "Holds whenever nothing is left of a node when its id is given out again, in particular while no node leaves the graph. Refuted in general, in two ways: handlers of a dropped node stay installed under its id, and an event that is sent late reaches the handler of the node that has the id by then."
  },
  {
   "property": "C93",
   "status": "partial",
   "theorems": [
    "C93_collector_ends",
    "C93_everything_is_dropped",
    "C93_not_on_render_thread_partial",
    "C93_one_place",
    "C93_panner_refuted",
    "C93_removed_node_refuted"
   ],
   "note": "Disposed of exactly once and completely: proved. Off the render thread: proved for messages to all processors except the panner; refuted for the panner, which overwrites its impulse responses, and for nodes that are removed from the graph."
  },
  {
   "property": "C94",
   "status": "partial",
   "theorems": [
    "C94_calls_return",
    "C94_concurrent_start_refuted",
    "C94_dropped_handle_refuted",
    "C94_one_collection",
    "C94_pace",
    "C94_stop_in_callback_refuted",
    "C94_stop_is_final"
   ],
   "note": "Proved for calls made one after the other while a handle is kept. Refuted for concurrent calls of start, for handles dropped during a collection, and (that calls return) for a callback that stops while the event queue is full."
  },
  {
   "property": "C95",
   "status": "partial",
   "theorems": [
    "C95_node_gone_refuted",
    "C95_other_node_refuted",
    "C95_own_answers_partial"
   ],
   "note": "Proved for clients that keep their script processors; refuted twice for script processors dropped while an event is in flight (panic of the render thread; the answer goes to another node)."
  },
  {
   "property": "C96",
   "status": "partial",
   "theorems": [
    "C96_distinct",
    "C96_distinct_all",
    "C96_nameless_refuted",
    "C96_selects",
    "C96_total_partial",
    "C96_unknown",
    "C96_vanished_refuted"
   ],
   "note": "Distinctness within a kind and selection hold for every hash function; totality for up to 256 devices of a kind. Refuted: one nameless device empties the list; the id of a device that has vanished opens the default device."
  },
  {
   "property": "C97",
   "status": "proved",
   "theorems": [
    "C97_told",
    "C97_until_closed"
   ],
   "note": "For all histories; delivery as such (which events find a handler) is C38."
  },
  {
   "property": "C98",
   "status": "partial",
   "theorems": [
    "C98_calls_return_partial",
    "C98_set_in_stop_refuted",
    "C98_stop_in_data_refuted",
    "C98_two_callbacks_refuted"
   ],
   "note": "Proved for callbacks that respect the lock order (stated as what each callback may call); refuted for stop() in ondataavailable, set_onstop in onstop, and two callbacks that set each other."
  },
  {
   "property": "C99",
   "status": "partial",
   "theorems": [
    "C99_accuracy_partial",
    "C99_ahead_refuted",
    "C99_never_back",
    "C99_other_rate_refuted",
    "C99_same_clock_partial"
   ],
   "note": "Monotone, advancing and accurate clock proved for all runs.  The clock runs one block ahead while a block is rendered (C99_ahead_refuted), and differs from that of the processors when a change of device changes the rate (C99_other_rate_refuted)."
  },
  {
   "property": "C100",
   "status": "partial",
   "theorems": [
    "C100_buffer_now_partial",
    "C100_osc_now_partial",
    "C100_start_late_refuted",
    "C100_start_now_partial",
    "C100_stop_now_partial"
   ],
   "note": "Proved for constant sources, oscillators and buffers at unit rate, while the render thread has the rate of the context.  Refuted when a change of device gave it a higher one: the sound is late by up to the time the context has run (C100_start_late_refuted).  The ended event of a buffer may come one block late when the sound ends with a block."
  },
  {
   "property": "C101",
   "status": "partial",
   "theorems": [
    "C101_krate_modulated_partial",
    "C101_krate_partial",
    "C101_krate_refuted",
    "C101_modulated_partial",
    "C101_set_now_partial"
   ],
   "note": "Proved for a-rate parameters with no other events pending, at the rate of the context, also with modulation inputs (C101_modulated_partial).  k-rate parameters are one block late: proved (C101_krate_partial), and refutes the property (C101_krate_refuted)."
  }
 ]
}