# Formal model of web-audio-api-rs in Rocq (Coq 8.16.1)

Sections 1 to 3 are the design, written before the proofs and extended with each new property. Sections 4 to 8
(trusted base, what is modelled, assumptions, findings, status) describe the present state.

## 1. Approach

* The Rust code in `/repo` is read as text and transcribed, function by function,
  into total computable Gallina functions (`rocq/theories/*_Model.v`). Every
  definition cites the file and lines it models and the simplifications made.
* Independent specifications are in `*_Spec.v` (small, readable without the model),
  lemmas in `*_Proofs.v`, and the claims in `*_Props.v`, each of which has only
  `Theorem ... exact lemma`, a non-vacuity `Example` and `Print Assumptions`.
* Panics are explicit error values (`None` or a `Panic` constructor), loops are
  structural recursion or fuel with an explicit out-of-fuel result that the
  theorems exclude.
* When the faithful model violates the English property a theorem
  `..._refuted : exists ..., ...` with a computed witness is proved, the strongest
  true variant is proved with suffix `_partial`, and the finding is listed below.

## 2. Numbers

* `usize`/`u64` counters: `nat` or `Z`, without wrap-around (lengths are bounded by
  memory; the frame counter would need 10^6 years). Subtractions that may underflow
  are modelled as explicit panics.
* Sample values: (a) an abstract type with abstract operations where the theorem is
  pure data movement (then it holds for IEEE floats too), (b) `SpecFloat` binary32 /
  binary64 for statements about NaN, clamping, rounding and for concrete witnesses,
  (c) `Q`, `Z` or `R` for statements about formulas (idealised arithmetic, said so).

## 3. Plan per property

| id | model | proof |
|----|-------|-------|
| C01 C02 | `visit`, `order_nodes` on adjacency lists with fuel | DFS invariants; fuel bound; cycle analysis |
| C03 | mutation ops on (graph, ordered) | refutation by witness + invariant for the ops that do not lose the order |
| C04 C05 | `Graph::render` over abstract processors and abstract quanta | induction over the order, per-node accumulation spec; lifecycle invariants over op traces |
| C06 C07 C08 C09 | control thread + channel + render thread as a transition system | invariants over interleavings, refutations by witness traces |
| C10 C11 | heap of reference-counted buffers + pool | heap invariant over op lists, refinement to pure values |
| C12 C13 | `mix_inner`, `add` over abstract samples | matrix spec, case analysis, fast path = slow path |
| C14 C15 C16 | `render_inner`, offline loops | stream refinement, induction over callbacks / quanta |
| C17 | `mix_to_output` in SpecFloat | order lemmas on SpecFloat |
| C18 C19 C20 C21 | event timeline and `compute_buffer` over an ordered field | invariants, refinement to the spec function, refutations |
| C22 | buffer copies over abstract samples | list lemmas |
| C23 C24 C25 C26 | processors of the sources | per-frame spec, induction over quanta, witnesses in SpecFloat |
| C27 C28 | ring buffer of blocks, writer and reader | ring invariant, refinement to the delayed stream |
| C48 | compression curve and detector over R | monotonicity by cases on the parts of the curve, contraction of the detector; NaN propagation over IEEE |
| C49 | analyser over any arithmetic | refinement for float data of sufficient size; witnesses for short arrays and byte data |
| C50 | transform = DFT over R, abstract transform over IEEE | refinement to a spectrum recursion, triangle inequality; invariant for finiteness |
| C51 | Pan_Model `angle`, `cone_gain` | refuted for every configuration: the vector is taken the other way round |
| C52 | Pan_Model `frame_params` | proved when a listener parameter is automated or all are constant; refuted for automated sources |
| C53 | Pan_Model `panner_run` | proved for the total of silent quanta below the length; refuted for the second sound |
| C54 | Stats_Model: atomics as micro steps | samples since the reset as a list; witness for the initial zero |
| C55 | Stats_Model | mediant inequality; rounding witness 7/100 and race witness |
| C56 | Stats_Model current_values | induction over queries |
| C57 | Wave_Model coefficients and wave_new over any arithmetic | case analysis on the presence of arrays; witness with 8193 components |
| C58 | Conv_Model (engine crate abstract, assumed to convolve) | invariant: each engine has seen a signal that agrees with the input on the length of the response |
| C59 | Conv_Model.normalize_buffer | formula in exact arithmetic, interval bounds in floating point |
| C60 | Worklet_Model | induction over the events against the user's program run on its own; refutation for the zero filled buffers |
| C61 | step by step transition system of overlapping next() calls | invariant over all schedules with ghost places; refutation by schedule |
| C62 | bounded channel of one with both threads as steps | invariant over all schedules |
| C63 | transition system of recording threads and stop calls over the track model | invariant over all schedules, exact run when nobody stops; refutations by schedule |
| C64 | Config_Model: threads with explicit lock, store, send, unlock steps and a message queue | invariant over schedules, linearization order as witness, composed with the input mixing of Quantum_Model |
| C65 | Element_Model (element, its stream, renderer; Resampler from Buffer_Model), decoder = file in memory | induction over the calls against a tape (Element_Spec); the node against the concatenated resampled buffers, then composed |
| C66 | Decode_Model.v: decoder as list of results, decode loop, resample | induction over the packets; witnesses for corrupt packets, truncated files, too many channels, one frame |
| C67 | Mic_Model.v: bounded channel with two clients | invariant by induction over the interleaving, with the history as a ghost |
| C68 | Graph_Model (order, mixing, life cycle), composed quantum by quantum | simulation: induction on the quanta with the invariants of C01-C05; uniqueness by induction along the rendering order |
| C69 | the render thread of Thread_Model.v with the graph of Graph_Model.v | simulation of the offline loop and the callbacks by the quanta of C68, then sample positions by division |
| C70 | Desk_Model: the environment of the render graph instantiated with the node, AudioParam and quantum models, and the messages of the program. Proof: the messages build the expected node table; an explicit solution of the dataflow equations (C68) is given, C69 turns it into the buffer, C19 and C23 give the values |
| C71 | Over_Model (resampler abstract) | simulation between the renderer and lists of quanta heard per mode |
| C72 | Sched_Model.v: handles as state machines that accept or refuse calls and send messages; a session of calls and quanta | characterisation of each call, induction over the history, composition with the renderer theorems of C23, C24 and C26 |
| C73 | Source_Model.v, Sched_Model.v (exact arithmetic) | invariant over frames and quanta: the phase of the renderer is the fractional part of the accumulated phase; Taylor bound for the sine table |
| C74 | Absn_Model (process, both tracks) in exact arithmetic | refinement to a closed description of the position (Absn_SoundSpec), frame by frame over both tracks; deviations as float witnesses |
| C75 | Device_Model: enumeration and lookup loops with a u8 index | invariant: an id of a model and index is taken iff the index is below the number of such devices listed before |
| C76 | Device_Model: build_output, build_input, try_new, set_sink | invariant over histories; witnesses for the failures |
| C77 | Device_Model: buffer_size, clamped_size | bounds of rounded products, monotonicity of rounding and of the binary logarithm |
| C78 | Thread_Model.v, Whole_Model.v | simulation: both paths are the quanta of the same thread |
| C79 | Diag_Model: report of the graph of Graph_Model with the list of muted nodes; requests over the event loop of Event_Model | invariants over histories; invariant over interleavings |
| C80 | Calls_Model.v: objects with an input and an output end, the recorded connections, the messages | refinement to a set of links between nodes (Calls_Spec.v) by an invariant relating visible connections and links; induction over the history for the listener's block |
| C81 | Draw_Model.v joins Calls_Model.v (API calls to messages) with Graph_Model.v, Thread_Model.v and Whole_Model.v | invariant over call lists relating the message log to the drawing, simulation of the log by the graph, cycles mapped back to the drawing, then C69 |
| C82 | control handles with their assertions, message queue, onmessage and process of each node (Attr_Model.v) | a relation between handle and renderer after delivery of the queue, kept by every call and quantum; then the sound theorems of C31, C36, C53, C58, C71 for each quantum |
| C83 | Offline_Model.v: a transition system whose steps are those of the rendering task, of the futures of suspend and of the calls of the program, over the rendering of Thread_Model.v | invariant of programs that wait, with the list of what remains to happen as a ghost; simulation by the sequential rendering; termination measure; invariant of all programs; witnesses for the violations |
| C84 | Owner_Model.v: owner thread, queue of commands, callers as labelled steps | invariant over runs: the calls are answered by a sequential stream |
| C85 | Thread_Model.render_audiobuffer over Graph_Model joined by Whole_Model | the loop with suspensions performs the history messages/quanta/messages/... on the graph; C68 for each prefix; the state at the end of a stage is the state of the nodes of the graph; messages leave the other nodes as they are |
| C86 | Hooks_Model: trace of hooks per node over grun | step lemma from render_quantum, induction over the history, counting over the course |
| C87 | Echo_Model.v: the render graph with the processors of the delay and the gain | invariant over quanta (the ring holds the closed form of the recursion), C27 for one delay, induction over the quanta |
| C88 | Mod_Model.v (messages of a tremolo) in the environment of Desk_Model.v | order of the nodes and flow through the graph by computation on an abstract environment, induction over the quanta, the envelope theorem of C17 with the inputs of the modulator |
| C89 | Value_Model.v (atomic steps of both sides around Param_Model.v) | invariants by induction over histories; witnesses for the refuted parts |
| C90 | Thread_Model: callbacks with messages | for any arrivals of suspend/resume the history's quanta are those of the undisturbed thread; exact shape for one pause via paused/playing invariants over callbacks |
| C91 | Graph_Model: render, play | two-run invariant: equal outside a downstream-closed set up to connections into the set; induction over edges, nodes, quanta |
| C92 | Handler_Model.v: nodes with ids handed out again, over the event loop of Event_Model.v | invariant: what is installed, waiting or running under an id comes from the last node that got it, provided nothing is left of the earlier ones; witnesses show that the program does not see to that |
| C93 | Dispose_Model.v: the slots of the processors, the message channel and the queue to the garbage collector | conservation: a permutation between what was handed over and what is in the four places, kept by every step; phases of the queue for termination; witnesses for the panner and for removed nodes |
| C94 | Meter_Model.v: the mutex, the rendezvous channel, the collecting threads and the event queue | an invariant by modes of the calls in progress, for calls one after the other; witnesses for concurrent starts, dropped handles and stop in a callback |
| C95 | Answer_Model: client, render thread and event thread as actions on one state | invariant: every request in flight names an id under which the script processor that asked is registered; ids in use, pending and free are disjoint |
| C96 | Cubeb_Model: list and look-up loops over any device list, hash as a parameter | induction over the devices: list and look-up see the same ids as taken; pigeonhole for totality |
| C97 | Notify_Model: typed events, payloads and unpacking closures around the loop of Event_Model | invariant: handlers in the table and in flight are stored under the type they were installed for; the queue is what was emitted and not yet taken |
| C98 | RecLock_Model: operations compiled to lock and unlock steps, threads interleaved | order on the locks, induction over nested operations, progress by rank, termination by the amount of work left |
| C99 | Clock_Model.v: counter, readings and stamps as an action system over IEEE doubles | invariant over runs, monotone rounding and the relative error of one division |
| C100 | Clock_Model.v with Source_Model.v, IEEE arithmetic | the time read is bit for bit a block time (C99), times of frames do not decrease, induction over the blocks |
| C101 | Clock_Model.v with Param_Model.v, IEEE arithmetic | the event is not after the first frame (C99), so the index of its frame is 0 |
| C46 C47 | biquad coefficients over R | energy function of the second order recurrence; complex response in polar form |
| C29 C30 | DF1 / TDF2 sections over a ring; over SpecFloat | induction over samples |
| C31 | `apply_curve` | rational floor lemmas |
| C32 C33 C34 | ring buffers | ring invariants |
| C35 | splitter / merger | list lemmas |
| C36 C37 C44 C45 | gain formulas over R | real analysis with the standard library |
| C38 | event loop with re-entrant handlers | invariants, refutation |
| C39 | resampler loop | stream refinement |
| C40 | statistics counters | invariants |
| C41 | three-party transition system with locks | refutation by witness trace, positive part for the idle case |
| C42 | table normalisation over R | maximum of a list |
| C43 | state machine of context and render thread | invariants over traces |

## 4. Trusted base

* The kernel of Coq 8.16.1 (with its `vm_compute` reduction machine; `native_compute` is not used) and the standard library.
* No axioms of our own; no functors, module types or `Declare Module`; no `Admitted`. The libraries Flocq (floating point) and Coquelicot
  (complex numbers, limits) are used; they add no axioms.
* The axioms of the standard library that theorems rest on are those of the real numbers: `ClassicalDedekindReals.sig_forall_dec`,
  `ClassicalDedekindReals.sig_not_dec`, `Classical_Prop.classic` and `FunctionalExtensionality.functional_extensionality_dep`.
* The transcription of the Rust code into the `*_Model.v` files, done by hand, and the English reading of the theorems.

What `Print Assumptions` lists for each theorem (each `*_Props.v` file prints it after the theorem):

**Closed under the global context** (282 theorems):

* Graph_Props.v: C05_render_thread_never_panics, C01_ordering_terminates, C01_rendering_order, C01_params_are_current, C02_only_cycles_are_muted, C02_delays_legalise_cycles, C02_every_cycle_interrupted, C02_all_cycle_nodes_muted_refuted, C03_topology_changes_effective_partial, C03_topology_changes_effective_refuted, C04_inputs_are_the_mix_partial, C04_nothing_stale_refuted, C05_removed_only_if_unneeded, C05_removed_iff_unneeded, C05_handle_keeps_node_alive, C05_only_reclaimed_nodes_leave, C05_reclaimed_exactly_once, C05_no_dangling_connections
* Quantum_Props.v: C10_channels_are_private_arrays, C10_pool_is_unreferenced, C11_silent_channel_is_zero
* Protocol_Props.v: C06_identifiers_are_unique_partial, C06_identifiers_are_unique_refuted, C06_never_dropped, C07_in_order_exactly_once_partial, C07_pauses, C07_in_order_exactly_once_refuted, C08_views_agree_partial, C08_disconnect_is_complete_partial, C08_connect_is_effective_partial, C08_connect_is_idempotent_refuted, C08_disconnect_is_complete_refuted, C08_views_agree_refuted, C09_messages_never_panic_partial, C09_graph_histories_are_legal_partial, C09_messages_never_panic_refuted_after_processor_panic, C09_messages_never_panic_refuted_by_failed_constructor, C09_messages_never_panic_refuted_by_late_param
* Thread_Props.v: C14_stream, C14_output_is_the_stream_of_quanta, C14_callback_sizes_are_irrelevant, C14_callbacks_never_panic_partial, C14_silence_before_the_graph, C41_recycle_during_callback_refuted, C43_changes_are_reported, C43_suspended_clock_stands_still_refuted, C15_exactly_the_requested_buffer, C15_offline_never_panics, C16_first_boundary, C16_schedule_is_ordered, C16_executed_exactly_once_partial, C16_executed_exactly_once_refuted
* Param_Props.v: C19_automation_curve_partial, C19_sampled_curve_is_ideal, C19_krate_boundary_refuted, C19_event_after_hold_refuted, C19_second_hold_refuted, C19_future_curve_refuted, C19_short_ramp_refuted, C19_ramp_after_target_refuted, C20_never_crashes_exact_partial
* Source_Props.v: C23_ended_once, C24_ended_once
* Absn_Props.v: C25_ended_once
* Route_Props.v: C35_split, C35_merge, C35_round_trip
* Shape_Props.v: C31_no_curve, C31_empty_curve_refuted
* Comp_Props.v: C32_ring
* Analyser_Props.v: C33_time, C33_no_tail, C33_create, C33_concurrent, C33_overtaken_refuted, C49_long
* Script_Props.v: C34_create, C34_blocks, C34_events, C34_latency, C34_size_refuted
* Pan_Props.v: C53_tail_partial
* Event_Props.v: C38_in_order, C38_once, C38_right_handler, C38_ideal_partial, C38_ideal_cleared, C38_ideal_kept, C38_progress, C38_closed, C38_clear_refuted, C38_replace_refuted, C38_dropped_refuted, C38_panic_refuted
* Stats_Props.v: C40_latency_partial, C40_counters, C40_any_moment, C40_reset_race_refuted, C40_wrap_refuted, C54_measured_partial, C54_initial_refuted, C55_peak_partial, C56_exposed, C56_once_per_second
* Wave_Props.v: C57_options_partial
* Context_Props.v: C43_transitions_partial, C43_closed_partial, C43_monotone, C43_clock_partial, C43_time_zero, C43_returns_partial, C43_suspend_before_start, C41_completes_partial, C41_begins_partial, C41_messages_partial, C43_close_at_startup_refuted, C43_two_events_refuted, C43_suspend_lost_refuted, C43_close_hangs_refuted, C43_close_then_run_refuted, C43_close_during_resume_refuted, C43_running_without_callbacks_refuted, C43_sink_events_refuted, C43_sink_window_refuted, C43_sink_suspended_refuted, C41_deadlock_refuted, C41_reordered_refuted
* Conv_Props.v: C58_own_arrays, C58_no_buffer_silence
* Worklet_Props.v: C60_options, C60_calls_partial, C60_zero_filled_partial, C60_constructor, C60_not_zero_filled_refuted
* Track_Props.v: C61_in_order, C61_never_stuck, C61_single, C61_once_partial, C61_all_partial, C61_overlap_refuted, C61_last_buffer_refuted, C62_received, C62_newest, C62_never_waits, C62_paced
* Recorder_Props.v: C63_whole_partial, C63_prefix_partial, C63_one_stop_event, C63_callbacks_needed, C63_decode_partial, C63_channel_change_refuted, C63_stop_loses_refuted, C63_data_after_stop_refuted, C63_restart_refuted, C63_empty_refuted
* Config_Props.v: C64_always_allowed, C64_rejects_exactly_the_forbidden, C64_one_order, C64_render_thread_agrees, C64_no_deadlock, C64_inputs_of_processors
* Flow_Props.v: C68_dataflow, C68_plays, C68_one_solution, C68_solution_is_played
* Whole_Props.v: C69_offline, C69_offline_no_panic, C69_solution, C69_realtime
* Over_Props.v: C71_history, C71_no_curve
* Param_Krate_Props.v: C19_krate_late_ramp_refuted
* Sched_Props.v: C72_constant_calls, C72_oscillator_calls, C72_buffer_calls, C72_refused_no_effect, C72_oscillator_waveform, C72_custom_stays
* Device_Props.v: C75_distinct, C75_entries, C75_selects, C75_unknown, C75_total_partial, C75_many_refuted, C75_unplug_refuted
* Twin_Props.v: C78_same_sound, C78_suspensions
* Diag_Props.v: C79_nodes, C79_connections_made, C79_connections_used, C79_ordering, C79_inputs_refuted, C79_ordering_between_quanta_refuted, C79_answered_partial, C79_two_requests_refuted, C79_full_queue_refuted
* Calls_Props.v: C80_calls, C80_connect_message, C80_disconnect_messages, C80_rejected, C80_delay_path, C80_panner_and_listener, C80_listener_once, C80_ports
* Draw_Props.v: C81_drawn, C81_sound
* Attr_Props.v: C82_panner, C82_panner_options, C82_shaper
* Attr_Effect_Props.v: C82_convolver, C82_convolver_options, C82_convolver_safe
* Offline_Props.v: C83_life, C83_sound, C83_progress, C83_every_program, C83_start_once, C83_one_event_refuted, C83_early_resume_refuted, C83_closed_for_good_refuted, C83_suspended_heard_refuted, C83_dropped_refuted, C83_reported_refuted
* OfflineSync_Props.v: C83_sync, C83_sync_returns, C83_sync_same, C83_sync_twice
* Owner_Props.v: C84_answers, C84_once, C84_returns, C84_stream, C84_closed, C84_dropped
* Change_Props.v: C85_changes, C85_causal
* Hooks_Props.v: C86_life, C86_ended, C86_constant_source, C86_oscillator, C86_buffer_source, C86_messages, C86_hooks
* Value_Props.v: C89_automation_rate
* Pause_Props.v: C90_gapless, C90_silent_while_suspended, C90_suspend_then_resume
* Contain_Props.v: C91_only_downstream, C91_failure_is_contained, C91_message_panic_refuted
* Handler_Props.v: C92_own_events_partial, C92_own_events_of_kept_nodes_partial, C92_left_over_handler_refuted, C92_late_event_refuted
* Dispose_Props.v: C93_one_place, C93_everything_is_dropped, C93_collector_ends, C93_not_on_render_thread_partial, C93_panner_refuted, C93_removed_node_refuted
* Meter_Props.v: C94_stop_is_final, C94_one_collection, C94_pace, C94_calls_return, C94_concurrent_start_refuted, C94_dropped_handle_refuted, C94_stop_in_callback_refuted
* Answer_Props.v: C95_own_answers_partial, C95_node_gone_refuted, C95_other_node_refuted
* Cubeb_Props.v: C96_distinct, C96_distinct_all, C96_selects, C96_unknown, C96_total_partial, C96_nameless_refuted, C96_vanished_refuted
* Notify_Props.v: C97_told, C97_until_closed
* RecLock_Props.v: C98_calls_return_partial, C98_stop_in_data_refuted, C98_set_in_stop_refuted, C98_two_callbacks_refuted

**Only `sig_forall_dec`** (1 theorems):

* Quantum_Props.v: C11_silent_quantum_is_zero

**Only `sig_forall_dec`, `functional_extensionality_dep`** (5 theorems):

* Delay_Props.v: C28_silent_end_partial
* Filter_Props.v: C47_iir_stable
* Comp_Props.v: C48_curve, C48_makeup_partial
* AbsnSound_Props.v: C74_loudness

**Only `sig_forall_dec`, `sig_not_dec`, `functional_extensionality_dep`** (12 theorems):

* Quantum_Props.v: C12_mixing_follows_the_matrices, C12_invalid_counts_are_refused, C12_round_trip, C12_quad_to_five_refuted, C13_sum_of_mixed_signals_partial, C13_all_connections_partial, C13_identical_channels_refuted, C13_stereo_to_surround_refuted, C13_order_of_connections_refuted
* Analyser_Props.v: C50_resize_refuted
* Pan_Props.v: C36_gains, C53_direction

**Only `sig_forall_dec`, `sig_not_dec`, `classic`, `functional_extensionality_dep`** (259 theorems):

* Param_Props.v: C17_values_in_range, C18_always_sorted, C18_stable_sort, C18_cancel, C18_processed_from_the_front, C18_setter_order_refuted, C18_setter_after_target_refuted, C20_never_crashes_partial, C20_early_ramp_refuted, C20_event_in_curve_refuted, C20_curve_index_refuted, C20_hold_order_refuted, C21_linear_ramp, C21_exponential_ramp, C21_set_target, C21_value_curve, C21_future_target_refuted
* Buffer_Props.v: C22_value_semantics, C22_read, C22_write, C39_chunks_preserve_samples, C39_same_rate, C39_resample_keeps_ends, C39_empty_buffer_refuted, C39_short_buffer_refuted, C39_error_drops_samples_refuted, C39_channel_change_refuted
* Source_Props.v: C23_exact, C23_silent_after_ended, C23_ended_sent, C23_ieee_partial, C23_frame_time, C23_ieee_silent_after_ended_partial, C23_start_late_refuted, C23_sound_after_ended_refuted, C23_stop_again_refuted, C24_exact, C24_ieee_partial, C24_negative_frequency_refuted, C24_custom_without_wave_refuted
* Absn_Props.v: C25_exact, C25_ieee_partial, C25_early_start_refuted, C26_loop_ieee_partial, C26_no_loop, C26_loop_partial, C26_negative_rate_refuted, C26_loop_start_refuted, C26_sample_rate_refuted, C26_empty_loop_refuted, C26_large_rate_refuted
* Delay_Props.v: C27_exact, C27_whole_frames, C27_safe, C27_ieee_partial, C27_output_before_input_refuted, C27_muted_reader_refuted, C28_tail_partial, C28_rest_partial, C28_ghost_echo_refuted, C28_delay_jumps_refuted
* Route_Props.v: C44_exact, C44_ieee, C44_product
* Shape_Props.v: C31_exact, C31_safe, C31_ieee, C31_clamp, C31_long_curve_refuted
* Filter_Props.v: C29_biquad, C29_biquad_edge, C29_iir, C29_iir_ieee, C29_biquad_ieee, C30_biquad, C30_iir, C46_bounded, C46_decay, C46_lowpass_zero_refuted, C47_steady, C47_iir, C47_nominal, C47_allpass, C30_overflow
* Comp_Props.v: C32_exact, C32_latency, C32_tail_refuted, C48_range, C48_converges, C48_makeup_refuted, C48_infinite_refuted
* Analyser_Props.v: C33_exact, C33_bytes, C49_short_refuted, C49_bytes_refuted, C50_spectrum, C50_bounded, C50_finite
* Script_Props.v: C34_playback_refuted, C34_no_outputs_refuted, C34_answer_refuted
* Pan_Props.v: C36_stereo_panner, C36_panner, C36_float_partial, C37_distance, C37_setters, C37_cone, C37_distance_float_partial, C37_cone_float_partial, C37_nan_refuted, C37_cone_nan_refuted, C45_direction, C45_degenerate, C45_range_float_partial, C45_nan_refuted, C51_cone_direction_refuted, C52_automation_partial, C52_automation_refuted, C53_hrtf_output, C53_tail_refuted
* Stats_Props.v: C40_seconds_partial, C40_accepted, C40_capacity, C40_ratio_race_refuted, C55_rounding_refuted, C55_peak_race_refuted
* Wave_Props.v: C42_table, C42_normalized, C42_float_partial, C42_peak_refuted, C42_small_refuted, C42_infinite_refuted, C57_default, C57_too_many_refuted
* Conv_Props.v: C58_convolution_partial, C58_stereo_tail_refuted, C58_no_buffer_refuted, C59_gain, C59_constant_power, C59_finite
* Element_Props.v: C65_commands_in_order, C65_loops_seamlessly, C65_plays_once, C65_new_element, C65_node_plays_stream, C65_node_stops_at_error, C65_gapless_loop, C65_seek, C65_done_for_good, C65_end_of_file_partial, C65_tail_lost_refuted, C65_play_after_end_refuted, C65_time_ignores_rate_refuted, C65_negative_rate_forward_refuted, C65_extreme_rate_refuted, C65_seek_truncates_refuted, C65_commands_wait_refuted
* Decode_Props.v: C66_whole_track, C66_nothing, C66_errors, C66_never_panics, C66_corrupt_packet_refuted, C66_truncated_refuted, C66_too_many_channels_refuted, C66_one_frame_refuted
* Mic_Props.v: C67_in_order, C67_gapless, C67_end
* Param_Envelope_Props.v: C19_envelope_partial, C19_settling_close
* Desk_Props.v: C70_mix, C70_floats
* Over_Props.v: C71_stream_partial, C71_safe, C71_silence_refuted, C71_old_sound_refuted
* Param_Krate_Props.v: C19_krate_partial, C19_frames_and_times
* Sched_Props.v: C72_constant_exact, C72_constant_ieee, C72_start_now, C72_oscillator_safe, C72_buffer_state, C72_buffer_safe
* Osc_Props.v: C73_every_history, C73_constant_tone, C73_sine, C73_bounded, C73_subsample_start_refuted
* AbsnSound_Props.v: C74_sound_partial, C74_constant_rate, C74_loop, C74_loop_duration_refuted, C74_offset_behind_loop_refuted, C74_shift_refuted, C74_louder_refuted
* Device_Props.v: C76_new, C76_agree, C76_kept_partial, C76_refused, C76_change, C76_microphone_named, C76_microphone_default, C76_microphone_stream, C76_rate_refuted, C76_fraction_refuted, C76_channels_refuted, C76_failed_change_refuted, C76_gone_refuted, C76_try_new_refuted, C76_input_channels_refuted, C77_size_partial, C77_monotone_partial, C77_hints, C77_long_refuted, C77_panic_refuted
* Twin_Props.v: C78_desk, C78_desk_floats
* Suspend_Props.v: C16_ieee_time, C16_ieee_boundary_partial, C16_late_refuted, C16_collision_refuted
* Osc_Phase_Props.v: C73_sine_ieee, C73_triangle_ieee, C73_phase_ieee
* Attr_Props.v: C82_panner_sound, C82_shaper_sound, C82_shaper_safe
* Attr_Effect_Props.v: C82_biquad, C82_convolver_sound
* Pan_Float_Props.v: C36_stereo_float, C36_power_float, C36_panner_float
* Echo_Props.v: C87_echo, C87_bounded
* Mod_Props.v: C88_tremolo
* Value_Props.v: C89_value_in_range_partial, C89_value_never_nan_refuted, C89_reads_assigned_partial, C89_not_finite_refused, C89_reads_assigned_refuted, C89_concurrent_assignments_refuted, C89_krate_reads_played, C89_reads_first_frame_refuted
* Clock_Props.v: C99_never_back, C99_accuracy_partial, C99_same_clock_partial, C99_ahead_refuted, C99_other_rate_refuted
* Now_Props.v: C100_start_now_partial, C100_stop_now_partial, C100_start_late_refuted
* NowParam_Props.v: C101_set_now_partial, C101_modulated_partial, C101_krate_partial, C101_krate_modulated_partial, C101_krate_refuted
* NowBuffer_Props.v: C100_buffer_now_partial
* NowOsc_Props.v: C100_osc_now_partial

## 5. What is modelled

| file of the model | code |
|----|----|
| Graph_Model.v | Model of the audio graph of the render thread: src/render/graph.rs, src/render/node_collection.rs |
| Quantum_Model.v | Model of render quanta: multi-channel blocks of samples, mixing and summing: src/render/quantum.rs 109-127 and 162-586 |
| Protocol_Model.v | Model of the protocol between the control thread(s) and the render thread: node identifiers, registration, connections, handle drops, message buffering while suspended, message handling and rendering: src/context/concrete_base.rs, src/context/mod.rs 134-147, src/context/online.rs (suspend, resume, close), src/render/thread.rs 123-254 |
| Thread_Model.v | Model of the render thread: message dispatch, the hardware callback, and offline rendering: src/render/thread.rs 32-48, 123-252, 260-396, 413-532, src/context/offline.rs 157-185, 241-251, 294-387 |
| Common_Model.v | Rust results and slices, shared by the models. |
| Float_Model.v | Rust floating point numbers |
| Param_Model.v | Model of AudioParam: scheduling calls, the event timeline and the computation of the values of a block: src/param.rs 18-120, 150-262, 395-640, 650-1600 |
| Buffer_Model.v | Model of AudioBuffer with its copy-on-write channels, and of the re-chunking of media streams: src/buffer.rs 66-413, src/resampling.rs 42-110, src/lib.rs 130-225 |
| Arith_Model.v | The arithmetic of the audio nodes |
| Source_Model.v | Model of the scheduled sources ConstantSourceNode and OscillatorNode: src/node/constant_source.rs 183-288, src/node/oscillator.rs 16-35, 341-676 |
| Absn_Model.v | Model of the AudioBufferSourceNode: src/node/audio_buffer_source.rs 352-879 |
| Delay_Model.v | Model of the DelayNode: the writer and the reader that share a ring buffer of quanta: src/node/delay.rs 291-743 |
| Route_Model.v | Model of the channel splitter, the channel merger and the gain node, on render quanta (Quantum_Model.v): src/node/channel_splitter.rs 178-208, channel_merger.rs 140-170, gain.rs 138-199. |
| Shape_Model.v | Model of the WaveShaperNode without oversampling: src/node/waveshaper.rs 383-408, 476-507, 548-573 (the oversampled modes, 409-470, are in Over_Model.v). |
| Filter_Model.v | Model of the BiquadFilterNode and the IIRFilterNode: src/node/biquad_filter.rs 28-373 (coefficients), 601 (initial state), 764-900 (rendering); src/node/iir_filter.rs 27-64 (checks), 276-322 (renderer), 324-413 (rendering). |
| Comp_Model.v | Model of the DynamicsCompressorNode: src/node/dynamics_compressor.rs 14-27, 253-254, 309-478. |
| Analyser_Model.v | Model of the AnalyserNode: the ring buffer shared by the renderer and the control thread, and the analysis: src/analysis.rs 12-403, src/node/analyser.rs 108-141, 255-290. |
| Script_Model.v | Model of the ScriptProcessorNode: src/node/script_processor.rs 78-131, 177-275 |
| Pan_Model.v | Model of the stereo panner, of the panner and of its geometry, on render quanta (Quantum_Model.v): src/node/stereo_panner.rs 70-80, 229-325, node/panner.rs 19-32, 416-429, 560-1058, spatial.rs 199-299, and the functions of the vecmath crate (vec3_*, from its documentation) |
| Event_Model.v | The event loop: events are queued by any thread and passed to handlers by one thread: src/events.rs 169-263; the queue holds 256 events (src/io/mod.rs 127), the render thread drops events when it is full (src/render/processor.rs 49-74, src/render/thread.rs 536-538), the control thread waits (src/context/concrete_base.rs 322-324) |
| Stats_Model.v | Playback statistics and render capacity: src/stats.rs 4-184, src/capacity.rs 37-53, 91-130, 165-195, src/playback_stats.rs 26-30, 45-53, 92-133 |
| Wave_Model.v | Model of the PeriodicWave: src/periodic_wave.rs 9-34, 76, 104-209. |
| Context_Model.v | Model of the online context: the calls suspend, resume, close and set_sink_id of any number of threads, the message channel, and the render threads of the old and new output streams, in micro steps that interleave freely: src/context/online.rs 365-453, 523-646, 662-784, src/context/concrete_base.rs 272-330, 393-405, src/render/thread.rs 123-252, 438-532, 534-539, src/io/mod.rs 108-148, src/io/none.rs 43-75, 78-200 |
| Conv_Model.v | Model of the ConvolverNode: src/node/convolver.rs 16-53 (normalization), 91-115, 187-197, 219-220 (channel rules), 259-317 (setting the impulse response), 336-509 (rendering) |
| Worklet_Model.v | Model of the AudioWorkletNode: src/worklet.rs 206-243 (options), 301-321 (construction of the processor), 341-459 (rendering and messages), without the feature spec-compliant-worklet-inputs. |
| Track_Model.v | Model of the media stream track and of the media stream destination node: src/media_streams/mod.rs 43-124, src/node/media_stream_destination.rs 83-158. |
| Recorder_Model.v | Model of the media recorder: src/media_recorder/mod.rs 21-304. |
| Config_Model.v | Model of the channel attributes of an AudioNode: channelCount, channelCountMode and channelInterpretation, kept on the control side behind a mutex and copied to the render thread by messages (src/node/audio_node.rs 90-218, 400-440, and the setters that nodes with constraints override) |
| Element_Model.v | Model of the media element (the shim of the `<audio>` tag that streams a file from disk), of the renderer of MediaElementAudioSourceNode and MediaStreamAudioSourceNode, and of what lies between them: src/media_element.rs 10-222, src/node/mod.rs 58-113, src/node/media_element_source.rs 80-110, with the Resampler of Buffer_Model.v in between |
| Decode_Model.v | Model of decodeAudioData and the decoder behind it: src/decoding.rs 15-55, 189-285, src/buffer.rs 242-277 |
| Mic_Model.v | Model of the microphone input: src/io/microphone.rs 8-105, src/io/cpal.rs 458-460 |
| Whole_Model.v | The render thread with the audio graph of Graph_Model.v: src/render/thread.rs 136-252 (which message calls which operation of the graph), 489-503 and 280-290 (rendering a quantum), src/render/graph.rs 228-231, 489-592. |
| Desk_Model.v | A render graph with real processors: ConstantSourceNodes, GainNodes, their AudioParams and the destination. Here the environment [env] of Graph_Model.v is instantiated with the node models of Source_Model.v, Route_Model.v and Param_Model.v and with the quanta of Quantum_Model.v, and the messages are those that the control side sends when a program creates and connects such nodes: src/node/destination.rs 143-162, constant_source.rs 140-279, gain.rs 95-199, src/param.rs 660-795, 1603-1654, src/render/processor.rs 187-229, src/context/concrete_base.rs 232-300, 426-475, src/node/scheduled_source.rs. |
| Over_Model.v | Model of the WaveShaperNode with oversampling, on top of Shape_Model.v: src/node/waveshaper.rs 232-508 and 519-545 |
| Sched_Model.v | Model of the control side of the scheduled sources: what the calls of the handles of ConstantSourceNode, OscillatorNode and AudioBufferSourceNode accept, keep and send to the render thread: src/node/constant_source.rs 101-128, 130-175, src/node/oscillator.rs 137-200, 210-277, 301-337, src/node/audio_buffer_source.rs 107-350, src/lib.rs 239-250 |
| Device_Model.v | Model of the audio devices: their ids, the choice of a device and of the configuration of its stream, and the change of the output device of a context: src/media_devices/mod.rs 13-250, src/io/mod.rs 151-300, src/io/cpal.rs 109-520 and 564-625, src/io/none.rs 79-120, src/context/online.rs 26-35, 233-300 and 365-447 |
| Suspend_Model.v | Model of the time of an offline suspension, in floating point: src/context/offline.rs 240-251, 294-315, 364-386 |
| Diag_Model.v | Diagnostics of a realtime context: the report of the audio graph, and how it reaches the callback: src/render/graph.rs 166-225, src/context/diagnostics.rs, src/context/online.rs 477-510, src/render/thread.rs 205-215 |
| Calls_Model.v | Model of the connection calls a program makes on its node handles: the constructors as far as connections are concerned, connect, the five forms of disconnect, dropping a handle, and the audio listener entering the graph at its first use: src/node/audio_node.rs 246-402, src/node/delay.rs 106-274 and 276-364, src/node/panner.rs 488-497, src/context/concrete_base.rs 152-203, 229-272, 330-347, 442-534, src/context/base.rs 320-336, src/param.rs 300-334 |
| Draw_Model.v | The messages of the connection calls (Calls_Model.v) as the renderer of a context receives them: src/render/thread.rs 139-243. |
| Attr_Model.v | Model of the attributes of the effect nodes: what the setters of PannerNode, WaveShaperNode, BiquadFilterNode and ConvolverNode accept, keep and send to the render thread, and what the render thread does with it: src/node/panner.rs 398-497, 540-656, 905-923; src/node/waveshaper.rs 154-230, 479-515; src/node/biquad_filter.rs 601-608, 640-656, 901-908; src/node/convolver.rs 200-327, 492-505 |
| Offline_Model.v | Model of the life of an OfflineAudioContext used with the asynchronous interface: its state, its events, its promises: src/context/offline.rs 26-58, 78-145, 205-236, 294-324, 395-399, src/context/concrete_base.rs 392-401, src/render/thread.rs 309-396, 534-539, src/events.rs 189-236 |
| OfflineSync_Model.v | Model of the synchronous interface of an OfflineAudioContext: [suspend_sync] and [start_rendering_sync]: src/context/offline.rs 147-185, 326-387, src/render/thread.rs 260-302 |
| Owner_Model.v | Model of the thread that owns the stream of the cubeb backend, and of the calls that talk to it: src/io/cubeb.rs 45-179 (commands, [CubebOwner::run], [CubebThreadHandle]), 300-313, 551-580 (the calls of the backend) |
| Hooks_Model.v | What happens to the processors of an audio graph: messages, calls, and the destructor hook: src/render/graph.rs 322-324 (messages), 500-574 (calls, panics, [before_drop] of a removed node), 593-598 ([before_drop] of the whole graph); src/render/thread.rs 280-298, 330-348, 399-411 (end of an offline rendering). |
| Echo_Model.v | An echo: a source, a DelayNode with its output fed back into it through a GainNode, and the destination. The render graph of Graph_Model.v with the delay of Delay_Model.v. The two halves of a DelayNode share memory (an Rc<RefCell<..>> of the ring buffer and two Cells); here the graph decides which half runs first: src/node/delay.rs 284-368, 425-486, 503-678, src/node/gain.rs 143-199, src/node/destination.rs 143-162, src/context/concrete_base.rs 232-270 |
| Mod_Model.v | Modulation: the output of a node connected to an AudioParam. A tremolo: a source played through a gain ([voice] of Desk_Model.v), with a second source that goes through its own gain (the depth) into the AudioParam of the first gain: src/node/audio_node.rs 225-270 (connect: an AudioParam is an AudioNode with one input), src/param.rs 200-256, 666-795; the processors and messages of Desk_Model.v. |
| Value_Model.v | The two sides of an AudioParam: calls of the control threads, messages, and the render thread. The cell that holds the value is shared: [p_current] of Param_Model.v. One [action] is one atomic step of a control thread or of the render thread; a history is any interleaving of the steps of any number of threads. The order in which the stores and loads (Release, Acquire) of the one cell become visible is that of the history: src/param.rs 290-298 (shared state), 339-363 (automation rate), 388-425 (value), 658-661 (send_event), 704-727 (onmessage), 1506-1510 (the cell is written at each quantum), 1603-1654. |
| Handler_Model.v | The event handlers of the nodes of a context, across the life of the nodes: src/context/concrete_base.rs 24-48 (ids of nodes), 326-352 (handlers; a node is dropped), src/render/graph.rs 540-562 (a node is removed from the graph), and the functions that install a handler, cited below |
| Dispose_Model.v | What becomes of the data that clients hand to nodes: audio buffers, periodic waves, convolvers, curves, impulse responses: src/render/thread.rs 114-134, 199-204, 543-581 (the garbage collector), the [onmessage] of the processors, cited below, src/render/graph.rs 551-560 (a node is removed), src/context/mod.rs 132-140 (a message is posted) |
| Meter_Model.v | Starting and stopping the collection of render capacity: src/capacity.rs 65-70, 94-138 (start, stop, the thread that collects), the queue of events src/context/concrete_base.rs 322-324, the callbacks src/events.rs 239-252 |
| Answer_Model.v | The way of an audio-processing event: from a script processor to the callback, and of its answer back to the graph: src/node/script_processor.rs 146-167, 213-241, 260-272, src/render/processor.rs 60-75, src/events.rs 62-71, 206-224, src/context/concrete_base.rs 24-48, 240-262, 330-349, src/render/graph.rs 230-262, 551-560, src/render/node_collection.rs 33-45, 90-93, src/render/thread.rs 142-158, 177-179, 199-204 |
| Cubeb_Model.v | Ids of devices in the cubeb backend: src/io/cubeb.rs 229-249 (look-up of an id), 371-380 and 489-498 (its use), 582-645 (the list of devices), 655-701 (the id of a device), src/media_devices/mod.rs 36-71 |
| Notify_Model.v | The events of a context and of its nodes: how they are packed, dispatched and unpacked for the callbacks: src/events.rs 22-34, 84-264, and the functions that install callbacks: src/node/scheduled_source.rs 44-56, src/node/audio_node.rs 449-464, src/message_port.rs 34-53, src/node/script_processor.rs 146-172, src/capacity.rs 144-162, src/context/base.rs 342-358, src/context/online.rs 459-475, 484-510, src/context/offline.rs 404-426 |
| RecLock_Model.v | The locks of a media recorder: src/media_recorder/mod.rs 62-130 (MediaRecorderInner), 218-245 (the setters), 252-297 (start and the recording thread), 299-302 (stop) |
| Clock_Model.v | The clock of a context: the frames played so far, advanced by the render thread and read by any thread: src/context/concrete_base.rs 408-418 (current_time), src/render/thread.rs 354-368, 484-500 (the time of a quantum), 396-410, src/context/online.rs 375-440 (the stream, and with it the rate of the render thread, changes), offline.rs 93-119 |

Not modelled: the hardware back-ends (`io/cpal.rs`, `io/cubeb.rs`; a stream is an arbitrary sequence of callbacks), the container formats
and codecs (crate symphonia), device enumeration (`media_devices`), the media element's file reader (crate creek), the FFT, HRTF and
convolution crates (realfft, hrtf, fft_convolver), the resampler crate (rubato; a parameter in Over_Model), the contents of the sine table,
`Debug` implementations, allocation failure and stack overflow.

## 6. Assumptions and simplifications

Numbers.
* Floats are Flocq's IEEE binary32/binary64 with one NaN. The render thread runs with denormals flushed to zero (crate no_denormals): the model
  computes denormals exactly. The sign of zero of `% 1.` is not modelled.
* Mathematical functions (`sin`, `exp`, `powf`, `log10`, ...) are left open (record `libm`); theorems say what they need:
  `exp2(0) = 1` (C25 in floats), a range of `exp2` (C24), `log10(inf) = inf` and `pow(x, NaN) = NaN` (C48_infinite_refuted), `sin 0 = 0`, `sin(pi/2) = 1`
  (C36 in floats), range of `acos` and NaN above 1 (C45, C37), `pow(NaN, y) = NaN` (C37_nan_refuted).
* Theorems named `..._exact` or about the instance `exact` use real arithmetic; `..._ieee`, or the instance `ieee`, the arithmetic of the code.
* The comparisons of the crate `almost` are parameters. `Vec::with_capacity(n)` is taken to allocate exactly `n` (offline rendering, script processor).

Concurrency.
* Atomics are sequentially consistent, also where the code uses `Relaxed` (analyser, statistics, context state, media tracks). Each atomic operation,
  lock region and channel operation is one step; steps of different threads interleave arbitrarily.
* Bounds of channels that make a sender wait (256 control messages, 32 media element actions) are not modelled, except in the event queue (C38), the
  media stream destination (C62) and where a deadlock is shown (C41).
* `connect` is one step (table and message); the window that matters (handle drop) is modelled (C08_views_agree_refuted).
* `resume_control_msgs` is one step in Context_Model; streams behave like the sink "none" there.
* Theorems about programs that use the API (Protocol_Props) state what "as documented" means as hypotheses (`legal`, `careful`).

Audio graph and nodes.
* The graph's processors are arbitrary functions in Graph_Model; the node models are separate. Quantum level models work on named channels;
  Quantum_HeapProofs (`heap_refines`) proves that the reference-counted buffers implement them.
* The `single_valued` flag of parameter quanta is not modelled; parameter values are lists of 1 or 128 numbers.
* The delay's channel mixing is abstract. Filters are assumed to overwrite all of their output.
* The HRTF crate, `realfft` (any transform, or the DFT in C50) and `fft_convolver` (assumed to convolve in exact arithmetic) are parameters.
* A worklet's user code is a function on the contents of the buffers that keeps their shapes; the feature `spec-compliant-worklet-inputs` is not modelled.
* Suspension times of offline rendering are in exact arithmetic (C16).
* The functions of the crate vecmath are taken from its documentation.

## 7. Findings

Each row is a theorem: the faithful model violates the English property, with a computed witness. `_partial` theorems give what does hold.

| theorem | the statement that fails, and how |
|----|----|
| C02_all_cycle_nodes_muted_refuted (Graph_Props.v) | the documented rule that all nodes of a delay-free cycle are muted does not hold. 1 -> 2 -> 3 -> 1 and 2 -> 4 -> 3: node 4 lies on the delay-free cycle 4 -> 3 -> 1 -> 2 -> 4 and is rendered. |
| C03_topology_changes_effective_refuted (Graph_Props.v) | registering a node after a connection, before the next quantum, makes the render thread process only the new node: the source 1 and the destination 0 are live, in no cycle, and not processed; the output is silence instead of 5. |
| C04_nothing_stale_refuted (Graph_Props.v) | the inputs of muted nodes keep accumulating. 1 <-> 2 form a delay-free cycle fed by the source 3; after two quanta the cycle is opened and node 1 sees 3 times the source. |
| C12_quad_to_five_refuted (Quantum_Props.v) | Five channels are not a speaker layout of the specification, so the channels should be kept in place; the code moves the last two. |
| C13_identical_channels_refuted (Quantum_Props.v) | Six channels with the same content, as produced by a ChannelMerger whose inputs all come from one source, arrive as a signal on the centre channel only. |
| C13_stereo_to_surround_refuted (Quantum_Props.v) | Two identical channels (an up-mixed mono signal) fed to a six-channel node. |
| C13_order_of_connections_refuted (Quantum_Props.v) | The order of the connections matters: a mono signal added to a 5.1 signal goes to the centre, unless a stereo signal was added in between. |
| C06_identifiers_are_unique_refuted (Protocol_Props.v) | when a processor panics, the render thread frees the node and gives back its identifier although the program still holds the node: the next constructor gets an identifier the program is still using. |
| C07_in_order_exactly_once_refuted (Protocol_Props.v) | calling suspend twice before resume loses the messages buffered in between; here the registration of node 11 never reaches the render thread. |
| C08_connect_is_idempotent_refuted (Protocol_Props.v) | connecting the same output to the same input twice doubles the signal: the source of value 5 is heard as 10. |
| C08_disconnect_is_complete_refuted (Protocol_Props.v) | source 11 -> gain 12 -> destination; the program drops its handle of the gain (which stays in the graph, it has an input) and calls [disconnect] on the source. The table forgot the connection with the handle, no message is sent, and the source remains audible for ever. |
| C08_views_agree_refuted (Protocol_Props.v) | a handle drop sends its message before it clears the table of connections. If the identifier is reclaimed and reused by another thread in between, the drop erases the new node's connection from the table: a later disconnect does nothing although both nodes are held. |
| C09_messages_never_panic_refuted_after_processor_panic (Protocol_Props.v) | after a processor panicked (which frees the node), using the node that the program still holds makes the render thread panic. |
| C09_messages_never_panic_refuted_by_failed_constructor (Protocol_Props.v) | a constructor that panics (e.g. a filter with invalid coefficients) after its identifier was allocated tells the render thread to drop a node that was never registered; with an identifier beyond the size of the node vector the render thread panics. Here 54 identifiers were handed out before. |
| C09_messages_never_panic_refuted_by_late_param (Protocol_Props.v) | an AudioParam created for a node that is already registered leaves a queued connection behind; when the node's identifier is reused, the connection is sent for the new node although the parameter is gone. |
| C41_recycle_during_callback_refuted (Thread_Props.v) | When the sink is changed, [CloseAndRecycle] takes the graph out of the render thread. If the message is handled between two quanta of one callback, the next quantum finds no graph: the render thread panics. |
| C43_suspended_clock_stands_still_refuted (Thread_Props.v) | A suspension handled between two quanta of one callback does not stop the callback: the state is Suspended and the requester notified, yet quanta are still rendered and the clock still advances. |
| C16_executed_exactly_once_refuted (Thread_Props.v) | A suspension within the last quantum is accepted, and never takes place: it is scheduled for the boundary at the end of the rendering. (The caller of the asynchronous variant then panics on the dropped channel.) |
| C18_setter_order_refuted (Param_Props.v) | The value setter counts as an event at the current time. If an event is pending for exactly the time of the next quantum, it takes effect after the setter although it was scheduled before: the new value is lost. Here [value = 5] is set when the set-value event (value 2) is due; the parameter stays at 2. |
| C18_setter_after_target_refuted (Param_Props.v) | The same happens when a target has just been reached: the code then plants an event of its own at the time of the next quantum, and a value set before this quantum is lost. Here a target equal to the current value 5 is scheduled; [value = 2] afterwards has no effect. |
| C19_krate_boundary_refuted (Param_Props.v) | k-rate: a set-value event exactly at the beginning of a quantum, and first in the timeline, takes effect one whole quantum late. |
| C19_event_after_hold_refuted (Param_Props.v) | cancelAndHold(5) on a ramp to 10 at time 10 should hold the value 5. If another event (value 1 at time 7) is scheduled afterwards, the ramp, which keeps its old end time, is processed after it: the output never rises. |
| C19_second_hold_refuted (Param_Props.v) | A later cancelAndHold undoes an earlier one: after cancelAndHold(5) the value is to stay at 5; a further cancelAndHold(7) lets it rise to 7. |
| C19_future_curve_refuted (Param_Props.v) | A value curve that starts after the quantum in which the preceding event ends: its formula is evaluated before its start, at the end of this quantum, and the result becomes the value until the curve starts. Here 5 is to hold until time 9; the value is 7.5 from time 4 on. |
| C19_short_ramp_refuted (Param_Props.v) | A ramp that starts after a frame and ends before the next one counts as reached from the nearest frame on: if this is the frame before, the ramp is extrapolated backwards, far out of the range between its ends. Here the values are 1, 0 from time 0.49 on and a ramp to 1 at 0.51; the frame at time 0 gets -24.5. |
| C19_ramp_after_target_refuted (Param_Props.v) | A ramp behind a target that has not started: the specification lets the ramp begin at the start of the target (time 2), with the value before it (5). The code begins it at the start of the quantum, with the exponential evaluated before its start: 4 + exp(2) at time 0 (here with the first four terms of the exponential series; it is 11.39). |
| C20_early_ramp_refuted (Param_Props.v) | A ramp before an event that is already pending |
| C20_event_in_curve_refuted (Param_Props.v) | An event inside a value curve: the assertion fails on the render thread |
| C20_curve_index_refuted (Param_Props.v) | Rounding: for this curve of four values the index exceeds the table just before the end |
| C20_hold_order_refuted (Param_Props.v) | cancelAndHold calls out of order |
| C21_future_target_refuted (Param_Props.v) | The formula is used outside its domain: a target that starts after the end of a quantum in which another event is processed is evaluated at the end of that quantum. A setTargetAtTime(1, 3, 1) on a fresh parameter (value 0) makes it jump to 1 - exp(2), about -6.4, in the second quantum. (Times in quanta.) |
| C39_empty_buffer_refuted (Buffer_Props.v) | With an empty buffer at the end the silence is not less than one chunk. |
| C39_short_buffer_refuted (Buffer_Props.v) | A source buffer whose resampled length is one sample turns into NaN (0/0 in the position). |
| C39_error_drops_samples_refuted (Buffer_Props.v) | An error in the stream drops the samples that were collected for the current chunk (here 3). |
| C39_channel_change_refuted (Buffer_Props.v) | A stream that changes its number of channels panics. |
| C23_start_late_refuted (Source_Props.v) | Full statement (refuted): in floating point too, a source that is to start at frame 13 (at the time 13/44100) and stop at frame 16 sounds in frames 13, 14, 15. The code adds up the times of the frames, so the time of frame 13 is less than 13/44100. |
| C23_sound_after_ended_refuted (Source_Props.v) | Full statement (refuted): after the ended event the source is silent, in floating point too. The event is sent when stop <= current_time + 128 dt, which may be more than the time of the next quantum. |
| C23_stop_again_refuted (Source_Props.v) | Full statement (refuted): a source never sounds again once it has ended. A later call of stop with a later time makes it sound again, in exact arithmetic as well. (The ended event is not sent again.) |
| C24_negative_frequency_refuted (Source_Props.v) | Full statement (refuted): for all frequencies of the nominal range. A negative frequency close to zero: the phase becomes -2^-55, 1 - 2^-55 is rounded to 1, and the look-up at 1 * 2048 panics. |
| C24_custom_without_wave_refuted (Source_Props.v) | Full statement (refuted): without the condition on the type. OscillatorOptions with type Custom and no periodic wave are accepted; the first quantum panics. |
| C25_early_start_refuted (Absn_Props.v) | Full statement (refuted): without the condition on the tolerance. With a relative tolerance of 2^-26 (the square root of the machine epsilon), a source started at frame 2^27 + 5 plays its first sample at frame 2^27 + 3 (50 minutes after the start of the context at 44.1 kHz). |
| C26_negative_rate_refuted (Absn_Props.v) | A negative playback rate with the default loop boundaries reads at index [length]. |
| C26_loop_start_refuted (Absn_Props.v) | A loop start between the last frame and the end of the buffer reads at index [length]. |
| C26_sample_rate_refuted (Absn_Props.v) | The index of the loop start is computed with the context's sample rate, not the buffer's. |
| C26_empty_loop_refuted (Absn_Props.v) | An empty buffer that loops is read at index 0. |
| C26_large_rate_refuted (Absn_Props.v) | A very large playback rate (within the nominal range): subtracting the length of the loop does not change the position, and the render thread hangs. |
| C27_output_before_input_refuted (Delay_Props.v) | The parameter's limit is the maximum delay rounded to single precision; the ring is sized for the maximum in double precision. For a maximum of 8 ms at 48 kHz the read position at the limit falls into the slot that was just written: the input is silent until frame 127 but the output is not silent at frame 0. |
| C27_muted_reader_refuted (Delay_Props.v) | When the reader is muted for one quantum, as part of a cycle through its delay time, the indices of the reader and the writer stay apart: a delay of zero is one of a quantum from then on. |
| C28_ghost_echo_refuted (Delay_Props.v) | The ghost echo. The maximum delay is 10 ms, 441 frames. The input is two quanta of ones and is dropped. The output is silent for three quanta, then the input of 640 frames before is output once more. |
| C28_delay_jumps_refuted (Delay_Props.v) | The delay of 2 ms, 88.2 frames, is not kept when the input is dropped: the first quantum after it should end with 39 silent frames but is all ones. |
| C31_empty_curve_refuted (Shape_Props.v) | Setting an empty curve panics on the render thread, outside of the guard around node processing. |
| C31_long_curve_refuted (Shape_Props.v) | A curve of 2^24 + 3 points is read out of bounds at input 1. |
| C46_lowpass_zero_refuted (Filter_Props.v) | A lowpass filter whose frequency goes to 0: one sample of input is enough for an output that grows for ever. |
| C32_tail_refuted (Comp_Props.v) | The node tells the graph that it has nothing more to say while a burst is still in its ring: with the input gone the graph removes it and the burst is lost. |
| C48_makeup_refuted (Comp_Props.v) | The make-up gain is computed from the linear part of the curve even when 0 dB is in the knee (the default settings). |
| C48_infinite_refuted (Comp_Props.v) | Floating point: after one infinite sample everything the compressor plays is NaN, for ever. |
| C33_overtaken_refuted (Analyser_Props.v) | Without this bound the property fails: a reader that is held up while two quanta are written gets new samples among the old ones. |
| C49_short_refuted (Analyser_Props.v) | Float data of the right size or longer are as specified (C33_time); the short array gets the end of the data instead. |
| C49_bytes_refuted (Analyser_Props.v) | The byte data overwrite all of a longer array. |
| C50_resize_refuted (Analyser_Props.v) | A change of the size forgets the levels, but not that there was a report at this time: until the time advances, the next report is that of silence, for any signal; and there are signals with another spectrum. |
| C34_playback_refuted (Script_Props.v) | The announced playback time is not when the answer is played: it is one quantum early. [now] is the time of the last quantum of block [b], when the event is sent; the answer is first heard in quantum [(b + 2) N]. |
| C34_size_refuted (Script_Props.v) | Sizes that are documented to be rejected are accepted: with 300 the blocks have two quanta, and the buffers 300 frames of which the last 44 are not in the input. |
| C34_no_outputs_refuted (Script_Props.v) | Input only (no output channels) is accepted, but the node panics when the first block is complete: the callback never runs. |
| C34_answer_refuted (Script_Props.v) | An answer with more channels than announced (the output buffer of the event can be replaced) panics the thread that renders. |
| C37_nan_refuted (Pan_Props.v) | Full statement (refuted): every accepted setting gives a gain that is a number. Equal reference and maximal distance in the linear model; reference distance and rolloff zero in the inverse model; reference distance zero in the exponential model for a source at the listener. |
| C37_cone_nan_refuted (Pan_Props.v) | Full statement (refuted): the angle for the cone is a number for all positions. A normalised vector times itself may round to more than 1, and then the arc cosine is not a number; so for a source at (0, 1, 4) and the orientation (0, 1, 4), seen from the origin. |
| C45_nan_refuted (Pan_Props.v) | Full statement (refuted): the angles are numbers for every configuration of numbers. |
| C51_cone_direction_refuted (Pan_Props.v) | Full statement (refuted): a source that points at the listener has cone gain 1. It is the other way round: the angle is taken with the vector from the listener to the source. Every source that points at the listener gets the outer gain (for an outer angle below 360 degrees), and one that points away is not attenuated. |
| C52_automation_refuted (Pan_Props.v) | Full statement (refuted): for automated source positions too. Only the listener's parameters are looked at to decide that one value is enough; then every frame uses the source position of the first frame. |
| C53_tail_refuted (Pan_Props.v) | Full statement (refuted): after every sound. The silent quanta are counted from the beginning, and the count is never set back: with impulse responses of one quantum (a delay by one quantum), the tail of the second sound is lost. |
| C38_clear_refuted (Event_Props.v) | Full statement (refuted): clearing takes effect. A repeating handler that clears its own type (or whose type is cleared by another thread while it runs) is put back when it returns. |
| C38_replace_refuted (Event_Props.v) | Full statement (refuted): replacing takes effect. The new handler is overwritten when the old one returns. |
| C38_dropped_refuted (Event_Props.v) | Full statement (refuted): each emitted event is passed on. The render thread drops events when 256 wait. |
| C38_panic_refuted (Event_Props.v) | Full statement (refuted): a callback that panics ends the event thread; later events of all types are lost. |
| C40_reset_race_refuted (Stats_Props.v) | Full statement (refuted): a reset while a latency is being recorded leaves statistics out of order, until the next reset. Here 5 was recorded before, and 100 is recorded during the reset. |
| C40_wrap_refuted (Stats_Props.v) | Full statement (refuted): the sum wraps. Two latencies of 2^63 ns have average 0. |
| C40_ratio_race_refuted (Stats_Props.v) | Full statement (refuted): a snapshot taken while a callback records mixes old and new counters, and the underrun ratio is 2. |
| C54_initial_refuted (Stats_Props.v) | Full statement (refuted): the reset made when the context is created (playback_stats.rs 51) counts a latency of zero that was never measured: the minimum stays 0 and the average is too low. |
| C55_rounding_refuted (Stats_Props.v) | Full statement (refuted): the ratio is rounded up to hundredths. 7 late callbacks of 100 give 0.08. |
| C55_peak_race_refuted (Stats_Props.v) | Full statement (refuted): a callback between the snapshot and the reading of the peak (capacity.rs 111-116) counts in the peak of one event and in the average of the next, where the average is then above the peak. |
| C42_peak_refuted (Wave_Props.v) | the peak is not one: 41/64 times the rounded inverse of 41/64 is one unit below. Dividing would be exact. |
| C42_small_refuted (Wave_Props.v) | when the peak is below 2^-128 its inverse overflows: the table becomes infinite, and its zeros NaN. |
| C42_infinite_refuted (Wave_Props.v) | infinite samples, from coefficients that overflow, become NaN, and all others zero. |
| C57_too_many_refuted (Wave_Props.v) | documented to be rejected, but there is no check: more than 8192 components are accepted. |
| C43_close_at_startup_refuted (Context_Props.v) | Closed is not final: a context closed right after its construction runs when its stream starts. |
| C43_two_events_refuted (Context_Props.v) | One change of the state, two events: resuming a context that has not started. |
| C43_suspend_lost_refuted (Context_Props.v) | Suspending a context that has not started may return at once without effect: [startup_pending] is read after the state, and the context starts in between. |
| C43_close_hangs_refuted (Context_Props.v) | Closing while an asynchronous suspension is on its way: the request to close is kept until the resumption, and the caller waits for ever. |
| C43_close_then_run_refuted (Context_Props.v) | A resumption then closes the context and sets it running. |
| C43_close_during_resume_refuted (Context_Props.v) | Closing a suspended context while an asynchronous resumption is on its way. |
| C43_running_without_callbacks_refuted (Context_Props.v) | An asynchronous suspension stops the stream late, after a complete resumption: the context is running for ever without a callback; whoever suspends or closes it now waits for ever. |
| C43_sink_events_refuted (Context_Props.v) | Changing the sink of a running context emits two events nobody asked for; when the call returns the context is suspended. |
| C43_sink_window_refuted (Context_Props.v) | A suspension in that window is ignored, and a context closed in that window runs again. |
| C43_sink_suspended_refuted (Context_Props.v) | Changing the sink of a suspended context may leave it running without callbacks: the new stream starts before it is asked to stop. |
| C41_deadlock_refuted (Context_Props.v) | A message that waits when the sink is changed is taken out of the channel and sent again at the end, with the channel still locked: the call never returns, unless the context is closed. |
| C41_reordered_refuted (Context_Props.v) | the race for the messages in the channel: the call takes the first, the old render thread applies the second |
| C58_stereo_tail_refuted (Conv_Props.v) | A mono response: when the stereo input stops, the input is mono silence, and the rest of the right channel is lost; the left one is heard on both sides. Here the response delays by one frame, the last frame before the silence is 3 left and 5 right. |
| C58_no_buffer_refuted (Conv_Props.v) | A node without a response hands its input on unchanged (the specification asks for silence). |
| C60_not_zero_filled_refuted (Worklet_Props.v) | the buffers are not cleared. A processor which writes a block of ones once and then does nothing plays ones for ever (with a mono input throughout); zero filled buffers would give silence. |
| C61_overlap_refuted (Track_Props.v) | with overlapping calls of two consumers a buffer is lost to everybody and another is handed twice to the same consumer. |
| C61_last_buffer_refuted (Track_Props.v) | a consumer that got every buffer but the last one, and asks for the next after another consumer was told of the end, never gets the last one. |
| C63_channel_change_refuted (Recorder_Props.v) | When the number of channels changes after the first buffer, the file cannot be read: here frame 2 of the first channel. |
| C63_stop_loses_refuted (Recorder_Props.v) | stop() can lose a buffer that was recorded before the stop event: it is neither in a data event nor ever will be. |
| C63_data_after_stop_refuted (Recorder_Props.v) | A data event can come after the stop event. |
| C63_restart_refuted (Recorder_Props.v) | start() directly after stop() leaves the old thread recording beside the new one: the second recording repeats the last buffer of the first one, and holds the next one twice. |
| C63_empty_refuted (Recorder_Props.v) | On a stream without buffers the recording ends without a stop event, and the recorder refuses to start ever after. |
| C65_tail_lost_refuted (Element_Props.v) | Media element: the end of the file is cut off. The reader delivers a short last buffer, then an error, and the resampler throws an incomplete quantum away when it sees an error: of a file of 130 frames only 128 are heard (of one of 100 frames, nothing). |
| C65_play_after_end_refuted (Element_Props.v) | Media element: once a file has ended, play() and setting the loop attribute do not start it again; only seeking does (an HTML media element restarts from the beginning on play(), and loops when the attribute is set). Here play() and then loop are given after the end: nothing but errors. |
| C65_time_ignores_rate_refuted (Element_Props.v) | Media element: current_time() does not take the playback rate into account. At rate 2, 256 frames have been played but the clock shows 128 / 44100 s. |
| C65_negative_rate_forward_refuted (Element_Props.v) | Media element: a negative playback rate plays forwards (the sign is dropped before it is looked at, media_element.rs 191-192). |
| C65_extreme_rate_refuted (Element_Props.v) | Media element: playback rates far from 1 bring the render thread down. The buffers are labelled with the sample rate times the playback rate, and creating a buffer with a label below 3000 Hz or above 768000 Hz panics: rates 0, 1/16 and 18 for a file at 44100 Hz. |
| C65_seek_truncates_refuted (Element_Props.v) | Media element: seeking to the time of a frame may land on the frame before, as the product of time and rate is truncated: frame 15 at 44100 Hz. After 13 quanta, setting the current time to the current time moves the position back by one frame. |
| C65_commands_wait_refuted (Element_Props.v) | Media element: the comment in the constructor says that up to 32 control messages are handled per render quantum. Only one is: of pause, seek and play, given together, the element obeys the first and falls silent. |
| C66_corrupt_packet_refuted (Decode_Props.v) | A packet that cannot be decoded is left out without an error: what follows moves forward in time, and the caller is not told (the Web Audio API asks for an EncodingError). |
| C66_truncated_refuted (Decode_Props.v) | A file that is cut off in the middle is decoded without an error. |
| C66_too_many_channels_refuted (Decode_Props.v) | A file with more than 32 channels gives an AudioBuffer with more channels than any AudioBuffer may have: the public constructors panic for it. |
| C66_one_frame_refuted (Decode_Props.v) | A file of one frame at another rate than that of the context becomes NaN. |
| C71_silence_refuted (Over_Props.v) | Full statement (refuted): for silent quanta too. Silence is not passed to the resamplers: the end of a sound is not played (the node has no tail), it stays in the resamplers and is played when the next sound begins. |
| C71_old_sound_refuted (Over_Props.v) | Another finding: the resamplers of a mode keep their contents while another mode is used; old sound is played when the mode is used again. |
| C19_krate_late_ramp_refuted (Param_Krate_Props.v) | A ramp that is scheduled after its start, e.g. after the set-value event before it: the first quantum afterwards still has the old value (0 instead of 2), although the ramp is under way; an a-rate parameter is right. |
| C73_subsample_start_refuted (Osc_Props.v) | Full statement (refuted): the phase is the frequency times the time since the time given to start. A start between the last frame of a quantum and the first frame of the next one is taken to be in the past, and the phase is 0 at that frame. |
| C74_loop_duration_refuted (AbsnSound_Props.v) | Full statement (refuted): with a loop too, the source plays for the given duration. A duration of 192 frames, the whole buffer looped at rate 1: 256 frames are played. |
| C74_offset_behind_loop_refuted (AbsnSound_Props.v) | Full statement (refuted): a source with a loop that is started behind the end of the loop continues in the loop. It plays the rest of the buffer once, is silent afterwards, and never ends. |
| C74_shift_refuted (AbsnSound_Props.v) | Full statement (refuted): a source that is started a frame later plays the same sound a frame later. A start half a frame before the first frame of a quantum is moved to that frame. |
| C74_louder_refuted (AbsnSound_Props.v) | Full statement (refuted): the sound is not louder than the buffer. At half the rate, the value after the last sample is extrapolated. |
| C75_many_refuted (Device_Props.v) | A 257th device of the same kind, name and number of channels: the index, a u8, overflows. |
| C75_unplug_refuted (Device_Props.v) | Ids are not tied to the hardware: when one of two equal devices is unplugged, the other one takes over its id and loses its own. |
| C76_rate_refuted (Device_Props.v) | After a change to a device that does not work at the rate of the context, the render thread works at another rate than the context reports. |
| C76_fraction_refuted (Device_Props.v) | So it is after a change from the "none" sink at a rate with a fraction, though the device accepts every configuration. |
| C76_channels_refuted (Device_Props.v) | The number of channels the context reports (the greatest channel count of its destination) is that of the first device, not of the present one. |
| C76_failed_change_refuted (Device_Props.v) | A change to a listed device that cannot be opened reports an error, but by then the old stream is closed and the graph is gone: the context stays silent, it still names the old device, and resuming it or changing to a good device waits for ever. |
| C76_gone_refuted (Device_Props.v) | A device that disappears between the check of its id and its selection: the default device is opened under its name. |
| C76_try_new_refuted (Device_Props.v) | [AudioContext::try_new] is to return errors; it panics when the latency asked for is not positive. |
| C76_input_channels_refuted (Device_Props.v) | A microphone with more than 32 channels is opened, but reading from it panics. |
| C77_long_refuted (Device_Props.v) | Beyond that the number of frames is cut to 32 bits: a latency of a day gives the smallest buffer of the device. |
| C77_panic_refuted (Device_Props.v) | A still longer latency makes the rounding to a power of two overflow. |
| C16_late_refuted (Suspend_Props.v) | At 48 kHz a suspension at the beginning of the eighth quantum, at 7 * 128 / 48000 seconds, takes place one quantum late: the product of the time and the rate is rounded to a number above 896. |
| C16_collision_refuted (Suspend_Props.v) | As a consequence, suspending at two different boundaries can panic ("cannot suspend multiple times at the same render quantum"). |
| C79_inputs_refuted (Diag_Props.v) | the report never says that a node had inputs, and gives every input the channel count of silence: both are reset when a node has been processed, and reports are made between quanta. (The documentation promises "whether this node had incoming connections during the latest render quantum" and the "current channel count for each input port".) Here for all graphs without cycles that lack a delay; node 2 of the case below was fed. |
| C79_ordering_between_quanta_refuted (Diag_Props.v) | a connection or disconnection empties the reported ordering until the next quantum, although all nodes were rendered in the last quantum and will be in the next. |
| C79_two_requests_refuted (Diag_Props.v) | when a second report is asked for before the first was delivered, the first callback is never called, the second gets the report of the first request, and the second report is dropped. |
| C79_full_queue_refuted (Diag_Props.v) | the render thread panics when the queue of events is full (256 events that no handler has taken), whereas all other events are dropped in that case. |
| C83_one_event_refuted (Offline_Props.v) | The start of the rendering emits two "statechange" events although the state changes once: [start_rendering] sets the state, and so does the renderer when it handles its first message. |
| C83_early_resume_refuted (Offline_Props.v) | [resume] called before the rendering has started does not panic, although the documentation says so: the context reports that it runs, and the first suspension does not take place: the quantum is rendered before the suspension is reported. When the task that waits for the suspension goes on after the end of the rendering, the closed context becomes suspended. |
| C83_closed_for_good_refuted (Offline_Props.v) | [resume] called after the end panics, but the closed context then reports that it runs. |
| C83_suspended_heard_refuted (Offline_Props.v) | The handler for changes of state is not called while the context is suspended: a program that resumes in this handler waits forever, since the rendering makes no step before [resume] is called. |
| C83_dropped_refuted (Offline_Props.v) | When the program drops a future of [suspend], the rendering panics at the quantum it was scheduled for. |
| C83_reported_refuted (Offline_Props.v) | A suspension scheduled in the last quantum (rounded up to the end, see C16) does not take place, and the task that waits for it panics. |
| C89_value_never_nan_refuted (Value_Props.v) | The value that is read may be NaN: a value curve may contain NaN, the processor replaces what it plays by the default value, but writes the value for the control thread without this replacement. The parameter plays 0 and reads as NaN. |
| C89_reads_assigned_refuted (Value_Props.v) | In a running context the render thread may render a quantum after the value was stored and before the message arrives: it overwrites the value. [value = 5] reads as 5, then as 0, then as 5. |
| C89_concurrent_assignments_refuted (Value_Props.v) | The value is stored before the message is sent, without a lock (as set_automation_rate has): of two threads that assign a value at the same time, one may store last and the other send last. The value reads as 2 after both calls have returned, and becomes 1. |
| C89_reads_first_frame_refuted (Value_Props.v) | For an a-rate parameter the value is meant to be that of the first frame of the last quantum (comment at param.rs 377-387). It is not if an event takes effect at this frame: the processor writes the value before it handles the events of the quantum. [setValueAtTime(2)] at the start of the second quantum: the quantum plays 2, the parameter reads as 0. |
| C91_message_panic_refuted (Contain_Props.v) | a panic in a processor is caught when it renders (graph.rs 513-521), but not when it receives a message (graph.rs 322-324, called from thread.rs without catch_unwind). One message to one node, connected to nothing, ends all rendering. |
| C92_left_over_handler_refuted (Handler_Props.v) | A node that is dropped leaves its handlers behind, and its id is given to a new node: the handler that a client installed on the first node for its messages is called with the messages of the second one, although both threads have long finished with the first node and no event of it was waiting. (The handlers are kept under the id of the node, concrete_base.rs 326-328, and dropping the node, 330-349, clears its connections "as the node id may be recycled later" but not its handlers.) |
| C92_late_event_refuted (Handler_Props.v) | Clearing the handlers of a dropped node would not be enough. Here the first node is a source that is played and forgotten: it has no handler at all. Its ended event is still waiting, or is even sent after its id has been given back (graph.rs 556-558 gives the id back first and calls before_drop after that), when a new source gets its id and installs a handler. The event of the first source calls the handler of the second one, which has not been started; and as that handler is one-shot, the end of the second source is not reported any more. |
| C93_panner_refuted (Dispose_Props.v) | Switching the panning model of a panner drops the impulse responses it used, with their buffers, on the render thread of a realtime context: [self.hrtf_state = value.take()] (panner.rs 916) overwrites the old state, where the other processors swap it into the message "to avoid deallocation in the render thread". |
| C93_removed_node_refuted (Dispose_Props.v) | A node that has ended is dropped by the render thread itself, with all it holds (graph.rs 551-560): a buffer that only the source still refers to is deallocated there. The garbage collector gets messages only. |
| C94_concurrent_start_refuted (Meter_Props.v) | When two threads call [start] at the same time (the AudioRenderCapacity can be cloned), both find nothing to stop; the second one overwrites the sender of the first one (capacity.rs 99-100: the mutex is released after 97). Two collections run, and [stop] ends one of them only: updates go on after it has returned, when all calls have been completed. |
| C94_dropped_handle_refuted (Meter_Props.v) | When the context and the AudioRenderCapacity are dropped during a collection, which leaves the context playing (online.rs 165-172), the sender of the stop channel is dropped with them; [recv_timeout] then fails at once, which capacity.rs 110 takes for a time-out. The thread spins, and sends updates as fast as there are callbacks, without waiting for its interval. |
| C94_stop_in_callback_refuted (Meter_Props.v) | A callback that stops the collection (or closes the context, which does that first) hangs for ever if the event queue is full and the collection waits to put an update there: the collection waits for the event thread, which waits in the callback for the collection. Nothing that any other thread does resolves this. |
| C95_node_gone_refuted (Answer_Props.v) | A script processor that the client drops while its callback has yet to run is removed from the graph all the same: the handler keeps only the id of the node, not a handle (script_processor.rs 146-167; the comment at 259 expects otherwise). The answer then finds no node under the id, and the render thread panics (node_collection.rs 90-93). |
| C95_other_node_refuted (Answer_Props.v) | If the id of the dropped script processor has been given to another node by then, that node gets the output buffer: an AudioBufferSourceNode would take it as the buffer to play (audio_buffer_source.rs 853-866). |
| C96_nameless_refuted (Cubeb_Props.v) | One device without a friendly name, or with a number of channels beyond u16, hides all devices: the list is empty (cubeb.rs 611-618, media_devices/mod.rs 27-32). |
| C96_vanished_refuted (Cubeb_Props.v) | A device that is unplugged after its id has been checked: no error, the default device is opened instead (cubeb.rs 371-380), while the context goes on to report the id as its sink (cubeb.rs 433-438). |
| C98_stop_in_data_refuted (RecLock_Props.v) | Calling stop() in the callback for data, as to end the recording when there is enough, blocks for ever: the callback runs with recorded_data locked, which stop() wants to lock (media_recorder/mod.rs 99-122, 299-302). Every later call of stop() blocks as well. |
| C98_set_in_stop_refuted (RecLock_Props.v) | Setting the callback for stop in the callback for stop, as for the next recording, blocks for ever (124-130, 228-230). |
| C98_two_callbacks_refuted (RecLock_Props.v) | Two threads, whose callbacks never touch what they run under, block each other: the callback for data sets the callback for stop while the callback for stop sets the callback for data; each alone always returns. |
| C99_ahead_refuted (Clock_Props.v) | The documentation of current_time promises the time of the frame that follows the last block processed. The counter is advanced before a block is rendered: a control thread that reads the clock in the meantime gets the end of a block whose rendering has only begun. In the run a block has begun, none is complete, and the clock shows one block. |
| C99_other_rate_refuted (Clock_Props.v) | set_sink_id can give the render thread another rate than the context has (C76_rate_refuted). From then on there are two clocks: a reading of current_time is no longer the time the processors are given for the same frame. In the run the time read after two blocks differs from the time processors get for the third block. |
| C100_start_late_refuted (Now_Props.v) | When set_sink_id has opened a device with a higher rate than that of the context (C76_rate_refuted), the clock read is ahead of the clock of the processors, by as much time as the context has run. A source started now begins only when the other clock gets there. In the run four blocks are rendered, a source is started at the current time, and the next four blocks are silent. |
| C101_krate_refuted (NowParam_Props.v) | A k-rate parameter takes its value before it looks at events (param.rs 1543-1544). An event with the time of the block was to be handled with the block before, where it was not known yet. So a k-rate parameter set at the current time keeps its old value for one more block. |

Further observations, not stated as theorems: a delay in a cycle at sample rates that do not divide the quantum evenly leaks one frame early; a wave shaper
with a one-point curve and infinite input gives NaN; the panner at hard right uses cos(f32 pi/2), about -4.4e-8; a panic in a worklet's `onmessage`
is not caught and ends the render thread; the media stream destination does not count as having side effects, so it is collected when its handle is
dropped although its stream is read, and its default channel count mode is max, so the buffers of its stream change their number of channels; with the
cubeb backend the requested number of input channels is ignored (always NUMBER_OF_INPUT_CHANNELS), and the number of output channels is the maximum of the
default device even when another device was selected.

## 8. Status

| id | status | theorems | note |
|----|----|----|----|
| C01 | proved | 3 | For every legal history of messages and quanta and every processor behaviour. Edges out of delay writers that lie on a cycle are excepted (they carry earlier quanta). |
| C02 | partial | 4 | Only nodes on delay-free cycles are muted, delays legalise cycles, every delay-free cycle is interrupted. The documented rule that every node of a delay-free cycle is muted is refuted by a computed witness. |
| C03 | partial | 2 | Proved for histories in which no node is registered after the last (dis)connection before a quantum; refuted in general (finding 1). |
| C04 | partial | 2 | Proved for histories whose quanta had no delay-free cycle; refuted in general: the inputs of muted nodes accumulate (finding 4). |
| C05 | proved | 7 | All legal histories; the destination's processor is assumed not to panic. |
| C06 | partial | 3 | Proved for every interleaving provided no processor panics while rendering; refuted otherwise (identifier given back while the program holds the node). |
| C07 | partial | 3 | Proved for every history in which suspend is not called twice before resume; refuted otherwise. |
| C08 | partial | 6 | Views agree, connect effective and disconnect complete for nodes the program holds; refuted for duplicate connects (signal doubled), dropped destinations and a drop race. |
| C09 | partial | 5 | Proved for programs using the API as documented with non-panicking processors; graph histories are legal. Refuted after a processor panic, after a failed constructor, and for late params. |
| C10 | proved | 2 | Reference-counted buffers refine private arrays for every operation sequence; pool and silence invariants. |
| C11 | proved | 2 | For channels of the reference-counted heap and for whole quanta. |
| C12 | proved | 4 | Over real samples, all layouts of the specification; 4 to 5 channels (not a layout of the specification) is moved rather than kept, see C12_quad_to_five_refuted. |
| C13 | partial | 5 | Sum of individually mixed signals for discrete, mono and stereo layouts. Refuted in general: identical channels of more than two channels, stereo to 5.1, and dependence on the order of connections. |
| C14 | proved | 5 | Any sequence of callback sizes and channel counts, any arrival of messages; the audio graph is a parameter. |
| C15 | proved | 2 | Any length, channel count, graph and messages; assumes Vec::with_capacity allocates exactly the length. |
| C16 | partial | 8 | Exact arithmetic: every suspension runs once, at the first boundary not before its time, except at the end of the last quantum (C16_executed_exactly_once_refuted). Floating point: within 1/2048 of a frame (C16_ieee_time). Refuted: the time computed for a boundary can give the next one (C16_late_refuted), so that two boundaries collide and the call panics (C16_collision_refuted). |
| C17 | proved | 1 | IEEE f32/f64 arithmetic of the model; exp and powf arbitrary functions |
| C18 | partial | 6 | Sortedness, stable insertion, exact cancellation and front consumption proved for every reachable state; refuted for the value setter at the instant of a pending event and just after a target is reached |
| C19 | partial | 13 | Over the reals every frame of an a-rate parameter and every quantum of a k-rate parameter has the specified value for all five kinds of events and the setter, any calls, quanta and modulation (order of times, targets and curves not scheduled far behind their predecessor; k-rate: no event exactly at the beginning of a quantum, ramps scheduled before they start); set-value events and linear ramps also over the rationals; rounding missing; k-rate boundary, k-rate late ramps, events after cancelAndHold, late curves, ramps after targets and very short ramps refuted |
| C20 | partial | 6 | IEEE without value curves, exact arithmetic with value curves, under legal-use hypotheses; without these hypotheses refuted by four witnesses |
| C21 | proved | 5 | Formulas over the real numbers; their use before the start time of a target is refuted separately |
| C22 | proved | 3 | Heap model of the copy-on-write channels; refinement to value semantics for every sequence of operations, and sample by sample statements of both copies for every reachable state. Lengths are unbounded naturals (no usize overflow). |
| C23 | partial | 10 | Exact arithmetic: full property (output, silence after ended, event sent once). Floating point: the same output with the code's own clock, which is proved to be within 2^-21 s of n/sr for 97 days; after the event at most one sample sounds. Refuted in floating point: a start time on the frame grid may be one frame late, one sample may sound after ended; a later stop() makes an ended source sound again. |
| C24 | partial | 5 | Exact arithmetic: full property for all frequencies. Floating point: for frequencies that are not negative (any libm exp2 with a sane range). Refuted: tiny negative frequencies make the phase 1.0 and the look-up panic; type Custom without wave panics. Ended at most once in any arithmetic. |
| C25 | partial | 4 | Exact arithmetic: full statement for any start frame under a tolerance condition (C25_exact). Floating point, bit for bit, for starts not later than the present (C25_ieee_partial). The event is sent at most once. Refuted: the start is several frames early after 50 minutes (C25_early_start_refuted). |
| C26 | partial | 8 | Floating point, not looping: safe for all inputs (C26_no_loop). Looping: all reads are in bounds and the searches end for rates >= 0 and a loop start not after the last frame, in exact arithmetic (C26_loop_partial) and in floating point for loops of at least 2^(k-26) s at rates up to 2^k (C26_loop_ieee_partial). Refuted otherwise: five theorems with panics and a hang. |
| C27 | partial | 6 | Exact arithmetic: C27_exact covers per-frame delays, cycles and channel changes; C27_whole_frames is the corollary for whole frames. Floating point: C27_safe (no access outside the ring for any order of quanta), C27_ieee_partial (frames and weights within 2^-22 of a frame, not in a cycle). Refuted: the rounded parameter limit lets the reader see the slot just written (C27_output_before_input_refuted), and a muted reader shifts the delay (C27_muted_reader_refuted). |
| C28 | partial | 5 | C28_tail_partial gives the exact output after the input is collected: the remaining input is played at its time (C28_rest_partial), the reader stops after one turn of the ring, and silence follows if the last turn was silent (C28_silent_end_partial). In general the claim is false: C28_ghost_echo_refuted, C28_delay_jumps_refuted. |
| C29 | partial | 5 | Exact arithmetic: biquad (all types, automation, channel changes, cookbook coefficients, edge frequencies) and IIR, full statement. Floating point: residual bounds for biquad and IIR with the coefficients the code computes. Missing: the error of the computed biquad coefficients (libm is left open). |
| C30 | proved | 3 | For every libm, input and setting: the run does not fail and each output sample is the f32 rounding of a finite, non-denormal f64. C30_overflow: the narrowing to f32 may give infinity. |
| C31 | partial | 7 | Exact arithmetic: full interpolation formula. Floating point: no index out of bounds for curves up to 2^24 points and any input, position and value error bounds, exact clamping. Oversampling is C71; empty and very long curves panic (refuted). |
| C32 | proved | 4 | C32_ring for any arithmetic (IEEE included) and any run; C32_exact gives the gain of each frame from the whole history, C32_latency the length of the look-ahead. C32_tail_refuted: the node reports no tail while a burst is still in its ring. |
| C33 | proved | 7 | C33_time for any arithmetic, transform and history of operations; C33_exact identifies the mono signal and the byte conversion. C33_concurrent: reads interleaved with writes sample by sample (sequentially consistent memory) are right if at most one quantum is stored meanwhile; without this bound refuted (C33_overtaken_refuted). |
| C34 | partial | 8 | Full for the documented buffer sizes, at least one output channel and answers of the announced shape: each block of input handed out once and in order, timely answers played once and in order two blocks later, any arithmetic. The announced playback time is refuted (one quantum early); so are the rejection of undocumented sizes, nodes without outputs and answers of another shape. |
| C35 | proved | 3 | C35_split, C35_merge and C35_round_trip, for all numbers of channels and any content. |
| C36 | proved | 7 | Panning law on quanta for StereoPannerNode and PannerNode (equal power) in exact arithmetic, gains, power, symmetry, ends. Floating point: every sample of both nodes within eps + 2^-19 of the amplitude from the law, power within six times that (eps: error of the library's sine and cosine); ends and middle exact for a libm with exact sin(0), sin(pi/2). |
| C37 | partial | 7 | Exact: attenuation formulas, range, monotone, cone range. Floating point: linear and inverse gains and cone gain are numbers in [0,1], monotone. Refuted: NaN for accepted degenerate settings and for rounding above 1 in the arc cosine. |
| C38 | partial | 12 | In-order delivery, at-most-once one-shot calls and right-handler hold for all interleavings; the ideal registry is proved for runs in which handlers are not changed while a repeating callback for that type runs. Refuted in general: clearing or replacing inside the callback is undone; events dropped when 256 wait; a panicking callback ends the loop. |
| C39 | partial | 7 | Proved for every error-free stream with a constant number of channels (source buffers up to 2^40 frames, valid sample rates). Less than one chunk of silence needs non-empty source buffers: refuted for an empty last buffer. Further findings: NaN for a resampled length of one, samples dropped before an error, panic on a change of the number of channels. |
| C40 | partial | 9 | Order of min/average/max proved for whole operations (ns and f64 seconds) while the 64-bit sum does not wrap; counters proved for whole operations and, at every moment, for all interleavings; capacity event ranges proved in IEEE arithmetic for uninterrupted snapshots. Refuted: reset racing with a recording, wrapping sum, snapshot racing with a callback (ratio 2). |
| C41 | partial | 6 | Synchronous calls, any number of threads, all interleavings, one quantum per callback when sinks change: every call can complete, the graph of the current render thread always holds an initial part of the messages sent in order and all of them when nothing is pending (C41_completes/begins/messages_partial). Missing because false: a message waiting at the time of the sink change deadlocks the call (C41_deadlock_refuted, for all continuations without close), the drain races with the render thread (C41_reordered_refuted), Recycle in the middle of a callback (C41_recycle_during_callback_refuted). |
| C42 | partial | 6 | Exact arithmetic: proved for every set of options. Floating point: peak within one unit in the last place below one and shape within 2^-22 when the peak is between 2^-126 and 2^126; refuted beyond (peak not exactly one, small peak overflows, infinite samples give NaN). |
| C43 | partial | 19 | Synchronous calls on a started context: only requested transitions, one event each, closed final, clock monotone for every schedule and advancing only while running, calls return with the state they asked for. Refuted outside: calls during startup, asynchronous calls that overlap, sink changes, callbacks of several quanta (the C43_..._refuted theorems). |
| C44 | proved | 3 | C44_exact (real arithmetic), C44_ieee and C44_product (single precision): the rounded product, or within a millionth of the input on the fast paths. |
| C45 | partial | 4 | Exact: the angles are in range and describe the direction. Floating point: in range or NaN for a sane acos. Refuted: NaN when the dot product of unit vectors rounds above 1. |
| C46 | partial | 3 | Proved in exact arithmetic for frequencies strictly inside (0, nyquist). Refuted for the lowpass filter at frequency 0 (no special case in the code): the output grows without bound. Rounding not covered. |
| C47 | partial | 5 | Exact arithmetic: steady state of biquad filters and of stable IIR filters, nominal gains, allpass. Rounding not covered. |
| C48 | partial | 6 | Curve, range and convergence proved in exact arithmetic (attack and release > 0). Makeup gain agrees with the specification only when 0 dB is not in the knee (refuted for the default values); an infinite sample makes the output NaN for ever (refuted). |
| C49 | partial | 3 | Float data of at least fftSize elements are as specified (C49_long). Refuted for short arrays (they get the end of the data) and for byte data (the excess elements are overwritten by 128). |
| C50 | partial | 4 | C50_spectrum in exact arithmetic with the DFT for the transform (levels > 0); C50_bounded; C50_finite in floating point for any transform. Refuted: after a change of the FFT size within the same time step the report is that of silence. |
| C51 | partial | 1 | Refuted: the cone is reversed, for every source that points at the listener. |
| C52 | partial | 2 | Proved when a listener parameter is automated or all parameters are constant; refuted for automated source positions. |
| C53 | partial | 4 | Proved while the total number of silent quanta stays below the length of the responses; refuted for the second sound. |
| C54 | partial | 2 | Proved when the last reset follows a measurement; refuted for the reset made at creation, which counts a latency 0 never measured. |
| C55 | partial | 3 | Average <= peak up to the recorded millionth within one uninterrupted interval; refuted: 7 of 100 is reported as 0.08; a callback between snapshot and peak makes average > peak. |
| C56 | proved | 2 | Every query sequence. |
| C57 | partial | 3 | Length rules proved for any arithmetic; the documented limit of 8192 components is not enforced (refuted). |
| C58 | partial | 5 | Exact arithmetic, for any engine that convolves (crate fft_convolver abstract). Missing because false: right channel of a mono response when the input changes between stereo and mono (C58_stereo_tail_refuted); no response = pass-through (C58_no_buffer_refuted). Not covered: rounding in the FFT. |
| C59 | proved | 3 | Formula and constant power in exact arithmetic, finite and positive in floating point for every buffer. |
| C60 | partial | 5 | calls and outputs equal those of the user's program; the buffers keep the samples of the last quantum instead of zeros (refuted) |
| C61 | partial | 7 | Order and finality for all schedules and any number of consumers; at-most-once and no loss when calls do not overlap, exact sequence for one consumer; with overlapping calls loss and repetition are refuted by a schedule, and the last buffer can be missed by a second consumer. Relaxed atomics are modelled as sequentially consistent. |
| C62 | proved | 4 | All schedules of the render thread and one consumer of the channel; conversion of the quantum to a buffer is abstract. |
| C63 | partial | 10 | Whole recording when nobody stops it, prefix under every interleaving of one start with stops, at most one stop event per callback always, decoding for a constant channel count; refuted: channel count change, loss and late data around stop(), restart beside the old thread, empty stream. Callbacks that call back into the recorder (they deadlock on the lock held by flush) and time codes are not modelled. |
| C64 | proved | 6 | Every schedule with the lock modelled; messages of a closed context are not modelled. |
| C65 | partial | 17 | Proved: commands in order; looping element delivers the endlessly repeated file for every schedule of pauses, resumptions and workable rates; not looping: once; the node plays any stream (resampled) and stops at errors; composed: gapless looping at the context's rate. Refuted with witnesses: last incomplete quantum lost, no restart after the end, clock ignores the rate, negative rates play forwards, extreme rates panic, seeks truncate, one command per call only. Seeks in the middle are not part of the tape theorems; the decoder is a file in memory. |
| C66 | partial | 8 | all files without fatal errors, errors, no panic; corrupt packets and truncated files pass unnoticed, more than 32 channels accepted, one frame becomes NaN (refuted) |
| C67 | proved | 3 | all interleavings; the device itself and its thread are outside the model |
| C68 | proved | 4 | The equations (Flow_Spec.dataflow) speak of the graph after connections into loop breakers were cut at a delay-free cycle check (cut_at_breakers: delay writers only). Cases with messages between quanta are C03; with panicking processors C05; with delay-free cycles C02. |
| C69 | proved | 4 | composition of C14, C15 and C68; channel arrays have the length of a quantum (Rust array type); without suspensions |
| C70 | proved | 2 | Composition of the models of messages, graph, AudioParams, nodes, mixing and offline thread. C70_mix is in exact arithmetic, C70_floats bit for bit from the values of the AudioParams. Other node types, modulation of parameters and suspensions are not in this theorem (see C69). |
| C71 | partial | 6 | Exact arithmetic for every stream without skipped quanta (C71_stream_partial); any arithmetic and history: C71_history gives exactly which quanta are joined; no panic in floats. Refuted for silent quanta (the tail is cut and heard later) and for old contents after a change of mode. |
| C72 | partial | 12 | Calls of all three nodes in any arithmetic; sound of the constant source in exact and floating-point arithmetic (times of frames as in C23); safety of the oscillator for frequencies that are not negative (see C24), of the buffer source without loop (see C26); state of the buffer source's renderer. The sound of the oscillator for all histories is C73, of the buffer source C74. |
| C73 | partial | 8 | Exact arithmetic for all histories; floating point for a start at time 0, detune 0 and any automation of the frequency below half the sample rate (sine and triangle samples, phase of all types). Refuted part: a start between the last frame of a quantum and the first frame of the next loses its offset (phase 0 at the first frame). Not covered in floating point: square and sawtooth samples, other start times, detune. |
| C74 | partial | 8 | Exact arithmetic, any rates, stops and settings around the call of start (C74_sound_partial), closed forms for constant rates and loops (C74_constant_rate, C74_loop), loudness (C74_loudness). Refuted: the duration of a loop over the whole buffer is rounded up to a quantum, a start behind the loop end never loops, a start between two quanta loses its offset, extrapolation after the last sample is louder than the buffer. Missing: rounding; changes of the loop during playback. |
| C75 | partial | 7 | Proved for all hosts: ids distinct (any hash), entries, ids and selection characterised when hashes do not collide. Refuted: 257 equal devices overflow the index; an id moves to another device when its twin is unplugged. |
| C76 | partial | 15 | Proved: new contexts and all histories keep render thread and stream in agreement; with well-behaved devices nothing is lost. Refuted: stale rate and channel count after a change, failed change kills the context, default device under the name of a vanished one, try_new panics, microphones with more than 32 channels. |
| C77 | partial | 5 | Proved up to 2^31 frames; refuted beyond (32-bit cut, panic). |
| C78 | proved | 4 | Whole graph, any processors; corollaries for the mixing desk of C70 in exact arithmetic and bit for bit in floating point. Messages during rendering: for callbacks of one quantum. |
| C79 | partial | 9 | Content of the report and its delivery proved for all histories; false, and refuted: inputs are never reported as connected, the ordering is empty between a connection and the next quantum, overlapping requests lose a callback, a full event queue makes the render thread panic. The fields copied from backend and render thread are not modelled. |
| C80 | proved | 8 | Outcomes and links of every history of calls (C80_calls etc.); every connect message names registered nodes with the ports it uses (C80_ports). |
| C81 | proved | 2 | From API calls to messages to the renderer's graph (equality of connections) to the offline sound. Hypotheses: identifiers fresh (C06), handles kept, listener parameters used after asking for the listener, and for the sound no delay-free cycle and no node made after the last link (C03 shows why). |
| C82 | proved | 11 | Control side and delivery for any arithmetic; sound in exact arithmetic (rounding of the single nodes is in C29, C31, C36, C37, C59). An empty curve makes the render thread panic (C31_empty_curve_refuted), so curves are nonempty here. |
| C83 | partial | 15 | Proved for programs that change the graph and resume only while the state reads suspended: order of all changes, quanta and handler calls (C83_life), buffer equal to sequential rendering (C83_sound), never stuck (C83_progress); for every program: C83_every_program, C83_start_once; the synchronous interface: same life and same buffer (C83_sync, C83_sync_same), returns (C83_sync_returns). Refuted: two statechange events at the start, early resume cancels a suspension, a closed context can report running or suspended, no handler runs while suspended, a dropped future makes the rendering panic, a suspension in the last quantum panics. Not modelled: a dropped future of start_rendering, callbacks that panic. |
| C84 | proved | 6 | All interleavings and all streams. The behaviour of crossbeam channels is part of the model. How the stream is built, and stream operations that never return, are not modelled. |
| C85 | proved | 2 | C85_changes: the samples of each stage are the solution of the equations of the graph as changed so far, and nodes not sent a message go on from their state; C85_causal: no change is heard before its suspension. Assumes that the application keeps its nodes (no handle dropped), no delay-free cycle, registration before connection (C03 findings otherwise), and no panicking processor. |
| C86 | proved | 7 | course of a processor over any legal history; ended events counted; flag behaviour of the three sources in any arithmetic. Realtime contexts do not run the final hooks (no theorem). |
| C87 | proved | 2 | Exact arithmetic, mono signals, constant delay time (a whole number of frames) and gain; the floating-point delay line is C27. |
| C88 | proved | 1 | In exact arithmetic, up to the 1e-6 that a GainNode neglects; the floating point run is an example. |
| C89 | partial | 9 | Proved: range up to NaN, reading back without an intervening quantum, k-rate reads as played (exact arithmetic), automation rate. Refuted: NaN, reading back in a running context, concurrent assignments, value of the first frame. |
| C90 | proved | 3 | Any number of suspensions and resumptions at any moment: the output is the uninterrupted sound with silence inserted (C90_gapless); what is heard while suspended is exact (C90_silent_while_suspended); one pause, sample by sample (C90_suspend_then_resume). Over an abstract graph whose only effects are rendering and messages. |
| C91 | partial | 3 | Proved for rendering, over any number of quanta, for nodes whose handles are held and that do not read AudioParams inside the set (C91_only_downstream, C91_failure_is_contained). Refuted for message handling: a panic in onmessage is not caught and ends all rendering (C91_message_panic_refuted). |
| C92 | partial | 4 | Holds whenever nothing is left of a node when its id is given out again, in particular while no node leaves the graph. Refuted in general, in two ways: handlers of a dropped node stay installed under its id, and an event that is sent late reaches the handler of the node that has the id by then. |
| C93 | partial | 6 | Disposed of exactly once and completely: proved. Off the render thread: proved for messages to all processors except the panner; refuted for the panner, which overwrites its impulse responses, and for nodes that are removed from the graph. |
| C94 | partial | 7 | Proved for calls made one after the other while a handle is kept. Refuted for concurrent calls of start, for handles dropped during a collection, and (that calls return) for a callback that stops while the event queue is full. |
| C95 | partial | 3 | Proved for clients that keep their script processors; refuted twice for script processors dropped while an event is in flight (panic of the render thread; the answer goes to another node). |
| C96 | partial | 7 | Distinctness within a kind and selection hold for every hash function; totality for up to 256 devices of a kind. Refuted: one nameless device empties the list; the id of a device that has vanished opens the default device. |
| C97 | proved | 2 | For all histories; delivery as such (which events find a handler) is C38. |
| C98 | partial | 4 | Proved for callbacks that respect the lock order (stated as what each callback may call); refuted for stop() in ondataavailable, set_onstop in onstop, and two callbacks that set each other. |
| C99 | partial | 5 | Monotone, advancing and accurate clock proved for all runs.  The clock runs one block ahead while a block is rendered (C99_ahead_refuted), and differs from that of the processors when a change of device changes the rate (C99_other_rate_refuted). |
| C100 | partial | 5 | Proved for constant sources, oscillators and buffers at unit rate, while the render thread has the rate of the context.  Refuted when a change of device gave it a higher one: the sound is late by up to the time the context has run (C100_start_late_refuted).  The ended event of a buffer may come one block late when the sound ends with a block. |
| C101 | partial | 5 | Proved for a-rate parameters with no other events pending, at the rate of the context, also with modulation inputs (C101_modulated_partial).  k-rate parameters are one block late: proved (C101_krate_partial), and refutes the property (C101_krate_refuted). |

The theorems were tested against wrong programs (`seeded/LOG.jsonl`): hand-made realistic bugs and systematic mutants (one operator, constant or
branch changed in a definition of the model). A mutant counts as found when a theorem of a `*_Props.v` file can no longer be proved.
