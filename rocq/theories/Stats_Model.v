(** Playback statistics and render capacity.

    Source: /repo/src/stats.rs 4-184, /repo/src/capacity.rs 37-53, 91-130, 165-195, /repo/src/playback_stats.rs
    26-30, 45-53, 92-133.  The render callback records (/repo/src/render/thread.rs 430-438,
    /repo/src/io/cpal.rs 652-659), other threads reset and read.  Every atomic operation is one step; steps of
    different threads interleave (the relaxed operations are taken to be sequentially consistent). *)
From Coq Require Import List ZArith Bool.
From Verif Require Import Arith_Model.
Import ListNotations.
Local Open Scope Z_scope.

Definition u64_MAX : Z := 2 ^ 64 - 1.
(** fetch_add wraps around *)
Definition wrap (x : Z) : Z := x mod 2 ^ 64.

(** 9-24 *)
Record stats := mk_stats {
  callback_count : Z; render_total : Z; budget_total : Z; underrun_count : Z; peak_load : Z; underrun_total : Z; underrun_events : Z;
  previous_underrun : bool; latest_latency : Z; latency_sum : Z; latency_count : Z; latency_min : Z; latency_max : Z }.
(** 47-65 *)
Definition new_stats : stats := mk_stats 0 0 0 0 0 0 0 false 0 0 0 u64_MAX 0.
(** 26-38 *)
Record snapshot := mk_snapshot {
  s_callbacks : Z; s_render : Z; s_budget : Z; s_underruns : Z; s_duration : Z; s_events : Z; s_sum : Z; s_count : Z; s_min : Z; s_max : Z }.
Definition no_snapshot : snapshot := mk_snapshot 0 0 0 0 0 0 0 0 0 0.

(** The shared memory, with the local variables of the recording thread ([fresh], 88) and of the other one
    ([current], 125; the snapshot it builds, 133-153; the peak load it took, 156). *)
Record memory := mk_memory { shared : stats; fresh : bool; current : Z; snap : snapshot; taken_peak : Z }.

Inductive micro :=
  (* the recording thread *)
  | Add_callback | Add_render (r : Z) | Add_budget (b : Z) | Max_peak (ppm : Z) | Add_underrun | Add_duration (d : Z) | Swap_previous | Add_event | Clear_previous
  | Store_latest (n : Z) | Add_sum (n : Z) | Add_count | Fetch_min (n : Z) | Fetch_max (n : Z)
  (* the other thread *)
  | Load_latest | Store_sum | Store_count | Store_min | Store_max
  | Read_min | Read_callbacks | Read_render | Read_budget | Read_underruns | Read_duration | Read_events | Read_sum | Read_count | Read_max | Swap_peak.

Definition set_shared (m : memory) (s : stats) : memory := mk_memory s (fresh m) (current m) (snap m) (taken_peak m).
Definition set_snap (m : memory) (s : snapshot) : memory := mk_memory (shared m) (fresh m) (current m) s (taken_peak m).
Definition exec (m : memory) (op : micro) : memory :=
  let 'mk_stats cb rt bt uc pl ut ue pv ll ls lc mi ma := shared m in
  let 'mk_snapshot scb sr sb su sd se ss sc smi sma := snap m in
  match op with
  | Add_callback => set_shared m (mk_stats (wrap (cb + 1)) rt bt uc pl ut ue pv ll ls lc mi ma)             (* 68 *)
  | Add_render r => set_shared m (mk_stats cb (wrap (rt + r)) bt uc pl ut ue pv ll ls lc mi ma)             (* 69-71 *)
  | Add_budget b => set_shared m (mk_stats cb rt (wrap (bt + b)) uc pl ut ue pv ll ls lc mi ma)             (* 72-74 *)
  | Max_peak p => set_shared m (mk_stats cb rt bt uc (Z.max pl p) ut ue pv ll ls lc mi ma)                  (* 79-81 *)
  | Add_underrun => set_shared m (mk_stats cb rt bt (wrap (uc + 1)) pl ut ue pv ll ls lc mi ma)             (* 86 *)
  | Add_duration d => set_shared m (mk_stats cb rt bt uc pl (wrap (ut + d)) ue pv ll ls lc mi ma)           (* 87-89 *)
  | Swap_previous => mk_memory (mk_stats cb rt bt uc pl ut ue true ll ls lc mi ma) (negb pv) (current m) (snap m) (taken_peak m)  (* 90 *)
  | Add_event => if fresh m then set_shared m (mk_stats cb rt bt uc pl ut (wrap (ue + 1)) pv ll ls lc mi ma) else m              (* 90-94 *)
  | Clear_previous => set_shared m (mk_stats cb rt bt uc pl ut ue false ll ls lc mi ma)                     (* 96 *)
  | Store_latest n => set_shared m (mk_stats cb rt bt uc pl ut ue pv n ls lc mi ma)                         (* 111-113 *)
  | Add_sum n => set_shared m (mk_stats cb rt bt uc pl ut ue pv ll (wrap (ls + n)) lc mi ma)                (* 114-116 *)
  | Add_count => set_shared m (mk_stats cb rt bt uc pl ut ue pv ll ls (wrap (lc + 1)) mi ma)                (* 117 *)
  | Fetch_min n => set_shared m (mk_stats cb rt bt uc pl ut ue pv ll ls lc (Z.min mi n) ma)                 (* 118-120 *)
  | Fetch_max n => set_shared m (mk_stats cb rt bt uc pl ut ue pv ll ls lc mi (Z.max ma n))                 (* 121-123 *)
  | Load_latest => mk_memory (shared m) (fresh m) ll (snap m) (taken_peak m)                                (* 127 *)
  | Store_sum => set_shared m (mk_stats cb rt bt uc pl ut ue pv ll (current m) lc mi ma)                    (* 128 *)
  | Store_count => set_shared m (mk_stats cb rt bt uc pl ut ue pv ll ls 1 mi ma)                            (* 129 *)
  | Store_min => set_shared m (mk_stats cb rt bt uc pl ut ue pv ll ls lc (current m) ma)                    (* 130 *)
  | Store_max => set_shared m (mk_stats cb rt bt uc pl ut ue pv ll ls lc mi (current m))                    (* 131 *)
  | Read_min => set_snap m (mk_snapshot scb sr sb su sd se ss sc (if mi =? u64_MAX then 0 else mi) sma)     (* 135, 149-153 *)
  | Read_callbacks => set_snap m (mk_snapshot cb sr sb su sd se ss sc smi sma)                              (* 137 *)
  | Read_render => set_snap m (mk_snapshot scb rt sb su sd se ss sc smi sma)                                (* 138 *)
  | Read_budget => set_snap m (mk_snapshot scb sr bt su sd se ss sc smi sma)                                (* 139 *)
  | Read_underruns => set_snap m (mk_snapshot scb sr sb uc sd se ss sc smi sma)                             (* 140 *)
  | Read_duration => set_snap m (mk_snapshot scb sr sb su ut se ss sc smi sma)                              (* 141-144 *)
  | Read_events => set_snap m (mk_snapshot scb sr sb su sd ue ss sc smi sma)                                (* 145 *)
  | Read_sum => set_snap m (mk_snapshot scb sr sb su sd se ls sc smi sma)                                   (* 146 *)
  | Read_count => set_snap m (mk_snapshot scb sr sb su sd se ss lc smi sma)                                 (* 147 *)
  | Read_max => set_snap m (mk_snapshot scb sr sb su sd se ss sc smi ma)                                    (* 154 *)
  | Swap_peak => mk_memory (mk_stats cb rt bt uc 0 ut ue pv ll ls lc mi ma) (fresh m) (current m) (snap m) pl (* 158 *)
  end.
Definition exec_all (m : memory) (l : list micro) : memory := fold_left exec l m.
Definition new_memory : memory := mk_memory new_stats false 0 no_snapshot 0.

(** 75-78: the load of one callback in millionths *)
Definition load_ppm (render budget : Z) : Z := if budget =? 0 then 0 else Z.min u64_MAX (render * 1000000) / budget.
(** 67-98 *)
Definition callback_program (render budget : Z) : list micro :=
  let late := Z.max 0 (render - budget) in
  [Add_callback; Add_render render; Add_budget budget; Max_peak (load_ppm render budget)] ++
  (if 0 <? late then [Add_underrun; Add_duration late; Swap_previous; Add_event] else [Clear_previous]).
(** 110-124 *)
Definition latency_program (n : Z) : list micro := [Store_latest n; Add_sum n; Add_count; Fetch_min n; Fetch_max n].
(** 126-132 *)
Definition reset_program : list micro := [Load_latest; Store_sum; Store_count; Store_min; Store_max].
(** 134-156 *)
Definition snapshot_program : list micro := [Read_min; Read_callbacks; Read_render; Read_budget; Read_underruns; Read_duration; Read_events; Read_sum; Read_count; Read_max].

(** Operations *)
Inductive op := Callback (render budget : Z) | Latency (n : Z) | Reset.
Definition program (o : op) : list micro := match o with Callback r b => callback_program r b | Latency n => latency_program n | Reset => reset_program end.
(** operations one after the other, then a snapshot *)
Definition after (m : memory) (ops : list op) : memory := exec_all m (flat_map program ops).
Definition snapshot_of (m : memory) : snapshot := snap (exec_all m snapshot_program).

Section Seconds.
Context {T V : Type} (A : arith T V).
(** 100-108: the nanoseconds recorded for a latency in seconds, if any *)
Definition latency_ns (latency : T) : option Z :=
  if negb (t_finite A latency) || t_lt A latency (t_zero A) then None else Some (t_to_Z A (t_round A (t_mul A latency (t_of_Z A 1000000000)))).
(** 182-184 *)
Definition ns_to_seconds (ns : Z) : T := t_div A (t_of_Z A ns) (t_of_Z A 1000000000).
(** 167-171: checked_div *)
Definition average_ns (s : snapshot) : Z := if s_count s =? 0 then 0 else s_sum s / s_count s.
Definition average_seconds (s : snapshot) : T := if s_count s =? 0 then t_zero A else ns_to_seconds (s_sum s / s_count s).
(** 173-179 *)
Definition minimum_seconds (s : snapshot) : T := ns_to_seconds (s_min s).
Definition maximum_seconds (s : snapshot) : T := ns_to_seconds (s_max s).

(** capacity.rs 41-53 *)
Record capacity_event := mk_event { average_load : T; peak : T; underrun_ratio : T }.
Definition hundred : T := t_of_Z A 100.
Definition new_event (average peak ratio : T) : capacity_event :=
  mk_event (t_div A (t_round A (t_mul A average hundred)) hundred) (t_div A (t_round A (t_mul A peak hundred)) hundred) (t_div A (t_ceil A (t_mul A ratio hundred)) hundred).
(** capacity.rs 165-195 and stats.rs 157-159; saturating_sub is [Z.max 0] *)
Definition render_capacity_event (previous next : snapshot) (peak_ppm : Z) : capacity_event :=
  let callbacks := Z.max (Z.max 0 (s_callbacks next - s_callbacks previous)) 1 in
  let render := Z.max 0 (s_render next - s_render previous) in
  let budget := Z.max 0 (s_budget next - s_budget previous) in
  let underruns := Z.max 0 (s_underruns next - s_underruns previous) in
  let average := if budget =? 0 then t_zero A else t_div A (t_of_Z A render) (t_of_Z A budget) in
  new_event average (t_div A (t_of_Z A peak_ppm) (t_of_Z A 1000000)) (t_div A (t_of_Z A underruns) (t_of_Z A callbacks)).
End Seconds.
Arguments average_load {T}. Arguments peak {T}. Arguments underrun_ratio {T}.

(** playback_stats.rs 26-30: the values shown to the user, and when they were read (nanoseconds of a clock) *)
Record exposed {X : Type} := mk_exposed { values : X; last_update : option Z }.
Arguments exposed : clear implicits.
Definition update_interval : Z := 1000000000.
(** 103-114: [running] and [fresh_values] are what the context says at that time *)
Definition current_values {X} (e : exposed X) (now : Z) (running : bool) (fresh_values : X) : exposed X * X :=
  let due := match last_update e with None => true | Some last => update_interval <=? now - last end in
  let e' := if running && due then mk_exposed X fresh_values (Some now) else e in
  (e', values e').
(** 92-95, 116-120 *)
Definition refresh {X} (e : exposed X) (now : Z) (fresh_values : X) : exposed X := mk_exposed X fresh_values (Some now).
