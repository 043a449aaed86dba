(** Model of the audio devices: their ids, the choice of a device and of the
    configuration of its stream, and the change of the output device of a
    context.

    Source: src/media_devices/mod.rs 13-250, src/io/mod.rs 151-300,
    src/io/cpal.rs 109-520 and 564-625, src/io/none.rs 79-120,
    src/context/online.rs 26-35, 233-300 and 365-447.

    The host (cpal) and the hardware are given: the lists of devices, their
    default configurations and which stream configurations they accept.  Every
    call reads the host anew, so calls take the host as an argument; where the
    code reads it twice (first to validate an id, then to look the device up)
    there are two arguments.  Only the cpal backend, which is the default
    feature of the crate, and the "none" sink are modelled here (for cubeb see Cubeb_Model.v), and not
    the exception for Android (cpal.rs 285-292).  Resuming, suspending and
    closing an open stream succeed. *)
From Coq Require Import List Arith Bool ZArith String.
From Verif Require Import Common_Model Float_Model Buffer_Model.
Import ListNotations.
Open Scope Z_scope.

(** ** Devices *)
(** media_devices/mod.rs 75-80 *)
Inductive kind := VideoInput | AudioInput | AudioOutput.
(** cpal's SupportedStreamConfig: channels (u16), rate (u32), range of buffer sizes (u32) if known *)
Record defaults := mk_defaults { f_channels : Z; f_rate : Z; f_sizes : option (Z * Z) }.
(** cpal's StreamConfig: no buffer size stands for BufferSize::Default *)
Record stream := mk_stream { s_channels : Z; s_rate : Z; s_size : option Z }.
(** A device: which piece of hardware it is, what its driver answers to
    [description], [default_input_config], [default_output_config] (none: an
    error), [build_input_stream]/[build_output_stream] and [play]. *)
Record device := mk_device {
  d_hardware : nat;
  d_name : option string;
  d_in : option defaults;
  d_out : option defaults;
  d_accepts : stream -> bool;
  d_plays : bool }.
(** the host's lists (none: an error) and default devices *)
Record host := mk_host { h_in : option (list device); h_out : option (list device); h_default_in : option device; h_default_out : option device }.

(** errors handed to the caller, cpal.rs and online.rs 37-41 *)
Inductive error := E_enumerate | E_name | E_no_device | E_config | E_stream | E_play | E_sink | E_rate.
Definition outcome A := res (error + A).
Definition fine {A} (a : A) : outcome A := Ok (inr a).
Definition fail {A} (e : error) : outcome A := Ok (inl e).
(** the [?] operator *)
Definition attempt {A B} (r : outcome A) (f : A -> outcome B) : outcome B :=
  do x <- r; match x with inl e => fail e | inr a => f a end.
Notation "'try' x <- r ; e" := (attempt r (fun x => e)) (at level 200, x pattern, r at level 100, e at level 200).
Definition or_error {A} (e : error) (o : option A) : outcome A := match o with Some a => fine a | None => fail e end.

Section Ids.
(** [DeviceId::as_string] without the formatting, which is injective: the hash of
    kind, name, number of channels and index (media_devices/mod.rs 36-71) *)
Variable hash : kind -> string -> Z -> Z -> Z.

(** The ids the user passes: "" (the default device), "none", or any other text.
    Text that is no decimal number is represented by a negative number. *)
Inductive sink := S_default | S_none | S_named (id : Z).

(** cpal.rs 163-188 and 590-616: the first index whose id is not taken.  [index] is
    a u8: after 256 steps the addition overflows (with overflow checks off the
    loop goes round for ever). *)
Fixpoint unused (steps : nat) (id : Z -> Z) (index : Z) (taken : list Z) : res Z :=
  match steps with
  | O => Panic
  | S n => if existsb (Z.eqb (id index)) taken then unused n id (index + 1) taken else Ok (id index)
  end.
Definition stable_id (k : kind) (name : string) (channels : Z) (taken : list Z) : res Z :=
  unused 256 (hash k name channels) 0 taken.

(** cpal.rs 141-147 *)
Definition default_of (k : kind) (d : device) : option defaults :=
  match k with AudioInput => d_in d | AudioOutput => d_out d | VideoInput => None end.

(** media_devices/mod.rs 83-89 *)
Record info := mk_info { i_id : Z; i_kind : kind; i_label : string }.
(** cpal.rs 587-622: the loop over the devices of one kind, [list] in reverse order *)
Fixpoint enumerate_loop (k : kind) (ds : list device) (list : list info) : outcome (List.list info) :=
  match ds with
  | [] => fine list
  | d :: ds' =>
      match default_of k d with
      | None => enumerate_loop k ds' list
      | Some c =>
          try name <- or_error E_name (d_name d);
          do id <- stable_id k name (f_channels c) (map i_id list);
          enumerate_loop k ds' (mk_info id k name :: list)
      end
  end.
(** cpal.rs 564-625 *)
Definition try_enumerate (h : host) : outcome (list info) :=
  try ins <- or_error E_enumerate (h_in h);
  try outs <- or_error E_enumerate (h_out h);
  try l <- enumerate_loop AudioInput ins [];
  try l' <- enumerate_loop AudioOutput outs l;
  fine (rev l').
(** media_devices/mod.rs 18-23: errors give the empty list *)
Definition enumerate (h : host) : res (list info) :=
  do r <- try_enumerate h; Ok (match r with inl _ => [] | inr l => l end).

(** cpal.rs 109-139 *)
Fixpoint lookup_loop (k : kind) (ds : list device) (id : Z) (seen : list Z) : outcome (option device) :=
  match ds with
  | [] => fine None
  | d :: ds' =>
      match default_of k d with
      | None => lookup_loop k ds' id seen
      | Some c =>
          try name <- or_error E_name (d_name d);
          do this <- stable_id k name (f_channels c) seen;
          if this =? id then fine (Some d) else lookup_loop k ds' id (this :: seen)
      end
  end.
Definition device_for_id (h : host) (k : kind) (id : Z) : outcome (option device) :=
  try ds <- match k with
            | AudioInput => or_error E_enumerate (h_in h)
            | AudioOutput => or_error E_enumerate (h_out h)
            | VideoInput => fine []
            end;
  lookup_loop k ds id [].

Definition kind_eqb (a b : kind) : bool :=
  match a, b with VideoInput, VideoInput | AudioInput, AudioInput | AudioOutput, AudioOutput => true | _, _ => false end.
Definition listed (k : kind) (id : Z) (l : list info) : bool := existsb (fun i => kind_eqb (i_kind i) k && (i_id i =? id)) l.
(** online.rs 26-35 *)
Definition is_valid_sink (h : host) (s : sink) : res bool :=
  match s with
  | S_default | S_none => Ok true
  | S_named id => do l <- enumerate h; Ok (listed AudioOutput id l)
  end.
(** media_devices/mod.rs 178-187; "none" is no input device *)
Definition is_valid_input (h : host) (s : sink) : res bool :=
  match s with
  | S_default => Ok true
  | S_none => Ok false
  | S_named id => do l <- enumerate h; Ok (listed AudioInput id l)
  end.

(** ** Stream configuration *)
(** online.rs 76-92 *)
Inductive latency := Balanced | Interactive | Playback | Custom (seconds : f64).
(** [usize::next_power_of_two], with overflow checks *)
Definition next_power_of_two (n : Z) : res Z := if n <=? 2 ^ 63 then Ok (2 ^ Z.log2_up n) else Panic.
(** io/mod.rs 260-289 *)
Definition buffer_size (l : latency) (rate : f32) : res Z :=
  match l with
  | Interactive => Ok 128
  | Balanced => Ok 512
  | Playback => Ok 1024
  | Custom s =>
      do _ <- check (f64_lt f64_zero s);
      next_power_of_two (f64_to_usize (f64_mul s (f64_of_f32 rate)))
  end.
(** [as u32] of an unsigned integer *)
Definition as_u32 (n : Z) : Z := n mod 2 ^ 32.
(** [as u16] *)
Definition as_u16 (n : Z) : Z := n mod 2 ^ 16.
(** [x as u32] of a float *)
Definition f32_to_u32 (x : f32) : Z := Z.min (2 ^ 32 - 1) (f32_to_usize x).
(** cpal.rs 277-283 and 439-447, [Ord::clamp] asserts min <= max *)
Definition clamped_size (l : latency) (rate : Z) (sizes : option (Z * Z)) : res Z :=
  do n <- buffer_size l (f32_of_Z rate);
  match sizes with
  | None => Ok (as_u32 n)
  | Some (lo, hi) => do _ <- check (lo <=? hi); Ok (Z.max lo (Z.min hi (as_u32 n)))
  end.

(** online.rs 105-130 *)
Record options := mk_options { o_latency : latency; o_rate : option f32; o_sink : sink }.
(** cpal.rs 266-270 *)
Definition chosen_rate (o : option f32) (default : Z) : res Z :=
  match o with None => Ok default | Some r => do _ <- check (is_valid_sample_rate r); Ok (f32_to_u32 r) end.
Definition default_stream (channels : Z) (c : defaults) : stream := mk_stream channels (f_rate c) None.

(** The backend of a context: what it reports (io/cpal.rs 192-198), the stream that
    was opened on which device (none for the "none" sink), and the rate and the
    number of channels its render thread was made with. *)
Record backend := mk_backend {
  b_rate : f32; b_channels : Z; b_sink : sink;
  b_stream : option (device * stream);
  b_renderer : f32 * Z }.

(** cpal.rs 220-243 and 405-428 *)
Definition select (h : host) (k : kind) (default : option device) (s : sink) : outcome device :=
  match s with
  | S_default => or_error E_no_device default
  | S_none => or_error E_no_device default
  | S_named id =>
      try d <- device_for_id h k id;
      or_error E_no_device (match d with Some d => Some d | None => default end)
  end.

(** cpal.rs 200-383; [S_none] is not passed to this function *)
Definition build_output_cpal (h : host) (o : options) : outcome backend :=
  try d <- select h AudioOutput (h_default_out h) (o_sink o);
  try _ <- or_error E_name (d_name d);
  try c <- or_error E_config (d_out d);
  let channels := Z.min (f_channels c) 32 in
  do rate <- chosen_rate (o_rate o) (f_rate c);
  do size <- clamped_size (o_latency o) rate (f_sizes c);
  let preferred := mk_stream channels rate (Some size) in
  let fallback := default_stream channels c in
  try s <- (if d_accepts d preferred then fine preferred
            else if d_accepts d fallback then fine fallback else fail E_stream);
  if d_plays d
  then fine (mk_backend (f32_of_Z (s_rate s)) channels (o_sink o) (Some (d, s)) (f32_of_Z (s_rate s), s_channels s))
  else fail E_play.
(** none.rs 79-120, sample_rate 185, number_of_channels 190, sink_id 202 *)
Definition build_output_none (o : options) : backend :=
  let rate := match o_rate o with Some r => r | None => f32_lit 48000 0 end in
  mk_backend rate 32 S_none None (rate, 32).
(** io/mod.rs 151-175 *)
Definition build_output (h : host) (o : options) : outcome backend :=
  match o_sink o with S_none => fine (build_output_none o) | _ => build_output_cpal h o end.

(** A microphone: the reported rate and number of channels, which are also those of
    the stream's reader and of the device's callback, and the stream *)
Record input := mk_input { n_rate : f32; n_channels : Z; n_device : device; n_stream : stream }.
(** cpal.rs 385-519 *)
Definition build_input (h : host) (o : options) (channels : option Z) : outcome input :=
  try d <- select h AudioInput (h_default_in h) (o_sink o);
  try _ <- or_error E_name (d_name d);
  try c <- or_error E_config (d_in d);
  let n := match channels with Some n => as_u16 n | None => f_channels c end in
  do rate <- chosen_rate (o_rate o) (f_rate c);
  do size <- clamped_size (o_latency o) rate (f_sizes c);
  let preferred := mk_stream n rate (Some size) in
  let fallback := default_stream (f_channels c) c in
  try s <- (if d_accepts d preferred then fine preferred
            else if d_accepts d fallback then fine fallback else fail E_stream);
  if d_plays d then fine (mk_input (f32_of_Z (s_rate s)) (s_channels s) d s) else fail E_play.
(** media_devices/mod.rs 129-175: the constraints of a track; none stands for MediaStreamConstraints::Audio *)
Record constraints := mk_constraints { t_rate : option f32; t_latency : option f64; t_channels : option Z; t_device : option sink }.
Definition options_of (t : constraints) : options :=
  mk_options (match t_latency t with Some v => Custom v | None => Interactive end) (t_rate t) (match t_device t with Some s => s | None => S_default end).
(** media_devices/mod.rs 228-250; an error becomes a panic in [get_user_media_sync] *)
Definition get_user_media (h h' : host) (t : option constraints) : outcome input :=
  let '(channels, o) := match t with None => (None, mk_options Interactive None S_default) | Some t => (t_channels t, options_of t) end in
  do valid <- is_valid_input h (o_sink o);
  build_input h' (if valid then o else mk_options (o_latency o) (o_rate o) S_default) channels.

(** ** The context and its output device *)
Inductive state := Suspended | Running | Closed.
(** [x_rate] and [x_channels] are what the context reports, fixed when it is made;
    [x_graph]: the audio graph is held by the render thread of the backend or is
    on its way to it. *)
Record context := mk_context { x_rate : f32; x_channels : Z; x_backend : backend; x_graph : bool; x_state : state }.

(** online.rs 233-300: the state is the one after the render thread has started *)
Definition try_new (h h' : host) (o : options) : outcome context :=
  do valid <- is_valid_sink h (o_sink o);
  if valid then
    if match o_rate o with Some r => is_valid_sample_rate r | None => true end then
      try b <- build_output h' o;
      fine (mk_context (b_rate b) (b_channels b) b true Running)
    else fail E_rate
  else fail E_sink.

Definition sink_eqb (a b : sink) : bool :=
  match a, b with S_default, S_default | S_none, S_none => true | S_named i, S_named j => i =? j | _, _ => false end.
(** online.rs 365-447: what the caller is told, and the context afterwards.  The
    graph is asked from the render thread; when there is none, the answer is
    waited for for ever ([Stuck]). *)
Definition set_sink (h h' : host) (x : context) (s : sink) : res (option error * context) :=
  if sink_eqb (b_sink (x_backend x)) s then Ok (None, x)
  else
    do valid <- is_valid_sink h s;
    if negb valid then Ok (Some E_sink, x)
    else match x_state x with
         | Closed => Ok (None, x)
         | _ =>
             if negb (x_graph x) then Stuck
             else
               do r <- build_output h' (mk_options Interactive (Some (x_rate x)) s);
               match r with
               | inr b => Ok (None, mk_context (x_rate x) (x_channels x) b true (x_state x))
               | inl e => Ok (Some e, mk_context (x_rate x) (x_channels x) (x_backend x) false Suspended)
               end
         end.
(** online.rs 710-747 and 662-708 (resume_sync, suspend_sync): they wait for the render thread *)
Definition resume (x : context) : res context :=
  match x_state x with
  | Suspended => if x_graph x then Ok (mk_context (x_rate x) (x_channels x) (x_backend x) true Running) else Stuck
  | _ => Ok x
  end.
Definition suspend (x : context) : res context :=
  match x_state x with
  | Running => if x_graph x then Ok (mk_context (x_rate x) (x_channels x) (x_backend x) true Suspended) else Stuck
  | _ => Ok x
  end.
(** online.rs 749-790 (close_sync) *)
Definition close (x : context) : context := mk_context (x_rate x) (x_channels x) (x_backend x) (x_graph x) Closed.

(** What a user does with a context; [D_sink] comes with the host as it is at the
    two times the call looks at it. *)
Inductive op := D_sink (h h' : host) (s : sink) | D_resume | D_suspend | D_close.
Definition step (x : context) (o : op) : res (option error * context) :=
  match o with
  | D_sink h h' s => set_sink h h' x s
  | D_resume => do x' <- resume x; Ok (None, x')
  | D_suspend => do x' <- suspend x; Ok (None, x')
  | D_close => Ok (None, close x)
  end.
Fixpoint run (x : context) (ops : list op) : res context :=
  match ops with
  | [] => Ok x
  | o :: ops' => do r <- step x o; run (snd r) ops'
  end.
End Ids.
