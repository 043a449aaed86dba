(** C75: device ids. C76: the stream of a context. C77: the latency hint. *)
From Coq Require Import List Arith Bool ZArith String Reals Lra Lia.
From Flocq Require Import Core BinarySingleNaN.
From Verif Require Import Common_Model Float_Model Buffer_Model Mic_Model Device_Model Device_Spec Device_IdProofs Device_SizeProofs Device_ContextProofs.
Import ListNotations.
Open Scope Z_scope.

(** ** A host for the examples *)
Definition kind_code (k : kind) : Z := match k with VideoInput => 0 | AudioInput => 1 | AudioOutput => 2 end.
(** kind, name and number of channels in different places; names differ in length *)
Definition hash0 (k : kind) (name : string) (c i : Z) : Z := kind_code k + 4 * (i + 256 * (c + 65536 * Z.of_nat (String.length name))).
Definition out_device (hardware : nat) (name : string) (c rate : Z) (accepts : stream -> bool) : device :=
  mk_device hardware (Some name) None (Some (mk_defaults c rate (Some (64, 8192)))) accepts true.
Definition speakers := out_device 1 "speakers" 2 44100 (fun _ => true).
Definition usb := out_device 2 "usb" 8 48000 (fun s => s_rate s =? 48000).
Definition usb' := out_device 3 "usb" 8 48000 (fun s => s_rate s =? 48000).
Definition broken := out_device 4 "broken" 2 44100 (fun _ => false).
Definition mic := mk_device 5 (Some "mic"%string) (Some (mk_defaults 1 48000 None)) None (fun _ => true) true.
Definition host0 := mk_host (Some [mic]) (Some [speakers; usb; usb'; broken]) (Some mic) (Some speakers).
(** after [usb] has been unplugged *)
Definition host1 := mk_host (Some [mic]) (Some [speakers; usb'; broken]) (Some mic) (Some speakers).
Definition id_of_usb (i : Z) : Z := hash0 AudioOutput "usb" 8 i.
Definition id_of_broken : Z := hash0 AudioOutput "broken" 2 0.

Ltac hosts_apart :=
  unfold tells_apart; intros k d k' d' w w' i i' H H' E E' Hi Hi' Eq;
  cbn in H, H';
  repeat match goal with H : _ \/ _ |- _ => destruct H as [H | H] end; try contradiction;
  repeat match goal with H : (_, _) = (_, _) |- _ => injection H as <- <- end;
  cbn in E, E'; injection E as <-; injection E' as <-; unfold hash0 in Eq; cbn [fst snd kind_code String.length] in Eq;
  (split; [first [reflexivity | exfalso; lia] | lia]).
Example host0_apart : tells_apart hash0 host0.
Proof. hosts_apart. Qed.
Example host1_apart : tells_apart hash0 host1.
Proof. hosts_apart. Qed.

(** ** C75 *)
(** no two devices of the list have the same id, whatever the hash function *)
Theorem C75_distinct : forall hash h l, enumerate hash h = Ok l -> NoDup (map i_id l).
Proof. exact enumerate_distinct. Qed.
Print Assumptions C75_distinct.
(** The list has one entry for each device that can be used, in order, with its kind
    and its name, and the id depends only on kind, name, number of channels and the
    number of devices of the same kind, name and number of channels before it. *)
Theorem C75_entries : forall hash h l, tells_apart hash h -> try_enumerate hash h = Ok (inr l) ->
  List.length l = List.length (devices h) /\
  forall i k d, nth_error (devices h) i = Some (k, d) ->
    exists name c, d_name d = Some name /\ default_of k d = Some c /\
      nth_error l i = Some (mk_info (hash k name (f_channels c) (Z.of_nat (count (k, name, f_channels c) (firstn i (devices h))))) k name).
Proof. exact enumerate_ids. Qed.
Print Assumptions C75_entries.
(** the id in an entry selects the device of this entry *)
Theorem C75_selects : forall hash h l i k d e, tells_apart hash h -> try_enumerate hash h = Ok (inr l) ->
  nth_error (devices h) i = Some (k, d) -> nth_error l i = Some e -> device_for_id hash h k (i_id e) = Ok (inr (Some d)).
Proof. exact enumerate_selects. Qed.
Print Assumptions C75_selects.
(** any other id selects nothing *)
Theorem C75_unknown : forall hash h l k id, tells_apart hash h -> try_enumerate hash h = Ok (inr l) ->
  (forall e, In e l -> i_kind e = k -> i_id e <> id) -> device_for_id hash h k id = Ok (inr None).
Proof. exact enumerate_misses. Qed.
Print Assumptions C75_unknown.
(** Listing the devices always ends, without a panic, if there are at most 256
    devices of the same kind, name and number of channels. *)
Theorem C75_total_partial : forall hash h, tells_apart hash h -> few_twins h -> exists l, enumerate hash h = Ok l.
Proof. exact enumerate_no_panic. Qed.
Print Assumptions C75_total_partial.
Example C75_case : exists l, try_enumerate hash0 host0 = Ok (inr l) /\ map i_id l = [hash0 AudioInput "mic" 1 0; hash0 AudioOutput "speakers" 2 0; id_of_usb 0; id_of_usb 1; id_of_broken].
Proof. eexists. split; vm_compute; reflexivity. Qed.
Example C75_case_few : few_twins host0.
Proof.
  intros w. assert (forall l, (count w l <= List.length l)%nat) as G.
  { unfold count. induction l as [|x l IH]; cbn [filter List.length]; [lia|]. destruct (match model_of _ _ with Some w' => _ | None => _ end); cbn [List.length]; lia. }
  eapply Nat.le_trans; [apply G|]. vm_compute. lia.
Qed.

(** A 257th device of the same kind, name and number of channels: the index, a u8,
    overflows. *)
Definition copies (n : nat) := mk_host (Some []) (Some (repeat usb n)) None (Some usb).
Lemma copies_apart : forall n, tells_apart hash0 (copies n).
Proof.
  intros n. unfold tells_apart. intros k d k' d' w w' i i' H H' E E' Hi Hi' Eq.
  assert (forall kd, In kd (devices (copies n)) -> kd = (AudioOutput, usb)) as G.
  { intros kd Hk. unfold devices in Hk. apply in_app_or in Hk. destruct Hk as [[] | Hk]. cbn [copies h_out] in Hk.
    apply usable_in in Hk. destruct Hk as (E1 & E2 & _). apply repeat_spec in E2. destruct kd as [a b]. cbn in E1, E2. subst. reflexivity. }
  apply G in H. apply G in H'. injection H as -> ->. injection H' as -> ->. cbn in E, E'. injection E as <-. injection E' as <-. unfold hash0 in Eq. cbn [fst snd kind_code String.length] in Eq.
  split; [reflexivity | lia].
Qed.
Lemma copies_257 : match enumerate hash0 (copies 257) with Panic => true | _ => false end = true.
Proof. vm_compute. reflexivity. Qed.
Theorem C75_many_refuted : exists hash h, tells_apart hash h /\ enumerate hash h = Panic.
Proof.
  exists hash0, (copies 257). split; [apply copies_apart|].
  pose proof copies_257 as T. destruct (enumerate hash0 (copies 257)); [discriminate T | reflexivity | discriminate T].
Qed.
Print Assumptions C75_many_refuted.
(** Ids are not tied to the hardware: when one of two equal devices is unplugged, the
    other one takes over its id and loses its own. *)
Theorem C75_unplug_refuted : exists hash h h' before after d d' id id',
  tells_apart hash h /\ tells_apart hash h' /\ h_out h = Some (before ++ d :: d' :: after) /\ h_out h' = Some (before ++ d' :: after) /\
  d_hardware d <> d_hardware d' /\
  device_for_id hash h AudioOutput id = Ok (inr (Some d)) /\ device_for_id hash h AudioOutput id' = Ok (inr (Some d')) /\
  device_for_id hash h' AudioOutput id = Ok (inr (Some d')) /\ device_for_id hash h' AudioOutput id' = Ok (inr None).
Proof.
  exists hash0, host0, host1, [speakers], [broken], usb, usb', (id_of_usb 0), (id_of_usb 1).
  split; [exact host0_apart|]. split; [exact host1_apart|]. split; [reflexivity|]. split; [reflexivity|]. split; [discriminate|].
  repeat split; vm_compute; reflexivity.
Qed.
Print Assumptions C75_unplug_refuted.

(** ** C76 *)
(** What a new context reports is what its render thread and its stream work with.
    The rate is the one asked for (without its fraction), or else the device has
    refused it and works at its default rate. *)
Theorem C76_new : forall hash h h' o x, try_new hash h h' o = Ok (inr x) ->
  x_rate x = b_rate (x_backend x) /\ x_channels x = b_channels (x_backend x) /\ x_graph x = true /\ x_state x = Running /\
  b_sink (x_backend x) = o_sink o /\ fits (x_backend x) /\
  match b_stream (x_backend x) with Some (d, s) => as_asked o d s | None => x_rate x = match o_rate o with Some r => r | None => f32_lit 48000 0 end end.
Proof. exact new_ok. Qed.
Print Assumptions C76_new.
(** whatever the user does afterwards, render thread and stream agree *)
Theorem C76_agree : forall hash ops x x', run hash x ops = Ok x' -> fits (x_backend x) ->
  fits (x_backend x') /\ x_rate x' = x_rate x /\ x_channels x' = x_channels x.
Proof. exact run_facts. Qed.
Print Assumptions C76_agree.
(** With well-behaved devices nothing is lost and the rate the context reports stays
    the rate of its render thread: no call panics or waits for ever. *)
Theorem C76_kept_partial : forall hash n ops x, x_graph x = true -> fits (x_backend x) -> b_rate (x_backend x) = x_rate x -> whole (x_rate x) n ->
  Forall (fun o => match o with D_sink h h' _ => well_behaved hash n h /\ well_behaved hash n h' | _ => True end) ops ->
  exists x', run hash x ops = Ok x' /\ x_graph x' = true /\ fst (b_renderer (x_backend x')) = x_rate x' /\ x_rate x' = x_rate x.
Proof.
  intros hash n ops x Hg Hf Hr Hw H. destruct (run_works hash n ops x (conj Hg (conj Hf (conj Hr Hw))) H) as (x' & E & Hg' & Hf' & Hr' & _).
  exists x'. split; [exact E|]. split; [exact Hg'|]. destruct (run_facts hash ops x x' E Hf) as (_ & R & _). split; [|exact R].
  rewrite (proj1 Hf'). exact Hr'.
Qed.
Print Assumptions C76_kept_partial.
(** an id that is not accepted changes nothing *)
Theorem C76_refused : forall hash h h' x s x', set_sink hash h h' x s = Ok (Some E_sink, x') -> x' = x.
Proof. exact refused_same. Qed.
Print Assumptions C76_refused.
(** A change that succeeds leads to the device asked for, and keeps graph, state and
    rate, if the host does not change during the call. *)
Theorem C76_change : forall hash h x s x', set_sink hash h h x s = Ok (None, x') -> x_state x <> Closed -> b_sink (x_backend x) <> s ->
  x_graph x' = true /\ x_state x' = x_state x /\ b_sink (x_backend x') = s /\ x_rate x' = x_rate x /\
  match s with
  | S_none => b_stream (x_backend x') = None
  | S_default => exists d st, h_default_out h = Some d /\ b_stream (x_backend x') = Some (d, st)
  | S_named id => tells_apart hash h -> exists l i d e st, try_enumerate hash h = Ok (inr l) /\
      nth_error (devices h) i = Some (AudioOutput, d) /\ nth_error l i = Some e /\ i_id e = id /\ b_stream (x_backend x') = Some (d, st)
  end.
Proof. exact change_ok. Qed.
Print Assumptions C76_change.
(** a microphone: the device asked for when the list of devices has an input of this
    id, and the default device when none is asked for or the list has none of this id *)
Theorem C76_microphone_named : forall hash h t id i l e0, t_device t = Some (S_named id) -> get_user_media hash h h (Some t) = Ok (inr i) ->
  tells_apart hash h -> try_enumerate hash h = Ok (inr l) -> In e0 l -> i_kind e0 = AudioInput -> i_id e0 = id ->
  exists j e, nth_error (devices h) j = Some (AudioInput, n_device i) /\ nth_error l j = Some e /\ i_id e = id.
Proof. exact input_named_listed. Qed.
Print Assumptions C76_microphone_named.
Theorem C76_microphone_default : forall hash h h' t i, get_user_media hash h h' t = Ok (inr i) ->
  match t with
  | Some t =>
      match t_device t with
      | Some (S_named id) => forall l e, try_enumerate hash h = Ok (inr l) -> In e l -> i_kind e = AudioInput -> i_id e <> id
      | _ => True
      end
  | None => True
  end -> h_default_in h' = Some (n_device i).
Proof. exact input_default_unlisted. Qed.
Print Assumptions C76_microphone_default.
(** what a microphone reports is what its stream delivers; the stream was opened
    with the rate, latency and number of channels asked for, or else this was
    refused and it has the defaults of the device *)
Theorem C76_microphone_stream : forall hash h h' t i, get_user_media hash h h' t = Ok (inr i) ->
  let channels := match t with Some t => t_channels t | None => None end in
  match channels with Some n => 0 <= n < 65536 | None => True end ->
  n_channels i = s_channels (n_stream i) /\ n_rate i = f32_of_Z (s_rate (n_stream i)) /\ d_plays (n_device i) = true /\
  heard_as_asked (match t with Some t => options_of t | None => mk_options Interactive None S_default end) channels (n_device i) (n_stream i).
Proof. exact input_stream. Qed.
Print Assumptions C76_microphone_stream.

(** *** Cases *)
Definition plain : options := mk_options Interactive None S_default.
(** a context at 44100 Hz on the speakers *)
Definition after (o : options) (k : context -> bool) : bool := match try_new hash0 host0 host0 o with Ok (inr x) => k x | _ => false end.
Lemma after_spec : forall o k, after o k = true -> exists x, try_new hash0 host0 host0 o = Ok (inr x) /\ k x = true.
Proof. intros o k. unfold after. destruct (try_new hash0 host0 host0 o) as [[e|x]| |]; try discriminate. intros H. exists x. auto. Qed.
Definition calm := mk_host (Some [mic]) (Some [speakers]) (Some mic) (Some speakers).
Example C76_case_calm : well_behaved hash0 44100 calm.
Proof.
  assert (works 44100 speakers) as W.
  { split; [discriminate|]. split; [reflexivity|]. eexists. split; [reflexivity|]. split; [cbn; lia | reflexivity]. }
  split; [hosts_apart|]. split; [eexists; vm_compute; reflexivity|]. split; [exists speakers; split; [reflexivity | exact W]|].
  intros d H. cbn in H. destruct H as [H | [H | []]]; [discriminate|]. injection H as <-. exact W.
Qed.
Definition whole44100 : whole (f32_of_Z 44100) 44100.
Proof. destruct (Float_BoundProofs.of_Z_exact 24 128 f32_prec f32_emax 44100 ltac:(cbn; lia)) as [A B]. split; [exact B | split; [exact A | lia]]. Qed.
Example C76_case : exists x, try_new hash0 host0 host0 plain = Ok (inr x) /\ x_graph x = true /\ fits (x_backend x) /\ b_rate (x_backend x) = x_rate x /\ whole (x_rate x) 44100.
Proof.
  assert (after plain (fun x => match b_stream (x_backend x) with Some (d, s) => (s_rate s =? 44100) | None => false end) = true) as T by (vm_compute; reflexivity).
  apply after_spec in T. destruct T as (x & E & T). exists x. destruct (new_ok _ _ _ _ _ E) as (R & _ & G & _ & _ & F & _).
  split; [exact E|]. split; [exact G|]. split; [exact F|]. split; [symmetry; exact R|].
  destruct F as [_ F]. destruct (b_stream (x_backend x)) as [[d s]|]; [|discriminate]. apply Z.eqb_eq in T. destruct F as [_ F].
  rewrite R, <- F, T. exact whole44100.
Qed.
Example C76_case_change : exists x x', try_new hash0 host0 host0 plain = Ok (inr x) /\ set_sink hash0 host0 host0 x (S_named (id_of_usb 1)) = Ok (None, x') /\
  option_map (fun ds => d_hardware (fst ds)) (b_stream (x_backend x')) = Some 3%nat.
Proof.
  assert (after plain (fun x => match set_sink hash0 host0 host0 x (S_named (id_of_usb 1)) with
    | Ok (None, x') => match b_stream (x_backend x') with Some (d, _) => Nat.eqb (d_hardware d) 3 | None => false end | _ => false end) = true) as T by (vm_compute; reflexivity).
  apply after_spec in T. destruct T as (x & E & T). exists x.
  destruct (set_sink hash0 host0 host0 x (S_named (id_of_usb 1))) as [[[e|] x']| |] eqn:E'; try discriminate.
  exists x'. split; [exact E|]. split; [reflexivity|]. destruct (b_stream (x_backend x')) as [[d s]|]; [|discriminate]. cbn. f_equal. apply Nat.eqb_eq. exact T.
Qed.

(** *** Findings *)
(** After a change to a device that does not work at the rate of the context, the
    render thread works at another rate than the context reports. *)
Theorem C76_rate_refuted : exists hash h o x s x', try_new hash h h o = Ok (inr x) /\ set_sink hash h h x s = Ok (None, x') /\
  f32_eq (fst (b_renderer (x_backend x'))) (x_rate x') = false.
Proof.
  exists hash0, host0, plain.
  assert (after plain (fun x => match set_sink hash0 host0 host0 x (S_named (id_of_usb 0)) with
    | Ok (None, x') => negb (f32_eq (fst (b_renderer (x_backend x'))) (x_rate x')) | _ => false end) = true) as T by (vm_compute; reflexivity).
  apply after_spec in T. destruct T as (x & E & T). exists x, (S_named (id_of_usb 0)).
  destruct (set_sink hash0 host0 host0 x (S_named (id_of_usb 0))) as [[[e|] x']| |]; try discriminate.
  exists x'. split; [exact E|]. split; [reflexivity|]. apply negb_true_iff. exact T.
Qed.
Print Assumptions C76_rate_refuted.
(** So it is after a change from the "none" sink at a rate with a fraction, though the
    device accepts every configuration. *)
Theorem C76_fraction_refuted : exists hash h o x x', try_new hash h h o = Ok (inr x) /\ (forall st, d_accepts speakers st = true) /\ h_default_out h = Some speakers /\
  set_sink hash h h x S_default = Ok (None, x') /\ f32_eq (fst (b_renderer (x_backend x'))) (x_rate x') = false.
Proof.
  exists hash0, host0, (mk_options Interactive (Some (f32_lit 88201 (-1))) S_none).
  assert (after (mk_options Interactive (Some (f32_lit 88201 (-1))) S_none) (fun x => match set_sink hash0 host0 host0 x S_default with
    | Ok (None, x') => negb (f32_eq (fst (b_renderer (x_backend x'))) (x_rate x')) | _ => false end) = true) as T by (vm_compute; reflexivity).
  apply after_spec in T. destruct T as (x & E & T). exists x.
  destruct (set_sink hash0 host0 host0 x S_default) as [[[e|] x']| |]; try discriminate.
  exists x'. split; [exact E|]. split; [reflexivity|]. split; [reflexivity|]. split; [reflexivity|]. apply negb_true_iff. exact T.
Qed.
Print Assumptions C76_fraction_refuted.
(** The number of channels the context reports (the greatest channel count of its
    destination) is that of the first device, not of the present one. *)
Theorem C76_channels_refuted : exists hash h o x s x', try_new hash h h o = Ok (inr x) /\ set_sink hash h h x s = Ok (None, x') /\
  snd (b_renderer (x_backend x')) <> x_channels x'.
Proof.
  exists hash0, host0, plain.
  assert (after plain (fun x => match set_sink hash0 host0 host0 x S_none with
    | Ok (None, x') => negb (snd (b_renderer (x_backend x')) =? x_channels x') | _ => false end) = true) as T by (vm_compute; reflexivity).
  apply after_spec in T. destruct T as (x & E & T). exists x, S_none.
  destruct (set_sink hash0 host0 host0 x S_none) as [[[e|] x']| |]; try discriminate.
  exists x'. split; [exact E|]. split; [reflexivity|]. apply negb_true_iff in T. apply Z.eqb_neq in T. exact T.
Qed.
Print Assumptions C76_channels_refuted.
(** A change to a listed device that cannot be opened reports an error, but by then the
    old stream is closed and the graph is gone: the context stays silent, it still
    names the old device, and resuming it or changing to a good device waits for ever. *)
Theorem C76_failed_change_refuted : exists hash h o x s e x', try_new hash h h o = Ok (inr x) /\ x_state x = Running /\
  set_sink hash h h x s = Ok (Some e, x') /\ x_graph x' = false /\ b_sink (x_backend x') = b_sink (x_backend x) /\
  resume x' = Stuck /\ set_sink hash h h x' S_none = Stuck.
Proof.
  exists hash0, host0, plain.
  assert (after plain (fun x => match set_sink hash0 host0 host0 x (S_named id_of_broken) with
    | Ok (Some e, x') => negb (x_graph x') && sink_eqb (b_sink (x_backend x')) (b_sink (x_backend x)) && match resume x' with Stuck => true | _ => false end && match set_sink hash0 host0 host0 x' S_none with Stuck => true | _ => false end
    | _ => false end) = true) as T by (vm_compute; reflexivity).
  apply after_spec in T. destruct T as (x & E & T). exists x, (S_named id_of_broken).
  destruct (set_sink hash0 host0 host0 x (S_named id_of_broken)) as [[[e|] x']| |]; try discriminate.
  exists e, x'. apply andb_true_iff in T. destruct T as [T T4]. apply andb_true_iff in T. destruct T as [T T3]. apply andb_true_iff in T. destruct T as [T1 T2].
  split; [exact E|]. split; [apply (new_ok _ _ _ _ _ E)|]. split; [reflexivity|]. split; [apply negb_true_iff; exact T1|]. split; [apply sink_eqb_eq; exact T2|].
  split; [destruct (resume x'); try discriminate; reflexivity|]. destruct (set_sink hash0 host0 host0 x' S_none); try discriminate; reflexivity.
Qed.
Print Assumptions C76_failed_change_refuted.
(** A device that disappears between the check of its id and its selection: the default
    device is opened under its name. *)
Definition gone := mk_host (Some [mic]) (Some [speakers]) (Some mic) (Some speakers).
Theorem C76_gone_refuted : exists hash h h' o x d s, try_new hash h h' o = Ok (inr x) /\ b_sink (x_backend x) = S_named (id_of_usb 0) /\
  device_for_id hash h AudioOutput (id_of_usb 0) = Ok (inr (Some usb)) /\ b_stream (x_backend x) = Some (d, s) /\ d_hardware d <> d_hardware usb.
Proof.
  exists hash0, host0, gone, (mk_options Interactive None (S_named (id_of_usb 0))).
  assert (match try_new hash0 host0 gone (mk_options Interactive None (S_named (id_of_usb 0))) with
    | Ok (inr x) => match b_stream (x_backend x) with Some (d, s) => negb (Nat.eqb (d_hardware d) 2) | None => false end | _ => false end = true) as T by (vm_compute; reflexivity).
  destruct (try_new hash0 host0 gone (mk_options Interactive None (S_named (id_of_usb 0)))) as [[e|x]| |] eqn:E; try discriminate.
  exists x. destruct (new_ok _ _ _ _ _ E) as (_ & _ & _ & _ & S & _). destruct (b_stream (x_backend x)) as [[d s]|]; [|discriminate].
  exists d, s. split; [reflexivity|]. split; [exact S|]. split; [vm_compute; reflexivity|]. split; [reflexivity|].
  apply negb_true_iff in T. apply Nat.eqb_neq in T. exact T.
Qed.
Print Assumptions C76_gone_refuted.
(** [AudioContext::try_new] is to return errors; it panics when the latency asked for is
    not positive. *)
Theorem C76_try_new_refuted : exists hash h o, o_latency o = Custom f64_zero /\ o_rate o = None /\ o_sink o = S_default /\ try_new hash h h o = Panic.
Proof. exists hash0, host0, (mk_options (Custom f64_zero) None S_default). repeat split. Qed.
Print Assumptions C76_try_new_refuted.
Definition many_channels := mk_device 6 (Some "mixer"%string) (Some (mk_defaults 33 48000 None)) None (fun _ => true) true.
Definition headset := mk_device 7 (Some "headset"%string) (Some (mk_defaults 2 48000 None)) None (fun _ => true) true.
Example C76_case_microphone : exists i, get_user_media hash0 (mk_host (Some [headset]) (Some []) (Some headset) None) (mk_host (Some [headset]) (Some []) (Some headset) None)
    (Some (mk_constraints (Some (f32_lit 16000 0)) None (Some 1) None)) = Ok (inr i) /\ n_channels i = 1 /\ s_rate (n_stream i) = 16000.
Proof.
  assert (match get_user_media hash0 (mk_host (Some [headset]) (Some []) (Some headset) None) (mk_host (Some [headset]) (Some []) (Some headset) None)
    (Some (mk_constraints (Some (f32_lit 16000 0)) None (Some 1) None)) with Ok (inr i) => (n_channels i =? 1) && (s_rate (n_stream i) =? 16000) | _ => false end = true) as T
    by (vm_compute; reflexivity).
  destruct (get_user_media hash0 _ _ _) as [[e|i]| |]; try discriminate. exists i. split; [reflexivity|].
  apply andb_true_iff in T. destruct T as [T1 T2]. split; apply Z.eqb_eq; assumption.
Qed.
(** A microphone with more than 32 channels is opened, but reading from it panics. *)
Theorem C76_input_channels_refuted : exists hash h i, get_user_media hash h h None = Ok (inr i) /\
  mic_run (mic_new (Z.to_nat (n_channels i)) (n_rate i)) [Next] = Panic.
Proof.
  exists hash0, (mk_host (Some [many_channels]) (Some []) (Some many_channels) None).
  assert (match get_user_media hash0 (mk_host (Some [many_channels]) (Some []) (Some many_channels) None) (mk_host (Some [many_channels]) (Some []) (Some many_channels) None) None with
    | Ok (inr i) => match mic_run (mic_new (Z.to_nat (n_channels i)) (n_rate i)) [Next] with Panic => true | _ => false end | _ => false end = true) as T by (vm_compute; reflexivity).
  destruct (get_user_media hash0 _ _ None) as [[e|i]| |]; try discriminate.
  exists i. split; [reflexivity|]. destruct (mic_run _ _); try discriminate; reflexivity.
Qed.
Print Assumptions C76_input_channels_refuted.

(** ** C77 *)
(** The buffer for a latency of [s] seconds is a power of two of frames, and lasts at
    least as long (up to one frame) and less than twice as long (up to two frames);
    up to 2^31 frames. *)
Theorem C77_size_partial : forall (s : f64) rate, is_finite s = true -> (0 < B2R s)%R -> 0 < rate <= 2 ^ 24 -> (B2R s * IZR rate <= IZR (2 ^ 31))%R ->
  exists k, 0 <= k <= 31 /\ buffer_size (Custom s) (f32_of_Z rate) = Ok (2 ^ k) /\
    Zfloor (B2R s * IZR rate) <= 2 ^ k < 2 * Zceil (B2R s * IZR rate) /\
    clamped_size (Custom s) rate None = Ok (2 ^ k) /\
    forall lo hi, lo <= hi -> clamped_size (Custom s) rate (Some (lo, hi)) = Ok (Z.max lo (Z.min hi (2 ^ k))).
Proof.
  intros s rate F P Hr Hx. destruct (size_custom s rate F P Hr Hx) as (k & Hk & E & B & _). exists k. split; [exact Hk|]. split; [exact E|]. split; [exact B|].
  assert (0 <= 2 ^ k < 2 ^ 32) as H. { split; [apply Z.pow_nonneg; lia | apply Z.pow_lt_mono_r; lia]. }
  unfold clamped_size. rewrite E. cbn [bind]. rewrite (as_u32_small _ H). split; [reflexivity|].
  intros lo hi L. apply Z.leb_le in L. rewrite L. reflexivity.
Qed.
Print Assumptions C77_size_partial.
(** a longer latency gives no smaller buffer *)
Theorem C77_monotone_partial : forall (s s' : f64) rate sizes n n', is_finite s = true -> is_finite s' = true -> (0 < B2R s <= B2R s')%R -> 0 < rate <= 2 ^ 24 ->
  (B2R s' * IZR rate <= IZR (2 ^ 31))%R -> clamped_size (Custom s) rate sizes = Ok n -> clamped_size (Custom s') rate sizes = Ok n' -> n <= n'.
Proof.
  intros s s' rate sizes n n' F F' B Hr Hx E E'. unfold clamped_size in E, E'.
  apply bind_ok in E. destruct E as (k & Ek & E). apply bind_ok in E'. destruct E' as (k' & Ek' & E').
  destruct (size_mono s s' rate k k' F F' B Hr Hx Ek Ek') as [L U].
  assert (0 <= k) as K.
  { destruct (size_custom s rate F (proj1 B) Hr) as (j & Hj & Ej & _); [|rewrite Ej in Ek; injection Ek as <-; apply Z.pow_nonneg; lia].
    assert (0 < IZR rate)%R by (apply IZR_lt; lia). apply Rle_trans with (B2R s' * IZR rate)%R; [apply Rmult_le_compat_r; lra | exact Hx]. }
  rewrite as_u32_small in E by lia. rewrite as_u32_small in E' by lia.
  destruct sizes as [[lo hi]|].
  - apply bind_ok in E. destruct E as (_ & _ & E). apply bind_ok in E'. destruct E' as (_ & _ & E'). injection E as <-. injection E' as <-. lia.
  - injection E as <-. injection E' as <-. exact L.
Qed.
Print Assumptions C77_monotone_partial.
(** the named hints, in this order *)
Theorem C77_hints : forall rate, buffer_size Interactive rate = Ok 128 /\ buffer_size Balanced rate = Ok 512 /\ buffer_size Playback rate = Ok 1024.
Proof. intros. repeat split. Qed.
Print Assumptions C77_hints.
Example C77_case : exists s : f64, is_finite s = true /\ (0 < B2R s)%R /\ (B2R s * IZR 48000 <= IZR (2 ^ 31))%R /\ clamped_size (Custom s) 48000 (Some (64, 8192)) = Ok 8192
  /\ clamped_size (Custom (f64_lit 1 (-5))) 48000 (Some (64, 8192)) = Ok 2048.
Proof.
  exists (f64_of_Z 1). destruct (Float_BoundProofs.of_Z_exact 53 1024 f64_prec f64_emax 1 ltac:(cbn; lia)) as [A B].
  change (binary_normalize 53 1024 f64_prec f64_emax mode_NE 1 0 false) with (f64_of_Z 1) in A, B. rewrite A.
  split; [exact B|]. split; [lra|]. split; [rewrite Rmult_1_l; apply IZR_le; lia|]. split; vm_compute; reflexivity.
Qed.
(** Beyond that the number of frames is cut to 32 bits: a latency of a day gives the
    smallest buffer of the device. *)
Theorem C77_long_refuted : exists (s s' : f64) rate lo hi n n', f64_lt s s' = true /\ 3000 <= rate <= 768000 /\
  clamped_size (Custom s) rate (Some (lo, hi)) = Ok n /\ clamped_size (Custom s') rate (Some (lo, hi)) = Ok n' /\ n' < n.
Proof. exists (f64_of_Z 1), (f64_of_Z 100000), 48000, 64, 8192, 8192, 64. repeat split; try lia; vm_compute; reflexivity. Qed.
Print Assumptions C77_long_refuted.
(** A still longer latency makes the rounding to a power of two overflow. *)
Theorem C77_panic_refuted : exists (s : f64) rate, is_finite s = true /\ f64_lt f64_zero s = true /\ 3000 <= rate <= 768000 /\ clamped_size (Custom s) rate None = Panic.
Proof. exists (f64_of_Z (2 ^ 60)), 48000. repeat split; try lia; vm_compute; reflexivity. Qed.
Print Assumptions C77_panic_refuted.
