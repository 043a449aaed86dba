(** The ConvolverNode: theorems.

    C58 The output of a ConvolverNode is the linear convolution of its input with the (scaled) impulse response, in
    the channel configuration of the specification, for any history of mono and stereo input and of silence.
    C59 The equal power normalization scales the response by a finite positive gain that makes its power constant. *)
From Coq Require Import List Arith Bool ZArith Reals Lia Lra.
From Flocq Require Import BinarySingleNaN.
From Verif Require Import Float_Model Common_Model Quantum_Model Arith_Model Arith_Real Route_Spec Conv_Model Conv_Spec Conv_Proofs Conv_IeeeProofs.
Import ListNotations.
Local Open Scope R_scope.

(** * C58 *)
(** Exact arithmetic, any engine that convolves. The response has 1, 2 or 4 channels of [len] frames and replaces
    whatever the node had before; then come quanta of mono or stereo input, silent or not. Their left output is
    always the convolution; so is the right output for a response of 2 or 4 channels, and for a mono response if
    the input is always mono or always stereo. *)
Theorem C58_convolution_partial : forall (E : Type) size fresh (run : E -> list R -> E * list R), convolves size fresh run ->
  forall normalize (rate : R) len (chs : list (list R)) before u qs,
  In (length chs) [1; 2; 4]%nat -> Forall (fun c : list R => length c = len) chs -> Forall (fit size u) qs ->
  let irs := map (map (fun x => x * (if (normalize : bool) then normalize_buffer exact rate len chs else 1))) chs in
  exists m outs, set_buffer exact fresh normalize rate rate len chs = Ok m /\ conv_run exact size run (on_message before m) qs = Ok outs /\ length outs = length qs /\
    heard 0 (map fst outs) = map (expected irs (heard 0 (ins qs)) (heard 1 (ins qs)) 0) (seq 0 (size * length qs)) /\
    (u <> Mixed \/ (1 < length chs)%nat -> heard 1 (map fst outs) = map (expected irs (heard 0 (ins qs)) (heard 1 (ins qs)) 1) (seq 0 (size * length qs))).
Proof.
  intros E size fresh run engine normalize rate len chs before u qs Ch F Q irs. assert (Ch' : existsb (Nat.eqb (length chs)) [1; 2; 4]%nat = true) by (apply existsb_exists; exists (length chs); split; [exact Ch|apply Nat.eqb_refl]).
  destruct (set_buffer_good size fresh run engine u normalize rate len chs before Ch' F) as (m & E1 & G). fold irs in G. destruct (node_run size fresh run engine len u irs qs _ [] [] G Q) as (outs & E2 & Ln & H0 & H1).
  exists m, outs. split; [exact E1|]. split; [exact E2|]. split; [exact Ln|]. assert (Li : length irs = length chs) by apply map_length.
  rewrite wet_expected with (n := (size * length qs)%nat) in H0 by (try rewrite Li; try apply (heard_length size _ qs u); try lia; assumption). split; [exact H0|]. intros X.
  rewrite <- wet_expected with (c := 1%nat) by (try rewrite Li; try apply (heard_length size _ qs u); try lia; assumption). apply H1. unfold right_ok. rewrite Li. exact X.
Qed.
Print Assumptions C58_convolution_partial.

(** There is such an engine: the sum itself. *)
Lemma direct_feed size ir : forall bs b, Forall (fun b => length b = size) (bs ++ [b]) -> feed direct_run (direct_fresh ir) bs = (ir, concat bs).
Proof.
  intros bs b F. unfold feed, direct_fresh. assert (H : forall bs h, fold_left (fun e b => fst (direct_run e b)) bs (ir, h) = (ir, h ++ concat bs)). { induction bs0 as [|x bs0 IH]; intros h; cbn; [rewrite app_nil_r; reflexivity|]. rewrite IH, app_assoc. reflexivity. }
  apply H.
Qed.
Example C58_engine : forall size, convolves size direct_fresh direct_run.
Proof.
  intros size ir bs b F. rewrite (direct_feed size ir bs b F). cbn [direct_run fst snd]. rewrite concat_app. cbn [concat]. rewrite app_nil_r. apply Forall_app in F. destruct F as (_ & F). apply Forall_cons_iff in F. destruct F as (-> & _). reflexivity.
Qed.

(** a stereo response, mono input for one quantum, then stereo input, then silence *)
Definition flat (name : nat) (x : R) : chan R := mk_chan name [x; 0].
Definition three : list (nat * list (chan R) * list (chan R)) :=
  [(10%nat, [flat 1 3], [flat 0 0]); (20%nat, [flat 2 5; flat 3 7], [flat 0 0]); (30%nat, [flat 0 0], [flat 0 0])].
Lemma three_fit : Forall (fit 2 Mixed) three.
Proof.
  unfold three. repeat apply Forall_cons; try apply Forall_nil; (split; [split; [cbn; auto|]|split; [exact I|discriminate]]); cbn [fst snd]; repeat apply Forall_cons; try apply Forall_nil; (split; [reflexivity|]); try discriminate; intros _; repeat constructor.
Qed.
Example C58_three : Forall (fit 2 Mixed) three /\
  match set_buffer exact direct_fresh false 44100 44100 4 [[1; 0; 0; 2]; [0; 1; 0; 0]] with
  | Ok m => match conv_run exact 2 direct_run (on_message conv_new m) three with
            | Ok outs => heard 0 (map fst outs) = [3; 0; 5; 6; 0; 10] /\ heard 1 (map fst outs) = [0; 3; 0; 7; 0; 0]
            | _ => False end
  | _ => False end.
Proof.
  split.
  - exact three_fit.
  - destruct (C58_convolution_partial _ 2 direct_fresh direct_run (C58_engine 2) false 44100 4 [[1; 0; 0; 2]; [0; 1; 0; 0]] conv_new Mixed three) as (m & outs & E1 & E2 & _ & H0 & H1).
    + cbn. auto.
    + repeat constructor.
    + exact three_fit.
    + rewrite E1, E2. rewrite H0, H1 by (right; cbn; lia). split; cbn; unfold convolution, sum; cbn; repeat (f_equal; try lra).
Qed.

(** A mono response: when the stereo input stops, the input is mono silence, and the rest of the right channel is
    lost; the left one is heard on both sides. Here the response delays by one frame, the last frame before the
    silence is 3 left and 5 right. *)
Definition stop : list (nat * list (chan R) * list (chan R)) :=
  [(10%nat, [mk_chan 1 (repeat 0 127 ++ [3]); mk_chan 2 (repeat 0 127 ++ [5])], [mk_chan 0 (repeat 0 128)]); (20%nat, [mk_chan 0 (repeat 0 128)], [mk_chan 0 (repeat 0 128)])].
Theorem C58_stereo_tail_refuted :
  match set_buffer exact direct_fresh false 44100 44100 2 [[0; 1]] with
  | Ok m => match conv_run exact 128 direct_run (on_message conv_new m) stop with
            | Ok outs => nth 128 (heard 1 (map fst outs)) 0 = 3 /\ expected [[0; 1]] (heard 0 (ins stop)) (heard 1 (ins stop)) 1 128 = 5
            | _ => False end
  | _ => False end.
Proof.
  destruct (C58_convolution_partial _ 128 direct_fresh direct_run (C58_engine 128) false 44100 2 [[0; 1]] conv_new Mixed stop) as (m & outs & E1 & E2 & Ln & H0 & _).
  - cbn. auto.
  - repeat constructor.
  - assert (Z : forall n, Forall (fun x => x = 0) (repeat 0 n)) by (intros n; apply Forall_forall; intros x X; apply repeat_spec in X; exact X).
    unfold stop. constructor; [|constructor; [|constructor]]; (split; [split; [cbn; auto|]|split; [exact I|discriminate]]); cbn [fst snd]; repeat constructor; cbn [c_val c_name]; try apply repeat_length; try discriminate; try (intros _; apply Z); rewrite app_length, repeat_length; reflexivity.
  - rewrite E1, E2. split.
    + assert (Sh : exists a o2 f2, outs = [a; (o2, f2)] /\ length o2 = 1%nat /\ length (side 1 (fst a)) = 128%nat /\ length (side 0 (fst a)) = 128%nat).
      { unfold set_buffer in E1. cbn [v_eq exact] in E1. unfold R_eq in E1. destruct (Req_EM_T 44100 44100); [|contradiction]. cbn [check bind] in E1. vm_compute in E1. injection E1 as <-. vm_compute in E2. injection E2 as <-. do 3 eexists. repeat split. }
      destruct Sh as (a & o2 & f2 & -> & L2 & La & Lb). change (heard 1 (map fst [a; (o2, f2)])) with (side 1 (fst a) ++ side 1 o2 ++ []). rewrite app_nil_r, app_nth2 by lia. rewrite La. replace (side 1 o2) with (side 0 o2) by (unfold side; rewrite L2; reflexivity).
      change (heard 0 (map fst [a; (o2, f2)])) with (side 0 (fst a) ++ side 0 o2 ++ []) in H0. rewrite app_nil_r in H0.
      assert (H : nth 128 (side 0 (fst a) ++ side 0 o2) 0 = 3). { rewrite H0. rewrite nth_indep with (d' := expected (map (map (fun x => x * 1)) [[0; 1]]) (heard 0 (ins stop)) (heard 1 (ins stop)) 0 0) by (rewrite map_length, seq_length; cbn; lia). rewrite map_nth, seq_nth by (cbn; lia). cbn [Nat.add]. cbn [expected map]. unfold convolution, sum. cbn. lra. }
      rewrite app_nth2 in H by lia. rewrite Lb in H. exact H.
    + cbn [expected]. unfold convolution, sum. cbn. lra.
Qed.
Print Assumptions C58_stereo_tail_refuted.

(** For any arithmetic and any engine: the channels of the output have arrays of their own, or the output is one silent channel and the node says it has nothing more to say. *)
Lemma named_names : forall V (l : list (list V)) s, map c_name (named s l) = seq s (length (named s l)).
Proof. intros V. induction l as [|v l IH]; intros s; [reflexivity|]. cbn [named map c_name length seq]. rewrite IH. reflexivity. Qed.
Theorem C58_own_arrays : forall T V (A : arith T V) (E : Type) size (run : E -> list V -> E * list V) st s input output st' o more,
  c_engines st <> None -> conv_process A size run st s input output = Ok (st', o, more) ->
  if (more : bool) then map c_name o = seq s (length o) else is_silent input = true /\ (c_length st <= c_tail st)%nat /\ o = [mk_chan 0 (repeat (v_zero A) size)].
Proof.
  intros T V A E size run st s input output st' o more Hs. unfold conv_process. destruct (is_silent input && _) eqn:S.
  - unfold make_silent. destruct output as [|c output]; [discriminate|]. cbn [from_option bind]. intros [= <- <- <-]. apply andb_true_iff in S. destruct S as [S1 S2]. apply Nat.leb_le in S2. auto.
  - destruct (c_engines st) as [es|]; [|congruence]. destruct (match map c_val input with [] => _ | _ => _ end) as [r| |]; try discriminate. cbn [bind]. intros [= <- <- <-]. apply named_names.
Qed.
Print Assumptions C58_own_arrays.
(** Without a response, no input means no output. *)
Theorem C58_no_buffer_silence : forall T V (A : arith T V) (E : Type) size (run : E -> list V -> E * list V) s input output, is_silent input = true -> output <> [] ->
  conv_process A size run conv_new s input output = Ok (conv_new, [mk_chan 0 (repeat (v_zero A) size)], false).
Proof. intros T V A E size run s input output H O. unfold conv_process. rewrite H. cbn. destruct output; [congruence|reflexivity]. Qed.
Print Assumptions C58_no_buffer_silence.

(** A node without a response hands its input on unchanged (the specification asks for silence). *)
Theorem C58_no_buffer_refuted : forall (E : Type) size (run : E -> list R -> E * list R) s c output, c_name c <> 0%nat ->
  conv_process exact size run conv_new s [c] output = Ok (conv_new, [c], true).
Proof. intros E size run s c output H. unfold conv_process, is_silent. cbn [existsb]. unfold chan_is_silent. apply Nat.eqb_neq in H. rewrite H. reflexivity. Qed.
Print Assumptions C58_no_buffer_refuted.

(** * C59 *)
(** In exact arithmetic the gain is the calibration, over the root mean square of the response (at least 1/8000). *)
Theorem C59_gain : forall rate len chs,
  normalize_buffer exact rate len chs = / Rmax (1 / 8000) (rms chs len) * (1 / 800) * (44100 / rate) * (if (length chs =? 4)%nat then 1 / 2 else 1).
Proof. exact normalize_value. Qed.
Print Assumptions C59_gain.

(** The root mean square of the scaled response does not depend on the response, unless it is too quiet. *)
Lemma sqrt_scale k x : 0 <= k -> 0 <= x -> sqrt (k * k * x) = k * sqrt x.
Proof. intros K X. rewrite sqrt_mult by nra. rewrite sqrt_square by exact K. reflexivity. Qed.
Lemma squares_scale k : forall l, fold_right Rplus 0 (map (fun x => x * x) (map (fun x => x * k) l)) = k * k * fold_right Rplus 0 (map (fun x => x * x) l).
Proof. induction l as [|x l IH]; cbn; [ring|]. rewrite IH. ring. Qed.
Lemma squares_pos : forall l, 0 <= fold_right Rplus 0 (map (fun x => x * x) l).
Proof. induction l as [|x l IH]; cbn; [lra|]. nra. Qed.
Theorem C59_constant_power : forall rate len chs, 0 < rate -> (0 < len)%nat -> chs <> [] -> 1 / 8000 <= rms chs len ->
  rms (map (map (fun x => x * normalize_buffer exact rate len chs)) chs) len = 1 / 800 * (44100 / rate) * (if (length chs =? 4)%nat then 1 / 2 else 1).
Proof.
  intros rate len chs Hr Hl Hc Hp. set (k := normalize_buffer exact rate len chs).
  assert (Nz : 0 < INR (length chs * len)) by (apply lt_0_INR; destruct chs; [contradiction|cbn; lia]).
  assert (K : k = / rms chs len * (1 / 800) * (44100 / rate) * (if (length chs =? 4)%nat then 1 / 2 else 1)). { unfold k. rewrite C59_gain, Rmax_right by exact Hp. reflexivity. }
  assert (Kp : 0 <= k). { rewrite K. assert (0 < / rms chs len) by (apply Rinv_0_lt_compat; lra). assert (0 < 44100 / rate) by (apply Rdiv_lt_0_compat; lra). apply Rmult_le_pos; [|destruct (length chs =? 4)%nat; lra]. apply Rmult_le_pos; [|lra]. apply Rmult_le_pos; lra. }
  unfold rms at 1. rewrite map_length. rewrite <- concat_map, squares_scale. unfold Rdiv at 1. rewrite Rmult_assoc. rewrite sqrt_scale; [|exact Kp|apply Rmult_le_pos; [apply squares_pos|left; apply Rinv_0_lt_compat; exact Nz]].
  change (k * rms chs len = 1 / 800 * (44100 / rate) * (if (length chs =? 4)%nat then 1 / 2 else 1)). rewrite K. field. split; lra.
Qed.
Print Assumptions C59_constant_power.
Example C59_case : rms [[3; 4]] 2 = sqrt (25 / 2) /\ 1 / 8000 <= rms [[3; 4]] 2.
Proof.
  assert (H : rms [[3; 4]] 2 = sqrt (25 / 2)) by (unfold rms; cbn; f_equal; lra). split; [exact H|]. rewrite H. apply Rsqr_incr_0_var; [|apply sqrt_pos]. rewrite Rsqr_sqrt by lra. unfold Rsqr. lra.
Qed.

(** In floating point arithmetic it is finite and positive for every buffer whatever, also one of NaN and infinities,
    at every sample rate a context can have. *)
Theorem C59_finite : forall M (rate : f32) len (chs : list (list f32)), is_finite rate = true -> 3000 <= B2R rate <= 768000 ->
  is_finite (normalize_buffer (ieee M) rate len chs) = true /\ 0 < B2R (normalize_buffer (ieee M) rate len chs) <= 256.
Proof. exact scale_positive. Qed.
Print Assumptions C59_finite.
