(** Properties of the analyser: C33, C49, C50. *)
From Coq Require Import List Arith Bool ZArith Reals Lra Lia.
From Flocq Require Import Core BinarySingleNaN.
From Verif Require Import Float_Model Arith_Model Arith_Real Quantum_Model Quantum_Spec Route_Spec Source_Props Analyser_Model Analyser_Spec Analyser_RingProofs Analyser_Proofs Analyser_ExactProofs Analyser_IeeeProofs.
Import ListNotations.
Local Open Scope nat_scope.
#[local] Opaque max_fft_size ring_buffer_size.

(** Whatever is done to an analyser, in any order and for any arithmetic and any transform:
    the time domain data are the most recent samples of the mono signal, invalid settings are
    rejected without effect, the input is passed on, and no call fails. *)
Theorem C33_time : forall T V (A : arith T V) (fft : list V -> list (V * V)) n smoothing min max y os,
  analyser_create A n smoothing min max = Ok y -> Forall (op_fine 128) os ->
  exists y' rs, analyser_run A fft 128 y os = Ok (y', rs) /\ length rs = length os /\
    forall k o, nth_error os k = Some o ->
      exists r, nth_error rs k = Some r /\ reply A (settled (valid_smoothing A) (valid_decibels A) (mono A 128) (mk_settings [] n smoothing min max) (firstn k os)) o r.
Proof.
  intros T V A fft n s mi ma y os C F. pose proof (create_ok A 128 ltac:(rewrite ring_buffer_room; lia) n s mi ma) as H. rewrite C in H. destruct H as [H _].
  destruct (run_agrees A fft 128 ltac:(rewrite ring_buffer_room; lia) os _ y H F) as (y' & rs & E & _ & L & R). exists y', rs. auto.
Qed.
Print Assumptions C33_time.
(** A quantum passes through unchanged and the analyser does not ask to be kept alive. *)
Theorem C33_no_tail : forall T V (A : arith T V) size s input r out r' more,
  analyser_quantum A size s input r = Ok (out, r', more) -> out = input /\ more = false.
Proof.
  intros T V A size s input r out r' more H. unfold analyser_quantum in H. destruct (from_option _) as [[s' mono]| |]; try discriminate. cbn [bind] in H.
  destruct (index mono 0); try discriminate. cbn [bind] in H. destruct (ring_write _ _ _); try discriminate. cbn [bind] in H. split; congruence.
Qed.
Print Assumptions C33_no_tail.

(** An analyser is created exactly with valid settings. *)
Theorem C33_create : forall T V (A : arith T V) n smoothing min max,
  (exists y, analyser_create A n smoothing min max = Ok y) <->
  (exists k, 5 <= k <= 15 /\ n = 2 ^ k) /\ t_le A (t_zero A) smoothing = true /\ t_le A smoothing (t_one A) = true /\ t_lt A min max = true.
Proof.
  intros T V A n s mi ma. pose proof (create_ok A 128 ltac:(rewrite ring_buffer_room; lia) n s mi ma) as H. rewrite <- allowed_iff. unfold valid_smoothing, valid_decibels in H. split.
  - intros [y E]. rewrite E in H. destruct H as ([_ _ _ _ _ _ _ Ha] & Hs & Hd). apply andb_true_iff in Hs. cbn [e_fft] in Ha. tauto.
  - intros (Ha & H1 & H2 & H3). destruct (analyser_create A n s mi ma) as [y| |]; [exists y; reflexivity| |contradiction]. rewrite Ha, H1, H2, H3 in H. destruct H as [H|[H|H]]; discriminate H.
Qed.
Print Assumptions C33_create.
(** The mono signal is the one of the mixing rules, and bytes are the clipped conversion. *)
Theorem C33_exact : (forall s val q, good_quantum 128 s val q -> mono exact 128 s q = mono_signal 128 q) /\ forall x, byte_of_sample exact x = byte_of x.
Proof. split; [intros s val q; apply mono_exact|exact byte_exact]. Qed.
Print Assumptions C33_exact.
(** In floating point a byte is a byte, for NaN and infinity also. *)
Theorem C33_bytes : forall M x min max, (0 <= byte_of_sample (ieee M) x <= 255)%Z /\ (0 <= byte_of_level (ieee M) min max x <= 255)%Z.
Proof. intros M x a b. split; apply clamp_range. Qed.
Print Assumptions C33_bytes.

(** The render thread may write while the data are read, sample by sample.  A read that starts after
    [n] steps of the writer never fails, and it returns what was published when it started, if no more than
    one quantum (128 samples) is stored beyond this before it ends.  The ring buffer is larger than the
    largest read by 128 samples. *)
Theorem C33_concurrent : forall V (zero : V) len quanta n schedule, Forall (fun q => length q = 128) quanta -> len <= max_fft_size ->
  exists h1 h2, threads_run ring_buffer_size len (threads_new ring_buffer_size zero quanta) (repeat Writer n) = Ok h1 /\
    threads_run ring_buffer_size len h1 (Reader :: schedule) = Ok h2 /\
    (stored (h_writer h2) <= length (published (h_writer h1)) + 128 -> length (d_got (h_reader h2)) = len ->
     d_got (h_reader h2) = recent zero len (published (h_writer h1))).
Proof.
  intros V zero len quanta n sch Hq Hl. destruct (concurrent zero ring_buffer_size ring_buffer_pos len quanta n sch) as (h1 & h2 & E1 & E2 & _ & G).
  - rewrite Forall_forall in *. intros q Q. rewrite (Hq q Q), ring_buffer_room. lia.
  - rewrite ring_buffer_room. lia.
  - exists h1, h2. split; [exact E1|]. split; [exact E2|]. intros H1. apply G. rewrite ring_buffer_room. lia.
Qed.
Print Assumptions C33_concurrent.
(** Without this bound the property fails: a reader that is held up while two quanta are written gets new samples among the old ones. *)
Theorem C33_overtaken_refuted : exists quanta schedule, Forall (fun q => length q = 128) quanta /\
  match threads_run ring_buffer_size (Z.to_nat 32768) (threads_new ring_buffer_size 0 quanta) (Reader :: schedule) with
  | Ok h => match d_got (h_reader h) with x :: _ => x <> nth 0 (recent 0 (Z.to_nat 32768) (@nil nat)) 0 | [] => False end
  | _ => False
  end.
Proof.
  exists [repeat 1 128; repeat 1 128], (repeat Writer 260 ++ [Reader]). split; [repeat constructor; apply repeat_length|]. vm_compute. discriminate.
Qed.
Print Assumptions C33_overtaken_refuted.

(** C49: an array shorter than the data should get their beginning, and a longer one should keep its other elements. *)
Definition ones : list (chan f32) := [mk_chan 1 (repeat one32 128)].
Definition zero32 : f32 := v_zero (ieee libm_one).
(** Float data of the right size or longer are as specified (C33_time); the short array gets the end of the data instead. *)
Theorem C49_short_refuted :
  match analyser_run (ieee libm_one) (fun _ => []) 128 (analyser_new (ieee libm_one)) [Render 2 ones; FloatTime [zero32]] with
  | Ok (_, [_; Floats l]) => map (f32_eq zero32) l = [false] /\ map (f32_eq zero32) (firstn 1 (recent zero32 2048 (repeat one32 128))) = [true]
  | _ => False
  end.
Proof. vm_compute. split; reflexivity. Qed.
Print Assumptions C49_short_refuted.
Theorem C49_long : forall T V (A : arith T V) fft n smoothing min max y os dst, analyser_create A n smoothing min max = Ok y -> Forall (op_fine 128) os ->
  let e := settled (valid_smoothing A) (valid_decibels A) (mono A 128) (mk_settings [] n smoothing min max) os in e_fft e <= length dst ->
  exists y' rs, analyser_run A fft 128 y (os ++ [FloatTime dst]) = Ok (y', rs) /\
    nth_error rs (length os) = Some (Floats (recent (v_zero A) (e_fft e) (e_signal e) ++ skipn (e_fft e) dst)).
Proof.
  intros T V A fft n s mi ma y os dst C F e He. destruct (C33_time T V A fft n s mi ma y (os ++ [FloatTime dst]) C) as (y' & rs & E & L & R); [apply Forall_app; split; [exact F|constructor; [exact I|constructor]]|].
  exists y', rs. split; [exact E|]. destruct (R (length os) (FloatTime dst)) as (r & Er & Rr); [rewrite nth_error_app2, Nat.sub_diag by lia; reflexivity|]. rewrite firstn_app, Nat.sub_diag, firstn_all, app_nil_r in Rr. fold e in Rr. cbn [reply] in Rr. rewrite Nat.min_r in Rr by exact He. rewrite Er, Rr. reflexivity.
Qed.
Print Assumptions C49_long.
(** The byte data overwrite all of a longer array. *)
Theorem C49_bytes_refuted :
  match analyser_run (ieee libm_one) (fun _ => []) 128 (analyser_new (ieee libm_one)) [SetFftSize 32; ByteTime (repeat 7%Z 40)] with
  | Ok (_, [_; Bytes l]) => l = repeat 128%Z 40
  | _ => False
  end.
Proof. vm_compute. reflexivity. Qed.
Print Assumptions C49_bytes_refuted.

Local Open Scope R_scope.
(** C50: in exact arithmetic, and with the discrete Fourier transform, the frequency data are the smoothed magnitudes in decibels,
    updated once for each time of the context. *)
Theorem C50_spectrum : forall n smoothing min max y os, analyser_create exact n smoothing min max = Ok y -> Forall (op_fine 128) os ->
  exists y' rs, analyser_run exact dft 128 y os = Ok (y', rs) /\ length rs = length os /\
    forall k o, nth_error os k = Some o ->
      exists r, nth_error rs k = Some r /\ let ez := fold_left (view 128) (firstn k os) (mk_settings [] n smoothing min max, mk_spectrum (fun _ => 0) None) in answer (fst ez) (snd ez) o r.
Proof.
  intros n s mi ma y os C F. assert (S : (128 <= ring_buffer_size)%nat) by (rewrite ring_buffer_room; lia). pose proof (create_ok exact 128 S n s mi ma) as H. pose proof C as C'. rewrite C in H. destruct H as [H _].
  assert (Y : y_time y = None /\ forall k, nth k (y_last y) 0 = 0).
  { assert (forall y0 y1, y_time y0 = None /\ (forall k, nth k (y_last y0) 0 = 0) -> set_fft_size exact y0 n = Ok y1 -> y_time y1 = None /\ forall k, nth k (y_last y1) 0 = 0) as G.
    { intros y0 y1 [H1 H2] E. unfold set_fft_size, check in E. destruct (valid_fft_size n); [|discriminate E]. cbn [bind] in E. destruct (y_fft y0 =? n)%nat; injection E as <-; [auto|]. cbn [y_time y_last]. split; [exact H1|]. intros k. change (v_zero exact) with 0. destruct (nth_in_or_default k (map (fun _ => 0) (y_last y0)) 0) as [Q|Q]; [|exact Q]. apply in_map_iff in Q. destruct Q as (? & Q & _). symmetry. exact Q. }
    unfold analyser_create in C. destruct (set_fft_size exact (analyser_new exact) n) as [y1| |] eqn:Q; try discriminate C. assert (N0 : y_time (analyser_new exact) = None /\ forall k, nth k (y_last (analyser_new exact)) 0 = 0) by (split; [reflexivity|intros k; exact (nth_repeat 0 (max_fft_size / 2 + 1) k)]). specialize (G _ _ N0 Q). cbn [bind] in C. unfold set_smoothing, set_decibels, check in C. destruct (valid_smoothing exact s); [|discriminate C]. cbn [bind] in C. destruct (valid_decibels exact mi ma); [|discriminate C]. cbn [bind] in C. injection C as <-. exact G. }
  destruct Y as [Y1 Y2]. destruct (run_shows 128 S os _ (mk_spectrum (fun _ => 0) None) y (Build_shows _ (mk_spectrum (fun _ => 0) None) _ H Y1 (fun k _ => Y2 k)) F) as (y' & rs & E & L & R). exists y', rs. split; [exact E|]. split; [exact L|]. intros k o Q. destruct (R k o Q) as (r & Er & _ & An). exists r. auto.
Qed.
Print Assumptions C50_spectrum.
(** The levels of signals in [-1, 1] are at most 1, that is 0 dB. *)
Theorem C50_bounded : forall n smoothing min max os, 0 <= smoothing <= 1 -> (0 < n)%nat ->
  (forall s q, In (Render s q) os -> Forall (fun v => -1 <= v <= 1) (mono exact 128 s q)) ->
  forall now k, let ez := fold_left (view 128) os (mk_settings [] n smoothing min max, mk_spectrum (fun _ => 0) None) in 0 <= z_level (refresh (fst ez) now (snd ez)) k <= 1.
Proof.
  intros n s mi ma os Hs Hn Ho now k ez. assert (tame 128 ez) as Ht.
  { unfold ez. assert (T0 : tame 128 (mk_settings [] n s mi ma, mk_spectrum (fun _ => 0) None)) by (split; [constructor|]; split; [exact Hs|]; split; [exact Hn|]; intros j; cbn; lra). revert T0. generalize (@mk_settings R R [] n s mi ma, mk_spectrum (fun _ => 0) None). clear ez Hs Hn. induction os as [|o os IH]; intros ez T0; [exact T0|]. cbn [fold_left]. apply IH; [intros; apply (Ho s0); right; assumption|]. apply view_tame; [exact T0|]. intros s0 q ->. apply (Ho s0). left. reflexivity. }
  destruct ez as [e z]. exact (refresh_tame 128 e z now Ht k).
Qed.
Print Assumptions C50_bounded.
(** In floating point the levels are always finite, whatever is played and whatever the transform returns. *)
Theorem C50_finite : forall M fft os y' rs, analyser_run (ieee M) fft 128 (analyser_new (ieee M)) os = Ok (y', rs) -> Forall (fun v => f32_is_finite v = true) (y_last y').
Proof. intros M fft os y' rs E. refine (run_finite (ieee M) fft 128 _ os _ y' rs (new_finite (ieee M) _) E); reflexivity. Qed.
Print Assumptions C50_finite.
(** A change of the size forgets the levels, but not that there was a report at this time: until the time advances, the next report
    is that of silence, for any signal; and there are signals with another spectrum. *)
Theorem C50_resize_refuted :
  (forall T V (A : arith T V) fft e y n dst now, agrees A e y -> y_time y = Some now -> t_eq A now now = true -> allowed_size n = true -> n <> e_fft e -> length dst = (n / 2)%nat ->
   exists y', analyser_run A fft 128 y [SetFftSize n; FloatFrequency dst now] = Ok (y', [Set_; Floats (repeat (v_mul A (v_of_Z A 20) (v_log10 A (v_of_Z A 0))) (n / 2))])) /\
  0 < magnitude (recent 0 32 (repeat 1 128)) 0.
Proof. split; [intros T V A fft e y n dst now; apply resized|]. change (recent 0 32 (repeat 1 128)) with (repeat 1 32). exact constant_level. Qed.
Print Assumptions C50_resize_refuted.

(** ** Examples *)
Local Open Scope nat_scope.
(** settings are accepted and rejected *)
Example settings_checked :
  match analyser_run (ieee libm_one) (fun _ => []) 128 (analyser_new (ieee libm_one)) [SetFftSize 64; SetFftSize 48; SetFftSize 16; SetSmoothing (f64_of_Z 2); SetSmoothing (f64_of_Z 1); SetMin (f64_of_Z 0)] with
  | Ok (_, rs) => rs = [Set_; Rejected; Rejected; Rejected; Set_; Rejected]
  | _ => False
  end.
Proof. vm_compute. reflexivity. Qed.
(** the ring wraps around: 3 samples in a ring of 5, several times *)
Example wraps : match (do r <- ring_write 5 (ring_new 5 0) [1; 2; 3]; do r <- ring_write 5 r [4; 5; 6]; ring_read 5 r [0; 0; 0; 0; 9] 4) with Ok l => l = [3; 4; 5; 6; 9] | _ => False end.
Proof. reflexivity. Qed.
(** a read while a quantum is being written *)
Example concurrent_read :
  match threads_run 8 4 (threads_new 8 0 [[1; 2; 3; 4]; [5; 6; 7; 8]]) (repeat Writer 6 ++ [Reader; Writer; Reader; Writer; Writer; Reader; Writer; Reader; Reader]) with
  | Ok h => d_got (h_reader h) = [1; 2; 3; 4] /\ stored (h_writer h) = 7 /\ published (h_writer h) = [1; 2; 3; 4]
  | _ => False
  end.
Proof. vm_compute. auto. Qed.
Example valid_creation : exists y, analyser_create exact 2048 (8 / 10)%R (-100)%R (-30)%R = Ok y.
Proof.
  apply C33_create. split; [exists 11; split; [lia|reflexivity]|]. cbn [exact t_le t_lt t_zero t_one t_of_Z]. unfold R_le, R_lt. repeat match goal with |- context [Rle_dec ?a ?b] => destruct (Rle_dec a b) as [?|N]; [|exfalso; apply N; unfold t_zero, t_one; cbn; lra] end. destruct (Rlt_dec _ _) as [?|N]; [|exfalso; apply N; lra]. auto.
Qed.
