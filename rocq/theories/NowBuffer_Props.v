(** C100, for buffer sources: a buffer played at the current time.

    Source: /repo/src/node/audio_buffer_source.rs (Absn_Model.v), concrete_base.rs 416-418 (Clock_Model.v). *)
From Coq Require Import List Arith Bool ZArith Lia Reals Lra.
From Flocq Require Import Core BinarySingleNaN.
From Verif Require Import Float_Model Float_Proofs Float_BoundProofs Arith_Model Buffer_Model Buffer_ResampleProofs Source_Model Source_Proofs Source_ClockProofs Source_Props Absn_Model Absn_Spec Absn_Props.
From Verif Require Import Clock_Model Clock_Spec Clock_Proofs Clock_Props Now_Proofs.
Import ListNotations.
Local Open Scope R_scope.

(** A thread has read the clock at any moment of any run, and plays a buffer (of the rate of the context, at playback rate 1) from the time read.  The messages arrive,
    in either order, before block [m].  Then frame [i] of block [m + k] is sample [128 k + i] of the buffer, bit for bit, and silence after its end.  The ended event is
    sent once, in the last block of the sound or, if the sound ends with a block, in this or the next one. *)
Theorem C100_buffer_now_partial : forall M sr (chs : list (list f32)) L almost_equal almost_zero fuel, rate_ok sr -> (0 < L)%nat /\ (Z.of_nat L <= 2 ^ 30)%Z ->
  chs <> [] /\ Forall (fun ch => length ch = L) chs -> m64_exp2 M (f64_of_Z 0) = f64_of_Z 1 ->
  forall l s r m n (swap : bool), acts (start sr) l = Some s -> Forall (fun a => forall x, a = New_stream x -> x = sr) l -> In r (readings s) -> (Clock_Model.quanta s <= m)%nat ->
  (Z.of_nat n <= 2 ^ 21)%Z -> seconds sr (m + n + 1) <= 8388608 ->
  let go := A_start (shown r) (f64_of_Z 0) f64_MAX in let buffer := A_buffer (mk_buffer chs sr) in let quanta k := repeat (A_quantum (f32_of_Z 1) (f32_of_Z 0)) k in
  exists s' os e, absn_run (ieee M) (thread_rate s) almost_equal almost_zero fuel (absn_new (ieee M) false (f64_of_Z 0) (f64_of_Z 0)) 0
      (quanta m ++ (if swap then [buffer; go] else [go; buffer]) ++ quanta n) = Ok (s', (128 * Z.of_nat (m + n))%Z, os) /\
    length os = (m + n)%nat /\ (128 * e <= 128 * m + L <= 128 * (e + 1))%nat /\
    forall k o, nth_error os k = Some o -> o_event o = (k =? e)%nat /\
      forall c i, (c < length chs)%nat -> (i < 128)%nat -> sample_at f32_zero (o_output o) c i = play f32_zero (128 * Z.of_nat m) (nth c chs []) (128 * Z.of_nat k + Z.of_nat i).
Proof.
  intros M sr chs L ae az fuel H HL Hc He l s r m n swap E F I K Hn B. destruct (reach_same sr l s F E) as (-> & _). pose proof (reach_sound sr l s E) as (H1 & _).
  destruct (H1 r I) as (Sh & Kn & _). rewrite (reach_rate sr l s E) in Sh. pose proof (valid_usable sr H) as U.
  assert (Bm : seconds sr (m + 1) <= 8388608) by (eapply Rle_trans; [apply (seconds_le sr _ (m + n + 1)); [exact U|lia]|exact B]).
  apply (C25_ieee_partial M sr chs L ae az fuel H HL Hc He m n (shown r) swap Hn).
  - apply (block_early sr H). exact B.
  - rewrite Sh. apply (time_val sr (known r) U). pose proof (seconds_bound sr H _ Bm) as X. unfold in_range in *. lia.
  - rewrite Sh. exact (frame_late M sr H (known r) m 0 ltac:(lia) ltac:(lia) Bm).
Qed.

(** the hypotheses are met: a buffer of three samples, a reading in the middle of a block *)
Example buffer_now_case : exists s r, acts (start k48) case_run = Some s /\ In r (readings s) /\ known r = 3%nat /\ (Clock_Model.quanta s <= 4)%nat /\ rate_ok k48 /\
  (0 < 3)%nat /\ (Z.of_nat 3 <= 2 ^ 30)%Z /\ Forall (fun ch => length ch = 3%nat) [[one32; f32_zero; one32]] /\ m64_exp2 libm_one (f64_of_Z 0) = f64_of_Z 1 /\ seconds k48 (4 + 2 + 1) <= 8388608.
Proof.
  destruct (by_run (fun s => ((Clock_Model.quanta s <=? 4)%nat && existsb (fun r => (known r =? 3)%nat) (readings s))%bool) case_run) as (s & E & H); [vm_compute; reflexivity|].
  apply andb_true_iff in H. destruct H as [H1 H]. apply Nat.leb_le in H1. apply existsb_exists in H. destruct H as (r & I & H2). apply Nat.eqb_eq in H2.
  exists s, r. split; [exact E|]. split; [exact I|]. split; [exact H2|]. split; [exact H1|]. split; [unfold rate_ok; vm_compute; reflexivity|]. split; [lia|]. split; [lia|].
  split; [apply Forall_cons; [reflexivity|apply Forall_nil]|]. split; [reflexivity|].
  unfold seconds. destruct k48_usable as [_ B]. cbn [Nat.add INR]. apply Rmult_le_reg_r with (B2R k48); [lra|]. unfold Rdiv. rewrite Rmult_assoc, Rinv_l, Rmult_1_r by lra. lra.
Qed.
Print Assumptions C100_buffer_now_partial.
