(** C100, for oscillators: an oscillator started at the current time.

    Source: /repo/src/node/oscillator.rs 378-483 (Source_Model.v), concrete_base.rs 416-418 (Clock_Model.v). *)
From Coq Require Import List Arith Bool ZArith Lia Reals Lra.
From Flocq Require Import Core BinarySingleNaN.
From Verif Require Import Float_Model Float_Proofs Float_BoundProofs Float_ErrorProofs Arith_Model Buffer_Model Buffer_ResampleProofs Source_Model Source_Proofs Source_ClockProofs Source_Props.
From Verif Require Import Clock_Model Clock_Spec Clock_Proofs Clock_Props Now_Proofs.
Import ListNotations.
Local Open Scope R_scope.

Lemma late_start {T V} (A : arith T V) (sr : V) table (s : @osc T V) frame a freq detune : os_started s = false -> t_le A (os_stop s) (block_time A sr frame) = false ->
  t_lt A a (block_time A sr frame) = true -> t_lt A (block_time A sr frame) (block_time A sr frame) = false ->
  t_le A (next_block_time A sr frame) a = false -> t_le A (next_block_time A sr frame) (block_time A sr frame) = false ->
  osc_process A sr table (with_start s a) frame freq detune = osc_process A sr table (with_start s (block_time A sr frame)) frame freq detune.
Proof.
  intros N H0 H1 H2 H3 H4. unfold osc_process. cbv zeta. set (b := block_time A sr frame) in *. change (os_stop (with_start s a)) with (os_stop s). change (os_stop (with_start s b)) with (os_stop s).
  change (os_start (with_start s a)) with a. change (os_start (with_start s b)) with b. change (os_started (with_start s a)) with (os_started s). change (os_started (with_start s b)) with (os_started s).
  rewrite N, H0, H1, H2, H3, H4. cbn [negb andb]. reflexivity.
Qed.

(** A thread has read the clock at any moment of any run, and starts a new oscillator at the time read; the message arrives before block [j].  From there on everything
    the oscillator does, for any frequencies, detunes and later messages, is what it does when it is started exactly at the first frame of block [j]: it is not cut, not late, and
    it begins with phase 0 however long the message took.  (What an oscillator started on a frame does is C24 and C73.) *)
Theorem C100_osc_now_partial : forall M sr table ty l s r j freq detune rest, rate_ok sr -> acts (start sr) l = Some s -> Forall (fun a => forall x, a = New_stream x -> x = sr) l ->
  In r (readings s) -> (Clock_Model.quanta s <= j)%nat -> seconds sr (j + 1) <= 8388608 ->
  osc_run (ieee M) (thread_rate s) table (osc_new (ieee M) ty) (128 * Z.of_nat j) (O_start (shown r) :: O_quantum freq detune :: rest) =
  osc_run (ieee M) (thread_rate s) table (osc_new (ieee M) ty) (128 * Z.of_nat j) (O_start (time (thread_rate s) (Z.of_nat j * 128)) :: O_quantum freq detune :: rest).
Proof.
  intros M sr table ty l s r j freq detune rest H E F I K B. destruct (reach_same sr l s F E) as (-> & _). pose proof (reach_sound sr l s E) as (H1 & _).
  destruct (H1 r I) as (Sh & Kn & _). rewrite (reach_rate sr l s E) in Sh. pose proof (valid_usable sr H) as U.
  destruct (Nat.eq_dec (known r) j) as [Q|Q]; [rewrite Sh, Q; reflexivity|].
  assert (Rj : in_range j) by (apply (seconds_bound sr H); eapply Rle_trans; [apply (seconds_le sr j (j + 1)); [exact U|lia]|exact B]). assert (Rk : in_range (known r)) by (unfold in_range in *; lia).
  pose proof (time_strict sr (known r) j U Rj ltac:(lia)) as L. rewrite <- Sh in L. destruct (time_val sr (known r) U Rk) as [Fs _]. rewrite <- Sh in Fs. destruct (time_val sr j U Rj) as [Fj _].
  pose proof (block_early sr H j B) as He. destruct (next_ieee M sr H _ He) as [Fn _]. pose proof (advance_before_next M sr H _ 0 He ltac:(lia)) as B0. cbn [advance] in B0.
  rewrite (block_is_time M sr) in B0. pose proof (frame_finite M sr H j 0 ltac:(lia) B) as [_ Mx]. cbn [advance] in Mx. rewrite (block_is_time M sr) in Mx.
  cbn [osc_run osc_message]. rewrite <- (block_is_time M sr).
  rewrite (late_start (ieee M) sr table (osc_new (ieee M) ty) (128 * Z.of_nat j) (shown r) freq detune); [reflexivity|reflexivity| | | | |]; rewrite ?(block_is_time M sr).
  - change (f64_le f64_MAX (time sr (Z.of_nat j * 128)) = false). destruct (f64_le f64_MAX (time sr (Z.of_nat j * 128))) eqn:X; [|reflexivity]. apply f64_le_R in X; [|reflexivity|exact Fj]. apply f64_lt_R in Mx; [lra|exact Fj|reflexivity].
  - apply f64_lt_R; assumption.
  - apply late_not_before; [exact Fj|exact Fj|]. apply f64_le_R; [exact Fj|exact Fj|lra].
  - destruct (t_le (ieee M) (next_block_time (ieee M) sr (128 * Z.of_nat j)) (shown r)) eqn:X; [|reflexivity]. apply f64_le_R in X; [lra|exact Fn|exact Fs].
  - destruct (t_le (ieee M) (next_block_time (ieee M) sr (128 * Z.of_nat j)) (time sr (Z.of_nat j * 128))) eqn:X; [|reflexivity]. apply f64_le_R in X; [lra|exact Fn|exact Fj].
Qed.

(** the hypotheses are met: a message two blocks late, at 48 kHz; and the oscillator sounds *)
Example osc_now_case : exists s r, acts (start k48) [Begin; End; Begin; Read 0 2] = Some s /\ In r (readings s) /\ known r = 2%nat /\ (Clock_Model.quanta s <= 4)%nat /\ rate_ok k48 /\ seconds k48 (4 + 1) <= 8388608.
Proof.
  destruct (by_run (fun s => ((Clock_Model.quanta s <=? 4)%nat && existsb (fun r => (known r =? 2)%nat) (readings s))%bool) [Begin; End; Begin; Read 0 2]) as (s & E & H); [vm_compute; reflexivity|].
  apply andb_true_iff in H. destruct H as [H1 H]. apply Nat.leb_le in H1. apply existsb_exists in H. destruct H as (r & I & H2). apply Nat.eqb_eq in H2.
  exists s, r. split; [exact E|]. split; [exact I|]. split; [exact H2|]. split; [exact H1|]. split; [unfold rate_ok; vm_compute; reflexivity|].
  unfold seconds. destruct k48_usable as [_ B]. cbn [Nat.add INR]. apply Rmult_le_reg_r with (B2R k48); [lra|]. unfold Rdiv. rewrite Rmult_assoc, Rinv_l, Rmult_1_r by lra. lra.
Qed.
Example osc_now_sounds : match acts (start k48) [Begin; End; Begin; Read 0 2] with
  | Some s => map (fun r => match osc_run (ieee libm_one) k48 [one32] (osc_new (ieee libm_one) Square) (128 * 4) [O_start (shown r); O_quantum [f32_of_Z 440] [f32_zero]] with
      | Ok (_, _, os) => (127 <=? length (sounding (map (@o_output f32) os)))%nat | _ => false end) (readings s) = [true]
  | None => False end.
Proof. vm_compute. reflexivity. Qed.
Print Assumptions C100_osc_now_partial.
