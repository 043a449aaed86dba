(** C100: sources started and stopped at the current time.

    Source: /repo/src/node/constant_source.rs 102-134 (start and stop without a time use current_time()), 190-279; concrete_base.rs 416-418;
    /repo/src/render/thread.rs 354-368, 484-501.  Models: Clock_Model.v (the clock), Source_Model.v (the source).  All in floating point,
    for 97 days. *)
From Coq Require Import List Arith Bool ZArith Lia Reals Lra.
From Flocq Require Import Core BinarySingleNaN.
From Verif Require Import Float_Model Float_Proofs Float_BoundProofs Arith_Model Buffer_Model Buffer_ResampleProofs Source_Model Source_Spec Source_Props.
From Verif Require Import Clock_Model Clock_Spec Clock_Proofs Clock_Props Now_Proofs.
Import ListNotations.
Local Open Scope R_scope.

(** A thread has read the clock at any moment of any run.  It starts a new constant source at the time read, and the message arrives before
    block [j].  Then all the frames of block [j] and of the later blocks carry the values of the offset: nothing is cut off and the sound is not late.
    Full statement: for render threads with any rate, see C100_start_late_refuted. *)
Theorem C100_start_now_partial : forall M sr l s r j offs, rate_ok sr -> acts (start sr) l = Some s -> Forall (fun a => forall x, a = New_stream x -> x = sr) l ->
  In r (readings s) -> (quanta s <= j)%nat -> Forall values_ok offs -> seconds sr (j + length offs) <= 8388608 ->
  map (@o_output f32) (snd (cs_run (ieee M) (thread_rate s) (cs_new (ieee M)) (128 * Z.of_nat j) (Start (shown r) :: map Quantum offs)))
  = map (fun offset => map (value_at f32_zero offset) (seq 0 128)) offs.
Proof. exact start_now. Qed.

(** The same for a stop: whatever the source was doing, it is silent from the first frame of the next block on, and the ended event is sent in that
    block and only there. *)
Theorem C100_stop_now_partial : forall M sr l s r j o offs c, rate_ok sr -> acts (start sr) l = Some s -> Forall (fun a => forall x, a = New_stream x -> x = sr) l ->
  In r (readings s) -> (quanta s <= j)%nat -> Forall values_ok (o :: offs) -> seconds sr (j + length (o :: offs)) <= 8388608 ->
  is_nan (cs_start c) = false -> cs_ended c = false ->
  let os := snd (cs_run (ieee M) (thread_rate s) c (128 * Z.of_nat j) (Stop (shown r) :: map Quantum (o :: offs))) in
  map (@o_output f32) os = map (fun _ => repeat f32_zero 128) (o :: offs) /\ map o_event os = true :: map (fun _ => false) offs.
Proof. exact stop_now. Qed.

Definition k96 : f32 := f32_of_Z 96000.
Definition late_run : list action := [Begin; End; Begin; End; New_stream k96; Begin; End; Begin; Read 0 4; End].
(** When set_sink_id has opened a device with a higher rate than that of the context (C76_rate_refuted), the clock read is ahead of the clock of the
    processors, by as much time as the context has run.  A source started now begins only when the other clock gets there.  In the run four blocks
    are rendered, a source is started at the current time, and the next four blocks are silent. *)
Theorem C100_start_late_refuted : exists l s r, acts (start k48) l = Some s /\ In r (readings s) /\
  sounding (map (@o_output f32) (snd (cs_run (ieee libm_one) (thread_rate s) (cs_new (ieee libm_one)) (128 * Z.of_nat (quanta s)) (Start (shown r) :: repeat (Quantum [one32]) 4)))) = [].
Proof.
  exists late_run.
  destruct (by_run (fun s => existsb (fun r => match sounding (map (@o_output f32) (snd (cs_run (ieee libm_one) (thread_rate s) (cs_new (ieee libm_one)) (128 * Z.of_nat (quanta s))
    (Start (shown r) :: repeat (Quantum [one32]) 4)))) with [] => true | _ => false end) (readings s)) late_run) as (s & E & H); [vm_compute; reflexivity|].
  apply existsb_exists in H. destruct H as (r & I & H). exists s, r. split; [exact E|]. split; [exact I|].
  destruct (sounding _); [reflexivity|discriminate H].
Qed.

(** the hypotheses are met: a reading in the middle of a block, a message that arrives a block later, one value or 128 values per block *)
Example now_case : exists s r, acts (start k48) case_run = Some s /\ In r (readings s) /\ known r = 3%nat /\ complete r = 2%nat /\ (quanta s <= 4)%nat /\
  rate_ok k48 /\ Forall values_ok [[one32]; repeat one32 128; [one32]] /\ seconds k48 (4 + length [[one32]; repeat one32 128; [one32]]) <= 8388608.
Proof.
  destruct (by_run (fun s => ((quanta s <=? 4)%nat && existsb (fun r => (known r =? 3) && (complete r =? 2))%nat (readings s))%bool) case_run) as (s & E & H); [vm_compute; reflexivity|].
  apply andb_true_iff in H. destruct H as [H1 H]. apply Nat.leb_le in H1. apply existsb_exists in H. destruct H as (r & I & H). apply andb_true_iff in H. destruct H as [H2 H3].
  apply Nat.eqb_eq in H2, H3. exists s, r. split; [exact E|]. split; [exact I|]. split; [exact H2|]. split; [exact H3|]. split; [exact H1|]. split; [unfold rate_ok; vm_compute; reflexivity|].
  split. { apply Forall_cons; [left; reflexivity|]. apply Forall_cons; [right; reflexivity|]. apply Forall_cons; [left; reflexivity|apply Forall_nil]. }
  unfold seconds. change (length [[one32]; repeat one32 128; [one32]]) with 3%nat. destruct k48_usable as [_ B]. cbn [Nat.add INR].
  apply Rmult_le_reg_r with (B2R k48); [lra|]. unfold Rdiv. rewrite Rmult_assoc, Rinv_l, Rmult_1_r by lra. lra.
Qed.
(** and the sound is there: two blocks at the same rate *)
Example now_sounds : match acts (start k48) [Begin; End; Begin; Read 0 2] with
  | Some s => map (fun r => length (sounding (map (@o_output f32) (snd (cs_run (ieee libm_one) (thread_rate s) (cs_new (ieee libm_one)) (128 * Z.of_nat (quanta s)) (Start (shown r) :: repeat (Quantum [one32]) 2))))))
      (readings s) = [256%nat]
  | None => False end.
Proof. vm_compute. reflexivity. Qed.
Print Assumptions C100_start_now_partial.
Print Assumptions C100_stop_now_partial.
Print Assumptions C100_start_late_refuted.
