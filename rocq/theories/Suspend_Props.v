(** * Property C16, times in floating point *)
From Coq Require Import ZArith Bool List Lia Reals Lra.
From Flocq Require Import Core BinarySingleNaN.
From Verif Require Import Float_Model Buffer_Model Buffer_ResampleProofs Thread_Model Suspend_Model Suspend_Proofs.
Import ListNotations.
Local Open Scope R_scope.

(** A suspension at time [t] takes place at the first boundary of a render quantum that is not before [t], up to 1/2048 of a frame: at most
    that much before [t], and less than a quantum and that much after it (buffers of up to 2^40 frames). *)
Theorem C16_ieee_time : forall len sr time q, rate_ok sr -> (0 <= len <= 2 ^ 40)%Z -> suspend_quantum len sr time = Some q ->
  is_finite time = true /\ 0 <= B2R time /\ (0 <= q)%Z /\
  B2R time * B2R (f64_of_f32 sr) - / 2048 <= IZR (q * 128) < B2R time * B2R (f64_of_f32 sr) + 128 + / 2048.
Proof. exact suspend_val. Qed.
Print Assumptions C16_ieee_time.

(** The time an application computes for a boundary, the number of frames divided by the sample rate, gives this boundary or the next. *)
Theorem C16_ieee_boundary_partial : forall len sr k q, rate_ok sr -> (0 <= len <= 2 ^ 40)%Z -> (0 <= k <= 2 ^ 33)%Z ->
  suspend_quantum len sr (f64_div (f64_of_Z (k * 128)) (f64_of_f32 sr)) = Some q -> q = k \/ (q = k + 1)%Z.
Proof. exact boundary_val. Qed.
Print Assumptions C16_ieee_boundary_partial.

(** the boundary asked for, and a time inside a quantum *)
Definition rate48k : f32 := f32_of_Z 48000.
Example C16_ieee_example :
  suspend_quantum 4800 rate48k (f64_div (f64_of_Z (6 * 128)) (f64_of_f32 rate48k)) = Some 6%Z /\
  suspend_quantum 4800 rate48k (f64_div (f64_of_Z (6 * 128 + 1)) (f64_of_f32 rate48k)) = Some 7%Z /\
  suspend_quantum 4800 rate48k (f64_div (f64_of_Z 4800) (f64_of_f32 rate48k)) = None.
Proof. split; [|split]; vm_compute; reflexivity. Qed.

(** At 48 kHz a suspension at the beginning of the eighth quantum, at 7 * 128 / 48000 seconds, takes place one quantum late: the product of
    the time and the rate is rounded to a number above 896. *)
Theorem C16_late_refuted : exists len sr k, rate_ok sr /\ (0 <= len <= 2 ^ 40)%Z /\ (0 <= k <= 2 ^ 33)%Z /\
  suspend_quantum len sr (f64_div (f64_of_Z (k * 128)) (f64_of_f32 sr)) = Some (k + 1)%Z.
Proof. exists 4800%Z, rate48k, 7%Z. split; [vm_compute; reflexivity|]. split; [lia|]. split; [lia|]. vm_compute. reflexivity. Qed.
Print Assumptions C16_late_refuted.

(** As a consequence, suspending at two different boundaries can panic ("cannot suspend multiple times at the same render quantum"). *)
Theorem C16_collision_refuted : exists len sr k1 k2 l, rate_ok sr /\ k1 <> k2 /\
  suspend len sr (f64_div (f64_of_Z (k1 * 128)) (f64_of_f32 sr)) tt [] = Some l /\
  suspend_quantum len sr (f64_div (f64_of_Z (k2 * 128)) (f64_of_f32 sr)) <> None /\
  suspend len sr (f64_div (f64_of_Z (k2 * 128)) (f64_of_f32 sr)) tt l = None.
Proof.
  exists 4800%Z, rate48k, 7%Z, 8%Z, [(8%nat, tt)]. split; [vm_compute; reflexivity|]. split; [lia|]. split; [vm_compute; reflexivity|].
  split; [vm_compute; discriminate|vm_compute; reflexivity].
Qed.
Print Assumptions C16_collision_refuted.
