(** C67: microphone input. *)
From Coq Require Import List Arith Bool ZArith Lia.
From Flocq Require Import BinarySingleNaN.
From Verif Require Import Common_Model Float_Model Buffer_Model Buffer_ResampleProofs Element_Model Mic_Model Mic_Spec Mic_Proofs.
Import ListNotations.

(** For every interleaving of the device and the reader: nothing panics; what
    the device hands over is separated into channels; the blocks that are kept
    are delivered in order, all but at most three that still wait; every call of
    the reader gets one answer; a block is lost exactly when three wait, silence
    (128 frames) comes exactly when none waits, the end only when the device is
    gone and all was delivered, and nothing comes after it. *)
Theorem C67_in_order : forall n rate, rate_ok rate -> 1 <= n <= 32 -> forall ops, Forall (whole_frames n) ops ->
  exists m log, mic_run (mic_new n rate) ops = Ok (m, log) /\
    (exists rest, queued log = got log ++ rest /\ length rest <= 3) /\
    captured log = heard n rate ops /\ answered log = asked ops /\
    forall pre e post, log = pre ++ e :: post -> right n rate pre e /\ (e = Ended -> Forall (eq Ended) post).
Proof. exact mic_all. Qed.
Print Assumptions C67_in_order.

(** A reader that keeps pace gets all that was captured, with no silence in between. *)
Theorem C67_gapless : forall n rate, rate_ok rate -> 1 <= n <= 32 -> forall ops, Forall (whole_frames n) ops -> paced 0 ops ->
  exists m log, mic_run (mic_new n rate) ops = Ok (m, log) /\
    (exists rest, heard n rate ops = got log ++ rest /\ length rest <= 3) /\
    Forall (fun e => match e with Queued _ | Got _ => True | _ => False end) log.
Proof. exact paced_all. Qed.
Print Assumptions C67_gapless.

(** After the device is gone the reader gets what waits and then the end, and only then. *)
Theorem C67_end : forall m, m_open m = false -> forall k,
  mic_run m (repeat Next (length (m_queue m) + k)) =
    Ok (mk_mic (m_channels m) (m_rate m) [] false, map Got (m_queue m) ++ repeat Ended k).
Proof. exact mic_end. Qed.
Print Assumptions C67_end.

Definition z (n : Z) : f32 := f32_of_Z n.
Definition four : list mic_op := [Next; Capture (map z [1; 2; 3; 4]); Capture []; Capture (map z [5; 6]); Capture (map z [7; 8]); Next; Close; Capture []; Next; Next; Next]%Z.
Example C67_example : rate_ok (z 48000) /\ Forall (whole_frames 2) four /\ heard 2 (z 48000) four = map (block 2 (z 48000)) [map z [1; 2; 3; 4]; []; map z [5; 6]; map z [7; 8]]%Z /\
  c_channels (block 2 (z 48000) (map z [1; 2; 3; 4]%Z)) = [map z [1; 3]; map z [2; 4]]%Z.
Proof. split; [vm_compute; reflexivity|]. split; [repeat constructor|]. split; reflexivity. Qed.
Definition kind (e : mic_event) : nat := match e with Queued _ => 0 | Dropped _ => 1 | Got _ => 2 | Silence _ => 3 | Ended => 4 end.
Example C67_log_example : match mic_run (mic_new 2 (z 48000)) four with Ok (_, log) => map kind log | _ => [] end = [3; 0; 0; 0; 1; 2; 2; 2; 4].
Proof. vm_compute. reflexivity. Qed.
Example C67_paced_example : paced 0 [Capture (map z [1; 2]%Z); Capture []; Next; Capture []; Next; Next].
Proof. cbn. lia. Qed.

(** When blocks are lost it is the newest ones: a reader that comes late hears
    the oldest three, and the delay stays. *)
Example C67_late_reader_example : let b k := Capture (map z [k; k]) in
  exists m log, mic_run (mic_new 2 (z 48000)) [b 1; b 2; b 3; b 4; b 5; Next; Next; Next; Next]%Z = Ok (m, log) /\
    map (fun c => map (map B2SF) (c_channels c)) (got log) = map (fun k => [[B2SF (z k)]; [B2SF (z k)]]) [1; 2; 3]%Z.
Proof.
  cbv zeta. match goal with |- exists m log, mic_run ?s ?o = _ /\ _ => pose proof (C67_in_order 2 (z 48000) eq_refl ltac:(lia) o ltac:(repeat constructor)) as X end.
  destruct X as (m & log & R & _). exists m, log. split; [exact R|].
  assert (Y : match mic_run (mic_new 2 (z 48000)) [Capture (map z [1; 1]); Capture (map z [2; 2]); Capture (map z [3; 3]); Capture (map z [4; 4]); Capture (map z [5; 5]); Next; Next; Next; Next]%Z with
    | Ok (_, log) => map (fun c => map (map B2SF) (c_channels c)) (got log) = map (fun k => [[B2SF (z k)]; [B2SF (z k)]]) [1; 2; 3]%Z | _ => False end) by (vm_compute; reflexivity).
  rewrite R in Y. exact Y.
Qed.
