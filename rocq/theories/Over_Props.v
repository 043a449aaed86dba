(** Oversampled wave shaping: theorems.

    C71 With oversampling the wave shaper plays the upsampled, shaped and downsampled input. *)
From Coq Require Import List Arith Bool ZArith Lia Reals Lra.
From Flocq Require Import Core BinarySingleNaN.
From Verif Require Import Float_Model Arith_Model Arith_Real Source_Props Route_Spec Shape_Model Shape_Spec Shape_Proofs Over_Model Over_Spec Over_Proofs.
Import ListNotations.

(** Exact arithmetic, two or four times oversampling, for any resampler and any number of quanta: every channel is the
    whole input of that channel, upsampled, shaped sample by sample and downsampled.  The number of channels does not
    change, and no quantum is silent unless the curve turns silence into a sound. *)
Theorem C71_stream_partial : forall RS size (new : nat -> nat -> RS) step ok, resampler_ok size new step ok ->
  forall m curve n (qs : list (nat * list (chan R) * list (chan R))), m = X2 \/ m = X4 -> curve <> [] -> 0 < n ->
  Forall (fun q => let '(_, input, output) := q in length input = n /\ Forall (fun c => length (c_val c) = size) input /\ output <> [] /\
    (is_silent input = false \/ (/ 1000000000 <= Rabs (shaped curve 0))%R)) qs ->
  exists st outs, over_run exact size new step (oshaper_new new m) (OCurve curve :: map (fun q => let '(s, i, o) := q in OQuantum s i o) qs) = Ok (st, outs) /\
    length outs = length qs /\ (forall j, j < length qs -> length (nth j outs []) = n) /\
    forall c, c < n -> map (block c) outs = oversampled new step (shaped curve) (match m with X4 => 4 | _ => 2 end) (map (fun q => block c (snd (fst q))) qs).
Proof.
  intros RS size new step ok OK m curve n qs Hm Hc Hn F. destruct (set_curve_ok _ _ exact curve Hc) as (skip & E).
  destruct (whole_stream exact size new step ok OK m curve (shaped curve) skip n qs Hm (fun x => apply_exact curve x Hc) E Hn) as (st & outs & R & L & N & P).
  - eapply Forall_impl; [|exact F]. intros [[s i] o] (H1 & H2 & H3 & H4). repeat (split; [assumption|]). destruct H4 as [H4|H4]; [right; exact H4|left].
    destruct (middle curve _ Hc E) as [_ Mid]. cbn [sh_silence] in Mid. destruct skip; [|reflexivity]. specialize (Mid eq_refl). lra.
  - exists st, outs. split; [exact R|]. split; [exact L|]. split; [exact N|]. intros c Hc'. rewrite (P c Hc'). destruct Hm as [-> | ->]; reflexivity.
Qed.
Print Assumptions C71_stream_partial.

(** Any arithmetic and any history of quanta and changes of the oversampling, once the curve is set: for each degree of
    oversampling, a quantum is shaped as the continuation of the quanta that were shaped with this degree since the
    number of channels last changed ([ideal_run], Over_Spec.v). *)
Theorem C71_history : forall T V (A : arith T V) RS size (new : nat -> nat -> RS) step ok, resampler_ok size new step ok ->
  forall m curve f skip ops, (forall x, apply_curve A curve x = Ok (f x)) -> set_curve A curve = Ok (mk_shaper (Some curve) skip) -> Forall (good_op size) ops ->
  exists st outs, over_run A size new step (oshaper_new new m) (OCurve curve :: ops) = Ok (st, outs) /\
    Forall2 (plays size (v_zero A)) (ideal_run new step skip f (mk_heard m [] []) ops) outs.
Proof. intros T V A RS. exact (history A). Qed.
Print Assumptions C71_history.

(** Floating point: no panic, for curves of up to 2^24 points, all inputs and all histories. *)
Theorem C71_safe : forall M RS size (new : nat -> nat -> RS) step ok, resampler_ok size new step ok ->
  forall m curve ops, 0 < length curve -> (Z.of_nat (length curve) <= 2 ^ 24)%Z -> Forall (good_op size) ops ->
  exists st outs, over_run (ieee M) size new step (oshaper_new new m) (OCurve curve :: ops) = Ok (st, outs).
Proof.
  intros M RS size new step ok OK m curve ops H0 H F. destruct (set_curve_ok _ _ (ieee M) curve) as (skip & E); [destruct curve; [cbn in H0; lia|discriminate]|].
  destruct (history (ieee M) size new step ok OK m curve (fun x => match apply_curve (ieee M) curve x with Ok y => y | _ => x end) skip ops) as (st & outs & R & _); [|exact E|exact F|eauto].
  intros x. destruct (apply_safe M curve x (conj H0 H)) as (y & ->). reflexivity.
Qed.
Print Assumptions C71_safe.

(** Before the curve is set, the input passes without resampling. *)
Theorem C71_no_curve : forall T V (A : arith T V) RS size (new : nat -> nat -> RS) step m s input output, is_silent input = false ->
  over_quantum A size new step (oshaper_new new m) s input output = Ok (oshaper_new new m, input).
Proof. intros T V A RS size new step m s input output H. unfold over_quantum. rewrite H. reflexivity. Qed.
Print Assumptions C71_no_curve.

(** ** A resampler with a delay of half a block, like the one the library uses (without its filter) *)
Definition lag : Type := nat * nat * list f32.
Definition lag_new (i o : nat) : lag := (i, o, repeat (f32_of_Z 0) i).
Definition lag_step (r : lag) (b : list f32) : lag * list f32 :=
  let '(i, o, t) := r in let l := t ++ b in
  ((i, o, skipn (i * 2) l), map (fun j => nth (j * i / o) (firstn (i * 2) l) (f32_of_Z 0)) (seq 0 (o * 2))).
Example lag_ok : resampler_ok 2 lag_new lag_step (fun i o r => fst r = (i, o)).
Proof. intros i o. split; [reflexivity|]. intros [[i' o'] t] b E _. cbn in E. injection E as -> ->. split; [reflexivity|]. cbn [lag_step snd]. rewrite map_length, seq_length. reflexivity. Qed.

Definition identity_curve : list f32 := [f32_of_Z (-1); f32_of_Z 0; f32_of_Z 1].
Definition one_quantum (name x : nat) : nat * list (chan f32) * list (chan f32) :=
  (5, [mk_chan name (repeat (f32_of_Z (Z.of_nat x)) 2)], [mk_chan 0 (repeat (f32_of_Z 0) 2)]).
Definition to_op (q : nat * list (chan f32) * list (chan f32)) : over_op := let '(s, i, o) := q in OQuantum s i o.
Definition ones (bs : list (list f32)) : list (list bool) := map (map (fun x => f32_eq x (f32_of_Z 1))) bs.

(** three sounding quanta *)
Example C71_case : let qs := map (fun x => one_quantum 7 x) [1; 0; 1] in
  match over_run (ieee libm_one) 2 lag_new lag_step (oshaper_new lag_new X2) (OCurve identity_curve :: map to_op qs) with
  | Ok (_, outs) => ones (map (block 0) outs) = [[false; false]; [true; true]; [false; false]] /\ map B2SF (concat (map (block 0) outs)) = map B2SF (concat (oversampled lag_new lag_step (fun x => x) 2 (map (fun q => block 0 (snd (fst q))) qs)))
  | _ => False
  end.
Proof. vm_compute. split; reflexivity. Qed.

(** Full statement (refuted): for silent quanta too.  Silence is not passed to the resamplers: the end of a sound is not
    played (the node has no tail), it stays in the resamplers and is played when the next sound begins. *)
Theorem C71_silence_refuted : let qs := [one_quantum 7 1; one_quantum 0 0; one_quantum 0 0; one_quantum 7 0] in
  match over_run (ieee libm_one) 2 lag_new lag_step (oshaper_new lag_new X2) (OCurve identity_curve :: map to_op qs) with
  | Ok (_, outs) => ones (map (block 0) outs) = [[false; false]; [false; false]; [false; false]; [true; true]] /\
      ones (oversampled lag_new lag_step (fun x => x) 2 (map (fun q => block 0 (snd (fst q))) qs)) = [[false; false]; [true; true]; [false; false]; [false; false]]
  | _ => False
  end.
Proof. vm_compute. split; reflexivity. Qed.
Print Assumptions C71_silence_refuted.

(** Another finding: the resamplers of a mode keep their contents while another mode is used; old sound is played when
    the mode is used again. *)
Theorem C71_old_sound_refuted : let q := one_quantum 7 in
  match over_run (ieee libm_one) 2 lag_new lag_step (oshaper_new lag_new X2)
    (OCurve identity_curve :: to_op (q 1) :: OMode NoOver :: to_op (q 0) :: to_op (q 0) :: OMode X2 :: to_op (q 0) :: nil) with
  | Ok (_, outs) => ones (map (block 0) outs) = [[false; false]; [false; false]; [false; false]; [true; true]]
  | _ => False
  end.
Proof. vm_compute. reflexivity. Qed.
Print Assumptions C71_old_sound_refuted.
