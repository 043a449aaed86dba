(** C101: parameters set at the current time.

    Source: /repo/src/param.rs 433-450 (set_value_at_time), 665-682, 1055-1096, 1506-1600; concrete_base.rs 416-418; /repo/src/render/thread.rs 354-368,
    484-501.  Models: Clock_Model.v (the clock), Param_Model.v (the parameter), in floating point. *)
From Coq Require Import List Arith Bool ZArith Lia Reals Lra.
From Flocq Require Import Core BinarySingleNaN.
From Verif Require Import Float_Model Float_Proofs Float_BoundProofs Param_Model Param_Inst Buffer_Model Buffer_ResampleProofs.
From Verif Require Import Clock_Model Clock_Spec Clock_Proofs Clock_Props NowParam_Spec Now_ParamProofs.
Import ListNotations.
Local Open Scope R_scope.

(** A thread has read the clock at any moment of any run, and calls set_value_at_time with the time read on an a-rate parameter whose earlier events
    are over.  The message arrives before block [j].  Then each of the 128 values of block [j] is the value set, exactly.  Missing: k-rate parameters
    (C101_krate_refuted); render threads with another rate than the context (C99_other_rate_refuted); modulation inputs
    are zero here, other inputs are in C101_modulated_partial. *)
Theorem C101_set_now_partial : forall f64_exp f32_powf sr l s r j (p : @param f64 f32) v silent, rate_ok sr -> acts (start sr) l = Some s -> Forall (fun a => forall x, a = New_stream x -> x = sr) l ->
  In r (readings s) -> (quanta s <= j)%nat -> (Z.of_nat j * 128 <= 2 ^ 48)%Z ->
  p_timeline p = [] -> p_arate p = true -> is_finite (p_min p) = true -> is_finite (p_max p) = true -> is_finite v = true -> B2R (p_min p) <= B2R v <= B2R (p_max p) ->
  exists p' out, prun (ieee_ops f64_exp f32_powf) 128 p
      [Schedule (C_set_value_at_time v (shown r)); Quantum (time (thread_rate s) (Z.of_nat j * 128)) (f64_div f64_one (f64_of_f32 (thread_rate s))) (repeat f32_zero 128) silent] = Ok (p', [out]) /\
    length out = 128%nat /\ Forall (fun x => B2R x = B2R v) out.
Proof. exact set_now. Qed.

(** The same with any 128 input samples that modulate the parameter: the value of each frame is the sum of the input sample and the value set (rounded to
    f32), kept between the limits of the parameter, or the default value where the sum is not a number.  Missing: as above. *)
Theorem C101_modulated_partial : forall f64_exp f32_powf sr l s r j (p : @param f64 f32) v input silent, length input = 128%nat -> rate_ok sr -> acts (start sr) l = Some s -> Forall (fun a => forall x, a = New_stream x -> x = sr) l ->
  In r (readings s) -> (quanta s <= j)%nat -> (Z.of_nat j * 128 <= 2 ^ 48)%Z ->
  p_timeline p = [] -> p_arate p = true -> is_finite (p_min p) = true -> is_finite (p_max p) = true -> is_finite v = true -> B2R (p_min p) <= B2R v <= B2R (p_max p) ->
  exists p' out, prun (ieee_ops f64_exp f32_powf) 128 p
      [Schedule (C_set_value_at_time v (shown r)); Quantum (time (thread_rate s) (Z.of_nat j * 128)) (f64_div f64_one (f64_of_f32 (thread_rate s))) input silent] = Ok (p', [out]) /\
    Forall2 (fun i x => kept (p_min p) (p_max p) (p_default p) (f32_add i v) x) input out.
Proof. exact set_now_in. Qed.

(** What holds for k-rate parameters instead: the block after the message has the value the parameter had, and the one after that has the value set. *)
Theorem C101_krate_partial : forall f64_exp f32_powf sr l s r j (p : @param f64 f32) v zs silent silent2, rate_ok sr -> acts (start sr) l = Some s -> Forall (fun a => forall x, a = New_stream x -> x = sr) l ->
  In r (readings s) -> (quanta s <= j)%nat -> (Z.of_nat j * 128 <= 2 ^ 48)%Z ->
  p_timeline p = [] -> p_arate p = false -> is_finite (p_min p) = true -> is_finite (p_max p) = true -> is_finite v = true -> B2R (p_min p) <= B2R v <= B2R (p_max p) ->
  is_finite (p_intrinsic p) = true -> B2R (p_min p) <= B2R (p_intrinsic p) <= B2R (p_max p) ->
  let dt := f64_div f64_one (f64_of_f32 (thread_rate s)) in
  exists p' x y, prun (ieee_ops f64_exp f32_powf) 128 p [Schedule (C_set_value_at_time v (shown r)); Quantum (time (thread_rate s) (Z.of_nat j * 128)) dt (f32_zero :: zs) silent;
      Quantum (time (thread_rate s) (Z.of_nat (j + 1) * 128)) dt (f32_zero :: zs) silent2] = Ok (p', [[x]; [y]]) /\
    B2R x = B2R (p_intrinsic p) /\ B2R y = B2R v.
Proof. exact set_now_k. Qed.

(** The same with any modulation inputs: of a k-rate parameter the first sample of each input block counts. *)
Theorem C101_krate_modulated_partial : forall f64_exp f32_powf sr l s r j (p : @param f64 f32) v i1 i2 zs zs2 silent silent2, rate_ok sr -> acts (start sr) l = Some s -> Forall (fun a => forall x, a = New_stream x -> x = sr) l ->
  In r (readings s) -> (quanta s <= j)%nat -> (Z.of_nat j * 128 <= 2 ^ 48)%Z ->
  p_timeline p = [] -> p_arate p = false -> is_finite (p_min p) = true -> is_finite (p_max p) = true -> is_finite v = true -> B2R (p_min p) <= B2R v <= B2R (p_max p) ->
  let dt := f64_div f64_one (f64_of_f32 (thread_rate s)) in
  exists p' x y, prun (ieee_ops f64_exp f32_powf) 128 p [Schedule (C_set_value_at_time v (shown r)); Quantum (time (thread_rate s) (Z.of_nat j * 128)) dt (i1 :: zs) silent;
      Quantum (time (thread_rate s) (Z.of_nat (j + 1) * 128)) dt (i2 :: zs2) silent2] = Ok (p', [[x]; [y]]) /\
    kept (p_min p) (p_max p) (p_default p) (f32_add (p_intrinsic p) i1) x /\ kept (p_min p) (p_max p) (p_default p) (f32_add v i2) y.
Proof. exact set_now_k_in. Qed.

Definition ops : @param_ops f64 f32 := ieee_ops (fun x => x) (fun x _ => x).
Definition plain (arate : bool) : @param f64 f32 := new_param arate f32_zero (f32_of_Z (-10)) (f32_of_Z 10).
(** the values of the block that follows the message, for a parameter with default value 0 set to 1 at the time read *)
Definition set_to_one (arate : bool) (s : clock) (r : reading) : list f32 :=
  match prun ops 128 (plain arate) [Schedule (C_set_value_at_time (f32_of_Z 1) (shown r)); Quantum (time (thread_rate s) (Z.of_nat (quanta s) * 128)) (f64_div f64_one (f64_of_f32 (thread_rate s))) (repeat f32_zero 128) true] with
  | Ok (_, [out]) => out
  | _ => []
  end.

(** A k-rate parameter takes its value before it looks at events (param.rs 1543-1544).  An event with the time of the block was to be handled with the block
    before, where it was not known yet.  So a k-rate parameter set at the current time keeps its old value for one more block. *)
Theorem C101_krate_refuted : exists l s r x, acts (start k48) l = Some s /\ In r (readings s) /\ set_to_one false s r = [x] /\ f32_eq x f32_zero = true.
Proof.
  exists [Begin; End; Begin; Read 0 2].
  destruct (by_run (fun s => existsb (fun r => match set_to_one false s r with [x] => f32_eq x f32_zero | _ => false end) (readings s)) [Begin; End; Begin; Read 0 2]) as (s & E & H); [vm_compute; reflexivity|].
  apply existsb_exists in H. destruct H as (r & I & H). destruct (set_to_one false s r) as [|x [|y xs]] eqn:X; try discriminate. exists s, r, x.
  split; [exact E|]. split; [exact I|]. split; [exact X|exact H].
Qed.

(** the hypotheses are met by a new parameter and a reading in the middle of a block *)
Example set_case : exists s r, acts (start k48) case_run = Some s /\ In r (readings s) /\ known r = 3%nat /\ (quanta s <= 4)%nat /\ rate_ok k48 /\
  p_timeline (plain true) = [] /\ p_arate (plain true) = true /\ is_finite (p_min (plain true)) = true /\ is_finite (p_max (plain true)) = true /\ is_finite (f32_of_Z 1) = true /\
  B2R (p_min (plain true)) <= B2R (f32_of_Z 1) <= B2R (p_max (plain true)).
Proof.
  destruct (by_run (fun s => ((quanta s <=? 4)%nat && existsb (fun r => (known r =? 3)%nat) (readings s))%bool) case_run) as (s & E & H); [vm_compute; reflexivity|].
  apply andb_true_iff in H. destruct H as [H1 H]. apply Nat.leb_le in H1. apply existsb_exists in H. destruct H as (r & I & H2). apply Nat.eqb_eq in H2.
  exists s, r. split; [exact E|]. split; [exact I|]. split; [exact H2|]. split; [exact H1|]. split; [unfold rate_ok; vm_compute; reflexivity|]. split; [reflexivity|]. split; [reflexivity|].
  destruct (of_Z_exact 24 128 f32_prec f32_emax (-10)) as [E1 G1]; [lia|]. destruct (of_Z_exact 24 128 f32_prec f32_emax 10) as [E2 G2]; [lia|]. destruct (of_Z_exact 24 128 f32_prec f32_emax 1) as [E3 G3]; [lia|].
  cbv zeta in *. unfold plain. cbn [p_min p_max new_param]. unfold f32_of_Z. split; [exact G1|]. split; [exact G2|]. split; [exact G3|]. rewrite E1, E2, E3. lra.
Qed.
(** the same for a k-rate parameter, whose value is 0 *)
Example set_case_k : p_timeline (plain false) = [] /\ p_arate (plain false) = false /\ is_finite (p_intrinsic (plain false)) = true /\ B2R (p_min (plain false)) <= B2R (p_intrinsic (plain false)) <= B2R (p_max (plain false)).
Proof.
  split; [reflexivity|]. split; [reflexivity|]. split; [reflexivity|].
  destruct (of_Z_exact 24 128 f32_prec f32_emax (-10)) as [E1 _]; [lia|]. destruct (of_Z_exact 24 128 f32_prec f32_emax 10) as [E2 _]; [lia|]. cbv zeta in *.
  unfold plain. cbn [p_min p_max p_intrinsic new_param]. unfold f32_of_Z. rewrite E1, E2. change (B2R f32_zero) with 0. lra.
Qed.
Example set_sounds : match acts (start k48) [Begin; End; Begin; Read 0 2] with
  | Some s => map (fun r => length (filter (fun x => f32_eq x (f32_of_Z 1)) (set_to_one true s r))) (readings s) = [128%nat]
  | None => False end.
Proof. vm_compute. reflexivity. Qed.
(** inputs of 3 and 20: with the value 1 and the limit 10 the frames have the values 4 and 10 *)
Example modulated_sounds : match acts (start k48) [Begin; End; Begin; Read 0 2] with
  | Some s => map (fun r => match prun ops 128 (plain true) [Schedule (C_set_value_at_time (f32_of_Z 1) (shown r));
        Quantum (time (thread_rate s) (Z.of_nat (quanta s) * 128)) (f64_div f64_one (f64_of_f32 (thread_rate s))) (repeat (f32_of_Z 3) 100 ++ repeat (f32_of_Z 20) 28) false] with
      | Ok (_, [out]) => (length (filter (fun x => f32_eq x (f32_of_Z 4)) out), length (filter (fun x => f32_eq x (f32_of_Z 10)) out))
      | _ => (0%nat, 0%nat)
      end) (readings s) = [(100%nat, 28%nat)]
  | None => False end.
Proof. vm_compute. reflexivity. Qed.
Print Assumptions C101_set_now_partial.
Print Assumptions C101_modulated_partial.
Print Assumptions C101_krate_partial.
Print Assumptions C101_krate_modulated_partial.
Print Assumptions C101_krate_refuted.
