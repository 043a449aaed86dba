(** Filters never fail and never emit NaN, whatever the samples, in any arithmetic. *)
From Coq Require Import List Arith Bool ZArith Lia.
From Flocq Require Import Core BinarySingleNaN.
From Verif Require Import Float_Model Arith_Model Route_Spec Route_Proofs Filter_Model Filter_Spec Filter_Proofs Filter_ExactProofs.
Import ListNotations.

Section Safe.
Context {T V : Type}.
Variable A : arith T V.
Variable size : nat.
Notation quantum := (list (chan V)).
(** a sample that comes from a zero or a normal double *)
Definition clean (v : V) : Prop := exists y, v = v_of_t A y /\ (y = t_of_Z A 0 \/ t_normal A y = true).
Hypothesis zero_clean : v_of_t A (t_of_Z A 0) = v_zero A.
Definition clean_quantum (q : quantum) : Prop := Forall (fun c => Forall clean (c_val c)) q.

Lemma flush_clean : forall y, clean (v_of_t A (flush A y)).
Proof using Type. intros y. unfold flush. destruct (t_normal A y) eqn:Q; eexists; split; try reflexivity; [right; exact Q|left; reflexivity]. Qed.
Lemma biquad_channel_clean : forall cs s xs, Forall clean (snd (biquad_channel A cs s xs)).
Proof using Type.
  induction cs as [|c cs IH]; intros s [|x xs]; cbn [biquad_channel]; try constructor. destruct s as [[[x1 x2] y1] y2]. cbn [biquad_step]. set (y := flush A _). specialize (IH (t_of_v A x, x1, y, y1) xs). destruct (biquad_channel A cs _ xs) as [s' os]. cbn [snd] in *. constructor; [apply flush_clean|exact IH].
Qed.
Lemma iir_channel_clean : forall cs xs s s' os, iir_channel A cs s xs = Ok (s', os) -> Forall clean os.
Proof using Type.
  intros cs. induction xs as [|x xs IH]; intros s s' os H; cbn [iir_channel] in H; [injection H as _ <-; constructor|]. unfold iir_step in H. destruct (index cs 0) as [c| |]; try discriminate H. destruct (index s 0) as [s0| |]; try discriminate H. cbn [bind] in H.
  destruct (iir_update A (tl cs) _ _ s) as [st| |]; try discriminate H. cbn [bind] in H. destruct (iir_channel A cs st xs) as [[st' os']| |] eqn:Q; try discriminate H. cbn [bind] in H. injection H as _ <-. constructor; [apply flush_clean|eapply IH; exact Q].
Qed.

Section Quantum.
Context {S : Type}.
Variable start : S.
Variable live : S -> bool.
Variable run : S -> list V -> res (S * list V).
Hypothesis run_clean : forall s xs s' os, run s xs = Ok (s', os) -> Forall clean os.
Lemma channels_clean : forall states input i s sts os, run_channels run states input i s = Ok (sts, os) -> clean_quantum os.
Proof using run_clean.
  induction states as [|st states IH]; intros input i s sts os H; cbn [run_channels] in H; [injection H as _ <-; constructor|]. destruct (index input _) as [c| |]; try discriminate H. cbn [bind] in H. destruct (run st (c_val c)) as [[st' o]| |] eqn:Q; try discriminate H. cbn [bind] in H.
  destruct (run_channels run states input (Datatypes.S i) (Datatypes.S s)) as [[sts' os']| |] eqn:Q2; try discriminate H. cbn [bind] in H. injection H as _ <-. constructor; [cbn [c_val]; eapply run_clean; exact Q|eapply IH; exact Q2].
Qed.
Lemma silent_clean : forall output o, from_option (make_silent (sops_of A) size output) = Ok o -> clean_quantum o.
Proof using zero_clean.
  intros [|c output] o H; cbn in H; [discriminate H|]. injection H as <-. constructor; [|constructor]. cbn [silence_chan c_val]. rewrite Forall_forall. intros v Hv. apply repeat_spec in Hv. subst v. cbn. exists (t_of_Z A 0). split; [symmetry; exact zero_clean|left; reflexivity].
Qed.
Lemma filter_quantum_clean : forall states s input output sts o b, filter_quantum A size start live run states s input output = Ok (sts, o, b) -> clean_quantum o.
Proof using run_clean zero_clean.
  intros states s input output sts o b H. unfold filter_quantum in H. destruct (is_silent input && negb (existsb live states)).
  - destruct (from_option (make_silent (sops_of A) size output)) as [q| |] eqn:Q; try discriminate H. cbn [bind] in H. injection H as _ <- _. eapply silent_clean; exact Q.
  - destruct (from_option _) as [q| |]; try discriminate H. cbn [bind] in H. destruct (run_channels run _ input 0 s) as [[sts' os]| |] eqn:Q; try discriminate H. cbn [bind] in H. injection H as _ <- _. eapply channels_clean; exact Q.
Qed.
End Quantum.

Lemma biquad_call_clean : forall sr states l sts o b, biquad_call A size sr states l = Ok (sts, o, b) -> clean_quantum o.
Proof using zero_clean.
  intros sr states l sts o b H. unfold biquad_call, biquad_quantum in H. destruct (is_silent (l_input _ l) && negb (existsb (xy_live A) states)) eqn:Q.
  - destruct (from_option (make_silent (sops_of A) size (l_output _ l))) as [q| |] eqn:Q2; try discriminate H. cbn [bind] in H. injection H as _ <- _. eapply silent_clean; exact Q2.
  - destruct (coefs_list A size _ sr _) as [cs| |]; try discriminate H. cbn [bind] in H. eapply filter_quantum_clean; [|exact H]. intros s xs s' os E. injection E as E. pose proof (biquad_channel_clean cs s xs) as X. rewrite E in X. exact X.
Qed.
Lemma iir_call_clean : forall cs states l sts o b, iir_call A size cs states l = Ok (sts, o, b) -> clean_quantum o.
Proof using zero_clean. intros cs states l sts o b H. eapply filter_quantum_clean; [|exact H]. intros s xs s' os E. eapply iir_channel_clean. exact E. Qed.
Lemma run_calls_clean : forall P St (f : St -> call P -> res (St * quantum * bool)), (forall st l st' o b, f st l = Ok (st', o, b) -> clean_quantum o) ->
  forall ls st st' outs, run_calls f st ls = Ok (st', outs) -> Forall clean_quantum outs.
Proof using Type.
  intros P St f Hf. induction ls as [|l ls IH]; intros st st' outs H; cbn [run_calls] in H; [injection H as _ <-; constructor|]. destruct (f st l) as [[[s1 o] b]| |] eqn:Q; try discriminate H. cbn [bind] in H.
  destruct (run_calls f s1 ls) as [[s2 os]| |] eqn:Q2; try discriminate H. cbn [bind] in H. injection H as _ <-. constructor; [eapply Hf; exact Q|eapply IH; exact Q2].
Qed.

(** ** No failure *)
Hypothesis zero_not_live : t_normal A (t_of_Z A 0) = false.
Lemma biquad_channel_length : forall cs s xs, length xs = length cs -> length (snd (biquad_channel A cs s xs)) = length cs.
Proof using Type.
  induction cs as [|c cs IH]; intros s [|x xs] L; try discriminate L; [reflexivity|]. cbn [biquad_channel]. destruct s as [[[x1 x2] y1] y2]. cbn [biquad_step]. set (y := flush A _). specialize (IH (t_of_v A x, x1, y, y1) xs ltac:(cbn in L; lia)). destruct (biquad_channel A cs _ xs) as [s' os]. cbn [snd length] in *. lia.
Qed.
Lemma biquad_runs : forall sr ls, 0 < size -> Forall (call_ok (sops_of A) size) ls -> Forall (fun l => params_ok (snd (l_settings _ l))) ls -> exists states outs, run_calls (biquad_call A size sr) [] ls = Ok (states, outs) /\ length outs = length ls.
Proof using zero_not_live.
  intros sr ls Hs Hok Hp. set (rel := fun (_ : xy (T := T)) (_ : history unit V) => True).
  assert (Lz : xy_live A (xy_zero A) = false) by (unfold xy_live, xy_zero; rewrite zero_not_live; reflexivity).
  destruct (calls_rel A size (xy_zero A) rel (fun _ : filter_type * biquad_params => repeat tt size) (fun l => params_ok (snd (l_settings _ l))) (biquad_call A size sr)) with (ls := ls) (states := @nil (xy (T := T))) (h := fun _ : nat => @empty_history unit V) as (sts & outs & E & L & _); try assumption; try (cbn; lia); try (intros; exact I); [|eauto].
  intros states h l Hn Hr [Hq Ho] Hp'. destruct l as [[type_ p] s input output]. cbn [l_settings l_input l_output l_name fst snd] in *. unfold biquad_call. cbn [l_settings l_input l_output l_name fst snd].
  destruct (quantum_rel A size (xy_zero A) (xy_live A) rel Lz I (fun _ _ _ _ _ _ => I) (fun _ => True) (fun st i => Ok (biquad_channel A (map (coefs_of A sr) (settings (v_zero A) size (type_, p))) st i)) (repeat tt size) (repeat_length tt size)) with (states := states) (h := h) (input := input) (output := output) (s := s) as (sts & out & b & E & L & R); try assumption; try (intros; exact I).
  - intros st h0 xs _ L1 _. pose proof (biquad_channel_length (map (coefs_of A sr) (settings (v_zero A) size (type_, p))) st xs) as X. rewrite map_length, settings_length in X. destruct (biquad_channel A _ st xs) as [s' ys]. exists s', ys. split; [reflexivity|]. split; [apply X; exact L1|exact I].
  - rewrite Forall_forall. intros c _. rewrite Forall_forall. auto.
  - exists sts, out, b. split; [|auto]. unfold biquad_quantum. destruct (is_silent input && negb (existsb (xy_live A) states)) eqn:Qs.
    + unfold filter_quantum in E. rewrite Qs in E. exact E.
    + rewrite coefs_list_ok by assumption. cbn [bind]. exact E.
Qed.
Lemma iir_update_safe : forall ds x y st, length ds < length st -> exists st', iir_update A ds x y st = Ok st' /\ length st' = length st.
Proof using Type.
  induction ds as [|[b a] ds IH]; intros x y st L; cbn [length] in L; [exists st; auto|]. destruct st as [|s st]; [cbn in L; lia|]. cbn [iir_update length] in *. destruct st as [|s1 st]; [cbn in L; lia|]. change (index (s1 :: st) 0) with (Ok s1). cbn [bind].
  destruct (IH x y (s1 :: st) ltac:(lia)) as (st' & E & L'). rewrite E. cbn [bind]. eexists. split; [reflexivity|]. cbn [length] in *. lia.
Qed.
Lemma iir_channel_safe : forall cs xs st, 0 < length cs <= MAX_IIR_COEFFS_LEN -> length st = MAX_IIR_COEFFS_LEN -> exists st' os, iir_channel A cs st xs = Ok (st', os) /\ length st' = MAX_IIR_COEFFS_LEN /\ length os = length xs.
Proof using Type.
  intros cs. induction xs as [|x xs IH]; intros st Hc Hst; cbn [iir_channel]; [exists st, []; auto|]. unfold iir_step. destruct cs as [|[b0 a0] ds]; [cbn in Hc; lia|]. destruct st as [|s0 st]; [discriminate Hst|]. change (index ((b0, a0) :: ds) 0) with (Ok (b0, a0)). change (index (s0 :: st) 0) with (Ok s0). cbn [bind tl fst].
  destruct (iir_update_safe ds (t_of_v A x) (flush A (t_fma A b0 (t_of_v A x) s0)) (s0 :: st)) as (st' & E & L); [cbn [length] in Hc; lia|]. rewrite E. cbn [bind]. destruct (IH st' Hc ltac:(lia)) as (st2 & os & E2 & L2 & L3). rewrite E2. cbn [bind]. do 2 eexists. split; [reflexivity|]. split; [exact L2|]. cbn [length]. lia.
Qed.
Lemma iir_runs : forall cs ls, 0 < length cs <= MAX_IIR_COEFFS_LEN -> Forall (call_ok (sops_of A) size) ls -> exists states outs, run_calls (iir_call A size cs) [iir_start A; iir_start A] ls = Ok (states, outs) /\ length outs = length ls.
Proof using zero_not_live.
  intros cs ls Hc Hok. set (rel := fun (st : list T) (_ : history unit V) => length st = MAX_IIR_COEFFS_LEN).
  assert (R0 : rel (iir_start A) empty_history) by apply repeat_length.
  assert (Lz : iir_live A cs (iir_start A) = false).
  { destruct (iir_live A cs (iir_start A)) eqn:Q; [exfalso|reflexivity]. unfold iir_live in Q. apply existsb_exists in Q. destruct Q as (v & Hv & Q). assert (v = t_of_Z A 0); [|congruence]. apply (repeat_spec MAX_IIR_COEFFS_LEN). rewrite <- (firstn_skipn (length cs)). apply in_or_app. left. exact Hv. }
  destruct (calls_rel A size (iir_start A) rel (fun _ : unit => repeat tt size) (fun _ => True) (iir_call A size cs)) with (ls := ls) (states := [iir_start A; iir_start A]) (h := fun _ : nat => @empty_history unit V) as (sts & outs & E & L & _); try assumption; try (cbn; lia); [| | |eauto].
  - intros states h l Hn Hr [Hq Ho] _. unfold iir_call, iir_quantum. apply (quantum_rel A size (iir_start A) (iir_live A cs) rel Lz R0) with (fine := fun _ => True); try assumption.
    + intros s h0 env _ R _. exact R.
    + apply repeat_length.
    + intros st h0 xs R1 L1 _. destruct (iir_channel_safe cs xs st Hc R1) as (s' & ys & E1 & L2 & L3). exists s', ys. split; [exact E1|]. split; [lia|exact L2].
    + rewrite Forall_forall. intros c _. rewrite Forall_forall. auto.
  - intros [|[|[|c]]]; exact R0.
  - rewrite Forall_forall. auto.
Qed.
End Safe.

Lemma narrow_not_nan : forall y : f64, is_nan y = false -> is_nan (f32_of_f64 y) = false.
Proof.
  intros [s|s| |s m e B] H; try reflexivity; try discriminate H. cbn [f32_of_f64]. pose proof (binary_normalize_correct 24 128 f32_prec f32_emax mode_NE (cond_Zopp s (Zpos m)) e s) as C.
  cbv zeta in C. match type of C with (if ?b then _ else _) => destruct b end.
  - destruct C as (_ & F & _). destruct (binary_normalize 24 128 f32_prec f32_emax mode_NE (cond_Zopp s (Z.pos m)) e s); [reflexivity|reflexivity|discriminate F|reflexivity].
  - destruct (binary_normalize 24 128 f32_prec f32_emax mode_NE (cond_Zopp s (Z.pos m)) e s); try reflexivity. cbn [B2SF] in C. unfold binary_overflow in C. destruct (overflow_to_inf _ _); discriminate C.
Qed.
Lemma clean_ieee : forall M v, clean (ieee M) v -> is_nan v = false.
Proof.
  intros M v (y & -> & H). cbn [ieee v_of_t t_normal t_of_Z] in *. apply narrow_not_nan. destruct H as [->|H]; [vm_compute; reflexivity|]. destruct y as [s|s| |s m e B]; try discriminate H; reflexivity.
Qed.
