(** The analyser: levels are finite, bytes are bytes. *)
From Coq Require Import List Arith Bool ZArith Lia.
From Flocq Require Import BinarySingleNaN.
From Verif Require Import Float_Model Arith_Model Route_Spec Analyser_Model Analyser_Spec Analyser_Proofs.
Import ListNotations.
#[local] Opaque max_fft_size ring_buffer_size.

Section Finite.
Context {T V : Type}.
Variable A : arith T V.
Variable fft : list V -> list (V * V).
Variable size : nat.
Hypothesis zero_finite : v_finite A (v_of_Z A 0) = true.
Definition finite_levels (y : analyser (T := T) (V := V)) : Prop := Forall (fun v => v_finite A v = true) (y_last y).
Lemma smooth_finite : forall s k o c, v_finite A (smooth A s k o c) = true.
Proof using zero_finite. intros s k o c. unfold smooth. destruct (v_finite A (v_add A _ _)) eqn:Q; [exact Q|exact zero_finite]. Qed.
Lemma zip_mut_Forall : forall (P : V -> Prop) (f : V -> V * V -> V) xs ys, Forall P xs -> (forall x y, P (f x y)) -> Forall P (zip_mut f xs ys).
Proof using Type. intros P f. induction xs as [|x xs IH]; intros [|y ys] H Hf; cbn [zip_mut]; [exact H|exact H|exact H|]. apply Forall_cons_iff in H. constructor; [apply Hf|apply IH; [apply H|exact Hf]]. Qed.
Lemma compute_finite : forall y y', finite_levels y -> compute_fft A fft y = Ok y' -> finite_levels y'.
Proof using zero_finite.
  intros y y' H E. unfold compute_fft in E. destruct (slice (repeat (v_zero A) max_fft_size) 0 (y_fft y)) as [i| |]; try discriminate E. cbn [bind] in E. destruct (slice (y_last y) 0 (y_fft y / 2)) as [l| |] eqn:Q; try discriminate E. cbn [bind] in E.
  destruct (ring_read ring_buffer_size (y_ring y) i (y_fft y)) as [x| |]; try discriminate E. cbn [bind] in E. injection E as <-. unfold finite_levels in *. cbn [y_last].
  assert (forall n, Forall (fun v => v_finite A v = true) (firstn n (y_last y)) /\ Forall (fun v => v_finite A v = true) (skipn n (y_last y))) as S by (intros n; rewrite <- (firstn_skipn n (y_last y)) in H; apply Forall_app in H; exact H).
  unfold slice in Q. destruct (_ && _); [|discriminate Q]. injection Q as <-. apply Forall_app. split; [apply zip_mut_Forall; [|intros; apply smooth_finite]|apply S]. cbn [skipn]. rewrite Nat.sub_0_r. apply S.
Qed.
Lemma update_finite : forall y now y', finite_levels y -> update_fft A fft y now = Ok y' -> finite_levels y'.
Proof using zero_finite.
  intros y now y' H E. unfold update_fft in E.
  assert (C : (do y0 <- compute_fft A fft y; Ok (mk_analyser (y_ring y0) (y_fft y0) (y_smoothing y0) (y_min y0) (y_max y0) (y_last y0) (Some now) (y_window y0))) = Ok y' -> finite_levels y').
  { destruct (compute_fft A fft y) as [y1| |] eqn:Q; cbn [bind]; try discriminate. intros Z. injection Z as <-. exact (compute_finite y y1 H Q). }
  destruct (y_time y) as [t|]; [|exact (C E)]. destruct (t_eq A now t); [injection E as <-; exact H|exact (C E)].
Qed.
Lemma step_finite : forall y o y' r, finite_levels y -> analyser_step A fft size y o = Ok (y', r) -> finite_levels y'.
Proof using zero_finite.
  intros y o y' r H E. destruct o as [s q|m|v|a b|a|b|dst|m|dst now|dst now]; cbn [analyser_step] in E.
  - destruct (analyser_quantum A size s q (y_ring y)) as [[[out r'] more]| |]; try discriminate E. cbn [bind] in E. injection E as <- <-. exact H.
  - unfold set_fft_size, check in E. destruct (valid_fft_size m); cbn [bind setting] in E; [|injection E as <- <-; exact H]. destruct (y_fft y =? m); cbn [setting] in E; injection E as <- <-; [exact H|]. unfold finite_levels. cbn [y_last]. apply Forall_forall. intros x Hx. apply in_map_iff in Hx. destruct Hx as (? & <- & _). exact zero_finite.
  - unfold set_smoothing, check in E. destruct (valid_smoothing A v); cbn [bind setting] in E; injection E as <- <-; exact H.
  - unfold set_decibels, check in E. destruct (valid_decibels A _ _); cbn [bind setting] in E; injection E as <- <-; exact H.
  - unfold set_min_decibels, set_decibels, check in E. destruct (valid_decibels A _ _); cbn [bind setting] in E; injection E as <- <-; exact H.
  - unfold set_max_decibels, set_decibels, check in E. destruct (valid_decibels A _ _); cbn [bind setting] in E; injection E as <- <-; exact H.
  - destruct (get_float_time y dst) as [l| |]; try discriminate E. cbn [bind] in E. injection E as <- <-. exact H.
  - destruct (get_byte_time A y m) as [l| |]; try discriminate E. cbn [bind] in E. injection E as <- <-. exact H.
  - unfold get_float_frequency in E. destruct (update_fft A fft y now) as [y1| |] eqn:Q; try discriminate E. cbn [bind] in E. assert (y1 = y') as <- by congruence. exact (update_finite y now y1 H Q).
  - unfold get_byte_frequency in E. destruct (update_fft A fft y now) as [y1| |] eqn:Q; try discriminate E. cbn [bind] in E. assert (y1 = y') as <- by congruence. exact (update_finite y now y1 H Q).
Qed.
Lemma run_finite : forall os y y' rs, finite_levels y -> analyser_run A fft size y os = Ok (y', rs) -> finite_levels y'.
Proof using zero_finite.
  induction os as [|o os IH]; intros y y' rs H E; cbn [analyser_run] in E; [injection E as <- <-; exact H|]. destruct (analyser_step A fft size y o) as [[y1 r]| |] eqn:Q; try discriminate E. cbn [bind] in E. destruct (analyser_run A fft size y1 os) as [[y2 rs']| |] eqn:Q2; try discriminate E. cbn [bind] in E. injection E as <- <-. exact (IH _ _ _ (step_finite _ _ _ _ H Q) Q2).
Qed.
Lemma new_finite : finite_levels (analyser_new A).
Proof using zero_finite. unfold finite_levels. cbn [analyser_new y_last]. apply Forall_forall. intros x Hx. apply repeat_spec in Hx. rewrite Hx. exact zero_finite. Qed.
(** a change of size forgets the levels but not the time of the last report *)
Lemma resized : forall e y n dst now, agrees A e y -> y_time y = Some now -> t_eq A now now = true -> allowed_size n = true -> n <> e_fft e -> length dst = n / 2 ->
  exists y', analyser_run A fft size y [SetFftSize n; FloatFrequency dst now] = Ok (y', [Set_; Floats (repeat (v_mul A (v_of_Z A 20) (v_log10 A (v_of_Z A 0))) (n / 2))]).
Proof using Type.
  intros e y n dst now [Hr Hf Hs Hmi Hma Hl Hw Ha] Ht He Hn Hne Hd. cbn [analyser_run analyser_step]. unfold set_fft_size. rewrite valid_allowed, Hn, Hf. cbn [check bind]. destruct (Nat.eqb_spec (e_fft e) n); [congruence|]. cbn [setting bind]. unfold get_float_frequency, update_fft. cbn [y_time]. rewrite Ht, He. cbn [bind y_fft y_last]. eexists. repeat f_equal.
  rewrite Hd, Nat.min_id. rewrite firstn_all2, skipn_all2, app_nil_r by lia. pose proof (allowed_range _ Hn) as Q. pose proof (Nat.div_le_mono n max_fft_size 2 ltac:(lia) ltac:(lia)) as Q2.
  assert (Z : map (fun _ : V => v_zero A) (y_last y) = repeat (v_zero A) (max_fft_size / 2 + 1)). { rewrite <- Hl. clear. induction (y_last y) as [|v l IH]; cbn [map repeat length]; [reflexivity|]. rewrite IH. reflexivity. }
  rewrite Z. replace (max_fft_size / 2 + 1) with (n / 2 + (max_fft_size / 2 + 1 - n / 2)) by lia. rewrite <- Hd in *. generalize (max_fft_size / 2 + 1 - length dst). intros k. clear. induction dst as [|d dst IH]; cbn [length plus repeat zip_mut]; [destruct k; reflexivity|]. rewrite IH. reflexivity.
Qed.
End Finite.
Lemma clamp_range : forall M x, (0 <= clamp_u8 (ieee M) x <= 255)%Z.
Proof.
  intros M x. unfold clamp_u8. match goal with |- context [v_to_Z (ieee M) ?t] => set (y := t) end. assert (0 <= v_to_Z (ieee M) y)%Z; [|lia]. clearbody y. change (0 <= f32_to_usize y)%Z. unfold f32_to_usize. destruct y as [s|s| |s m e p]; try lia. destruct s; lia.
Qed.
