(** The analyser, for any arithmetic: the settings and the time domain data. *)
From Coq Require Import List Arith Bool ZArith Lia.
From Verif Require Import Arith_Model Route_Spec Analyser_Model Analyser_Spec Delay_Proofs Analyser_RingProofs.
Import ListNotations.

(** ** Sizes *)
Lemma pow_15 : 2 ^ 15 = max_fft_size.
Proof. apply Nat2Z.inj. rewrite Nat2Z.inj_pow. unfold max_fft_size. rewrite Z2Nat.id by lia. reflexivity. Qed.
Lemma ring_buffer_room : ring_buffer_size = max_fft_size + 128.
Proof. unfold ring_buffer_size, max_fft_size. lia. Qed.
Lemma ring_buffer_pos : 0 < ring_buffer_size. Proof. unfold ring_buffer_size. lia. Qed.
Lemma allowed_iff : forall n, allowed_size n = true <-> exists k, 5 <= k <= 15 /\ n = 2 ^ k.
Proof.
  intros n. unfold allowed_size. rewrite existsb_exists. split.
  - intros (m & Hm & E). apply Nat.eqb_eq in E. subst m. apply in_map_iff in Hm. destruct Hm as (k & <- & Hk). apply in_seq in Hk. exists k. split; [lia|reflexivity].
  - intros (k & Hk & ->). exists (2 ^ k). split; [apply in_map_iff; exists k; split; [reflexivity|apply in_seq; lia]|apply Nat.eqb_refl].
Qed.
Lemma valid_allowed : forall n, valid_fft_size n = allowed_size n.
Proof.
  intros n. apply eq_true_iff_eq. rewrite allowed_iff. unfold valid_fft_size, is_power_of_two. rewrite !andb_true_iff, Nat.ltb_lt, Nat.eqb_eq, !Nat.leb_le. split.
  - intros [[[H0 E] H1] H2]. exists (Nat.log2 n). split; [|exact E]. split.
    + apply Nat.log2_le_pow2; [exact H0|]. exact H1.
    + rewrite <- pow_15 in H2. apply Nat.log2_le_mono in H2. rewrite Nat.log2_pow2 in H2 by lia. exact H2.
  - intros (k & Hk & ->). rewrite Nat.log2_pow2 by lia. pose proof (Nat.pow_le_mono_r 2 5 k ltac:(lia) ltac:(lia)) as H5. pose proof (Nat.pow_le_mono_r 2 k 15 ltac:(lia) ltac:(lia)) as H15. rewrite pow_15 in H15. change (2 ^ 5) with min_fft_size in H5. unfold min_fft_size in *. lia.
Qed.
Lemma allowed_range : forall n, allowed_size n = true -> 32 <= n <= max_fft_size.
Proof. intros n H. rewrite <- valid_allowed in H. unfold valid_fft_size in H. rewrite !andb_true_iff, !Nat.leb_le in H. unfold min_fft_size in H. lia. Qed.

#[local] Opaque max_fft_size ring_buffer_size.

(** ** Mono *)
Lemma zip_mut_length : forall X Y (f : X -> Y -> X) xs ys, length (zip_mut f xs ys) = length xs.
Proof. intros X Y f. induction xs as [|x xs IH]; intros [|y ys]; cbn [zip_mut length]; try reflexivity. rewrite IH. reflexivity. Qed.
Lemma zip_map : forall X Y (f : Y -> X) xs ys, length ys = length xs -> zip_mut (fun _ y => f y) xs ys = map f ys.
Proof. intros X Y f. induction xs as [|x xs IH]; intros [|y ys] H; cbn [zip_mut map length] in *; try discriminate H; [reflexivity|]. rewrite IH by congruence. reflexivity. Qed.
Lemma mono_ok : forall V (O : sops V) size s q, q <> [] -> Forall (fun c => length (c_val c) = size) q -> exists s' c, mix O size s q 1 Speakers = Some (s', [c]) /\ length (c_val c) = size.
Proof.
  intros V O size s q H F. unfold mix. destruct (Nat.eqb_spec (length q) 1) as [L|L].
  - destruct q as [|c [|d q]]; try discriminate L. apply Forall_inv in F. eauto.
  - unfold mix_inner. cbn [Nat.ltb Nat.leb andb negb max_channels]. destruct q as [|a q]; [contradiction|]. pose proof (Forall_inv F) as Fa.
    assert (Fill : exists s' c, Some (s, fill O size (a :: q) 1) = Some (s', [c]) /\ length (c_val c) = size) by (exists s, a; split; [reflexivity|exact Fa]).
    destruct (_ || _); [exact Fill|].
    destruct q as [|b [|c [|d [|e [|f [|g q]]]]]]; cbn [cwrite]; try exact Fill; do 2 eexists; (split; [reflexivity|]); cbn [c_val]; rewrite zip_mut_length; exact Fa.
Qed.

Section Analyser.
Context {T V : Type}.
Variable A : arith T V.
Variable fft : list V -> list (V * V).
Variable size : nat.
Hypothesis size_small : size <= ring_buffer_size.
Notation zero := (v_zero A).
Notation RB := ring_buffer_size.
Notation op := (analyser_op (T := T) (V := V)).
Notation settings := (settings (T := T) (V := V)).

Notation mono := (mono A size).
Notation op_fine := (op_fine size).
Notation reply := (reply A).
Notation settle := (settle (valid_smoothing A) (valid_decibels A) mono).
Notation settled := (settled (valid_smoothing A) (valid_decibels A) mono).
Notation accepted := (accepted (valid_smoothing A) (valid_decibels A)).
Record agrees (e : settings) (y : analyser (T := T) (V := V)) : Prop := {
  a_ring : ring_ok zero RB (e_signal e) (y_ring y);
  a_fft : y_fft y = e_fft e;
  a_smoothing : y_smoothing y = e_smoothing e;
  a_min : y_min y = e_min e;
  a_max : y_max y = e_max e;
  a_last : length (y_last y) = max_fft_size / 2 + 1;
  a_window : y_window y = blackman A (e_fft e);
  a_size : allowed_size (e_fft e) = true
}.
Lemma compute_agrees : forall e y, agrees e y -> exists last, compute_fft A fft y = Ok (mk_analyser (y_ring y) (y_fft y) (y_smoothing y) (y_min y) (y_max y) last (y_time y) (y_window y)) /\
  length last = max_fft_size / 2 + 1 /\
  last = zip_mut (smooth A (v_of_t A (y_smoothing y)) (v_div A (v_of_Z A 1) (v_of_Z A (Z.of_nat (e_fft e))))) (firstn (e_fft e / 2) (y_last y)) (fft (zip_mut (v_mul A) (recent zero (e_fft e) (e_signal e)) (blackman A (e_fft e)))) ++ skipn (e_fft e / 2) (y_last y).
Proof using size_small.
  intros e y [Hr Hf Hs Hmi Hma Hl Hw Ha]. unfold compute_fft. rewrite Hf. pose proof (allowed_range _ Ha) as Hn. assert (Hh : e_fft e / 2 <= max_fft_size / 2 + 1) by (pose proof (Nat.div_le_mono (e_fft e) max_fft_size 2 ltac:(lia) ltac:(lia)); lia).
  unfold slice. rewrite repeat_length, Hl. cbn [Nat.leb andb]. destruct (Nat.leb_spec (e_fft e) max_fft_size); [|lia]. destruct (Nat.leb_spec (e_fft e / 2) (max_fft_size / 2 + 1)); [|lia]. cbn [bind skipn]. rewrite !Nat.sub_0_r.
  assert (L : length (firstn (e_fft e) (repeat zero max_fft_size)) = e_fft e) by (rewrite firstn_length, repeat_length; lia).
  rewrite (read_ok zero RB ring_buffer_pos _ _ _ _ Hr) by (rewrite L, ring_buffer_room; lia). rewrite L, Nat.min_id. cbn [bind]. rewrite skipn_all2 by lia. rewrite app_nil_r, Hw. eexists. split; [reflexivity|]. split; [|reflexivity].
  rewrite app_length, zip_mut_length, firstn_length, skipn_length, Hl. lia.
Qed.
Lemma update_agrees : forall e y now, agrees e y -> exists y', update_fft A fft y now = Ok y' /\ agrees e y'.
Proof using size_small.
  intros e y now H. destruct (compute_agrees e y H) as (last & E & L & _). unfold update_fft.
  assert (C : exists y', (do y0 <- compute_fft A fft y; Ok (mk_analyser (y_ring y0) (y_fft y0) (y_smoothing y0) (y_min y0) (y_max y0) (y_last y0) (Some now) (y_window y0))) = Ok y' /\ agrees e y').
  { rewrite E. cbn [bind]. eexists. split; [reflexivity|]. destruct H. split; assumption. }
  destruct (y_time y) as [t|]; [|exact C]. destruct (t_eq A now t); [|exact C]. exists y. auto.
Qed.
Lemma agrees_new : agrees (mk_settings [] 2048 (t_frac A 8 10) (t_of_Z A (-100)) (t_of_Z A (-30))) (analyser_new A).
Proof using size_small. split; [apply ring_ok_new; exact ring_buffer_pos|reflexivity|reflexivity|reflexivity|reflexivity|apply repeat_length|reflexivity|apply allowed_iff; exists 11; split; [lia|reflexivity]]. Qed.
Lemma step_agrees : forall e y o, agrees e y -> op_fine o -> exists y' r, analyser_step A fft size y o = Ok (y', r) /\ agrees (settle e o) y' /\ reply e o r.
Proof using size_small.
  intros [x n sm mi ma] y o H Ho. pose proof H as [Hr Hf Hs Hmi Hma Hl Hw Ha]. cbn [e_signal e_fft e_smoothing e_min e_max] in *. pose proof (allowed_range _ Ha) as Hn.
  assert (Room : forall m, min m n <= RB) by (intros m; rewrite ring_buffer_room; lia).
  destruct o as [s q|m|v|a b|a|b|dst|m|dst now|dst now]; cbn [analyser_step settle reply e_signal e_fft Analyser_Spec.settle].
  - destruct Ho as [Hq Fq]. destruct (mono_ok V (sops_of A) size s q Hq Fq) as (s' & c & E & L). unfold analyser_quantum. rewrite E. cbn [from_option bind]. unfold index. cbn [nth_error from_option bind].
    destruct (write_ok zero RB ring_buffer_pos x (y_ring y) (c_val c) Hr ltac:(lia)) as (r' & -> & Hr'). cbn [bind]. do 2 eexists. split; [reflexivity|]. split; [|reflexivity]. split; cbn [with_ring e_signal y_ring y_fft y_smoothing y_min y_max y_last y_window e_fft e_smoothing e_min e_max]; try assumption.
    unfold mono. rewrite E. exact Hr'.
  - unfold set_fft_size, check. rewrite valid_allowed. cbn [Analyser_Spec.accepted]. destruct (allowed_size m) eqn:Q; cbn [bind setting].
    + rewrite Hf. destruct (Nat.eqb_spec n m) as [->|D]; cbn [setting]; do 2 eexists; (split; [reflexivity|]); (split; [|reflexivity]); [exact H|]. split; [exact Hr|reflexivity|exact Hs|exact Hmi|exact Hma|cbn [y_last]; rewrite map_length; exact Hl|reflexivity|exact Q].
    + do 2 eexists. split; [reflexivity|]. split; [exact H|reflexivity].
  - unfold set_smoothing, check. cbn [Analyser_Spec.accepted]. destruct (valid_smoothing A v) eqn:Q; cbn [bind setting]; do 2 eexists; (split; [reflexivity|]); (split; [|reflexivity]); [|exact H]. split; assumption || reflexivity.
  - unfold set_decibels, check. cbn [Analyser_Spec.accepted]. destruct (valid_decibels A a b) eqn:Q; cbn [bind setting]; do 2 eexists; (split; [reflexivity|]); (split; [|reflexivity]); [|exact H]. split; assumption || reflexivity.
  - unfold set_min_decibels, set_decibels, check. rewrite Hma. cbn [Analyser_Spec.accepted e_max]. destruct (valid_decibels A a ma) eqn:Q; cbn [bind setting]; do 2 eexists; (split; [reflexivity|]); (split; [|reflexivity]); [|exact H]. split; assumption || reflexivity.
  - unfold set_max_decibels, set_decibels, check. rewrite Hmi. cbn [Analyser_Spec.accepted e_min]. destruct (valid_decibels A mi b) eqn:Q; cbn [bind setting]; do 2 eexists; (split; [reflexivity|]); (split; [|reflexivity]); [|exact H]. split; assumption || reflexivity.
  - unfold get_float_time. rewrite Hf, (read_ok zero RB ring_buffer_pos x _ _ _ Hr) by apply Room. cbn [bind]. do 2 eexists. split; [reflexivity|]. split; [exact H|reflexivity].
  - unfold get_byte_time. rewrite Hf, (read_ok zero RB ring_buffer_pos x _ _ _ Hr) by apply Room. rewrite repeat_length. cbn [bind]. do 2 eexists. split; [reflexivity|]. split; [exact H|]. cbv zeta. f_equal. rewrite zip_map.
    + rewrite map_app. f_equal. generalize (length m) (min (length m) n). clear. intros a b. revert b. induction a as [|a IH]; intros [|b]; cbn [skipn repeat map Nat.sub]; try reflexivity; [f_equal; specialize (IH 0); rewrite Nat.sub_0_r in IH; exact IH|apply IH].
    + rewrite app_length, (recent_length zero RB ring_buffer_pos), skipn_length, repeat_length. lia.
  - unfold get_float_frequency. destruct (update_agrees _ y now H) as (y' & -> & H'). cbn [bind]. do 2 eexists. split; [reflexivity|]. split; [exact H'|]. rewrite (a_fft _ _ H'). cbn [e_fft]. eexists. split; [reflexivity|]. rewrite zip_mut_length, firstn_length. lia.
  - unfold get_byte_frequency. destruct (update_agrees _ y now H) as (y' & -> & H'). cbn [bind]. do 2 eexists. split; [reflexivity|]. split; [exact H'|]. rewrite (a_fft _ _ H'). cbn [e_fft]. eexists. split; [reflexivity|]. rewrite zip_mut_length, firstn_length. lia.
Qed.
Lemma run_agrees : forall os e y, agrees e y -> Forall op_fine os -> exists y' rs, analyser_run A fft size y os = Ok (y', rs) /\ agrees (settled e os) y' /\ length rs = length os /\
  forall k o, nth_error os k = Some o -> exists r, nth_error rs k = Some r /\ reply (settled e (firstn k os)) o r.
Proof using size_small.
  induction os as [|o os IH]; intros e y H F; cbn [analyser_run].
  - exists y, []. split; [reflexivity|]. split; [exact H|]. split; [reflexivity|]. intros [|k] o Q; discriminate Q.
  - inversion F as [|? ? Fo F']; subst. destruct (step_agrees e y o H Fo) as (y1 & r & -> & H1 & R1). cbn [bind]. destruct (IH _ y1 H1 F') as (y2 & rs & -> & H2 & L & R2). cbn [bind]. exists y2, (r :: rs). split; [reflexivity|]. split; [exact H2|]. split; [cbn [length]; lia|].
    intros [|k] o' Q; cbn [nth_error firstn] in *; [injection Q as <-; exists r; split; [reflexivity|exact R1]|]. exact (R2 k o' Q).
Qed.
(** a new node *)
Lemma create_ok : forall n s mi ma, match analyser_create A n s mi ma with
  | Ok y => agrees (mk_settings [] n s mi ma) y /\ valid_smoothing A s = true /\ valid_decibels A mi ma = true
  | Panic => allowed_size n = false \/ valid_smoothing A s = false \/ valid_decibels A mi ma = false
  | Stuck => False end.
Proof using size_small.
  intros n s mi ma. unfold analyser_create, set_fft_size, set_smoothing, set_decibels, check. rewrite valid_allowed. destruct (allowed_size n) eqn:Qn; cbn [bind]; [|left; reflexivity].
  pose proof agrees_new as N. revert N. generalize (analyser_new A). intros y0 N. destruct N as [Hr Hf Hs Hmi Hma Hl Hw Ha]. cbn [e_signal e_fft e_smoothing e_min e_max] in *.
  assert (agrees (mk_settings [] n (t_frac A 8 10) (t_of_Z A (-100)) (t_of_Z A (-30))) (if y_fft y0 =? n then y0 else mk_analyser (y_ring y0) n (y_smoothing y0) (y_min y0) (y_max y0) (map (fun _ => v_zero A) (y_last y0)) (y_time y0) (blackman A n))) as N1.
  { destruct (Nat.eqb_spec (y_fft y0) n) as [E|E]; [rewrite Hf in E; subst n; split; assumption|]. split; [exact Hr|reflexivity|exact Hs|exact Hmi|exact Hma|cbn [y_last]; rewrite map_length; exact Hl|reflexivity|exact Qn]. }
  set (y1 := if y_fft y0 =? n then y0 else _) in N1. replace (if y_fft y0 =? n then Ok y0 else Ok _) with (Ok y1) by (unfold y1; destruct (y_fft y0 =? n); reflexivity). clearbody y1. cbn [bind].
  destruct (valid_smoothing A s) eqn:Qs; cbn [bind]; [|right; left; reflexivity]. destruct (valid_decibels A mi ma) eqn:Qd; cbn [bind]; [|right; right; reflexivity]. split; [|split; reflexivity]. destruct N1. split; assumption || reflexivity.
Qed.
End Analyser.
