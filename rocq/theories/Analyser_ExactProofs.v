(** The analyser in exact arithmetic: the mono signal, bytes and the spectrum. *)
From Coq Require Import List Arith Bool ZArith Reals Lra Lia.
From Flocq Require Import Core.
From Coquelicot Require Import Complex.
From Verif Require Import Arith_Model Arith_Real Quantum_Model Quantum_Spec Quantum_Proofs Route_Spec Analyser_Model Analyser_Spec Delay_Proofs Absn_ExactProofs Analyser_RingProofs Analyser_Proofs.
Import ListNotations.
#[local] Opaque max_fft_size ring_buffer_size.
Local Open Scope R_scope.

Lemma mono_exact : forall size s val q, good_quantum size s val q -> mono exact size s q = mono_signal size q.
Proof.
  intros size s val q H. destruct (main_mix size s val q 1 Speakers H ltac:(lia)) as (s' & q' & val' & E & G & L & F). unfold mono. change (sops_of exact) with Rsops. rewrite E. destruct q' as [|c [|d q']]; try discriminate L.
  assert (Lc : length (c_val c) = size) by (destruct G as (_ & _ & _ & G); apply (G c); left; reflexivity). unfold mono_signal. apply (nth_ext _ _ 0 0); [rewrite map_length, seq_length; exact Lc|]. intros t Ht. rewrite Lc in Ht.
  rewrite (nth_indep (map _ _) 0 (nth 0 (mix_frame Speakers 1 (frame q 0%nat)) 0)) by (rewrite map_length, seq_length; exact Ht). rewrite (map_nth (fun t => nth 0 (mix_frame Speakers 1 (frame q t)) 0) (seq 0 size) 0%nat t), seq_nth by exact Ht. cbn [plus].
  rewrite <- F; [reflexivity|intros (_ & _ & Q); discriminate Q|exact Ht].
Qed.

Lemma clamp_exact : forall x, clamp_u8 exact x = Z.max 0 (Z.min 255 (Zfloor x)).
Proof.
  intros x. unfold clamp_u8. cbn [exact v_lt v_of_Z v_to_Z]. unfold R_to_Z. destruct (Rlt_dec x 0) as [H|H].
  - rewrite (R_lt_true x 0 H). rewrite (R_lt_false 255 0) by lra. rewrite Ztrunc_IZR. assert (Zfloor x < 0)%Z by (apply lt_IZR; apply Rle_lt_trans with x; [apply Zfloor_lb|exact H]). lia.
  - rewrite (R_lt_false x 0) by lra. destruct (Rlt_dec 255 x) as [Q|Q].
    + rewrite (R_lt_true 255 x Q). rewrite Ztrunc_IZR. assert (255 <= Zfloor x)%Z by (apply Zfloor_lub; lra). lia.
    + rewrite (R_lt_false 255 x) by lra. rewrite Ztrunc_floor by lra. assert (0 <= Zfloor x)%Z by (apply Zfloor_lub; lra). assert (Zfloor x <= 255)%Z by (apply le_IZR; apply Rle_trans with x; [apply Zfloor_lb|lra]). lia.
Qed.
Lemma byte_exact : forall x, byte_of_sample exact x = byte_of x. Proof. intros x. apply clamp_exact. Qed.
Lemma byte_level_exact : forall a b y, byte_of_level exact a b y = byte_of_decibels a b (decibels_of y). Proof. intros a b y. apply clamp_exact. Qed.

Lemma zip_mut_nth : forall X Y (f : X -> Y -> X) xs ys dx dy k, (k < length xs)%nat -> (k < length ys)%nat -> nth k (zip_mut f xs ys) dx = f (nth k xs dx) (nth k ys dy).
Proof. intros X Y f. induction xs as [|x xs IH]; intros [|y ys] dx dy k H1 H2; cbn [length] in *; try lia. destruct k as [|k]; cbn [zip_mut nth]; [reflexivity|]. apply IH; lia. Qed.
Lemma nth_map_seq : forall (f : nat -> R) n k, (k < n)%nat -> nth k (map f (seq 0 n)) 0 = f k.
Proof. intros f n k H. rewrite (nth_indep _ 0 (f 0%nat)) by (rewrite map_length, seq_length; exact H). rewrite (map_nth f (seq 0 n) 0%nat k), seq_nth by exact H. reflexivity. Qed.
Lemma blackman_nth : forall n k, (k < n)%nat -> nth k (blackman exact n) 0 = window n k.
Proof. intros n k H. unfold blackman. rewrite nth_map_seq by exact H. cbn [exact v_of_Z v_frac v_add v_sub v_mul v_div v_PI v_cos]. unfold window. rewrite <- !INR_IZR_INZ. reflexivity. Qed.
Lemma blackman_length : forall n, length (blackman exact n) = n. Proof. intros n. unfold blackman. rewrite map_length, seq_length. reflexivity. Qed.
Definition windowed (x : list R) : list R := map (fun n => nth n x 0 * window (length x) n) (seq 0 (length x)).
Lemma windowed_length : forall x, length (windowed x) = length x. Proof. intros x. unfold windowed. rewrite map_length, seq_length. reflexivity. Qed.
Lemma windowed_ok : forall x, zip_mut Rmult x (blackman exact (length x)) = windowed x.
Proof.
  intros x. apply (nth_ext _ _ 0 0); rewrite zip_mut_length; [rewrite windowed_length; reflexivity|]. intros k H. rewrite (zip_mut_nth _ _ _ _ _ 0 0) by (rewrite ?blackman_length; exact H). rewrite blackman_nth by exact H. unfold windowed. rewrite nth_map_seq by exact H. reflexivity.
Qed.
Lemma bin_ok : forall s o x k, (0 < length x)%nat -> (k < length x / 2 + 1)%nat ->
  smooth exact s (1 / IZR (Z.of_nat (length x))) o (nth k (dft (windowed x)) (0, 0)) = s * o + (1 - s) * magnitude x k.
Proof.
  intros s o x k H0 H. unfold dft. rewrite windowed_length. rewrite (nth_indep _ (0, 0) (dft_re (windowed x) 0, dft_im (windowed x) 0)) by (rewrite map_length, seq_length; exact H).
  rewrite (map_nth (fun k => (dft_re (windowed x) k, dft_im (windowed x) k)) (seq 0 (length x / 2 + 1)) 0%nat k), seq_nth by exact H. cbn [plus]. unfold smooth. cbn [exact v_of_Z v_add v_sub v_mul v_hypot v_finite fst snd]. unfold R_hypot, magnitude. rewrite <- INR_IZR_INZ. fold (windowed x). f_equal. f_equal. unfold Rdiv. rewrite Rmult_1_l. reflexivity.
Qed.

Section Run.
Variable size : nat.
Hypothesis size_small : (size <= ring_buffer_size)%nat.
Notation op := (analyser_op (T := R) (V := R)).
Notation E := (settings (T := R) (V := R)).
Notation settle := (settle (valid_smoothing exact) (valid_decibels exact) (mono exact size)).
Notation settled := (settled (valid_smoothing exact) (valid_decibels exact) (mono exact size)).
Notation view := (view size).
Record shows (e : E) (z : spectrum) (y : analyser (T := R) (V := R)) : Prop := {
  w_agrees : agrees exact e y;
  w_time : y_time y = z_time z;
  w_level : forall k, (k < e_fft e / 2)%nat -> nth k (y_last y) 0 = z_level z k
}.
Lemma half_small : forall e y, agrees exact e y -> (e_fft e / 2 <= length (y_last y))%nat.
Proof using size_small. intros e y H. rewrite (a_last _ _ _ H). pose proof (allowed_range _ (a_size _ _ _ H)) as Q. pose proof (Nat.div_le_mono (e_fft e) max_fft_size 2 ltac:(lia) ltac:(lia)). lia. Qed.
Lemma update_shows : forall e z y now, shows e z y -> exists y', update_fft exact dft y now = Ok y' /\ shows e (refresh e now z) y'.
Proof using size_small.
  intros e z y now [H Ht Hl]. destruct (compute_agrees exact dft size size_small e y H) as (last & Ec & L & D). unfold update_fft, refresh. rewrite <- Ht.
  set (new := mk_analyser (y_ring y) (y_fft y) (y_smoothing y) (y_min y) (y_max y) last (Some now) (y_window y)).
  assert (C : shows e (mk_spectrum (fun k => e_smoothing e * z_level z k + (1 - e_smoothing e) * magnitude (recent 0 (e_fft e) (e_signal e)) k) (Some now)) new).
  { split; [destruct H; split; assumption|reflexivity|]. intros k Hk. cbn [new y_last z_level]. rewrite D. pose proof (half_small e y H) as Hh. rewrite app_nth1 by (rewrite zip_mut_length, firstn_length; lia).
    change (v_zero exact) with 0. set (x := recent 0 (e_fft e) (e_signal e)). assert (Lx : length x = e_fft e) by apply (recent_length 0 ring_buffer_size ring_buffer_pos). assert (P : (0 < e_fft e)%nat) by (pose proof (allowed_range _ (a_size _ _ _ H)); lia).
    cbn [exact v_of_t v_mul v_div v_of_Z]. change (v_mul exact) with Rmult. rewrite (a_smoothing _ _ _ H). pose proof Hk as Hk'. rewrite <- Lx in Hk', Hh |- *. rewrite windowed_ok. rewrite (zip_mut_nth _ _ _ _ _ 0 (0, 0)); [|rewrite firstn_length; lia|unfold dft; rewrite map_length, seq_length, windowed_length; lia].
    rewrite bin_ok by lia. f_equal. f_equal. rewrite Lx, <- Hl by exact Hk.
    rewrite <- (firstn_skipn (e_fft e / 2) (y_last y)) at 2. rewrite app_nth1 by (rewrite firstn_length; lia). reflexivity. }
  rewrite Ec. cbn [bind y_ring y_fft y_smoothing y_min y_max y_last y_window]. fold new. destruct (y_time y) as [t|] eqn:Qt; [|exists new; auto]. cbn [exact t_eq]. unfold R_eq. destruct (Req_EM_T now t); [|exists new; auto]. exists y. split; [reflexivity|]. split; [exact H|congruence|exact Hl].
Qed.
Lemma step_shows : forall e z y o, shows e z y -> op_fine size o -> exists y' r, analyser_step exact dft size y o = Ok (y', r) /\ shows (settle e o) (observe e z o) y' /\ reply exact e o r /\ answer e z o r.
Proof using size_small.
  intros e z y o S Ho. pose proof S as [H Ht Hl]. destruct (step_agrees exact dft size size_small e y o H Ho) as (y' & r & E1 & H' & Rp). exists y', r. split; [exact E1|].
  assert (Common : y_time y' = z_time (observe e z o) /\ (forall k, (k < e_fft (settle e o) / 2)%nat -> nth k (y_last y') 0 = z_level (observe e z o) k) /\ answer e z o r); [|destruct Common as (C1 & C2 & C3); split; [split; assumption|split; assumption]].
  destruct e as [x n sm mi ma]. destruct o as [s q|m|v|a b|a|b|dst|m|dst now|dst now]; cbn [analyser_step observe answer Analyser_Spec.settle e_fft e_smoothing e_signal e_min e_max] in *.
  - destruct (analyser_quantum exact size s q (y_ring y)) as [[[out r'] more]| |]; try discriminate E1. cbn [bind] in E1. injection E1 as <- <-. auto.
  - unfold set_fft_size, check in E1. rewrite valid_allowed in E1. pose proof (a_fft _ _ _ H) as Hf. cbn [e_fft] in Hf. rewrite Hf in E1. destruct (allowed_size m) eqn:Q; cbn [bind setting andb] in E1 |- *.
    + rewrite (Nat.eqb_sym m n). destruct (Nat.eqb_spec n m) as [->|D]; cbn [setting] in E1; injection E1 as <- <-; cbn [negb]; [auto|]. cbn [y_time y_last z_time z_level e_fft]. split; [exact Ht|]. split; [|exact I]. intros k Hk. change (fun _ : R => v_zero exact) with (fun _ : R => 0).
      destruct (nth_in_or_default k (map (fun _ => 0) (y_last y)) 0) as [Q2|Q2]; [|exact Q2]. apply in_map_iff in Q2. destruct Q2 as (? & Q2 & _). symmetry. exact Q2.
    + injection E1 as <- <-. auto.
  - unfold set_smoothing, check in E1. destruct (valid_smoothing exact v); cbn [bind setting] in E1; injection E1 as <- <-; auto.
  - unfold set_decibels, check in E1. destruct (valid_decibels exact a b); cbn [bind setting] in E1; injection E1 as <- <-; auto.
  - unfold set_min_decibels, set_decibels, check in E1. pose proof (a_max _ _ _ H) as Hm. cbn [e_max] in Hm. rewrite Hm in E1. destruct (valid_decibels exact a ma); cbn [bind setting] in E1; injection E1 as <- <-; auto.
  - unfold set_max_decibels, set_decibels, check in E1. pose proof (a_min _ _ _ H) as Hm. cbn [e_min] in Hm. rewrite Hm in E1. destruct (valid_decibels exact mi b); cbn [bind setting] in E1; injection E1 as <- <-; auto.
  - destruct (get_float_time y dst) as [l| |]; try discriminate E1. cbn [bind] in E1. injection E1 as <- <-. auto.
  - destruct (get_byte_time exact y m) as [l| |]; try discriminate E1. cbn [bind] in E1. injection E1 as <- <-. auto.
  - unfold get_float_frequency in E1. destruct (update_shows _ z y now S) as (y1 & E2 & [H1 T1 L1]). rewrite E2 in E1. cbn [bind] in E1. injection E1 as <- <-. split; [exact T1|]. split; [exact L1|]. eexists. split; [reflexivity|]. intros k K1 K2 _.
    pose proof (half_small _ _ H1) as Hh. pose proof (a_fft _ _ _ H1) as Hf. cbn [e_fft] in Hh, Hf, L1. change (fst (Nat.divmod (y_fft y1) 1 0 1)) with (y_fft y1 / 2)%nat. rewrite Hf. rewrite app_nth1 by (rewrite zip_mut_length, firstn_length; lia). rewrite (zip_mut_nth _ _ _ _ _ 0 0) by (rewrite ?firstn_length; lia). rewrite L1 by exact K2. reflexivity.
  - unfold get_byte_frequency in E1. destruct (update_shows _ z y now S) as (y1 & E2 & [H1 T1 L1]). rewrite E2 in E1. cbn [bind] in E1. injection E1 as <- <-. split; [exact T1|]. split; [exact L1|]. eexists. split; [reflexivity|]. intros k K1 K2 _.
    pose proof (half_small _ _ H1) as Hh. pose proof (a_fft _ _ _ H1) as Hf. pose proof (a_min _ _ _ H1) as Hmi. pose proof (a_max _ _ _ H1) as Hma. cbn [e_fft e_min e_max] in Hh, Hf, L1, Hmi, Hma. change (fst (Nat.divmod (y_fft y1) 1 0 1)) with (y_fft y1 / 2)%nat. rewrite Hf, Hmi, Hma. rewrite app_nth1 by (rewrite zip_mut_length, firstn_length; lia). rewrite (zip_mut_nth _ _ _ _ _ 0%Z 0) by (rewrite ?firstn_length; lia). rewrite L1 by exact K2. apply byte_level_exact.
Qed.
Lemma view_fst : forall os ez, fst (fold_left view os ez) = settled (fst ez) os. Proof using Type. induction os as [|o os IH]; intros ez; [reflexivity|]. cbn [fold_left]. rewrite IH. reflexivity. Qed.
Lemma run_shows : forall os e z y, shows e z y -> Forall (op_fine size) os -> exists y' rs, analyser_run exact dft size y os = Ok (y', rs) /\ length rs = length os /\
  forall k o, nth_error os k = Some o -> exists r, nth_error rs k = Some r /\ let ez := fold_left view (firstn k os) (e, z) in reply exact (fst ez) o r /\ answer (fst ez) (snd ez) o r.
Proof using size_small.
  induction os as [|o os IH]; intros e z y H F; cbn [analyser_run].
  - exists y, []. split; [reflexivity|]. split; [reflexivity|]. intros [|k] o Q; discriminate Q.
  - inversion F as [|? ? Fo F']; subst. destruct (step_shows e z y o H Fo) as (y1 & r & -> & H1 & R1 & A1). cbn [bind]. destruct (IH _ _ y1 H1 F') as (y2 & rs & -> & L & R2). cbn [bind]. exists y2, (r :: rs). split; [reflexivity|]. split; [cbn [length]; lia|].
    intros [|k] o' Q; cbn [nth_error firstn fold_left] in *; [injection Q as <-; exists r; split; [reflexivity|split; assumption]|]. exact (R2 k o' Q).
Qed.
End Run.

(** ** Levels are at most 1 for signals in [-1, 1] *)
Lemma window_range : forall N n, 0 <= window N n <= 1.
Proof.
  intros N n. unfold window. replace (4 * PI * INR n / INR N) with (2 * (2 * PI * INR n / INR N)) by (unfold Rdiv; ring). set (t := 2 * PI * INR n / INR N). rewrite cos_2a_cos. pose proof (COS_bound t) as [H1 H2]. set (c := cos t) in *. split; nra.
Qed.
Lemma sum_S : forall f n, sum f (S n) = sum f n + f n.
Proof. intros f n. unfold sum. rewrite seq_S, map_app, fold_right_app. cbn [map fold_right plus]. rewrite Rplus_0_r. induction (map f (seq 0 n)) as [|a l IH]; cbn [fold_right]; [ring|rewrite IH; ring]. Qed.
Lemma sum_ext : forall f g n, (forall k, (k < n)%nat -> f k = g k) -> sum f n = sum g n.
Proof. intros f g n. induction n as [|n IH]; intros H; [reflexivity|]. rewrite !sum_S, IH, H by (intros; try apply H; lia). reflexivity. Qed.
Lemma modulus : forall (x c s : nat -> R) n, (forall k, c k * c k + s k * s k = 1) -> sqrt (sum (fun k => x k * c k) n * sum (fun k => x k * c k) n + sum (fun k => x k * s k) n * sum (fun k => x k * s k) n) <= sum (fun k => Rabs (x k)) n.
Proof.
  intros x c s n H. assert (G : Cmod (sum (fun k => x k * c k) n, sum (fun k => x k * s k) n) <= sum (fun k => Rabs (x k)) n).
  { induction n as [|n IH]; [cbn [sum seq map fold_right]; unfold sum; cbn [seq map fold_right]; change (0, 0) with (RtoC 0); rewrite Cmod_0; lra|]. rewrite !sum_S. replace (sum (fun k => x k * c k) n + x n * c n, sum (fun k => x k * s k) n + x n * s n) with (Cplus (sum (fun k => x k * c k) n, sum (fun k => x k * s k) n) (x n * c n, x n * s n)) by reflexivity.
    eapply Rle_trans; [apply Cmod_triangle|]. apply Rplus_le_compat; [exact IH|]. unfold Cmod. cbn [fst snd]. replace ((x n * c n) ^ 2 + (x n * s n) ^ 2) with (x n * x n * (c n * c n + s n * s n)) by ring. rewrite H, Rmult_1_r. fold (Rsqr (x n)). rewrite sqrt_Rsqr_abs. apply Rle_refl. }
  unfold Cmod in G. cbn [fst snd] in G. replace (_ ^ 2 + _ ^ 2) with (sum (fun k => x k * c k) n * sum (fun k => x k * c k) n + sum (fun k => x k * s k) n * sum (fun k => x k * s k) n) in G by ring. exact G.
Qed.
Lemma sum_le_1 : forall f n, (forall k, (k < n)%nat -> f k <= 1) -> sum f n <= INR n.
Proof. intros f n. induction n as [|n IH]; intros H; [unfold sum; cbn; lra|]. rewrite sum_S, S_INR. apply Rplus_le_compat; [apply IH; intros; apply H; lia|apply H; lia]. Qed.
Lemma magnitude_range : forall x k, Forall (fun v => -1 <= v <= 1) x -> (0 < length x)%nat -> 0 <= magnitude x k <= 1.
Proof.
  intros x k F L. unfold magnitude. fold (windowed x). set (a := sqrt _). assert (P : 0 < INR (length x)) by (apply lt_0_INR; exact L).
  assert (H0 : 0 <= a) by apply sqrt_pos. assert (H1 : a <= INR (length x)).
  { unfold a, dft_re, dft_im. rewrite Rmult_opp_opp. rewrite windowed_length. eapply Rle_trans; [apply modulus|].
    - intros j. set (t := 2 * PI * INR k * INR j / INR (length x)). pose proof (sin2_cos2 t) as Q. unfold Rsqr in Q. lra.
    - apply sum_le_1. intros j Hj. unfold windowed. rewrite nth_map_seq by exact Hj. pose proof (window_range (length x) j) as [W0 W1]. assert (Hx : -1 <= nth j x 0 <= 1) by (rewrite Forall_forall in F; apply F; apply nth_In; exact Hj). apply Rabs_le. split; nra. }
  split; [apply Rmult_le_pos; [exact H0|left; apply Rinv_0_lt_compat; exact P]|]. apply Rmult_le_reg_r with (INR (length x)); [exact P|]. unfold Rdiv. rewrite Rmult_assoc, Rinv_l by lra. lra.
Qed.

Lemma recent_Forall : forall (P : R -> Prop) n l, P 0 -> Forall P l -> Forall P (recent 0 n l).
Proof. intros P n l H0 H. unfold recent. rewrite Forall_forall. intros x Hx. assert (In x (repeat 0 n ++ l)) as Q by (rewrite <- (firstn_skipn (length l)); apply in_or_app; right; exact Hx). apply in_app_or in Q. destruct Q as [Q|Q]; [apply repeat_spec in Q; rewrite Q; exact H0|]. rewrite Forall_forall in H. exact (H x Q). Qed.
Definition unit_range (v : R) : Prop := -1 <= v <= 1.
Definition tame (size : nat) (ez : settings (T := R) (V := R) * spectrum) : Prop :=
  Forall unit_range (e_signal (fst ez)) /\ 0 <= e_smoothing (fst ez) <= 1 /\ (0 < e_fft (fst ez))%nat /\ forall k, 0 <= z_level (snd ez) k <= 1.
Lemma refresh_tame : forall size e z now, tame size (e, z) -> forall k, 0 <= z_level (refresh e now z) k <= 1.
Proof.
  intros size e z now (Hs & Hm & Hf & Hz) k. cbn [fst snd] in *. unfold refresh. destruct (match z_time z with Some t => _ | None => _ end); [apply Hz|]. cbn [z_level].
  assert (M : 0 <= magnitude (recent 0 (e_fft e) (e_signal e)) k <= 1) by (apply magnitude_range; [apply recent_Forall; [unfold unit_range; lra|exact Hs]|rewrite (recent_length 0 ring_buffer_size ring_buffer_pos); exact Hf]). specialize (Hz k). nra.
Qed.
Lemma view_tame : forall size ez o, tame size ez -> (forall s q, o = Render s q -> Forall unit_range (mono exact size s q)) -> tame size (view size ez o).
Proof.
  intros size [[x n s a b] z] o H Ho. pose proof (fun now => refresh_tame size _ z now H) as Rf. destruct H as (Hs & Hm & Hf & Hz). unfold view, tame in *. cbn [fst snd e_signal e_smoothing e_fft] in *.
  destruct o; cbn [settle observe e_signal e_smoothing e_fft z_level]; auto.
  - split; [apply Forall_app; split; [exact Hs|eapply Ho; reflexivity]|]. auto.
  - destruct (allowed_size n0) eqn:Q; cbn [andb e_signal e_smoothing e_fft]; [|auto]. pose proof (allowed_range _ Q). split; [exact Hs|]. split; [exact Hm|]. split; [lia|]. intros k. destruct (negb (n0 =? n)); cbn [z_level]; [lra|apply Hz].
  - destruct (valid_smoothing exact x0) eqn:Q; cbn [e_signal e_smoothing e_fft]; [|auto]. split; [exact Hs|]. split; [|auto]. unfold valid_smoothing in Q. apply andb_true_iff in Q. destruct Q as [Q1 Q2]. cbn [exact t_le] in *. unfold R_le in *. destruct (Rle_dec _ _) as [P1|]; [|discriminate Q1]. destruct (Rle_dec x0 _) as [P2|]; [|discriminate Q2]. change (t_zero exact) with 0 in P1. change (t_one exact) with 1 in P2. lra.
  - destruct (valid_decibels exact _ _); cbn [e_signal e_smoothing e_fft]; auto.
  - destruct (valid_decibels exact _ _); cbn [e_signal e_smoothing e_fft]; auto.
  - destruct (valid_decibels exact _ _); cbn [e_signal e_smoothing e_fft]; auto.
Qed.
(** a constant signal has a spectrum *)
Lemma sum_ge : forall f n m, (forall k, (k < n)%nat -> 0 <= f k) -> (m < n)%nat -> f m <= sum f n.
Proof.
  intros f n m. induction n as [|n IH]; intros H Hm; [lia|]. rewrite sum_S. assert (P : forall j, (j <= n)%nat -> 0 <= sum f j). { intros j. induction j as [|j IHj]; intros Hj; [unfold sum; cbn; lra|]. rewrite sum_S. pose proof (H j ltac:(lia)). specialize (IHj ltac:(lia)). lra. }
  destruct (Nat.eq_dec m n) as [->|D]; [specialize (P n ltac:(lia)); lra|]. pose proof (H n ltac:(lia)). assert (f m <= sum f n) by (apply IH; [intros; apply H; lia|lia]). lra.
Qed.
Lemma constant_level : 0 < magnitude (repeat 1 32) 0.
Proof.
  unfold magnitude. fold (windowed (repeat 1 32)). set (x := repeat 1 32). assert (L : length x = 32%nat) by apply repeat_length. apply Rmult_lt_0_compat; [|apply Rinv_0_lt_compat; rewrite L; apply lt_0_INR; lia]. apply sqrt_lt_R0.
  assert (D : 0 < dft_re (windowed x) 0).
  { unfold dft_re. rewrite windowed_length, L. rewrite (sum_ext _ (fun n => window 32 n)).
    - apply Rlt_le_trans with (window 32 16); [|apply (sum_ge (fun n => window 32 n)); [intros; apply window_range|lia]]. unfold window. replace (2 * PI * INR 16 / INR 32) with PI by (cbn [INR]; field). replace (4 * PI * INR 16 / INR 32) with (2 * PI) by (cbn [INR]; field). rewrite cos_PI, cos_2PI. lra.
    - intros k Hk. unfold windowed. rewrite L, nth_map_seq by exact Hk. replace (nth k x 0) with 1 by (symmetry; rewrite (nth_indep x 0 1) by (rewrite L; exact Hk); apply nth_repeat). cbn [INR]. replace (2 * PI * 0 * INR k / _) with 0 by (unfold Rdiv; ring). rewrite cos_0. ring. }
  pose proof (Rle_0_sqr (dft_im (windowed x) 0)) as Q. unfold Rsqr in Q. pose proof (Rmult_lt_0_compat _ _ D D). lra.
Qed.
