(** The compression curve and the level detector, over R. *)
From Coq Require Import List Arith Bool ZArith Lia Reals Lra Psatz.
From Verif Require Import Comp_Model Comp_Spec Comp_Proofs Comp_ExactProofs.
Import ListNotations.
Local Open Scope R_scope.

Lemma sq : forall x, 0 <= x * x. Proof. intros. apply Rle_0_sqr. Qed.
Section Curve.
Variables T W ratio : R.
Hypothesis W_pos : 0 <= W.
Hypothesis ratio_pos : 1 <= ratio.
Variable s : R.
Hypothesis s_eq : s = / ratio.
Lemma slope : 0 < s <= 1.
Proof using ratio_pos s_eq. rewrite s_eq. split; [apply Rinv_0_lt_compat; lra|]. rewrite <- Rinv_1. apply Rinv_le_contravar; lra. Qed.
(** the three parts *)
Definition knee (x : R) : R := x + (s - 1) * ((x - T) * (x - T)) / (2 * W).
Definition straight (x : R) : R := T + W / 2 + (x - T - W / 2) * s.
Lemma knee_step : 0 < W -> forall x y, T <= x -> x <= y -> y <= T + W -> s * (y - x) <= knee y - knee x <= y - x.
Proof using ratio_pos s_eq.
  intros Hw x y H1 H2 H3. pose proof slope. set (a := x - T). set (b := y - T). assert (E : knee y - knee x = (b - a) * (1 - (1 - s) * ((a + b) / (2 * W)))) by (unfold knee, a, b; field; lra).
  assert (Q : 0 <= (a + b) / (2 * W) <= 1). { split; [apply Rmult_le_pos; [unfold a, b; lra|apply Rlt_le, Rinv_0_lt_compat; lra]|]. apply Rmult_le_reg_r with (2 * W); [lra|]. unfold Rdiv. rewrite Rmult_assoc, Rinv_l by lra. unfold a, b. lra. }
  set (q := (a + b) / (2 * W)) in *. clearbody q. rewrite E. replace (y - x) with (b - a) by (unfold a, b; ring). assert (D : 0 <= b - a) by (unfold a, b; lra). set (d := b - a) in *.
  assert (M1 : 0 <= (1 - s) * q) by (apply Rmult_le_pos; lra). assert (M2 : (1 - s) * q <= (1 - s) * 1) by (apply Rmult_le_compat_l; lra). split.
  - rewrite Rmult_comm. apply Rmult_le_compat_l; lra.
  - rewrite <- (Rmult_1_r d) at 2. apply Rmult_le_compat_l; lra.
Qed.
Lemma knee_left : 0 < W -> knee T = T. Proof using Type. intros H. unfold knee. replace (T - T) with 0 by ring. field. lra. Qed.
Lemma knee_right : 0 < W -> knee (T + W) = straight (T + W). Proof using Type. intros H. unfold knee, straight. field. lra. Qed.
Lemma straight_step : forall x y, straight y - straight x = s * (y - x). Proof using Type. intros. unfold straight. ring. Qed.
Lemma compress_cases : forall x, compress T W ratio x = if Rle_dec x T then x else if Rle_dec x (T + W) then knee x else straight x.
Proof using s_eq. intros x. unfold compress, knee, straight. rewrite s_eq. destruct (Rle_dec x T); [reflexivity|]. destruct (Rle_dec x (T + W)); reflexivity. Qed.

(** the slope is between 1/ratio and 1 everywhere *)
Lemma compress_step : forall x y, x <= y -> s * (y - x) <= compress T W ratio y - compress T W ratio x <= y - x.
Proof using W_pos ratio_pos s_eq.
  intros x y H. pose proof slope as Sl. rewrite !compress_cases.
  assert (L : forall a b, a <= b -> s * (b - a) <= b - a) by (intros a b Hab; rewrite <- (Rmult_1_l (b - a)) at 2; apply Rmult_le_compat_r; lra).
  destruct (Rle_dec y T) as [Y1|Y1].
  { destruct (Rle_dec x T) as [_|N]; [|lra]. pose proof (L x y H). split; lra. }
  destruct (Rle_dec y (T + W)) as [Y2|Y2].
  - assert (Hw : 0 < W) by lra. destruct (Rle_dec x T) as [X1|X1].
    + pose proof (knee_step Hw T y ltac:(lra) ltac:(lra) Y2) as K. rewrite knee_left in K by exact Hw. pose proof (L x T X1). replace (y - x) with ((y - T) + (T - x)) by ring. rewrite Rmult_plus_distr_l. split; lra.
    + destruct (Rle_dec x (T + W)) as [X2|X2]; [|lra]. apply knee_step; lra.
  - pose proof (straight_step (T + W) y) as E. pose proof (L (T + W) y ltac:(lra)). destruct (Rle_dec x T) as [X1|X1].
    + pose proof (L x T X1) as LT. assert (K : s * W <= straight (T + W) - T <= W).
      { destruct (Rle_lt_or_eq_dec 0 W W_pos) as [Hw|Hw]; [|unfold straight; rewrite <- Hw; split; lra]. pose proof (knee_step Hw T (T + W) ltac:(lra) ltac:(lra) ltac:(lra)) as K. rewrite knee_left, knee_right in K by exact Hw. replace (T + W - T) with W in K by ring. exact K. }
      replace (y - x) with ((y - (T + W)) + W + (T - x)) by ring. rewrite !Rmult_plus_distr_l. split; lra.
    + destruct (Rle_dec x (T + W)) as [X2|X2].
      * assert (Hw : 0 < W) by lra. pose proof (knee_step Hw x (T + W) ltac:(lra) X2 ltac:(lra)) as K. rewrite knee_right in K by exact Hw. replace (y - x) with ((y - (T + W)) + (T + W - x)) by ring. rewrite Rmult_plus_distr_l. split; lra.
      * rewrite straight_step. pose proof (L x y H). split; lra.
Qed.
Lemma compress_below : forall x, compress T W ratio x <= x.
Proof using W_pos ratio_pos s_eq.
  intros x. destruct (Rle_dec x T) as [H|H].
  - unfold compress. destruct (Rle_dec x T); [lra|contradiction].
  - pose proof (compress_step T x ltac:(lra)) as E. assert (compress T W ratio T = T) by (unfold compress; destruct (Rle_dec T T); [reflexivity|lra]). lra.
Qed.
End Curve.

(** ** The detector *)
Section Detector.
Variable rate : R.
Hypothesis rate_pos : 0 < rate.
Lemma tau_range : forall x, 0 < x -> 0 < exp (- / (x * rate)) < 1.
Proof using rate_pos. intros x H. split; [apply exp_pos|]. rewrite <- exp_0. apply exp_increasing. assert (0 < / (x * rate)) by (apply Rinv_0_lt_compat, Rmult_lt_0_compat; assumption). lra. Qed.
(** it stays between where it was and where it goes *)
Lemma follow_between : forall p a d, in_range p -> Rmin a d <= follow rate p a d <= Rmax a d.
Proof using rate_pos.
  intros p a d (_ & _ & Ha & Hr). unfold follow. set (x := if Rlt_dec d a then m_attack p else m_release p). assert (Hx : 0 < x) by (unfold x; destruct (Rlt_dec d a); assumption). pose proof (tau_range x Hx) as Ht. set (t := exp _) in *. clearbody t.
  unfold Rmin, Rmax. destruct (Rle_dec a d) as [L|L].
  - assert (0 <= t * (d - a)) by (apply Rmult_le_pos; lra). assert (t * (d - a) <= 1 * (d - a)) by (apply Rmult_le_compat_r; lra). lra.
  - assert (0 <= t * (a - d)) by (apply Rmult_le_pos; lra). assert (t * (a - d) <= 1 * (a - d)) by (apply Rmult_le_compat_r; lra). lra.
Qed.
Lemma attenuation_pos : forall p l, in_range p -> 0 <= attenuation p l.
Proof using Type. intros p l (Hk & Hr & _). unfold attenuation. cbv zeta. pose proof (compress_below (m_threshold p) (m_knee p) (m_ratio p) Hk Hr _ eq_refl (decibels l)). lra. Qed.

Lemma scan_Forall : forall X S (f : X -> S -> S) (P : S -> Prop) (Q : X -> Prop) l s, (forall x s, Q x -> P s -> P (f x s)) -> Forall Q l -> P s -> Forall P (scan f s l).
Proof using Type. intros X S f P Q. induction l as [|x l IH]; intros s Hf Hq Hs; cbn [scan]; [constructor|]. inversion Hq; subst. assert (P (f x s)) by (apply Hf; assumption). constructor; [assumption|]. apply IH; assumption. Qed.
(** between 0 and the highest attenuation so far *)
Lemma detector_range : forall B fs, 0 <= B -> Forall (fun f => in_range (fst f) /\ attenuation (fst f) (snd f) <= B) fs -> Forall (fun d => 0 <= d <= B) (scan (target rate) 0 fs).
Proof using rate_pos.
  intros B fs HB HF. eapply scan_Forall; [|exact HF|lra]. intros [p l] d [Hp Hl] Hd. cbn [fst snd] in *. unfold target. cbn [fst snd]. pose proof (follow_between p (attenuation p l) d Hp) as F. pose proof (attenuation_pos p l Hp). unfold Rmin, Rmax in F. destruct (Rle_dec (attenuation p l) d); lra.
Qed.
(** at a constant level it converges, at least at the slower of the two speeds *)
Lemma detector_converges : forall p l n d, in_range p -> let t := exp (- / (Rmax (m_attack p) (m_release p) * rate)) in
  0 < t < 1 /\ forall i, (i < n)%nat -> Rabs (nth i (scan (target rate) d (repeat (p, l) n)) 0 - attenuation p l) <= t ^ S i * Rabs (d - attenuation p l).
Proof using rate_pos.
  intros p l n d Hp t. pose proof Hp as (_ & _ & Ha & Hr). assert (Hm : 0 < Rmax (m_attack p) (m_release p)) by (eapply Rlt_le_trans; [exact Ha|apply Rmax_l]). split; [apply tau_range; exact Hm|].
  pose proof (tau_range _ Hm) as Ht. fold t in Ht. set (a := attenuation p l).
  assert (St : forall d, Rabs (follow rate p a d - a) <= t * Rabs (d - a)).
  { intros d'. unfold follow. set (x := if Rlt_dec d' a then m_attack p else m_release p). assert (Hx : 0 < x <= Rmax (m_attack p) (m_release p)) by (unfold x; destruct (Rlt_dec d' a); split; auto; [apply Rmax_l|apply Rmax_r]). set (u := exp (- / (x * rate))).
    replace (u * d' + (1 - u) * a - a) with (u * (d' - a)) by ring. rewrite Rabs_mult. apply Rmult_le_compat_r; [apply Rabs_pos|]. unfold u. rewrite Rabs_pos_eq by (apply Rlt_le, exp_pos). unfold t.
    destruct (Rle_lt_or_eq_dec _ _ (proj2 Hx)) as [Lx|Ex]; [|rewrite Ex; lra]. apply Rlt_le, exp_increasing. apply Ropp_lt_contravar. apply Rinv_lt_contravar; [apply Rmult_lt_0_compat; apply Rmult_lt_0_compat; lra|]. apply Rmult_lt_compat_r; assumption. }
  revert d. induction n as [|n IH]; intros d i Hi; [lia|]. cbn [repeat scan]. change (target rate (p, l) d) with (follow rate p a d). destruct i as [|i].
  - cbn [nth pow]. rewrite Rmult_1_r. apply St.
  - cbn [nth]. eapply Rle_trans; [apply IH; lia|]. change (t ^ S (S i)) with (t * t ^ S i). rewrite (Rmult_comm t), Rmult_assoc. apply Rmult_le_compat_l; [apply pow_le; lra|apply St].
Qed.
End Detector.
(** the makeup gain is that of the specification when 0 dB is not in the knee *)
Lemma makeup_agrees : forall p, 0 <= m_knee p -> m_threshold p + m_knee p <= 0 -> m_ratio p <> 0 -> makeup_straight p = makeup p.
Proof.
  intros [Th W ratio at_ re] Hk Ht Hr. unfold makeup_straight, makeup, compress. cbn [m_knee m_threshold m_ratio] in *. f_equal. destruct (Rle_dec 0 Th) as [H|H].
  - assert (W = 0) as -> by lra. assert (Th = 0) as -> by lra. field. exact Hr.
  - destruct (Rle_dec 0 (Th + W)) as [H2|H2]; [|field; exact Hr]. assert (Th = - W) as -> by lra. field. split; lra.
Qed.
Lemma makeup_differs : makeup_straight (mk_comp_params (-24) 30 12 (3 / 1000) (1 / 4)) <> makeup (mk_comp_params (-24) 30 12 (3 / 1000) (1 / 4)).
Proof.
  unfold makeup_straight, makeup, compress. cbn [m_knee m_threshold m_ratio]. destruct (Rle_dec 0 (-24)) as [H|_]; [lra|]. destruct (Rle_dec 0 (-24 + 30)) as [_|N]; [|lra]. lra.
Qed.
