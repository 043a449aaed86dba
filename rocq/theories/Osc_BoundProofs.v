(** The waveforms stay in [-1,1]. *)
From Coq Require Import List Arith Bool ZArith Reals Lra Lia.
From Flocq Require Import Core.
From Verif Require Import Source_Model Osc_SoundSpec Osc_SoundProofs.
Import ListNotations.
Local Open Scope R_scope.

Definition unit_table (w : list R) : Prop := Forall (fun v => -1 <= v <= 1) w.
Lemma nth_unit : forall w k, unit_table w -> -1 <= nth k w 0 <= 1.
Proof. intros w k H. destruct (nth_in_or_default k w 0) as [I| ->]; [|lra]. unfold unit_table in H. rewrite Forall_forall in H. apply H. exact I. Qed.
Lemma interp_bound : forall w p, unit_table w -> 0 <= p -> -1 <= interp w p <= 1.
Proof.
  intros w p Hw Hp. unfold interp. set (x := p * INR (length w)). assert (Hx : 0 <= x) by (unfold x; apply Rmult_le_pos; [exact Hp|apply pos_INR]).
  pose proof (Zfloor_lb x). pose proof (Zfloor_ub x). assert (Z0 : (0 <= Zfloor x)%Z) by (apply Zfloor_lub; exact Hx). set (k := Z.to_nat (Zfloor x)).
  assert (Ek : INR k = IZR (Zfloor x)) by (unfold k; rewrite INR_IZR_INZ, Z2Nat.id by exact Z0; reflexivity). set (u := x - INR k). assert (Hu : 0 <= u <= 1) by (unfold u; lra).
  pose proof (nth_unit w k Hw). pose proof (nth_unit w ((k + 1) mod length w) Hw). set (a := nth k w 0) in *. set (b := nth ((k + 1) mod length w) w 0) in *. clearbody u a b. replace (a + u * (b - a)) with ((1 - u) * a + u * b) by ring.
  assert ((1 - u) * -1 <= (1 - u) * a <= (1 - u) * 1) by (split; apply Rmult_le_compat_l; lra). assert (u * -1 <= u * b <= u * 1) by (split; apply Rmult_le_compat_l; lra). lra.
Qed.
Lemma unit_square : forall x, 0 <= x <= 1 -> 0 <= (1 - x) ^ 2 <= 1.
Proof. intros x H. split; nra. Qed.
Lemma ratio : forall a b, 0 <= a <= b -> 0 < b -> 0 <= a / b <= 1.
Proof. intros a b H Hb. split; [apply Rmult_le_pos; [lra|left; apply Rinv_0_lt_compat; lra]|]. apply Rmult_le_reg_r with b; [exact Hb|]. unfold Rdiv. rewrite Rmult_assoc, Rinv_l by lra. lra. Qed.

Lemma sawtooth_bound : forall q d, 0 <= q < 1 -> d < / 2 -> -1 <= 2 * q - 1 - blep q d <= 1.
Proof.
  intros q d Hq Hd. unfold blep. destruct (Rlt_dec q d) as [L|L]; [|destruct (Rlt_dec (1 - d) q) as [G|G]; [|lra]].
  - pose proof (ratio q d ltac:(lra) ltac:(lra)) as U. set (u := q / d) in *. assert (E : q = u * d) by (unfold u; field; lra). rewrite E. clearbody u.
    replace (2 * (u * d) - 1 - - (1 - u) ^ 2) with (- (u * (2 - 2 * d - u))) by ring. assert (0 <= u * (2 - 2 * d - u)) by (apply Rmult_le_pos; lra).
    assert (u * (2 - 2 * d - u) <= (1 - d) * (1 - d)) by (pose proof (Rle_0_sqr (u - (1 - d))) as S; unfold Rsqr in S; lra). assert ((1 - d) * (1 - d) <= 1) by nra. lra.
  - assert (D : 0 < d) by lra. pose proof (ratio (1 - q) d ltac:(lra) D) as U. set (u := (1 - q) / d) in *. assert (E : q = 1 - u * d) by (unfold u; field; lra). rewrite E. clearbody u.
    replace (2 * (1 - u * d) - 1 - (1 - u) ^ 2) with (u * (2 - 2 * d - u)) by ring. assert (0 <= u * (2 - 2 * d - u)) by (apply Rmult_le_pos; lra).
    assert (u * (2 - 2 * d - u) <= (1 - d) * (1 - d)) by (pose proof (Rle_0_sqr (u - (1 - d))) as S; unfold Rsqr in S; lra). assert ((1 - d) * (1 - d) <= 1) by nra. lra.
Qed.
(** below one half the correction at 0 is not positive, above not negative *)
Lemma blep_low : forall p d, 0 <= p < / 2 -> d < / 2 -> -1 <= blep p d <= 0.
Proof.
  intros p d Hp Hd. unfold blep. destruct (Rlt_dec p d); [|destruct (Rlt_dec (1 - d) p); lra]. pose proof (unit_square (p / d) (ratio p d ltac:(lra) ltac:(lra))). lra.
Qed.
Lemma blep_high : forall p d, / 2 <= p < 1 -> d < / 2 -> 0 <= blep p d <= 1.
Proof.
  intros p d Hp Hd. unfold blep. destruct (Rlt_dec p d); [lra|]. destruct (Rlt_dec (1 - d) p); [|lra]. apply unit_square. apply ratio; lra.
Qed.
Lemma square_bound : forall p d, 0 <= p < 1 -> d < / 2 -> -1 <= (if Rlt_dec p (/ 2) then 1 else -1) + blep p d - blep (frac (p + / 2)) d <= 1.
Proof.
  intros p d Hp Hd. destruct (Rlt_dec p (/ 2)) as [L|L].
  - rewrite (frac_unique (p + / 2) 0) by lra. pose proof (blep_low p d ltac:(lra) Hd). pose proof (blep_high (p + / 2 - 0) d ltac:(lra) Hd). lra.
  - rewrite (frac_unique (p + / 2) 1) by lra. pose proof (blep_high p d ltac:(lra) Hd). pose proof (blep_low (p + / 2 - 1) d ltac:(lra) Hd). lra.
Qed.
Lemma wave_bound : forall sine ty custom p d, unit_table sine -> match custom with Some w => unit_table w | None => True end -> 0 <= p < 1 -> d < / 2 -> -1 <= wave sine ty custom p d <= 1.
Proof.
  intros sine ty custom p d Hs Hc Hp Hd. destruct ty; cbn [wave].
  - apply interp_bound; [exact Hs|lra].
  - apply square_bound; assumption.
  - apply sawtooth_bound; [apply frac_bounds|exact Hd].
  - destruct (Rlt_dec _ _); [lra|]. destruct (Rle_dec _ _); lra.
  - destruct custom; [apply interp_bound; [exact Hc|lra]|lra].
Qed.
Lemma sample_bound : forall sr sine plan n, 0 < sr -> unit_table sine -> Forall (fun g => match g_wave g with Some w => unit_table w | None => True end) plan -> -1 <= sample sr sine plan n <= 1.
Proof.
  intros sr sine plan n Hsr Hs Hp. unfold sample. destruct (sounding sr plan n); [|lra]. destruct (Rlt_dec _ _) as [L|]; [|lra]. apply wave_bound; [exact Hs| |apply frac_bounds|].
  - unfold setting_at. destruct (nth_in_or_default (n / 128) plan (mk_setting None None Sine None [] [])) as [I| ->]; [|exact I]. rewrite Forall_forall in Hp. apply Hp. exact I.
  - apply Rabs_def2 in L. apply Rmult_lt_reg_r with sr; [exact Hsr|]. unfold Rdiv. rewrite Rmult_assoc, Rinv_l by lra. lra.
Qed.
