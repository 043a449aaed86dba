(** The exact instance of the AudioParam model. *)
From Coq Require Import List Arith Bool ZArith QArith Qround Qabs Qfield Lqa Lia.
From Verif Require Import Param_Model Param_Inst Param_Spec Param_CurveSpec.
Import ListNotations.
Local Open Scope Q_scope.

Lemma Q_lt_spec : forall x y, Q_lt x y = true <-> x < y.
Proof. intros x y. unfold Q_lt. rewrite negb_true_iff. destruct (Qle_bool y x) eqn:E.
  - apply Qle_bool_iff in E. split; [discriminate|lra].
  - split; [intros _|reflexivity]. apply Qnot_le_lt. intro H. apply Qle_bool_iff in H. congruence.
Qed.
Lemma Q_lt_false : forall x y, Q_lt x y = false <-> y <= x.
Proof. intros x y. unfold Q_lt. rewrite negb_false_iff. apply Qle_bool_iff. Qed.
Lemma Qle_bool_false : forall x y, Qle_bool x y = false <-> y < x.
Proof. intros x y. rewrite <- Q_lt_spec. unfold Q_lt. rewrite negb_true_iff. reflexivity. Qed.

Lemma Qfloor_unique : forall x n, inject_Z n <= x -> x < inject_Z (n + 1) -> Qfloor x = n.
Proof.
  intros x n H1 H2. pose proof (Qfloor_le x) as A. pose proof (Qlt_floor x) as B.
  assert (inject_Z n < inject_Z (Qfloor x + 1)) as C by lra. assert (inject_Z (Qfloor x) < inject_Z (n + 1)) as D by lra.
  rewrite <- Zlt_Qlt in C, D. lia.
Qed.
Lemma Qfloor_shift : forall x n, Qfloor (x + inject_Z n) = (Qfloor x + n)%Z.
Proof.
  intros x n. apply Qfloor_unique.
  - rewrite inject_Z_plus. pose proof (Qfloor_le x). lra.
  - pose proof (Qlt_floor x) as H. rewrite !inject_Z_plus in *. lra.
Qed.
Lemma Qfloor_ge : forall x n, inject_Z n <= x <-> (n <= Qfloor x)%Z.
Proof.
  intros x n. split; intro H.
  - pose proof (Qlt_floor x) as A. assert (inject_Z n < inject_Z (Qfloor x + 1)) as B by lra. rewrite <- Zlt_Qlt in B. lia.
  - pose proof (Qfloor_le x) as A. apply Qle_trans with (inject_Z (Qfloor x)); [|exact A]. rewrite <- Zle_Qle. exact H.
Qed.

Section Exact.
Variable Q_exp : Q -> Q.
Variable Q_powf : Q -> Q -> Q.
Notation P := (exact_ops Q_exp Q_powf).
Definition any (x : Q) : Prop := True.

Lemma exact_time_order : time_order P any.
Proof.
  constructor; cbn; unfold any; intros; try exact I; try reflexivity.
  - destruct (Qlt_le_dec y x); [right|left]; apply Qle_bool_iff; lra.
  - apply Qle_bool_iff in H2, H3. apply Qle_bool_iff. lra.
Qed.

Lemma exact_value_order : value_order P.
Proof.
  constructor; cbn; intros; try reflexivity.
  - split; [reflexivity|]. apply Q_lt_false. destruct (Qle_bool x lo) eqn:E; [lra|]. apply Qle_bool_false in E. lra.
  - split; [reflexivity|]. apply Q_lt_false. destruct (Qle_bool hi x) eqn:E; [lra|]. apply Qle_bool_false in E. lra.
  - apply Q_lt_false. apply Q_lt_false in H2, H3. destruct (Qle_bool hi x); assumption.
Qed.

Lemma exact_to_nat_le : forall x n, (t_to_nat P x n <= n)%nat.
Proof. intros. cbn. unfold Q_to_nat. lia. Qed.

Lemma exact_clamp : forall lo hi, lo <= hi -> forall x, v_clamp P x lo hi <> None.
Proof. intros lo hi H x. cbn. apply Qle_bool_iff in H. rewrite H. discriminate. Qed.

(** ** Frames *)
Section Grid.
Variable dt : Q.
Hypothesis dt_pos : 0 < dt.

Lemma exact_end_index : forall bt time count a next F s, bt == frame_time dt F -> time == s ->
  end_index P (mk_block bt dt count a next) time = Z.to_nat (Z.min (nearest dt s - F) (Z.of_nat count)).
Proof.
  intros bt time count a next F s Hb Ht. unfold end_index. cbn [t_to_nat t_round t_div t_max t_sub t_zero exact_ops b_time b_dt b_count].
  unfold Q_to_nat. set (m := if Qle_bool (time - bt) 0 then 0 else time - bt).
  assert (Hm : 0 <= m / dt).
  { apply Qle_shift_div_l; [exact dt_pos|]. rewrite Qmult_0_l. unfold m. destruct (Qle_bool (time - bt) 0) eqn:E; [lra|].
    apply Qle_bool_false in E. lra. }
  assert (Er : Q_round (m / dt) == inject_Z (Qfloor (m / dt + (1 # 2)))).
  { unfold Q_round. apply Qle_bool_iff in Hm. rewrite Hm. reflexivity. }
  rewrite Er, Qfloor_Z.
  assert (Hn : nearest dt s = (Qfloor ((time - bt) / dt + (1 # 2)) + F)%Z).
  { unfold nearest. rewrite <- Qfloor_shift. apply Qfloor_comp. rewrite Hb, Ht. unfold frame_time. field. lra. }
  rewrite Hn. replace (Qfloor ((time - bt) / dt + (1 # 2)) + F - F)%Z with (Qfloor ((time - bt) / dt + (1 # 2))) by lia.
  unfold m. destruct (Qle_bool (time - bt) 0) eqn:E; [|reflexivity].
  apply Qle_bool_iff in E.
  assert (Z1 : Qfloor (0 / dt + (1 # 2)) = 0%Z).
  { rewrite (Qfloor_comp _ (1 # 2)); [reflexivity|]. field. lra. }
  rewrite Z1.
  assert (Z2 : (Qfloor ((time - bt) / dt + (1 # 2)) <= 0)%Z).
  { assert (H : (time - bt) / dt <= 0).
    { apply Qle_shift_div_r; [exact dt_pos|]. rewrite Qmult_0_l. exact E. }
    assert (H2 : (time - bt) / dt + (1 # 2) < inject_Z 1) by (change (inject_Z 1) with 1; lra).
    pose proof (Qfloor_le ((time - bt) / dt + (1 # 2))) as A. assert (B : inject_Z (Qfloor ((time - bt) / dt + (1 # 2))) < inject_Z 1) by lra.
    rewrite <- Zlt_Qlt in B. lia. }
  lia.
Qed.

Lemma nearest_frame : forall F, nearest dt (frame_time dt F) = F.
Proof.
  intro F. unfold nearest. rewrite (Qfloor_comp _ ((1 # 2) + inject_Z F)).
  - rewrite Qfloor_shift. reflexivity.
  - unfold frame_time. field. lra.
Qed.
Lemma nearest_mono : forall a b, a <= b -> (nearest dt a <= nearest dt b)%Z.
Proof.
  intros a b H. unfold nearest. apply Qfloor_resp_le. assert (a / dt <= b / dt); [|lra].
  unfold Qdiv. apply Qmult_le_compat_r; [exact H|]. apply Qlt_le_weak. apply Qinv_lt_0_compat. exact dt_pos.
Qed.
Lemma nearest_comp : forall a b, a == b -> nearest dt a = nearest dt b.
Proof. intros a b H. unfold nearest. apply Qfloor_comp. rewrite H. reflexivity. Qed.
Lemma nearest_ge : forall F t, frame_time dt F <= t -> (F <= nearest dt t)%Z.
Proof. intros F t H. rewrite <- (nearest_frame F). apply nearest_mono. exact H. Qed.
Lemma nearest_le : forall F t, t <= frame_time dt F -> (nearest dt t <= F)%Z.
Proof. intros F t H. rewrite <- (nearest_frame F). apply nearest_mono. exact H. Qed.
(** a time strictly after a frame may still be nearest to it, but not to an earlier one; a
    time nearest to a later frame is strictly after *)
Lemma nearest_gt : forall F t, (F < nearest dt t)%Z -> frame_time dt F < t.
Proof.
  intros F t H. destruct (Qlt_le_dec (frame_time dt F) t) as [A|A]; [exact A|]. apply nearest_le in A. lia.
Qed.

Lemma frame_time_plus : forall F n, frame_time dt (F + n) == frame_time dt F + inject_Z n * dt.
Proof. intros. unfold frame_time. rewrite inject_Z_plus. ring. Qed.

Lemma exact_next : forall bt F count, bt == frame_time dt F -> t_fma P dt (t_of_nat P count) bt == frame_time dt (F + Z.of_nat count).
Proof. intros bt F count H. cbn. rewrite frame_time_plus, H. ring. Qed.

Lemma exact_block_ok : forall bt F count, bt == frame_time dt F -> block_ok P any bt dt count.
Proof.
  intros bt F count Hb. pose proof (exact_next bt F count Hb) as Hn. unfold block_ok. cbv zeta.
  split; [exact I|]. split; [reflexivity|]. split; [|split].
  - intro a. rewrite (exact_end_index bt _ count a _ F _ Hb Hn). rewrite nearest_frame. lia.
  - intros a t _ H. rewrite (exact_end_index bt t count a _ F t Hb (Qeq_refl t)). cbn [t_le exact_ops] in H. apply Qle_bool_iff in H.
    rewrite Hn in H. apply nearest_ge in H. lia.
  - intros. exact I.
Qed.
End Grid.

(** ** Value curves index in range in exact arithmetic *)
Lemma exact_curve_in_range : curve_in_range P any.
Proof.
  intros start duration values time _ _ Hd Hn _. cbn [t_lt t_zero exact_ops] in Hd. apply Q_lt_spec in Hd. unfold value_curve_sample.
  cbn [t_le t_sub t_div t_mul t_of_nat t_to_nat exact_ops].
  destruct (Qle_bool duration (time - start)) eqn:E.
  - destruct (nth_error values (length values - 1)) eqn:En; [cbn; eauto|]. apply nth_error_None in En. lia.
  - apply Qle_bool_false in E. set (pos := inject_Z (Z.of_nat (length values - 1)) * (time - start) / duration).
    assert (Hp : pos < inject_Z (Z.of_nat (length values - 1))).
    { unfold pos. apply Qlt_shift_div_r; [exact Hd|].
      assert (0 < inject_Z (Z.of_nat (length values - 1))) by (change 0 with (inject_Z 0); rewrite <- Zlt_Qlt; lia).
      rewrite !(Qmult_comm (inject_Z _)). apply Qmult_lt_compat_r; [assumption|exact E]. }
    assert (K : (Q_to_nat pos (length values) + 1 < length values)%nat).
    { unfold Q_to_nat. pose proof (Qfloor_le pos) as A.
      assert (B : inject_Z (Qfloor pos) < inject_Z (Z.of_nat (length values - 1))) by lra. rewrite <- Zlt_Qlt in B. lia. }
    destruct (nth_error values (Q_to_nat pos (length values) + 1)) eqn:E1; [|apply nth_error_None in E1; lia].
    destruct (nth_error values (Q_to_nat pos (length values))) eqn:E2; [|apply nth_error_None in E2; lia]. eauto.
Qed.
End Exact.
