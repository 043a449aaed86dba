(** The values an AudioParam computes are the automation curve, for all kinds of events (real
    arithmetic). *)
From Coq Require Import List Arith Bool ZArith Reals Lia Lra Sorted.
From Flocq Require Import Core.
From Verif Require Import Param_Model Param_Spec Param_Real Param_TimelineProofs Param_EnvelopeSpec Param_RealProofs Param_SafetyProofs.
Import ListNotations.
Local Open Scope R_scope.

Notation P := real_ops.

(** ** Comparisons *)
Lemma R_le_true : forall x y, R_le x y = true <-> x <= y.
Proof. intros. unfold R_le. destruct (Rle_dec x y); split; intro; try discriminate; try reflexivity; lra. Qed.
Lemma R_le_false : forall x y, R_le x y = false <-> y < x.
Proof. intros. unfold R_le. destruct (Rle_dec x y); split; intro; try discriminate; try reflexivity; lra. Qed.
Lemma R_lt_true : forall x y, R_lt x y = true <-> x < y.
Proof. intros. unfold R_lt. destruct (Rlt_dec x y); split; intro; try discriminate; try reflexivity; lra. Qed.
Lemma R_lt_false : forall x y, R_lt x y = false <-> y <= x.
Proof. intros. unfold R_lt. destruct (Rlt_dec x y); split; intro; try discriminate; try reflexivity; lra. Qed.
Lemma R_eq_true : forall x y, R_eq x y = true <-> x = y.
Proof. intros. unfold R_eq. destruct (Req_EM_T x y); split; intro; try discriminate; try reflexivity; tauto. Qed.
Lemma R_eq_false : forall x y, R_eq x y = false <-> x <> y.
Proof. intros. unfold R_eq. destruct (Req_EM_T x y); split; intro; try discriminate; try reflexivity; tauto. Qed.

Lemma real_time_order : time_order P (fun _ => True).
Proof.
  constructor; cbn; intros; try exact I; try reflexivity.
  - destruct (Rle_dec x y); [left|right]; apply R_le_true; lra.
  - apply R_le_true in H2, H3. apply R_le_true. lra.
  - unfold R_lt, R_le. destruct (Rlt_dec x y), (Rle_dec y x); cbn; try reflexivity; lra.
Qed.
Notation TO := real_time_order.

Lemma floor_unique : forall x n, IZR n <= x < IZR n + 1 -> Zfloor x = n.
Proof. intros x n H. apply Zfloor_imp. rewrite plus_IZR. exact H. Qed.
Lemma floor_shift : forall x n, Zfloor (x + IZR n) = (Zfloor x + n)%Z.
Proof. intros x n. apply floor_unique. rewrite plus_IZR. pose proof (Zfloor_lb x). pose proof (Zfloor_ub x). lra. Qed.
Lemma floor_IZR_le : forall x n, IZR n <= x -> (n <= Zfloor x)%Z.
Proof. intros. apply Zfloor_lub. exact H. Qed.

Section Envelope.
Notation event := (@event R R).
Notation param := (@param R R).
Variable dt : R.
Hypothesis dt_pos : 0 < dt.
Variable RQ : nat.
Hypothesis RQ_pos : (0 < RQ)%nat.
Notation ftime := (frame_time dt).
Notation near := (nearest dt).
Notation now := (now dt RQ).
Notation qstart := (quantum_start dt RQ).
Notation value := (value dt RQ).
Notation curve := (curve dt RQ).
Notation during := (during dt RQ).
Notation pass := (pass dt RQ).
Notation after := (after dt RQ).
Notation follows := (follows dt RQ).

(** ** Frames *)
Lemma div_le : forall a b, a <= b -> a / dt <= b / dt.
Proof. intros a b H. unfold Rdiv. apply Rmult_le_compat_r; [left; apply Rinv_0_lt_compat; exact dt_pos|exact H]. Qed.
Lemma near_ftime : forall F, near (ftime F) = F.
Proof.
  intro F. unfold nearest, frame_time. replace (IZR F * dt / dt) with (IZR F) by (field; lra). apply floor_unique. lra.
Qed.
Lemma near_mono : forall a b, a <= b -> (near a <= near b)%Z.
Proof. intros a b H. unfold nearest. apply Zfloor_le. pose proof (div_le a b H). lra. Qed.
Lemma near_ge : forall F t, ftime F <= t -> (F <= near t)%Z.
Proof. intros F t H. rewrite <- (near_ftime F). apply near_mono. exact H. Qed.
Lemma near_le : forall F t, t <= ftime F -> (near t <= F)%Z.
Proof. intros F t H. rewrite <- (near_ftime F). apply near_mono. exact H. Qed.
Lemma near_gt : forall F t, (F < near t)%Z -> ftime F < t.
Proof. intros F t H. destruct (Rlt_le_dec (ftime F) t) as [A|A]; [exact A|]. apply near_le in A. lia. Qed.
Lemma ftime_plus : forall F n, ftime (F + n) = ftime F + IZR n * dt.
Proof. intros. unfold frame_time. rewrite plus_IZR. ring. Qed.
Lemma ftime_le : forall a b, (a <= b)%Z -> ftime a <= ftime b.
Proof. intros a b H. unfold frame_time. apply Rmult_le_compat_r; [lra|]. apply IZR_le. exact H. Qed.
Lemma ftime_lt : forall a b, (a < b)%Z -> ftime a < ftime b.
Proof. intros a b H. unfold frame_time. apply Rmult_lt_compat_r; [lra|]. apply IZR_lt. exact H. Qed.

Lemma now_eq : forall n, now n = INR n * (INR RQ * dt).
Proof. intro n. unfold Param_EnvelopeSpec.now, frame_time, first_frame. rewrite <- INR_IZR_INZ, mult_INR. ring. Qed.
Lemma q_pos : 0 < INR RQ * dt.
Proof. apply Rmult_lt_0_compat; [apply lt_0_INR; exact RQ_pos|exact dt_pos]. Qed.
Lemma now_pos : forall n, 0 <= now n.
Proof. intro n. rewrite now_eq. apply Rmult_le_pos; [apply pos_INR|left; apply q_pos]. Qed.
Lemma now_mono : forall m n, (m <= n)%nat -> now m <= now n.
Proof. intros m n H. rewrite !now_eq. apply Rmult_le_compat_r; [left; apply q_pos|]. apply le_INR. exact H. Qed.
Lemma now_lt : forall m n, (m < n)%nat -> now m < now n.
Proof. intros m n H. rewrite !now_eq. apply Rmult_lt_compat_r; [apply q_pos|]. apply lt_INR. exact H. Qed.
Lemma now_next : forall n, now (S n) = ftime (first_frame RQ n + Z.of_nat RQ).
Proof. intro n. unfold Param_EnvelopeSpec.now. f_equal. unfold first_frame. lia. Qed.
Lemma near_now : forall n, near (now n) = first_frame RQ n.
Proof. intro n. apply near_ftime. Qed.

Lemma qstart_in : forall n t, now n <= t < now (S n) -> qstart t = now n.
Proof.
  intros n t H. unfold quantum_start. f_equal. rewrite !now_eq, S_INR in H. pose proof q_pos as Q.
  rewrite (floor_unique _ (Z.of_nat n)); [apply Nat2Z.id|]. rewrite <- INR_IZR_INZ. split.
  - apply (Rmult_le_reg_r (INR RQ * dt)); [exact Q|]. unfold Rdiv. rewrite Rmult_assoc, Rinv_l by lra. lra.
  - apply (Rmult_lt_reg_r (INR RQ * dt)); [exact Q|]. unfold Rdiv. rewrite (Rmult_assoc t), Rinv_l by lra. lra.
Qed.
Lemma quantum_of : forall t, 0 <= t -> exists n, now n <= t < now (S n).
Proof.
  intros t H. pose proof q_pos as Q. exists (Z.to_nat (Zfloor (t / (INR RQ * dt)))).
  assert (A : 0 <= t / (INR RQ * dt)) by (apply Rmult_le_pos; [exact H|left; apply Rinv_0_lt_compat; exact Q]).
  assert (B : (0 <= Zfloor (t / (INR RQ * dt)))%Z) by (apply floor_IZR_le; exact A).
  rewrite !now_eq, S_INR, (INR_IZR_INZ (Z.to_nat _)), Z2Nat.id by exact B.
  pose proof (Zfloor_lb (t / (INR RQ * dt))) as L. pose proof (Zfloor_ub (t / (INR RQ * dt))) as U.
  assert (E : t = t / (INR RQ * dt) * (INR RQ * dt)) by (unfold Rdiv; rewrite Rmult_assoc, Rinv_l by lra; ring).
  set (q := INR RQ * dt) in *. set (x := t / q) in *. set (y := IZR (Zfloor x)) in *. rewrite E.
  split; [apply Rmult_le_compat_r|apply Rmult_lt_compat_r]; lra.
Qed.
Lemma qstart_ge : forall n t, now n <= t -> now n <= qstart t.
Proof.
  intros n t H. destruct (quantum_of t) as (m & A & B); [pose proof (now_pos n); lra|]. rewrite (qstart_in m t (conj A B)).
  apply now_mono. destruct (Nat.le_gt_cases n m) as [L|L]; [exact L|]. pose proof (now_mono (S m) n L). lra.
Qed.
Lemma qstart_le : forall t, 0 <= t -> qstart t <= t.
Proof. intros t H. destruct (quantum_of t H) as (m & A & B). rewrite (qstart_in m t (conj A B)). exact A. Qed.
Lemma qstart_frame : forall n f, (first_frame RQ n <= f < first_frame RQ n + Z.of_nat RQ)%Z -> qstart (ftime f) = now n.
Proof.
  intros n f H. apply qstart_in. rewrite now_next. split; [apply ftime_le|apply ftime_lt]; lia.
Qed.

(** ** Approaches *)
Lemma settledb_true : forall t0 v0 vt tc b, settledb t0 v0 vt tc b = true <-> settled t0 v0 vt tc b.
Proof.
  intros. unfold settledb, settled. destruct (Rle_dec t0 b); [|split; [discriminate|lra]].
  destruct (Rlt_dec (Rabs (vt - approach t0 v0 vt tc b)) (1 / 10000000000)); split; intro; try discriminate; try reflexivity; try tauto.
Qed.
Lemma settledb_false : forall t0 v0 vt tc b, settledb t0 v0 vt tc b = false <-> ~ settled t0 v0 vt tc b.
Proof. intros. rewrite <- settledb_true. destruct (settledb t0 v0 vt tc b); split; congruence. Qed.
Lemma settled_mono : forall t0 v0 vt tc b b', 0 < tc -> settled t0 v0 vt tc b -> b <= b' -> settled t0 v0 vt tc b'.
Proof.
  intros t0 v0 vt tc b b' Htc [H1 H2] Hb. split; [lra|]. eapply Rle_lt_trans; [|exact H2]. unfold approach.
  replace (vt - (vt + (v0 - vt) * exp (- ((b' - t0) / tc)))) with ((vt - v0) * exp (- ((b' - t0) / tc))) by ring.
  replace (vt - (vt + (v0 - vt) * exp (- ((b - t0) / tc)))) with ((vt - v0) * exp (- ((b - t0) / tc))) by ring.
  rewrite !Rabs_mult, !(Rabs_pos_eq (exp _)) by (left; apply exp_pos).
  apply Rmult_le_compat_l; [apply Rabs_pos|]. destruct (Req_dec b b') as [-> |N]; [lra|]. left. apply exp_increasing.
  apply Ropp_lt_contravar. unfold Rdiv. apply Rmult_lt_compat_r; [apply Rinv_0_lt_compat; exact Htc|lra].
Qed.
Lemma approach_start : forall t0 v0 vt tc, approach t0 v0 vt tc t0 = v0.
Proof. intros. unfold approach. replace (- ((t0 - t0) / tc)) with 0 by (unfold Rdiv; ring). rewrite exp_0. ring. Qed.
Lemma approach_same : forall t0 v tc t, approach t0 v v tc t = v.
Proof. intros. unfold approach. ring. Qed.

(** settling changes a value by less than 10^-10 *)
Lemma settled_close : forall t0 v0 vt tc t, 0 < tc -> 0 <= t0 -> Rabs (value (Decay t0 v0 vt tc) t - (if Rlt_dec t t0 then v0 else approach t0 v0 vt tc t)) < 1 / 10000000000.
Proof.
  intros t0 v0 vt tc t H H0. cbn [Param_EnvelopeSpec.value]. destruct (Rlt_dec t t0) as [L|L]; [rewrite Rminus_eq_0, Rabs_R0; lra|].
  destruct (settledb t0 v0 vt tc (qstart t)) eqn:E; [|rewrite Rminus_eq_0, Rabs_R0; lra].
  apply settledb_true in E. destruct (settled_mono _ _ _ _ _ t H E) as [_ A]; [apply qstart_le; lra|exact A].
Qed.

(** a settled approach is a constant *)
Lemma value_settled : forall t0 v0 vt tc n t, 0 < tc -> settled t0 v0 vt tc (now n) -> now n <= t -> value (Decay t0 v0 vt tc) t = vt.
Proof.
  intros t0 v0 vt tc n t Htc Hs Ht. cbn [Param_EnvelopeSpec.value]. pose proof Hs as [H1 H2]. destruct (Rlt_dec t t0); [lra|].
  assert (E : settledb t0 v0 vt tc (qstart t) = true); [|rewrite E; reflexivity].
  apply settledb_true. eapply settled_mono; [exact Htc|exact Hs|]. apply qstart_ge. exact Ht.
Qed.
(** inside a quantum at whose start it is not settled *)
Lemma value_decay : forall t0 v0 vt tc n t, (settled t0 v0 vt tc (now n) -> vt = v0) -> now n <= t < now (S n) -> t0 <= t ->
  value (Decay t0 v0 vt tc) t = approach t0 v0 vt tc t.
Proof.
  intros t0 v0 vt tc n t Hs Hn Ht. cbn [Param_EnvelopeSpec.value]. destruct (Rlt_dec t t0); [lra|]. rewrite (qstart_in n t Hn).
  destruct (settledb t0 v0 vt tc (now n)) eqn:E; [|reflexivity]. apply settledb_true in E. rewrite (Hs E). symmetry. apply approach_same.
Qed.

(** ** The curve *)
Lemma curve_over : forall ph s l f, (near (s_end s) <= f)%Z -> curve ph (s :: l) f = curve (pass ph s) l f.
Proof. intros. cbn [Param_EnvelopeSpec.curve]. apply Z.leb_le in H. rewrite H. reflexivity. Qed.
Lemma curve_during : forall ph s l f, (f < near (s_end s))%Z -> curve ph (s :: l) f = during ph s f.
Proof. intros. cbn [Param_EnvelopeSpec.curve]. apply Z.leb_gt in H. rewrite H. reflexivity. Qed.

Definition not_slope_head (l : list sev) : Prop := match l with s :: _ => is_slope s = false | [] => True end.

(** two phases with the same values from a time on have the same continuation *)
Lemma curve_same : forall ph ph' l f t1, not_slope_head l -> (match l with s :: _ => t1 <= s_time s | [] => True end) ->
  (forall t, t1 <= t -> value ph t = value ph' t) -> t1 <= ftime f -> curve ph l f = curve ph' l f.
Proof.
  intros ph ph' [|s l] f t1 H1 H2 H3 H4; cbn [Param_EnvelopeSpec.curve]; [apply H3; exact H4|]. cbn in H1.
  assert (E : value ph (s_time s) = value ph' (s_time s)) by (apply H3; exact H2).
  destruct (Z.leb (near (s_end s)) f).
  - f_equal. unfold is_slope in H1. unfold Param_EnvelopeSpec.pass. destruct (s_shape s); try discriminate; try reflexivity. rewrite E. reflexivity.
  - unfold Param_EnvelopeSpec.during, is_slope in *. destruct (start ph), (start ph'). destruct (s_shape s); try discriminate; try (apply H3; exact H4).
    rewrite E. destruct (Z.leb (near (s_time s)) f); [reflexivity|]. apply H3. exact H4.
Qed.
Lemma after_same : forall ph ph' s l, is_slope s = false -> value ph (s_time s) = value ph' (s_time s) -> after ph (s :: l) = after ph' (s :: l).
Proof.
  intros ph ph' s l H1 H2. unfold Param_EnvelopeSpec.after. cbn [fold_left]. f_equal. unfold is_slope in H1. unfold Param_EnvelopeSpec.pass.
  destruct (s_shape s); try discriminate; try reflexivity. rewrite H2. reflexivity.
Qed.

(** ** Samples *)
Definition frames (C : Z -> R) (F : Z) (a n : nat) : list R := map (fun i => C (F + Z.of_nat i)%Z) (seq a n).
Lemma frames_length : forall C F a n, length (frames C F a n) = n.
Proof. intros. unfold frames. rewrite map_length, seq_length. reflexivity. Qed.
Lemma frames_app : forall C F a m n, frames C F a m ++ frames C F (a + m) n = frames C F a (m + n).
Proof. intros. unfold frames. rewrite <- map_app, <- seq_app. reflexivity. Qed.

Lemma samples_frames : forall m time f F k C, time = ftime (F + Z.of_nat k) ->
  (forall i, (i < m)%nat -> f (ftime (F + Z.of_nat (k + i))) = Ok (C (F + Z.of_nat (k + i))%Z)) ->
  samples P m time dt f = Ok (frames C F k m).
Proof.
  induction m as [|m IH]; intros time f F k C Ht Hf; cbn [samples]; [reflexivity|].
  assert (E0 : f time = Ok (C (F + Z.of_nat k)%Z)) by (rewrite Ht; specialize (Hf 0%nat); rewrite Nat.add_0_r in Hf; apply Hf; lia).
  rewrite E0. cbn [bind]. rewrite (IH _ f F (S k) C).
  - cbn [bind]. reflexivity.
  - cbn [t_add real_ops]. rewrite Ht. replace (F + Z.of_nat (S k))%Z with (F + Z.of_nat k + 1)%Z by lia. rewrite (ftime_plus (F + Z.of_nat k)). lra.
  - intros i Hi. replace (S k + i)%nat with (k + S i)%nat by lia. apply Hf. lia.
Qed.

Lemma repeat_frames : forall C F v k m, (forall i, (k <= i < k + m)%nat -> C (F + Z.of_nat i)%Z = v) -> repeat v m = frames C F k m.
Proof.
  intros C F v k m. revert k. induction m as [|m IH]; intros k H; [reflexivity|]. unfold frames. cbn [repeat seq map]. f_equal.
  - symmetry. apply H. lia.
  - apply IH. intros i Hi. apply H. lia.
Qed.

Definition blk (n : nat) : @block R := mk_block (now n) dt RQ true (now (S n)).
Definition clip (n : nat) (t : R) : nat := Z.to_nat (Z.min (near t - first_frame RQ n) (Z.of_nat RQ)).

Lemma idx : forall n t, end_index P (blk n) t = clip n t.
Proof.
  intros n t. unfold end_index, clip, blk. cbn [b_time b_dt b_count t_to_nat t_round t_div t_max t_sub t_zero real_ops].
  unfold R_to_nat. set (m := Rmax (t - now n) 0). assert (Hm : 0 <= m / dt).
  { apply Rmult_le_pos; [apply Rmax_r|left; apply Rinv_0_lt_compat; exact dt_pos]. }
  unfold R_round. destruct (Rle_dec 0 (m / dt)); [|lra]. rewrite Zfloor_IZR.
  set (F := first_frame RQ n).
  assert (E : near t = (Zfloor ((t - now n) / dt + / 2) + F)%Z).
  { rewrite <- floor_shift. unfold nearest. f_equal. unfold Param_EnvelopeSpec.now, frame_time. fold F. field. lra. }
  rewrite E. replace (Zfloor ((t - now n) / dt + / 2) + F - F)%Z with (Zfloor ((t - now n) / dt + / 2)) by lia.
  unfold m, Rmax. destruct (Rle_dec (t - now n) 0) as [L|L]; [|reflexivity].
  assert (E0 : Zfloor (0 / dt + / 2) = 0%Z). { unfold Rdiv. rewrite Rmult_0_l. apply floor_unique. lra. }
  rewrite E0. assert (Zfloor ((t - now n) / dt + / 2) <= 0)%Z; [|lia].
  rewrite <- E0. apply Zfloor_le. pose proof (div_le _ _ L). lra.
Qed.
Lemma clip_le : forall n t, (clip n t <= RQ)%nat.
Proof. intros. unfold clip. lia. Qed.
Lemma clip_next : forall n t, now (S n) <= t -> clip n t = RQ.
Proof. intros n t H. unfold clip. rewrite now_next in H. apply near_ge in H. lia. Qed.

Definition frozen (p p' : param) : Prop :=
  p_min p' = p_min p /\ p_max p' = p_max p /\ p_default p' = p_default p /\ p_arate p' = p_arate p.
Lemma frozen_trans : forall p1 p2 p3, frozen p1 p2 -> frozen p2 p3 -> frozen p1 p3.
Proof. unfold frozen. intros p1 p2 p3 (A & B & D & E) (A' & B' & D' & E'). repeat split; congruence. Qed.

Lemma extend_ok' : forall (p : param) vs, (length (p_buffer p) + length vs <= RQ)%nat -> extend RQ p vs = Ok (set_buffer p (p_buffer p ++ vs)).
Proof. intros p vs H. unfold extend. apply Nat.leb_le in H. rewrite H. reflexivity. Qed.

Lemma sample_ok : forall n p t f C k, p_buffer p = frames C (first_frame RQ n) 0 k -> (k <= RQ)%nat ->
  (forall fr, (first_frame RQ n + Z.of_nat k <= fr)%Z -> (fr < first_frame RQ n + Z.of_nat RQ)%Z -> (fr < near t)%Z -> f (ftime fr) = Ok (C fr)) ->
  exists p1, sample_block P RQ p (blk n) t f = Ok p1 /\ p_timeline p1 = p_timeline p /\ p_last p1 = p_last p /\ frozen p p1 /\
    p_buffer p1 = frames C (first_frame RQ n) 0 (Nat.max k (clip n t)).
Proof.
  intros n p t f C k Hb Hk Hf. unfold sample_block. rewrite idx. cbn [blk b_arate b_dt b_time].
  rewrite Hb, frames_length. destruct (Nat.ltb k (clip n t)) eqn:E.
  - apply Nat.ltb_lt in E. pose proof (clip_le n t) as Hc.
    rewrite (samples_frames _ _ f (first_frame RQ n) k C).
    + cbn [bind]. rewrite extend_ok' by (rewrite Hb, !frames_length; lia). cbn [bind]. eexists. split; [reflexivity|].
      cbn [set_intrinsic set_buffer p_timeline p_last p_buffer]. split; [reflexivity|]. split; [reflexivity|]. split; [repeat split; reflexivity|].
      rewrite Hb. change k with (0 + k)%nat at 3. rewrite frames_app. f_equal. lia.
    + cbn [t_fma t_of_nat real_ops]. rewrite ftime_plus, <- INR_IZR_INZ. unfold Param_EnvelopeSpec.now. ring.
    + intros i Hi. unfold clip in *. apply Hf; lia.
  - apply Nat.ltb_ge in E. exists p. split; [reflexivity|]. split; [reflexivity|]. split; [reflexivity|]. split; [repeat split; reflexivity|].
    rewrite Hb. f_equal. lia.
Qed.

(** ** Events and specification events *)
Definition matches (e : event) (s : sev) : Prop :=
  ev_cancel e = None /\
  match s_shape s with
  | Jump v => (ev_type e = SetValue \/ ev_type e = SetValueAtTime) /\ ev_value e = v
  | Linear v => ev_type e = LinearRamp /\ ev_value e = v
  | Expo v => ev_type e = ExponentialRamp /\ ev_value e = v
  | Target v tc => ev_type e = SetTarget /\ ev_value e = v /\ ev_constant e = Some tc
  | Curve vs d => ev_type e = SetValueCurve /\ ev_duration e = Some d /\ ev_values e = Some vs
  end.
(** [w] is the time that stands for "now" *)
Definition rel (w : R) (e : event) (s : sev) : Prop :=
  matches e s /\ match s_shape s with Jump _ => s_time s = (if R_eq (ev_time e) 0 then w else ev_time e) | _ => s_time s = ev_time e end.
Definition rel1 (w : R) (e : event) (s : sev) : Prop := rel w e s /\ s_time s = ev_time e.
Definition rels (w : R) (tl : list event) (l : list sev) : Prop :=
  match tl, l with
  | [], [] => True
  | e :: tl', s :: l' => rel w e s /\ Forall2 (rel1 w) tl' l'
  | _, _ => False
  end.

(** ** Lists of pending events *)
Definition timely (n : nat) (ph : phase) (s : sev) : Prop :=
  match s_shape s with
  | Target _ _ | Curve _ _ =>
      match ph with
      | Hold t _ => forall k, (n <= k)%nat -> t <= now (S k) -> s_time s <= now (S k)
      | Decay t0 v0 vt tc => forall k, (n <= k)%nat -> settled t0 v0 vt tc (now (S k)) -> now (S k) <= s_time s -> s_time s <= now (S (S k))
      end
  | _ => True
  end.
Fixpoint good_tail (n : nat) (ph : phase) (l : list sev) : Prop :=
  match l with
  | [] => True
  | s :: l' => arguments_ok s /\ follows ph s /\ timely n ph s /\ good_tail n (pass ph s) l'
  end.
Definition good (n : nat) (ph : phase) (l : list sev) : Prop :=
  match l with
  | [] => True
  | s :: l' => arguments_ok s /\ follows ph s /\ good_tail n (pass ph s) l'
  end.
Definition low (n : nat) (l : list sev) : Prop :=
  match l with
  | [] => True
  | s :: l' => (match s_shape s with Target _ _ => True | _ => now n <= s_end s end) /\ Forall (fun x => now n <= s_time x) l'
  end.

Definition akin (n : nat) (A A' : phase) : Prop :=
  A' = A \/ exists t1 v1 vt tc b, A = Decay t1 v1 vt tc /\ 0 < tc /\ settled t1 v1 vt tc (now n) /\ A' = Hold b vt /\ b <= now n.

Variable dflt : R.
Notation ph0 := (Hold 0 dflt).

Definition suffix_ok (n : nat) (E S : list sev) : Prop :=
  Forall (fun s => now n <= s_time s) S /\ match after ph0 E with Decay _ _ _ _ => not_slope_head S | _ => True end.

Definition needs_last (l : list sev) : bool :=
  match l with s :: _ => match s_shape s with Linear _ | Expo _ | Target _ _ => true | _ => false end | [] => false end.

Record core (n k : nat) (E : list sev) (p : param) (l : list sev) (t0 v0 : R) : Prop := {
  c_rel : rels (now n) (p_timeline p) l;
  c_sorted : time_sorted P (p_timeline p);
  c_future : forall S f, suffix_ok n E S -> (first_frame RQ n + Z.of_nat k <= f)%Z -> curve ph0 (E ++ S) f = curve (Hold t0 v0) (l ++ S) f;
  c_last : match p_last p with Some e => ev_time e = t0 /\ ev_value e = v0 | None => needs_last l = false end;
  c_intr : match l with
           | [] => p_intrinsic p = v0
           | s :: _ => match s_shape s with
                       | Linear _ => True
                       | Expo v => v0 = 0 \/ v0 * v < 0 -> p_intrinsic p = v0
                       | _ => s_time s <= ftime (first_frame RQ n + Z.of_nat k) \/ p_intrinsic p = v0
                       end
           end;
  c_good : good n (Hold t0 v0) l;
  c_low : low n l;
  c_uns : match l with
          | s :: _ => match s_shape s with Target v tc => s_time s <= now n -> settled (s_time s) v0 v tc (now n) -> v = v0 | _ => True end
          | [] => True
          end;
  c_akin : akin n (after ph0 E) (after (Hold t0 v0) l);
  c_first : match p_last p with Some _ => E <> [] | None => (E = [] <-> l = []) end
}.

Record mid (n : nat) (E : list sev) (p : param) (l : list sev) (t0 v0 : R) : Prop := {
  m_core : core n (length (p_buffer p)) E p l t0 v0;
  m_done : p_buffer p = frames (curve ph0 E) (first_frame RQ n) 0 (length (p_buffer p));
  m_len : (length (p_buffer p) <= RQ)%nat;
  m_head : match l with s :: _ => match s_shape s with Target _ _ | Curve _ _ => s_time s <= now (S n) | _ => True end | [] => True end;
  m_t0 : t0 <= now (S n)
}.

(** the end of a block *)
Record fin (n : nat) (E : list sev) (p : param) (l : list sev) (t0 v0 : R) : Prop := {
  f_core : core (S n) 0 E p l t0 v0;
  f_done : p_buffer p = frames (curve ph0 E) (first_frame RQ n) 0 RQ;
  f_t0 : t0 <= now (S n)
}.

Definition weight (l : list sev) : nat := fold_right (fun s a => (match s_shape s with Expo _ => 2 | _ => 1 end + a)%nat) 0%nat l.

Definition outcome (n : nat) (E : list sev) (p : param) (l : list sev) (r : res (param * bool)) : Prop :=
  (exists p' l' t' v', r = Ok (p', true) /\ frozen p p' /\ fin n E p' l' t' v') \/
  (exists p' l' t' v', r = Ok (p', false) /\ frozen p p' /\ mid n E p' l' t' v' /\ (weight l' < weight l)%nat).

(** ** Facts on lists *)
Lemma suffix_nil : forall n E, suffix_ok n E [].
Proof. intros. split; [constructor|]. destruct (after ph0 E); exact I. Qed.
Lemma suffix_mono : forall n m E S, (n <= m)%nat -> suffix_ok m E S -> suffix_ok n E S.
Proof.
  intros n m E S H [H1 H2]. split; [|exact H2]. eapply Forall_impl; [|exact H1]. cbn. intros s Hs. pose proof (now_mono n m H). lra.
Qed.
Lemma akin_mono : forall n m A A', (n <= m)%nat -> akin n A A' -> akin m A A'.
Proof.
  intros n m A A' H [-> |(t1 & v1 & vt & tc & b & H1 & H2 & H3 & H4 & H5)]; [left; reflexivity|right]. pose proof (now_mono n m H).
  exists t1, v1, vt, tc, b. repeat split; try assumption; try lra.
  - destruct H3. lra.
  - destruct (settled_mono _ _ _ _ _ (now m) H2 H3) as [_ A0]; [assumption|exact A0].
Qed.
Lemma timely_mono : forall n m ph s, (n <= m)%nat -> timely n ph s -> timely m ph s.
Proof. intros n m ph s H. unfold timely. destruct (s_shape s); try tauto; destruct ph; intros A k Hk; apply A; lia. Qed.
Lemma good_tail_mono : forall n m l ph, (n <= m)%nat -> good_tail n ph l -> good_tail m ph l.
Proof.
  intros n m l. induction l as [|s l IH]; intros ph H; cbn [good_tail]; [tauto|]. intros (A & B & D & G).
  split; [exact A|]. split; [exact B|]. split; [eapply timely_mono; eassumption|]. apply IH; assumption.
Qed.
Lemma good_mono : forall n m l ph, (n <= m)%nat -> good n ph l -> good m ph l.
Proof.
  intros n m [|s l] ph H; cbn [good]; [tauto|]. intros (A & B & G). split; [exact A|]. split; [exact B|]. eapply good_tail_mono; eassumption.
Qed.
Lemma rel1_later : forall w w' tl l, Forall2 (rel1 w) tl l -> Forall (fun s => 0 < s_time s) l -> Forall2 (rel1 w') tl l.
Proof.
  intros w w' tl l H. induction H as [|e s tl l [[A B] D] H IH]; intro Hp; constructor; inversion Hp as [|? ? H1 H2]; subst; [|apply IH; exact H2].
  split; [|exact D]. split; [exact A|]. destruct (s_shape s); try assumption.
  destruct (R_eq (ev_time e) 0) eqn:E0; [apply R_eq_true in E0; lra|exact B].
Qed.
Lemma rels_later : forall n tl l, rels (now n) tl l -> (match l with s :: l' => (match s_shape s with Jump _ => now (S n) <= s_time s | _ => True end) /\ Forall (fun x => now (S n) <= s_time x) l' | [] => True end) ->
  rels (now (S n)) tl l.
Proof.
  intros n [|e tl] [|s l] H H0; try contradiction; [exact I|]. destruct H0 as [Hs Hl]. cbn [rels] in *. destruct H as [[A B] D].
  pose proof (now_lt n (S n) ltac:(lia)) as Lt. pose proof (now_pos n) as Ps. split.
  - split; [exact A|]. destruct (s_shape s); try assumption. destruct (R_eq (ev_time e) 0); [lra|exact B].
  - eapply rel1_later; [exact D|]. eapply Forall_impl; [|exact Hl]. cbn. intros a Ha. lra.
Qed.
Lemma rels_tail : forall w e tl s l, rels w (e :: tl) (s :: l) -> rels w tl l.
Proof.
  intros w e tl s l [_ H]. destruct H as [|e1 s1 tl l [H1 _] H]; [exact I|]. split; assumption.
Qed.
Lemma sorted_tail : forall e tl, time_sorted P (e :: tl) -> time_sorted P tl.
Proof. intros e tl H. inversion H; assumption. Qed.
Lemma good_tail_good : forall n ph l, good_tail n ph l -> good n ph l.
Proof. intros n ph [|s l]; cbn [good good_tail]; tauto. Qed.

(** events come in order *)
Definition phase_time (ph : phase) : R := match ph with Hold t _ => t | Decay t _ _ _ => t end.
Lemma follows_time : forall ph s, follows ph s -> phase_time ph <= s_time s.
Proof. intros ph s [H _]. destruct ph; cbn in *; tauto. Qed.
Lemma pass_time : forall ph s, phase_time (pass ph s) = s_end s.
Proof. intros ph s. unfold Param_EnvelopeSpec.pass, s_end. destruct (s_shape s); reflexivity. Qed.
Lemma time_end : forall s, arguments_ok s -> s_time s <= s_end s.
Proof. intros s H. unfold arguments_ok, s_end in *. destruct (s_shape s); lra. Qed.
Lemma tail_times : forall n l ph t, good_tail n ph l -> t <= phase_time ph -> Forall (fun s => t <= s_time s) l.
Proof.
  intros n l. induction l as [|s l IH]; intros ph t H Ht; constructor; destruct H as (A & B & D & G).
  - pose proof (follows_time _ _ B). lra.
  - eapply IH; [exact G|]. rewrite pass_time. pose proof (follows_time _ _ B). pose proof (time_end s A). lra.
Qed.

Lemma first_next : forall n, first_frame RQ (S n) = (first_frame RQ n + Z.of_nat RQ)%Z.
Proof. intro n. unfold first_frame. lia. Qed.

Lemma mid_frame : forall n E p l t0 v0 f, mid n E p l t0 v0 -> (first_frame RQ n + Z.of_nat (length (p_buffer p)) <= f)%Z ->
  curve ph0 E f = curve (Hold t0 v0) l f.
Proof.
  intros n E p l t0 v0 f M Hf. pose proof (c_future _ _ _ _ _ _ _ (m_core _ _ _ _ _ _ M) [] f (suffix_nil n E) Hf) as H.
  rewrite !app_nil_r in H. exact H.
Qed.

(** an event that is over *)
Lemma pop_ok : forall n E p p' e rest s l t0 v0 v', mid n E p (s :: l) t0 v0 -> p_timeline p = e :: rest ->
  pass (Hold t0 v0) s = Hold (s_end s) v' -> s_end s <= now (S n) ->
  p_timeline p' = rest -> p_intrinsic p' = v' -> (exists x, p_last p' = Some x /\ ev_time x = s_end s /\ ev_value x = v') ->
  p_buffer p' = frames (curve ph0 E) (first_frame RQ n) 0 (Nat.max (length (p_buffer p)) (clip n (s_end s))) ->
  mid n E p' l (s_end s) v'.
Proof.
  intros n E p p' e rest s l t0 v0 v' [[C1 C2 C3 C4 C5 C6 C7 C8 C9 C10] M2 M3 M4 M5] Et Ep He Tl Hi (x & X1 & X2 & X3) Hb.
  assert (Hlen : length (p_buffer p') = Nat.max (length (p_buffer p)) (clip n (s_end s))) by (rewrite Hb; apply frames_length).
  assert (Hn : (near (s_end s) <= first_frame RQ n + Z.of_nat RQ)%Z) by (rewrite now_next in He; apply near_le; exact He).
  destruct C6 as (G1 & G2 & G3). rewrite Ep in G3. destruct C7 as [_ C7].
  constructor.
  - constructor.
    + rewrite Tl. rewrite Et in C1. eapply rels_tail. exact C1.
    + rewrite Tl. rewrite Et in C2. eapply sorted_tail. exact C2.
    + intros S f HS Hf. rewrite Hlen in Hf. rewrite (C3 S f HS) by lia. cbn [app]. rewrite curve_over by (unfold clip in Hf; lia). rewrite Ep. reflexivity.
    + rewrite X1. split; assumption.
    + rewrite Hi. destruct l as [|s1 l]; [reflexivity|]. destruct (s_shape s1); try (right; reflexivity); try (intros; reflexivity).
    + apply good_tail_good. exact G3.
    + destruct l as [|s1 l]; [exact I|]. inversion C7 as [|? ? L1 L2]; subst. split; [|exact L2].
      destruct G3 as (A1 & _). pose proof (time_end s1 A1). destruct (s_shape s1); try exact I; lra.
    + destruct l as [|s1 l]; [exact I|]. inversion C7 as [|? ? L1 L2]; subst. destruct G3 as (A1 & A2 & _).
      destruct (s_shape s1) as [ | | |v tc| ] eqn:Es; try exact I. intros Hle [_ Hs].
      assert (Heq : s_time s1 = now n) by lra. rewrite Heq in Hs. rewrite approach_start in Hs.
      destruct A2 as [_ A2]. rewrite Es in A2. cbn [Param_EnvelopeSpec.value] in A2. destruct A2 as [A2|A2]; [exact A2|lra].
    + unfold Param_EnvelopeSpec.after in *. cbn [fold_left] in C9. rewrite Ep in C9. exact C9.
    + rewrite X1. destruct (p_last p); [exact C10|]. intro Ee. apply C10 in Ee. discriminate.
  - rewrite Hlen. exact Hb.
  - rewrite Hlen. pose proof (clip_le n (s_end s)). lia.
  - destruct l as [|s1 l]; [exact I|]. destruct G3 as (A1 & A2 & A3 & _). unfold timely in A3.
    destruct (s_shape s1); try exact I; apply A3; lia || exact He.
  - exact He.
Qed.

(** an event that is still pending or in progress at the end of the block *)
Lemma stay_ok : forall n E p p' s l t0 v0, mid n E p (s :: l) t0 v0 ->
  p_timeline p' = p_timeline p -> p_last p' = p_last p -> p_buffer p' = frames (curve ph0 E) (first_frame RQ n) 0 RQ ->
  Forall (fun x => now (S n) <= s_time x) l -> (match s_shape s with Target _ _ => True | _ => now (S n) <= s_end s end) ->
  (match s_shape s with
   | Linear _ => True
   | Expo v => v0 = 0 \/ v0 * v < 0 -> p_intrinsic p' = v0
   | _ => s_time s <= now (S n) \/ p_intrinsic p' = v0
   end) ->
  (match s_shape s with Target v tc => s_time s <= now (S n) -> settled (s_time s) v0 v tc (now (S n)) -> v = v0 | _ => True end) ->
  fin n E p' (s :: l) t0 v0.
Proof.
  intros n E p p' s l t0 v0 [[C1 C2 C3 C4 C5 C6 C7 C8 C9 C10] M2 M3 M4 M5] Tl La Hb Hl He Hi Hu.
  constructor; [|exact Hb|exact M5]. constructor.
  - rewrite Tl. apply rels_later; [exact C1|]. split; [|exact Hl]. unfold s_end in He. destruct (s_shape s); try exact I; exact He.
  - rewrite Tl. exact C2.
  - intros S f HS Hf. apply C3; [eapply suffix_mono; [|exact HS]; lia|]. rewrite first_next in Hf. lia.
  - rewrite La. exact C4.
  - unfold Param_EnvelopeSpec.now in Hi. change (Z.of_nat 0) with 0%Z. rewrite Z.add_0_r. exact Hi.
  - eapply good_mono; [|exact C6]. lia.
  - split; [exact He|exact Hl].
  - exact Hu.
  - eapply akin_mono; [|exact C9]. lia.
  - rewrite La. exact C10.
Qed.

Lemma good_tail_after : forall n E p s l t0 v0 t, mid n E p (s :: l) t0 v0 -> t <= s_end s -> Forall (fun x => t <= s_time x) l.
Proof.
  intros n E p s l t0 v0 t M H. destruct (c_good _ _ _ _ _ _ _ (m_core _ _ _ _ _ _ M)) as (_ & _ & G).
  eapply tail_times; [exact G|]. rewrite pass_time. exact H.
Qed.

Lemma start_le : forall n k, (k <= RQ)%nat -> ftime (first_frame RQ n + Z.of_nat k) <= now (S n).
Proof. intros n k H. rewrite now_next. apply ftime_le. lia. Qed.

Lemma step_jump : forall n E p e rest s l t0 v0 v, p_timeline p = e :: rest -> s_shape s = Jump v -> mid n E p (s :: l) t0 v0 ->
  outcome n E p (s :: l) (do_set_value P RQ p (blk n) e rest).
Proof.
  intros n E p e rest s l t0 v0 v Et Ks M. pose proof M as [[C1 C2 C3 C4 C5 C6 C7 C8 C9 C10] M2 M3 M4 M5].
  rewrite Et in C1. destruct C1 as [[[R1 R2] R3] Rl]. rewrite Ks in R2, R3. destruct R2 as [_ R2]. rewrite Ks in C5.
  assert (Hend : s_end s = s_time s) by (unfold s_end; rewrite Ks; reflexivity).
  unfold do_set_value. rewrite idx. cbn [t_eq t_zero t_lt real_ops blk b_arate b_time b_next]. rewrite <- R3.
  set (k := length (p_buffer p)) in *.
  rewrite extend_ok' by (rewrite repeat_length; fold k; pose proof (clip_le n (s_time s)); lia). cbn [bind].
  assert (Hb : p_buffer p ++ repeat (p_intrinsic p) (clip n (s_time s) - k) = frames (curve ph0 E) (first_frame RQ n) 0 (Nat.max k (clip n (s_time s)))).
  { rewrite M2 at 1. rewrite (repeat_frames (curve ph0 E) (first_frame RQ n) _ k).
    - change k with (0 + k)%nat at 2. rewrite frames_app. f_equal. lia.
    - intros i Hi2. rewrite (mid_frame n E p (s :: l) t0 v0) by (exact M || (fold k; lia)).
      assert (Hnr : (first_frame RQ n + Z.of_nat i < near (s_time s))%Z) by (unfold clip in Hi2; lia).
      rewrite curve_during by (rewrite Hend; exact Hnr). unfold Param_EnvelopeSpec.during. rewrite Ks. cbn [start Param_EnvelopeSpec.value].
      destruct C5 as [C5|C5]; [|symmetry; exact C5]. exfalso. apply near_le in C5. fold k in C5. lia. }
  destruct (R_lt (now (S n)) (s_time s)) eqn:L.
  - apply R_lt_true in L. left. eexists _, (s :: l), t0, v0. split; [reflexivity|]. split; [repeat split; reflexivity|].
    apply (stay_ok n E p); try assumption; try reflexivity.
    + cbn [set_buffer p_buffer]. rewrite Hb. rewrite clip_next by lra. f_equal. lia.
    + eapply good_tail_after; [exact M|]. lra.
    + rewrite Ks. lra.
    + rewrite Ks. right. cbn [set_buffer p_intrinsic]. destruct C5 as [C5|C5]; [|exact C5]. pose proof (start_le n k M3). fold k in C5. lra.
    + rewrite Ks. exact I.
  - apply R_lt_false in L. right. eexists _, l, (s_end s), v. split; [reflexivity|]. split; [repeat split; reflexivity|]. split.
    + eapply pop_ok; [exact M|exact Et|..]; cbn [set_last set_timeline set_intrinsic set_buffer p_timeline p_last p_intrinsic p_buffer]; try reflexivity.
      * unfold Param_EnvelopeSpec.pass. rewrite Ks, Hend. reflexivity.
      * lra.
      * exact R2.
      * eexists. split; [reflexivity|]. rewrite Hend. destruct (R_eq (s_time s) (ev_time e)) eqn:E1; cbn [with_time ev_time ev_value]; (split; [|exact R2]); [|reflexivity].
        apply R_eq_true in E1. symmetry. exact E1.
      * rewrite Hend. exact Hb.
    + change (weight l < match s_shape s with Expo _ => 2 | _ => 1 end + weight l)%nat. rewrite Ks. lia.
Qed.

Lemma step_linear : forall n E p e rest s l t0 v0 v, p_timeline p = e :: rest -> s_shape s = Linear v -> mid n E p (s :: l) t0 v0 ->
  outcome n E p (s :: l) (do_linear_ramp P RQ p (blk n) e rest).
Proof.
  intros n E p e rest s l t0 v0 v Et Ks M. pose proof M as [[C1 C2 C3 C4 C5 C6 C7 C8 C9 C10] M2 M3 M4 M5].
  rewrite Et in C1. destruct C1 as [[[R1 R2] R3] Rl]. rewrite Ks in R2, R3. destruct R2 as [_ R2].
  assert (Hend : s_end s = s_time s) by (unfold s_end; rewrite Ks; reflexivity).
  unfold do_linear_ramp. rewrite R1. destruct (p_last p) as [la|] eqn:El; [|cbn [needs_last] in C4; rewrite Ks in C4; discriminate].
  destruct C4 as [L1 L2]. rewrite L1, L2, R2, <- R3.
  set (f := linear_ramp_sample P t0 (t_sub P (s_time s) t0) v0 (v_sub P v v0)).
  set (k := length (p_buffer p)) in *.
  destruct (sample_ok n p (s_time s) (fun t => Ok (f t)) (curve ph0 E) k M2 M3) as (p1 & Sb & T1 & T2 & Fz & B1).
  { intros fr H1 H2 H3. rewrite (mid_frame n E p (s :: l) t0 v0 fr M H1). rewrite curve_during by (rewrite Hend; exact H3).
    unfold Param_EnvelopeSpec.during. rewrite Ks. cbn [start]. f_equal. unfold f, linear_ramp_sample. cbn. ring. }
  rewrite Sb. cbn [bind]. cbn [t_le real_ops blk b_next]. destruct (R_le (now (S n)) (s_time s)) eqn:L.
  - apply R_le_true in L. left. eexists _, (s :: l), t0, v0. split; [reflexivity|]. split; [exact Fz|].
    apply (stay_ok n E p); try assumption.
    + cbn [set_intrinsic p_buffer]. rewrite B1, clip_next by exact L. f_equal. lia.
    + eapply good_tail_after; [exact M|]. lra.
    + rewrite Ks. lra.
    + rewrite Ks. exact I.
    + rewrite Ks. exact I.
  - apply R_le_false in L. right. eexists _, l, (s_end s), v. split; [reflexivity|]. split; [exact Fz|]. split.
    + eapply pop_ok; [exact M|exact Et|..]; cbn [set_last set_timeline set_intrinsic set_buffer p_timeline p_last p_intrinsic p_buffer]; try reflexivity.
      * unfold Param_EnvelopeSpec.pass. rewrite Ks, Hend. reflexivity.
      * lra.
      * eexists. split; [reflexivity|]. split; [lra|exact R2].
      * rewrite Hend. exact B1.
    + change (weight l < match s_shape s with Expo _ => 2 | _ => 1 end + weight l)%nat. rewrite Ks. lia.
Qed.

Lemma step_expo : forall n E p e rest s l t0 v0 v, p_timeline p = e :: rest -> s_shape s = Expo v -> mid n E p (s :: l) t0 v0 ->
  outcome n E p (s :: l) (do_exponential_ramp P RQ p (blk n) e rest).
Proof.
  intros n E p e rest s l t0 v0 v Et Ks M. pose proof M as [[C1 C2 C3 C4 C5 C6 C7 C8 C9 C10] M2 M3 M4 M5].
  rewrite Et in C1. destruct C1 as [[[R1 R2] R3] Rl]. rewrite Ks in R2, R3. destruct R2 as [_ R2].
  assert (Hend : s_end s = s_time s) by (unfold s_end; rewrite Ks; reflexivity).
  unfold do_exponential_ramp. rewrite R1. destruct (p_last p) as [la|] eqn:El; [|cbn [needs_last] in C4; rewrite Ks in C4; discriminate].
  destruct C4 as [L1 L2]. rewrite L1, L2, R2, <- R3. cbn [v_eq v_lt v_mul v_zero real_ops].
  set (k := length (p_buffer p)) in *.
  destruct (R_eq v0 0 || R_lt (v0 * v) 0) eqn:Bad.
  - (* the ramp becomes a jump *)
    assert (HB : v0 = 0 \/ v0 * v < 0).
    { apply orb_true_iff in Bad. destruct Bad as [Bad|Bad]; [left; apply R_eq_true; exact Bad|right; apply R_lt_true; exact Bad]. }
    rewrite Ks in C5. specialize (C5 HB). destruct C6 as (G1 & G2 & G3).
    assert (Ep : pass (Hold t0 v0) s = pass (Hold t0 v0) (mk_sev (Jump v) (s_time s))) by (unfold Param_EnvelopeSpec.pass; rewrite Ks; reflexivity).
    right. eexists _, (mk_sev (Jump v) (s_time s) :: l), t0, v0. split; [reflexivity|]. split; [repeat split; reflexivity|]. split.
    + constructor; cbn [set_timeline p_timeline p_buffer p_last p_intrinsic]; try assumption; [|exact I].
      constructor; cbn [set_timeline p_timeline p_buffer p_last p_intrinsic]; fold k.
      * split; [|exact Rl]. split; [split; [reflexivity|split; [right; reflexivity|reflexivity]]|]. cbn [s_shape s_time simple ev_time].
        destruct (R_eq (s_time s) 0) eqn:E0; [|reflexivity]. apply R_eq_true in E0. destruct C7 as [C7 _]. rewrite Ks in C7. pose proof (now_pos n). lra.
      * rewrite Et in C2. inversion C2 as [|? ? S1 S2]; subst. constructor; [exact S1|]. eapply Forall_impl; [|exact S2].
        unfold in_order. cbn [simple ev_time]. rewrite <- R3. tauto.
      * intros S f HS Hf. rewrite (C3 S f HS Hf). cbn [app]. cbn [Param_EnvelopeSpec.curve]. rewrite <- Ep. unfold s_end. rewrite Ks. cbn [s_shape s_time].
        destruct (Z.leb (near (s_time s)) f); [reflexivity|]. unfold Param_EnvelopeSpec.during. rewrite Ks. cbn [start s_shape Param_EnvelopeSpec.value].
        destruct (Req_EM_T v0 0); [reflexivity|]. destruct (Rlt_dec (v0 * v) 0); [reflexivity|tauto].
      * rewrite El. split; assumption.
      * right. exact C5.
      * cbn [good]. split; [exact I|]. split; [|rewrite <- Ep; exact G3]. split; [|exact I]. destruct G2 as [G2 _]. exact G2.
      * destruct C7 as [C7 C7']. rewrite Ks in C7. split; [|exact C7']. cbn. rewrite <- Hend. exact C7.
      * exact I.
      * unfold Param_EnvelopeSpec.after in *. cbn [fold_left] in *. rewrite <- Ep. exact C9.
      * rewrite El. exact C10.
    + change (1 + weight l < match s_shape s with Expo _ => 2 | _ => 1 end + weight l)%nat. rewrite Ks. lia.
  - apply orb_false_iff in Bad. destruct Bad as [Bad1 Bad2]. apply R_eq_false in Bad1. apply R_lt_false in Bad2.
    set (f := exponential_ramp_sample P t0 (t_sub P (s_time s) t0) v0 (v_div P v v0)).
    destruct (sample_ok n p (s_time s) (fun t => Ok (f t)) (curve ph0 E) k M2 M3) as (p1 & Sb & T1 & T2 & Fz & B1).
    { intros fr H1 H2 H3. rewrite (mid_frame n E p (s :: l) t0 v0 fr M H1). rewrite curve_during by (rewrite Hend; exact H3).
      unfold Param_EnvelopeSpec.during. rewrite Ks. cbn [start]. f_equal. destruct (Req_EM_T v0 0); [tauto|]. destruct (Rlt_dec (v0 * v) 0); [lra|]. reflexivity. }
    rewrite Sb. cbn [bind]. cbn [t_le real_ops blk b_next]. destruct (R_le (now (S n)) (s_time s)) eqn:L.
    + apply R_le_true in L. left. eexists _, (s :: l), t0, v0. split; [reflexivity|]. split; [exact Fz|].
      apply (stay_ok n E p); try assumption.
      * cbn [set_intrinsic p_buffer]. rewrite B1, clip_next by exact L. f_equal. lia.
      * eapply good_tail_after; [exact M|]. lra.
      * rewrite Ks. lra.
      * rewrite Ks. intros [A|A]; [tauto|lra].
      * rewrite Ks. exact I.
    + apply R_le_false in L. right. eexists _, l, (s_end s), v. split; [reflexivity|]. split; [exact Fz|]. split.
      * eapply pop_ok; [exact M|exact Et|..]; cbn [set_last set_timeline set_intrinsic set_buffer p_timeline p_last p_intrinsic p_buffer]; try reflexivity.
        -- unfold Param_EnvelopeSpec.pass. rewrite Ks, Hend. reflexivity.
        -- lra.
        -- eexists. split; [reflexivity|]. split; [lra|exact R2].
        -- rewrite Hend. exact B1.
      * change (weight l < match s_shape s with Expo _ => 2 | _ => 1 end + weight l)%nat. rewrite Ks. lia.
Qed.

(** ** Value curves *)
Lemma curve_sample : forall T d vs t, 0 < d -> (2 <= length vs)%nat -> T <= t -> value_curve_sample P T d vs t = Ok (curve_at T d vs t).
Proof.
  intros T d vs t Hd Hl Ht. unfold curve_at. destruct (Rle_dec d (t - T)) as [L|L].
  - apply curve_after; [exact Hl|lra].
  - unfold value_curve_sample. cbn [t_le t_sub t_div t_mul t_of_nat t_to_nat v_of_t t_floor v_fma v_sub real_ops].
    assert (E : R_le d (t - T) = false) by (apply R_le_false; lra). rewrite E.
    set (x := INR (length vs - 1) * (t - T) / d).
    assert (X : 0 <= x < INR (length vs - 1)).
    { assert (N : 0 < INR (length vs - 1)) by (apply lt_0_INR; lia). unfold x. split.
      - apply Rmult_le_pos; [apply Rmult_le_pos; lra|left; apply Rinv_0_lt_compat; exact Hd].
      - apply (Rmult_lt_reg_r d); [exact Hd|]. unfold Rdiv. rewrite Rmult_assoc, Rinv_l, Rmult_1_r by lra. apply Rmult_lt_compat_l; lra. }
    assert (Z0 : (0 <= Zfloor x)%Z) by (apply floor_IZR_le; lra).
    assert (Z1 : (Zfloor x < Z.of_nat (length vs - 1))%Z).
    { apply lt_IZR. rewrite <- INR_IZR_INZ. pose proof (Zfloor_lb x). lra. }
    unfold R_to_nat. rewrite Z.min_l by lia.
    rewrite (nth_error_nth' vs 0 (n := Z.to_nat (Zfloor x) + 1)) by lia. rewrite (nth_error_nth' vs 0 (n := Z.to_nat (Zfloor x))) by lia.
    f_equal. ring.
Qed.

Lemma step_curve : forall n E p e rest s l t0 v0 vs d, p_timeline p = e :: rest -> s_shape s = Curve vs d -> mid n E p (s :: l) t0 v0 ->
  outcome n E p (s :: l) (do_value_curve P RQ p (blk n) e rest).
Proof.
  intros n E p e rest s l t0 v0 vs d Et Ks M. pose proof M as [[C1 C2 C3 C4 C5 C6 C7 C8 C9 C10] M2 M3 M4 M5].
  rewrite Et in C1. destruct C1 as [[[R1 R2] R3] Rl]. rewrite Ks in R2, R3, C5, M4. destruct R2 as (_ & R2 & R4).
  assert (Hend : s_end s = s_time s + d) by (unfold s_end; rewrite Ks; reflexivity).
  destruct C6 as (G1 & G2 & G3). unfold arguments_ok in G1. rewrite Ks in G1. destruct G1 as [Hl Hd].
  unfold do_value_curve. rewrite R1, R2, R4, <- R3. cbn [t_add real_ops].
  set (k := length (p_buffer p)) in *.
  destruct (sample_ok n p (s_time s + d) (fun t => if t_lt P t (s_time s) then Ok (p_intrinsic p) else value_curve_sample P (s_time s) d vs t)
    (curve ph0 E) k M2 M3) as (p1 & Sb & T1 & T2 & Fz & B1).
  { intros fr H1 H2 H3. rewrite (mid_frame n E p (s :: l) t0 v0 fr M H1). rewrite curve_during by (rewrite Hend; exact H3).
    unfold Param_EnvelopeSpec.during. rewrite Ks. cbn [start t_lt real_ops Param_EnvelopeSpec.value].
    assert (Hv : ftime fr < s_time s -> p_intrinsic p = v0).
    { intro Hlt. destruct C5 as [C5|C5]; [|exact C5]. pose proof (ftime_le _ _ H1). lra. }
    unfold R_lt. destruct (Rlt_dec (ftime fr) (s_time s)) as [A|A].
    - rewrite (Hv A). destruct (Z.leb (near (s_time s)) fr); reflexivity.
    - assert (Hle : (near (s_time s) <= fr)%Z) by (apply near_le; lra). apply Z.leb_le in Hle. rewrite Hle. apply curve_sample; try assumption. lra. }
  rewrite Sb. cbn [bind]. cbn [t_le real_ops blk b_next]. destruct (R_le (now (S n)) (s_time s + d)) eqn:L.
  - apply R_le_true in L. rewrite (curve_sample _ _ _ _ Hd Hl M4). cbn [bind].
    left. eexists _, (s :: l), t0, v0. split; [reflexivity|]. split; [exact Fz|].
    apply (stay_ok n E p); try assumption.
    + cbn [set_intrinsic p_buffer]. rewrite B1, clip_next by exact L. f_equal. lia.
    + eapply good_tail_after; [exact M|]. lra.
    + rewrite Ks. lra.
    + rewrite Ks. left. exact M4.
    + rewrite Ks. exact I.
  - apply R_le_false in L.
    assert (Hnth : nth_error vs (length vs - 1) = Some (last vs 0)).
    { destruct (exists_last (l := vs)) as (l1 & x & Ex); [intro Ex; rewrite Ex in Hl; cbn in Hl; lia|]. rewrite Ex, last_last, app_length.
      cbn [length]. replace (length l1 + 1 - 1)%nat with (length l1) by lia. rewrite nth_error_app2 by lia. rewrite Nat.sub_diag. reflexivity. }
    rewrite Hnth. cbn [from_option bind]. right. eexists _, l, (s_end s), (last vs 0). split; [reflexivity|]. split; [exact Fz|]. split.
    + eapply pop_ok; [exact M|exact Et|..]; cbn [set_last set_timeline set_intrinsic set_buffer p_timeline p_last p_intrinsic p_buffer]; try reflexivity.
      * unfold Param_EnvelopeSpec.pass. rewrite Ks, Hend. reflexivity.
      * lra.
      * eexists. split; [reflexivity|]. cbn [with_value with_time ev_time ev_value]. split; [symmetry; exact Hend|reflexivity].
      * rewrite Hend. exact B1.
    + change (weight l < match s_shape s with Expo _ => 2 | _ => 1 end + weight l)%nat. rewrite Ks. lia.
Qed.

(** ** Targets *)
Lemma target_frame : forall n E p s l t0 v0 v tc fr, mid n E p (s :: l) t0 v0 -> s_shape s = Target v tc ->
  (first_frame RQ n + Z.of_nat (length (p_buffer p)) <= fr < first_frame RQ n + Z.of_nat RQ)%Z ->
  (match l with s1 :: _ => (fr < near (s_time s1))%Z | [] => True end) ->
  curve ph0 E fr = if Rlt_dec (ftime fr) (s_time s) then v0 else approach (s_time s) v0 v tc (ftime fr).
Proof.
  intros n E p s l t0 v0 v tc fr M Ks Hfr Hl. rewrite (mid_frame n E p (s :: l) t0 v0 fr M) by lia.
  pose proof M as [[C1 C2 C3 C4 C5 C6 C7 C8 C9 C10] M2 M3 M4 M5]. rewrite Ks in C8. destruct C6 as (G1 & G2 & G3).
  assert (Hend : s_end s = s_time s) by (unfold s_end; rewrite Ks; reflexivity).
  assert (Ep : pass (Hold t0 v0) s = Decay (s_time s) v0 v tc) by (unfold Param_EnvelopeSpec.pass; rewrite Ks; reflexivity).
  assert (Nw : now n <= ftime fr < now (S n)) by (rewrite now_next; split; [apply ftime_le|apply ftime_lt]; lia).
  destruct (Z.lt_ge_cases fr (near (s_time s))) as [A|A].
  - rewrite curve_during by (rewrite Hend; exact A). unfold Param_EnvelopeSpec.during. rewrite Ks. cbn [start Param_EnvelopeSpec.value].
    apply near_gt in A. destruct (Rlt_dec (ftime fr) (s_time s)); [reflexivity|lra].
  - rewrite curve_over by (rewrite Hend; exact A). rewrite Ep in *.
    assert (Ev : curve (Decay (s_time s) v0 v tc) l fr = value (Decay (s_time s) v0 v tc) (ftime fr)).
    { destruct l as [|s1 l]; [reflexivity|]. destruct G3 as (A1 & ((A2 & A3) & _) & _). pose proof (near_mono _ _ (time_end s1 A1)) as Nm.
      rewrite curve_during by lia. unfold Param_EnvelopeSpec.during. cbn [start]. unfold is_slope in A3. destruct (s_shape s1); try discriminate; try reflexivity.
      apply Z.leb_gt in Hl. rewrite Hl. reflexivity. }
    rewrite Ev. destruct (Rlt_dec (ftime fr) (s_time s)) as [B|B].
    + cbn [Param_EnvelopeSpec.value]. destruct (Rlt_dec (ftime fr) (s_time s)); [reflexivity|lra].
    + apply (value_decay _ _ _ _ n); [|exact Nw|lra]. intro Hs. apply C8; [apply Hs|exact Hs].
Qed.

Lemma step_target : forall n E p e rest s l t0 v0 v tc, p_timeline p = e :: rest -> s_shape s = Target v tc -> mid n E p (s :: l) t0 v0 ->
  outcome n E p (s :: l) (do_set_target P RQ p (blk n) e rest).
Proof.
  intros n E p e rest s l t0 v0 v tc Et Ks M. pose proof M as [[C1 C2 C3 C4 C5 C6 C7 C8 C9 C10] M2 M3 M4 M5].
  rewrite Et in C1. destruct C1 as [[[R1 R2] R3] Rl]. rewrite Ks in R2, R3, C5, M4, C8. destruct R2 as (_ & R2 & R4).
  assert (Hend : s_end s = s_time s) by (unfold s_end; rewrite Ks; reflexivity).
  assert (Ep : pass (Hold t0 v0) s = Decay (s_time s) v0 v tc) by (unfold Param_EnvelopeSpec.pass; rewrite Ks; reflexivity).
  destruct C6 as (G1 & G2 & G3). unfold arguments_ok in G1. rewrite Ks in G1. rewrite Ep in G3. destruct C7 as [_ C7].
  destruct (p_last p) as [la|] eqn:El; [|cbn [needs_last] in C4; rewrite Ks in C4; discriminate]. destruct C4 as [L1 L2].
  set (k := length (p_buffer p)) in *.
  set (f := set_target_sample P (s_time s) tc v (v_sub P v0 v)).
  assert (Hf : forall t, f t = approach (s_time s) v0 v tc t) by (intro t; unfold f, set_target_sample, approach; cbn; ring).
  assert (Hsam : forall fr, (first_frame RQ n + Z.of_nat k <= fr)%Z -> (fr < first_frame RQ n + Z.of_nat RQ)%Z ->
    (match l with s1 :: _ => (fr < near (s_time s1))%Z | [] => True end) ->
    Ok (if t_lt P (t_sub P (ftime fr) (s_time s)) (t_zero P) then p_intrinsic p else f (ftime fr)) = Ok (curve ph0 E fr)).
  { intros fr H1 H2 H3. f_equal. rewrite (target_frame n E p s l t0 v0 v tc fr M Ks) by (exact H3 || (fold k; lia)).
    cbn [t_lt t_sub t_zero real_ops]. unfold R_lt. destruct (Rlt_dec (ftime fr - s_time s) 0), (Rlt_dec (ftime fr) (s_time s)); try lra; [|apply Hf].
    destruct C5 as [C5|C5]; [|exact C5]. pose proof (ftime_le _ _ H1). lra. }
  assert (Hw : (weight l < weight (s :: l))%nat).
  { change (weight l < match s_shape s with Expo _ => 2 | _ => 1 end + weight l)%nat. rewrite Ks. lia. }
  unfold do_set_target. rewrite R1, El, R4, L2, R2, <- R3. change (b_next (blk n)) with (now (S n)). change (b_time (blk n)) with (now n).
  (* does the next event end the target? *)
  destruct (match rest with nxt :: _ => t_lt P (ev_time nxt) (now (S n)) | [] => false end) eqn:Ended.
  - (* yes *)
    destruct Rl as [|nxt s1 rest l1 [Rn Rt] Rl']; [discriminate|].
    pose proof Ended as Lt. cbn [t_lt real_ops] in Lt. apply R_lt_true in Lt. rewrite <- Rt in Lt.
    destruct G3 as (A1 & A2 & A3 & A4). pose proof A2 as [[A5 A6] A7]. pose proof (Forall_inv C7) as W1. pose proof (Forall_inv_tail C7) as W2. cbv beta in W1.
    assert (Nr : is_ramp (ev_type nxt) = false).
    { destruct Rn as [[_ Rn] _]. unfold is_slope in A6. destruct (s_shape s1); try discriminate.
      - destruct Rn as [[-> | ->] _]; reflexivity.
      - destruct Rn as [-> _]; reflexivity.
      - destruct Rn as [-> _]; reflexivity. }
    rewrite Nr, Ended, <- Rt.
    destruct (sample_ok n p (s_time s1) (fun t => Ok (if t_lt P (t_sub P t (s_time s)) (t_zero P) then p_intrinsic p else f t))
      (curve ph0 E) k M2 M3) as (p1 & Sb & T1 & T2 & Fz & B1); [intros; apply Hsam; assumption|].
    fold f. rewrite Sb. cbn [bind negb].
    assert (Ev : value (Decay (s_time s) v0 v tc) (s_time s1) = f (s_time s1)).
    { rewrite Hf. apply (value_decay _ _ _ _ n); [|split; assumption|exact A5]. intro Hs. apply C8; [apply Hs|exact Hs]. }
    assert (Epp : pass (Hold (s_time s1) (f (s_time s1))) s1 = pass (Decay (s_time s) v0 v tc) s1).
    { unfold is_slope in A6. unfold Param_EnvelopeSpec.pass. destruct (s_shape s1); try discriminate; try reflexivity. rewrite Ev. reflexivity. }
    right. eexists _, (s1 :: l1), (s_time s1), (f (s_time s1)). split; [reflexivity|]. split; [exact Fz|]. split; [|exact Hw].
    assert (Hlen : length (p_buffer p1) = Nat.max k (clip n (s_time s1))) by (rewrite B1; apply frames_length).
    assert (Hn : (near (s_time s1) <= first_frame RQ n + Z.of_nat RQ)%Z) by (rewrite now_next in Lt; apply near_le; lra).
    constructor; cbn [set_last set_timeline set_intrinsic p_timeline p_last p_intrinsic p_buffer].
    + constructor; cbn [set_last set_timeline set_intrinsic p_timeline p_last p_intrinsic p_buffer].
      * split; assumption.
      * rewrite Et in C2. eapply sorted_tail. exact C2.
      * intros S fr HS Hfr. rewrite Hlen in Hfr. rewrite (C3 S fr HS) by lia. cbn [app].
        assert (N2 : (near (s_time s1) <= fr)%Z) by (unfold clip in Hfr; lia).
        rewrite curve_over by (rewrite Hend; pose proof (near_mono _ _ A5); lia). rewrite Ep. cbn [Param_EnvelopeSpec.curve]. rewrite Epp.
        destruct (Z.leb (near (s_end s1)) fr) eqn:Le; [reflexivity|]. unfold Param_EnvelopeSpec.during. cbn [start].
        unfold is_slope in A6. unfold s_end in Le. apply Z.leb_le in N2. destruct (s_shape s1); try discriminate; try congruence.
        rewrite N2, Ev. reflexivity.
      * split; reflexivity.
      * destruct (s_shape s1); try (right; reflexivity); try (intros; reflexivity).
      * cbn [good]. split; [exact A1|]. split; [|rewrite Epp; exact A4]. split; [lra|]. destruct (s_shape s1); try exact I.
        rewrite Ev in A7. exact A7.
      * split; [|exact W2]. pose proof (time_end s1 A1). destruct (s_shape s1); try exact I; lra.
      * destruct (s_shape s1) as [ | | |v1 tc1| ]; try exact I. intros Hle [_ Hs].
        assert (Heq : now n = s_time s1) by lra. rewrite Heq, approach_start in Hs.
        rewrite Ev in A7. destruct A7 as [A7|A7]; [exact A7|lra].
      * rewrite (after_same _ (Decay (s_time s) v0 v tc) s1 l1 A6) by (symmetry; exact Ev).
        unfold Param_EnvelopeSpec.after in *. cbn [fold_left] in *. rewrite Ep in C9. exact C9.
      * exact C10.
    + rewrite Hlen. exact B1.
    + rewrite Hlen. pose proof (clip_le n (s_time s1)). lia.
    + destruct (s_shape s1); try exact I; lra.
    + lra.
  - (* no *)
    assert (Ft : Forall (fun x => now (S n) <= s_time x) l /\ (match rest with nxt :: _ => is_ramp (ev_type nxt) = false | [] => True end)).
    { destruct Rl as [|nxt s1 rest l1 [Rn Rt] Rl']; [split; [constructor|exact I]|].
      cbn [t_lt real_ops] in Ended. apply R_lt_false in Ended. rewrite <- Rt in Ended. destruct G3 as (A1 & [[A5 A6] A7] & A3 & A4). split.
      - constructor; [exact Ended|]. eapply tail_times; [exact A4|]. rewrite pass_time. pose proof (time_end s1 A1). lra.
      - destruct Rn as [[_ Rn] _]. unfold is_slope in A6. destruct (s_shape s1); try discriminate.
        + destruct Rn as [[-> | ->] _]; reflexivity.
        + destruct Rn as [-> _]; reflexivity.
        + destruct Rn as [-> _]; reflexivity. }
    destruct Ft as [Ft Nr].
    assert (Em : (match rest with
      | [] => (now (S n), false)
      | nxt :: _ => if is_ramp (ev_type nxt) then (now n, true) else if t_lt P (ev_time nxt) (now (S n)) then (ev_time nxt, true) else (now (S n), false)
      end) = (now (S n), false)) by (destruct rest; [reflexivity|rewrite Nr, Ended; reflexivity]).
    rewrite Em.
    destruct (sample_ok n p (now (S n)) (fun t => Ok (if t_lt P (t_sub P t (s_time s)) (t_zero P) then p_intrinsic p else f t))
      (curve ph0 E) k M2 M3) as (p1 & Sb & T1 & T2 & Fz & B1).
    { intros fr H1 H2 _. apply Hsam; try assumption. destruct l as [|s1 l1]; [exact I|]. pose proof (Forall_inv Ft) as F1. cbv beta in F1.
      rewrite now_next in F1. apply near_ge in F1. lia. }
    rewrite clip_next in B1 by lra. rewrite Nat.max_r in B1 by lia.
    fold f. rewrite Sb. cbn [bind negb]. cbn [v_lt v_abs v_sub v_snap v_eq v_zero v_subnormal real_ops].
    destruct (R_lt (Rabs (v - f (now (S n)))) (1 / 10000000000)) eqn:Sn.
    + (* the approach is finished *)
      apply R_lt_true in Sn. rewrite Hf in Sn.
      assert (Hs : settled (s_time s) v0 v tc (now (S n))) by (split; assumption).
      set (p3 := if R_eq v 0 then set_buffer (set_intrinsic p1 v) (map (fun x : R => if false then 0 else x) (p_buffer (set_intrinsic p1 v))) else set_intrinsic p1 v).
      assert (E3 : p3 = set_intrinsic p1 v). { unfold p3. destruct (R_eq v 0); [|reflexivity]. rewrite map_id. reflexivity. }
      rewrite E3. left. eexists _, (mk_sev (Jump v) (now (S n)) :: l), t0, v0. split; [reflexivity|]. split; [exact Fz|].
      assert (Hrest : forall X, suffix_ok (S n) E X -> not_slope_head (l ++ X) /\ match l ++ X with s1 :: _ => now (Datatypes.S n) <= s_time s1 | [] => True end).
      { intros X [S1 S2]. destruct l as [|s1 l1]; cbn [app].
        - split; [|destruct S1; [exact I|assumption]]. unfold Param_EnvelopeSpec.after in *. cbn [fold_left] in C9. rewrite Ep in C9.
          destruct C9 as [C9|(q1 & q2 & q3 & q4 & q5 & _ & _ & _ & Q & _)]; [|discriminate]. rewrite <- C9 in S2. exact S2.
        - destruct G3 as (_ & [[_ A6] _] & _). split; [exact A6|exact (Forall_inv Ft)]. }
      assert (Hsame : forall t, now (S n) <= t -> value (Decay (s_time s) v0 v tc) t = value (Hold (now (S n)) v) t).
      { intros t Ht. rewrite (value_settled _ _ _ _ (S n)) by assumption. reflexivity. }
      constructor; cbn [set_timeline set_intrinsic p_timeline p_last p_intrinsic p_buffer]; [|exact B1|exact M5].
      constructor; cbn [set_timeline set_intrinsic p_timeline p_last p_intrinsic p_buffer].
      * split.
        -- split; [split; [reflexivity|split; [right; reflexivity|reflexivity]]|]. cbn [s_shape s_time simple ev_time]. destruct (R_eq (now (S n)) 0); reflexivity.
        -- eapply rel1_later; [exact Rl|]. eapply Forall_impl; [|exact Ft]. cbn. intros a Ha. pose proof (now_pos n). pose proof (now_lt n (S n) ltac:(lia)). lra.
      * rewrite Et in C2. constructor; [eapply sorted_tail; exact C2|]. clear - Rl Ft. induction Rl as [|e1 s1 rest l1 [_ Rt] Rl IH]; constructor; inversion Ft; subst.
        -- unfold in_order. cbn [simple ev_time t_le real_ops]. apply R_le_true. lra.
        -- apply IH. assumption.
      * intros S fr HS Hfr. destruct (Hrest S HS) as [H1 H2]. rewrite first_next in Hfr.
        rewrite (C3 S fr) by ((eapply suffix_mono; [|exact HS]; lia) || lia). cbn [app].
        assert (Hnow : now (Datatypes.S n) <= ftime fr) by (rewrite now_next; apply ftime_le; lia).
        rewrite curve_over by (rewrite Hend; apply near_le; lra). rewrite Ep.
        rewrite (curve_over _ (mk_sev (Jump v) _)) by (cbn [s_end s_shape s_time]; apply near_le; exact Hnow).
        cbn [Param_EnvelopeSpec.pass s_shape s_time]. apply (curve_same _ _ _ _ (now (Datatypes.S n))); assumption.
      * rewrite T2, El. split; assumption.
      * left. cbn [s_time]. change (Z.of_nat 0) with 0%Z. rewrite Z.add_0_r. apply Rle_refl.
      * cbn [good]. split; [exact I|]. split; [split; [|exact I]; cbn [s_time]; pose proof (follows_time _ _ G2) as Ht; cbn [phase_time] in Ht; lra|].
        cbn [Param_EnvelopeSpec.pass s_shape s_time]. destruct l as [|s1 l1]; [exact I|]. destruct G3 as (A1 & [[A5 A6] A7] & A3 & A4).
        pose proof (Forall_inv Ft) as F1. pose proof (Forall_inv_tail Ft) as F2. cbv beta in F1. cbn [good_tail].
        assert (Epp : pass (Hold (now (S n)) v) s1 = pass (Decay (s_time s) v0 v tc) s1).
        { unfold is_slope in A6. unfold Param_EnvelopeSpec.pass. destruct (s_shape s1); try discriminate; try reflexivity. rewrite (Hsame _ F1). reflexivity. }
        split; [exact A1|]. split; [split; [exact F1|]; destruct (s_shape s1); try exact I; rewrite (Hsame _ F1) in A7; exact A7|].
        split; [|rewrite Epp; eapply good_tail_mono; [|exact A4]; lia].
        unfold timely in *. destruct (s_shape s1); try exact I; intros j Hj _; specialize (A3 n (le_n n) Hs F1); pose proof (now_mono (S (S n)) (S j) ltac:(lia)); lra.
      * split; [cbn; lra|exact Ft].
      * exact I.
      * unfold Param_EnvelopeSpec.after in *. cbn [fold_left] in *. rewrite Ep in C9. cbn [Param_EnvelopeSpec.pass s_shape s_time]. destruct l as [|s1 l1].
        -- cbn [fold_left] in *. destruct C9 as [C9|(q1 & q2 & q3 & q4 & q5 & _ & _ & _ & Q & _)]; [|discriminate].
           right. exists (s_time s), v0, v, tc, (now (S n)). rewrite <- C9. repeat split; try assumption; try reflexivity. lra.
        -- destruct G3 as (_ & [[_ A6] _] & _). pose proof (Forall_inv Ft) as F1. pose proof (Forall_inv_tail Ft) as F2. cbv beta in F1.
           pose proof (after_same (Hold (now (S n)) v) (Decay (s_time s) v0 v tc) s1 l1 A6) as Ha. unfold Param_EnvelopeSpec.after in Ha.
           rewrite Ha by (symmetry; apply Hsame; exact F1). eapply akin_mono; [|exact C9]. lia.
      * rewrite T2, El. exact C10.
    + (* it goes on *)
      apply R_lt_false in Sn. rewrite Hf in Sn. left. eexists _, (s :: l), t0, v0. split; [reflexivity|]. split; [exact Fz|].
      apply (stay_ok n E p); try assumption.
      * rewrite Ks. exact I.
      * rewrite Ks. left. exact M4.
      * rewrite Ks. intros _ [_ Hs]. lra.
Qed.

(** ** The loop over the events of a block *)
Lemma loop : forall fuel n E p l t0 v0, mid n E p l t0 v0 -> (weight l < fuel)%nat ->
  exists p' l' t1 v1, do_events P RQ fuel p (blk n) = Ok p' /\ frozen p p' /\ fin n E p' l' t1 v1.
Proof.
  induction fuel as [|fuel IH]; intros n E p l t0 v0 M Hw; [lia|]. cbn [do_events].
  assert (Step : outcome n E p l (do_event P RQ p (blk n)) \/ (l = [] /\ exists p', do_event P RQ p (blk n) = Ok (p', true) /\ frozen p p' /\ fin n E p' [] t0 v0)).
  { pose proof (c_rel _ _ _ _ _ _ _ (m_core _ _ _ _ _ _ M)) as Hr. unfold do_event. destruct (p_timeline p) as [|e rest] eqn:Et, l as [|s l]; try contradiction.
    - right. split; [reflexivity|]. pose proof M as [[C1 C2 C3 C4 C5 C6 C7 C8 C9 C10] M2 M3 M4 M5]. cbn [blk b_arate b_count].
      rewrite extend_ok' by (rewrite repeat_length; lia). cbn [bind]. eexists. split; [reflexivity|]. split; [repeat split; reflexivity|].
      constructor; cbn [set_buffer p_timeline p_buffer p_last p_intrinsic].
      + constructor; cbn [set_buffer p_timeline p_buffer p_last p_intrinsic]; try assumption.
        * intros X f HX Hf. apply C3; [eapply suffix_mono; [|exact HX]; lia|]. rewrite first_next in Hf. lia.
        * eapply akin_mono; [|exact C9]. lia.
      + rewrite M2 at 1. set (k := length (p_buffer p)) in *. rewrite (repeat_frames (curve ph0 E) (first_frame RQ n) _ k).
        * change k with (0 + k)%nat at 2. rewrite frames_app. f_equal. lia.
        * intros i Hi. rewrite (mid_frame n E p [] t0 v0) by (exact M || (fold k; lia)). cbn. symmetry. exact C5.
      + exact M5.
    - left. destruct Hr as [[[_ Hm] _] _]. destruct (s_shape s) eqn:Ks.
      + destruct Hm as [[-> | ->] _]; eapply step_jump; eassumption.
      + destruct Hm as [-> _]. eapply step_linear; eassumption.
      + destruct Hm as [-> _]. eapply step_expo; eassumption.
      + destruct Hm as [-> _]. eapply step_target; eassumption.
      + destruct Hm as [-> _]. eapply step_curve; eassumption. }
  destruct Step as [[(p' & l' & t' & v' & H1 & H2 & H3)|(p' & l' & t' & v' & H1 & H2 & H3 & H4)]|(_ & p' & H1 & H2 & H3)]; rewrite H1; cbn [bind snd fst].
  - exists p', l', t', v'. auto.
  - destruct (IH n E p' l' t' v' H3) as (q & l2 & t2 & v2 & Q1 & Q2 & Q3); [lia|]. exists q, l2, t2, v2. split; [exact Q1|]. split; [eapply frozen_trans; eassumption|exact Q3].
  - exists p', [], t0, v0. auto.
Qed.

(** ** Mixing *)
Variables lo hi : R.
Hypothesis lo_hi : lo <= hi.

Lemma limit_clamped : forall p v, p_min p = lo -> p_max p = hi -> limit P p v = clamped lo hi v.
Proof. intros p v H1 H2. unfold limit, clamped. rewrite H1, H2. reflexivity. Qed.

Lemma nth_map_seq : forall (f : nat -> R) n i d, (i < n)%nat -> nth i (map f (seq 0 n)) d = f i.
Proof.
  intros f n i d H. rewrite (nth_indep _ d (f 0%nat)) by (rewrite map_length, seq_length; exact H). rewrite map_nth, seq_nth by exact H. reflexivity.
Qed.
Lemma spread_full : forall out, length out = RQ -> spread RQ out = out.
Proof. intros [|v [|v' out]] H; try reflexivity. cbn in H. unfold spread. rewrite <- H. reflexivity. Qed.

Definition outputs (C : Z -> R) (F : Z) (input : list R) : list R :=
  map (fun j => clamped lo hi (C (F + Z.of_nat j)%Z + nth j input 0)) (seq 0 RQ).

Lemma mix : forall p input silent F C, p_min p = lo -> p_max p = hi -> p_arate p = true -> input_ok RQ input silent ->
  (exists v, p_buffer p = [v] /\ (forall j, (j < RQ)%nat -> C (F + Z.of_nat j)%Z = v)) \/ p_buffer p = frames C F 0 RQ ->
  exists out, mix_to_output P p input silent = Ok out /\ spread RQ out = outputs C F input.
Proof.
  intros p input silent F C H1 H2 H3 [I1 I2] Hb.
  assert (Hb' : (exists v, p_buffer p = [v] /\ (forall j, (j < RQ)%nat -> C (F + Z.of_nat j)%Z = v)) \/ (length (p_buffer p) <> 1%nat /\ p_buffer p = frames C F 0 RQ)).
  { destruct Hb as [Hb|Hb]; [left; exact Hb|]. destruct (Nat.eq_dec RQ 1) as [E1|E1].
    - left. rewrite E1 in Hb. cbn in Hb. eexists. split; [exact Hb|]. intros j Hj. assert (j = 0)%nat by lia. subst j. reflexivity.
    - right. split; [|exact Hb]. rewrite Hb, frames_length. exact E1. }
  unfold mix_to_output. rewrite H3. cbn [negb]. rewrite !orb_false_r. clear Hb.
  destruct Hb' as [(v & B1 & B2)|[B0 B1]].
  - rewrite B1. cbn [length Nat.eqb]. destruct silent.
    + destruct input as [|i0 input]; [cbn in I1; lia|]. eexists. split; [reflexivity|]. unfold spread, outputs.
      apply nth_ext with (d := 0) (d' := 0); [rewrite repeat_length, map_length, seq_length; reflexivity|].
      intros i Hi. rewrite repeat_length in Hi. rewrite nth_map_seq by exact Hi. specialize (I2 eq_refl). rewrite Forall_forall in I2.
      rewrite (I2 (nth i (i0 :: input) 0)) by (apply nth_In; lia). rewrite (B2 i Hi).
      assert (Er : nth i (repeat (limit P p (v_add P v i0)) RQ) 0 = limit P p (v_add P v i0)).
      { assert (In (nth i (repeat (limit P p (v_add P v i0)) RQ) 0) (repeat (limit P p (v_add P v i0)) RQ)) as Hin by (apply nth_In; rewrite repeat_length; exact Hi).
        apply repeat_spec in Hin. exact Hin. }
      rewrite Er, limit_clamped by assumption. rewrite (I2 i0) by (left; reflexivity). reflexivity.
    + eexists. split; [reflexivity|]. rewrite spread_full by (rewrite map_length; exact I1). unfold outputs.
      apply nth_ext with (d := limit P p (v_add P 0 v)) (d' := limit P p (v_add P 0 v)); [rewrite !map_length, seq_length; exact I1|]. intros i Hi. rewrite map_length in Hi.
      rewrite nth_map_seq by lia. rewrite (map_nth (fun i0 => limit P p (v_add P i0 v))). rewrite limit_clamped by assumption. f_equal.
      rewrite (B2 i) by lia. cbn [v_add real_ops]. ring.
  - apply Nat.eqb_neq in B0. rewrite B0. eexists. split; [reflexivity|]. rewrite B1, frames_length.
    rewrite skipn_all2 by lia. rewrite app_nil_r. rewrite spread_full by (rewrite map_length, combine_length, frames_length; lia). unfold outputs.
    set (g := fun ip : R * R => limit P p (v_add P (fst ip) (snd ip))).
    apply nth_ext with (d := g (0, 0)) (d' := g (0, 0)); [rewrite !map_length, combine_length, seq_length, frames_length; lia|]. intros i Hi. rewrite map_length, combine_length, frames_length in Hi.
    rewrite nth_map_seq by lia. rewrite (map_nth g). rewrite combine_nth by (rewrite frames_length; exact I1). unfold g. rewrite limit_clamped by assumption.
    cbn [fst snd]. unfold frames. rewrite nth_map_seq by lia. cbn [v_add real_ops]. f_equal. ring.
Qed.

(** ** The state between quanta *)
Record st (n : nat) (E : list sev) (p : param) : Prop := {
  st_range : p_min p = lo /\ p_max p = hi /\ p_arate p = true;
  st_core : exists l t0 v0, core n 0 E p l t0 v0 /\ t0 <= now n
}.

Lemma st_new : st 0 [] (new_param true dflt lo hi).
Proof.
  constructor; [repeat split; reflexivity|]. exists [], 0, dflt. split; [|apply now_pos]. constructor.
  - exact I.
  - constructor.
  - intros X f _ _. reflexivity.
  - reflexivity.
  - reflexivity.
  - exact I.
  - exact I.
  - exact I.
  - left. reflexivity.
  - split; reflexivity.
Qed.

Lemma weight_le : forall l, (weight l <= 2 * length l)%nat.
Proof. induction l as [|s l IH]; [cbn; lia|]. change (weight (s :: l)) with (match s_shape s with Expo _ => 2 | _ => 1 end + weight l)%nat. cbn [length]. destruct (s_shape s); lia. Qed.
Lemma rels_length : forall w tl l, rels w tl l -> length tl = length l.
Proof. intros w [|e tl] [|s l] H; try contradiction; [reflexivity|]. destruct H as [_ H]. cbn. f_equal. induction H; cbn; congruence. Qed.

Lemma block_next : forall n, t_fma P dt (t_of_nat P RQ) (now n) = now (S n).
Proof. intro n. cbn [t_fma t_of_nat real_ops]. rewrite !now_eq, S_INR. ring. Qed.

Lemma play : forall n E p input silent, st n E p -> input_ok RQ input silent ->
  exists p' out, process P RQ p (now n) dt input silent = Ok (p', out) /\ st (S n) E p' /\
    spread RQ out = outputs (curve ph0 E) (first_frame RQ n) input.
Proof.
  intros n E p input silent [(Rlo & Rhi & Rar) (l & t0 & v0 & C & Ht0)] Hi. pose proof C as [C1 C2 C3 C4 C5 C6 C7 C8 C9 C10].
  unfold process, compute_buffer. cbn [v_clamp real_ops]. rewrite Rlo, Rhi. destruct (Rle_dec lo hi) as [_|N]; [|tauto]. cbn [from_option bind].
  rewrite block_next. cbn [set_buffer set_current p_timeline p_arate p_intrinsic p_last p_buffer p_default p_min p_max]. rewrite Rar. cbn [negb orb].
  set (cur := Rmin (Rmax (p_intrinsic p) lo) hi).
  destruct (match p_timeline p with [] => true | e :: _ => if is_ramp (ev_type e) then false else t_le P (now (S n)) (ev_time e) end) eqn:Ec.
  - (* a constant block *)
    rewrite extend_ok' by (cbn; lia). cbn [bind].
    match goal with |- context[set_buffer ?q ?vs] => set (p' := set_buffer q vs) end.
    assert (K : match l with [] => True | s :: _ => is_slope s = false /\ now (S n) <= s_time s end).
    { destruct (p_timeline p) as [|e tl] eqn:Et, l as [|s l]; try contradiction; [exact I|]. destruct C1 as [[[_ A] B] _].
      destruct (is_ramp (ev_type e)) eqn:Er; [discriminate|]. cbn [t_le real_ops] in Ec. apply R_le_true in Ec. unfold is_slope.
      pose proof (now_pos n). pose proof (now_lt n (S n) ltac:(lia)).
      destruct (s_shape s); try (destruct A as [A _]; rewrite A in Er; discriminate); (split; [reflexivity|]); try lra.
      destruct (R_eq (ev_time e) 0) eqn:E0; [apply R_eq_true in E0; lra|lra]. }
    assert (Nw : now (S n) = ftime (first_frame RQ n + Z.of_nat RQ)) by apply now_next.
    assert (Cur : forall f, (first_frame RQ n <= f < first_frame RQ n + Z.of_nat RQ)%Z -> curve ph0 E f = v0 /\ p_intrinsic p = v0).
    { intros f Hf. pose proof (C3 [] f (suffix_nil n E)) as H. rewrite !app_nil_r in H. rewrite H by lia. destruct l as [|s l]; [split; [reflexivity|exact C5]|].
      destruct K as [K1 K2]. destruct C6 as (G1 & _). pose proof (time_end s G1) as Te. rewrite Nw in K2. pose proof (near_ge _ _ K2) as Nr. pose proof (near_mono _ _ Te) as Nm.
      rewrite curve_during by lia. change (Z.of_nat 0) with 0%Z in C5. rewrite Z.add_0_r in C5. pose proof (now_lt n (S n) ltac:(lia)) as Lt. rewrite Nw in Lt. unfold Param_EnvelopeSpec.now in Lt.
      unfold Param_EnvelopeSpec.during, is_slope in *. cbn [start Param_EnvelopeSpec.value]. destruct (s_shape s); try discriminate.
      - split; [reflexivity|]. destruct C5 as [C5|C5]; [lra|exact C5].
      - split; [reflexivity|]. destruct C5 as [C5|C5]; [lra|exact C5].
      - assert (Lb : Z.leb (near (s_time s)) f = false) by (apply Z.leb_gt; lia). rewrite Lb. split; [reflexivity|]. destruct C5 as [C5|C5]; [lra|exact C5]. }
    assert (Iv : p_intrinsic p = v0) by (apply (Cur (first_frame RQ n)); lia).
    destruct (mix p' input silent (first_frame RQ n) (curve ph0 E)) as (out & Eo & Ho); try assumption.
    { left. exists (p_intrinsic p). split; [reflexivity|]. intros j Hj. rewrite Iv. apply Cur. lia. }
    rewrite Eo. cbn [bind]. exists p', out. split; [reflexivity|]. split; [|exact Ho].
    constructor; [repeat split; assumption|]. exists l, t0, v0. split; [|pose proof (now_lt n (S n) ltac:(lia)); lra].
    assert (Lw : match l with s :: l' => Forall (fun x => now (S n) <= s_time x) l' | [] => True end).
    { destruct l as [|s l']; [exact I|]. destruct K as [K1 K2]. destruct C6 as (G1 & G2 & G3). eapply tail_times; [exact G3|]. rewrite pass_time. pose proof (time_end s G1). lra. }
    constructor; cbn [p' set_buffer set_current p_timeline p_last p_intrinsic].
    + apply rels_later; [exact C1|]. destruct l as [|s l']; [exact I|]. split; [destruct (s_shape s); try exact I; apply K|exact Lw].
    + exact C2.
    + intros X f HX Hf. apply C3; [eapply suffix_mono; [|exact HX]; lia|]. rewrite first_next in Hf. lia.
    + exact C4.
    + destruct l as [|s l']; [exact Iv|]. destruct (s_shape s); try (right; exact Iv); [exact I|intros _; exact Iv].
    + eapply good_mono; [|exact C6]. lia.
    + destruct l as [|s l']; [exact I|]. split; [|exact Lw]. destruct C6 as (G1 & _). pose proof (time_end s G1). destruct K as [_ K]. destruct (s_shape s); try exact I; lra.
    + destruct l as [|s l']; [exact I|]. destruct (s_shape s) as [ | | |v tc| ] eqn:Ks; try exact I. destruct K as [_ K]. intros H1 [_ H2].
      assert (Heq : s_time s = now (S n)) by lra. rewrite <- Heq, approach_start in H2. destruct C6 as (_ & [_ G2] & _). rewrite Ks in G2. cbn [Param_EnvelopeSpec.value] in G2.
      destruct G2 as [G2|G2]; [exact G2|lra].
    + eapply akin_mono; [|exact C9]. lia.
    + exact C10.
  - (* the events of the block *)
    cbn [bind].
    match goal with |- context[do_events P RQ ?fu0 ?q ?bb] => set (fu := fu0); set (p1 := q) end.
    assert (Ra : p_arate p1 = true) by exact Rar. rewrite Ra. fold (blk n).
    assert (M : mid n E p1 l t0 v0).
    { constructor; cbn [p1 set_buffer set_current p_timeline p_last p_intrinsic p_buffer length].
      - destruct C. constructor; assumption.
      - reflexivity.
      - lia.
      - destruct (p_timeline p) as [|e tl] eqn:Et, l as [|s l]; try contradiction; [exact I|]. destruct C1 as [[[_ A] B] _].
        destruct (s_shape s); try exact I; destruct A as [A _]; rewrite A in Ec; cbn [is_ramp t_le real_ops] in Ec; apply R_le_false in Ec; lra.
      - pose proof (now_lt n (S n) ltac:(lia)). lra. }
    destruct (loop fu n E p1 l t0 v0 M) as (p' & l' & t1 & v1 & E1 & (Z1 & Z2 & Z3 & Z4) & [F1 F2 F3]).
    { pose proof (rels_length _ _ _ C1) as Hl. pose proof (weight_le l). change fu with (2 * length (p_timeline p) + 1)%nat. lia. }
    rewrite E1. cbn [bind]. cbn [p1 set_buffer set_current p_min p_max p_arate] in Z1, Z2, Z4.
    destruct (mix p' input silent (first_frame RQ n) (curve ph0 E)) as (out & Eo & Ho); [congruence|congruence|congruence|exact Hi|right; exact F2|].
    rewrite Eo. cbn [bind]. exists p', out. split; [reflexivity|]. split; [|exact Ho].
    constructor; [repeat split; congruence|]. exists l', t1, v1. split; [exact F1|exact F3].
Qed.

(** ** Scheduling *)
Lemma value_akin : forall n A A' t, akin n A A' -> now n <= t -> value A t = value A' t.
Proof.
  intros n A A' t [-> |(t1 & v1 & vt & tc & b & -> & H2 & H3 & -> & H5)] Ht; [reflexivity|].
  rewrite (value_settled _ _ _ _ n) by assumption. reflexivity.
Qed.
Lemma pass_akin : forall n A A' s, akin n A A' -> now n <= s_time s -> pass A s = pass A' s.
Proof.
  intros n A A' s H Ht. unfold Param_EnvelopeSpec.pass. destruct (s_shape s); try reflexivity. rewrite (value_akin n A A' _ H Ht). reflexivity.
Qed.
Lemma after_app : forall ph l s, after ph (l ++ [s]) = pass (after ph l) s.
Proof. intros. unfold Param_EnvelopeSpec.after. rewrite fold_left_app. reflexivity. Qed.
Lemma after_cons : forall ph l s, after ph (s :: l) = after (pass ph s) l.
Proof. reflexivity. Qed.

Lemma tail_end : forall n l ph, good_tail n ph l -> phase_time ph <= phase_time (after ph l) /\ Forall (fun s => s_end s <= phase_time (after ph l)) l.
Proof.
  intros n l. induction l as [|s l IH]; intros ph H; [split; [apply Rle_refl|constructor]|]. destruct H as (A & B & D & G).
  destruct (IH _ G) as [H1 H2]. rewrite pass_time in H1. rewrite after_cons. pose proof (follows_time _ _ B). pose proof (time_end s A).
  split; [lra|]. constructor; assumption.
Qed.
Lemma good_end : forall n l ph, good n ph l -> phase_time ph <= phase_time (after ph l) /\ Forall (fun s => s_time s <= s_end s <= phase_time (after ph l)) l.
Proof.
  intros n [|s l] ph H; [split; [apply Rle_refl|constructor]|]. destruct H as (A & B & G).
  destruct (tail_end _ _ _ G) as [H1 H2]. rewrite pass_time in H1. rewrite after_cons. pose proof (follows_time _ _ B). pose proof (time_end s A).
  split; [lra|]. constructor; [lra|].
  assert (Ar : Forall (fun x => arguments_ok x) l).
  { clear - G. revert G. generalize (pass ph s). induction l as [|x l IH]; intros q G; constructor; [apply G|eapply IH; apply G]. }
  rewrite Forall_forall in *. intros x Hx. pose proof (time_end x (Ar x Hx)). specialize (H2 x Hx). lra.
Qed.

Lemma good_tail_app : forall n l ph s, good_tail n ph l -> arguments_ok s -> follows (after ph l) s -> timely n (after ph l) s -> good_tail n ph (l ++ [s]).
Proof.
  intros n l. induction l as [|x l IH]; intros ph s H A B D; [cbn; auto|]. destruct H as (H1 & H2 & H3 & H4). cbn [app good_tail].
  repeat split; try apply H1; try apply H2; try assumption; apply IH; assumption.
Qed.
Lemma good_app : forall n l ph s, good n ph l -> arguments_ok s -> follows (after ph l) s -> (l <> [] -> timely n (after ph l) s) -> good n ph (l ++ [s]).
Proof.
  intros n [|x l] ph s H A B D; [cbn; auto|]. destruct H as (H1 & H2 & H4). cbn [app good].
  split; [exact H1|]. split; [exact H2|]. apply good_tail_app; try assumption. apply D. discriminate.
Qed.
Lemma tail_constant : forall n l ph t1 v1 vt tc, good_tail n ph l -> after ph l = Decay t1 v1 vt tc -> (match ph with Decay _ _ _ c => 0 < c | _ => True end) -> 0 < tc.
Proof.
  intros n l. induction l as [|s l IH]; intros ph t1 v1 vt tc H E0 Hp.
  - cbn in E0. rewrite E0 in Hp. exact Hp.
  - destruct H as (A & B & D & G). rewrite after_cons in E0. eapply IH; [exact G|exact E0|].
    unfold Param_EnvelopeSpec.pass, arguments_ok in *. destruct (s_shape s); try exact I. exact A.
Qed.
Lemma good_constant : forall n l t0 v0 t1 v1 vt tc, good n (Hold t0 v0) l -> after (Hold t0 v0) l = Decay t1 v1 vt tc -> 0 < tc.
Proof.
  intros n [|s l] t0 v0 t1 v1 vt tc H E0; [discriminate|]. destruct H as (A & B & G). rewrite after_cons in E0.
  eapply tail_constant; [exact G|exact E0|]. unfold Param_EnvelopeSpec.pass, arguments_ok in *. destruct (s_shape s); try exact I. exact A.
Qed.

(** one event behind the others *)
Lemma append_ok : forall n E p l t0 v0 e s, core n 0 E p l t0 v0 ->
  (match l with [] => rel (now n) e s | _ => rel1 (now n) e s end) -> Forall (fun x => ev_time x <= ev_time e) (p_timeline p) ->
  arguments_ok s -> now n <= s_time s -> follows (after ph0 E) s -> follows (after (Hold t0 v0) l) s -> (l <> [] -> timely n (after (Hold t0 v0) l) s) ->
  (l = [] -> match s_shape s with Target _ _ => False | _ => True end) ->
  (l = [] -> p_last p = None -> is_slope s = false) ->
  core n 0 (E ++ [s]) (set_timeline p (p_timeline p ++ [e])) (l ++ [s]) t0 v0.
Proof.
  intros n E p l t0 v0 e s [C1 C2 C3 C4 C5 C6 C7 C8 C9 C10] Hr Hs Ha Hn Hf1 Hf2 Ht Htg Hsl.
  constructor; cbn [set_timeline p_timeline p_last p_intrinsic].
  - destruct (p_timeline p) as [|e0 tl], l as [|s0 l]; try contradiction; cbn [app rels].
    + split; [exact Hr|constructor].
    + destruct C1 as [A B]. split; [exact A|]. apply Forall2_app; [exact B|]. constructor; [exact Hr|constructor].
  - revert C2 Hs. generalize (p_timeline p). clear. intros tl H. induction H as [|x tl H IH Hx]; intro Hs; [repeat constructor|].
    cbn [app]. constructor; [apply IH; inversion Hs; assumption|]. apply Forall_app. split; [exact Hx|]. constructor; [|constructor].
    unfold in_order. cbn. apply R_le_true. inversion Hs; assumption.
  - intros X f [X1 X2] Hf. rewrite <- !app_assoc. cbn [app]. apply C3; [|exact Hf]. split; [constructor; assumption|].
    destruct (after ph0 E) eqn:Ea; [exact I|]. cbn. destruct Hf1 as [[_ Hf1] _]. exact Hf1.
  - destruct (p_last p) eqn:El; [exact C4|]. destruct l as [|s0 l]; [|exact C4]. cbn [app needs_last].
    specialize (Htg eq_refl). specialize (Hsl eq_refl eq_refl). unfold is_slope in Hsl. destruct (s_shape s); try discriminate; try reflexivity. contradiction.
  - destruct l as [|s0 l]; cbn [app]; [|exact C5]. destruct (s_shape s); try (right; exact C5); [exact I|intros _; exact C5].
  - apply good_app; assumption.
  - destruct l as [|s0 l]; cbn [app low].
    + split; [|constructor]. pose proof (time_end s Ha). destruct (s_shape s); try exact I; lra.
    + destruct C7 as [A B]. split; [exact A|]. apply Forall_app. split; [exact B|]. constructor; [exact Hn|constructor].
  - destruct l as [|s0 l]; cbn [app]; [|exact C8]. specialize (Htg eq_refl). destruct (s_shape s); try exact I. contradiction.
  - rewrite !after_app. left. symmetry. eapply pass_akin; eassumption.
  - destruct (p_last p); [destruct E; discriminate|]. split; [destruct E; discriminate|destruct l; discriminate].
Qed.

Lemma in_time_timely : forall n E p l t0 v0 s, core n 0 E p l t0 v0 -> l <> [] -> now n <= s_time s -> in_time dt RQ n E (after ph0 E) s -> timely n (after (Hold t0 v0) l) s.
Proof.
  intros n E p l t0 v0 s [C1 C2 C3 C4 C5 C6 C7 C8 C9 C10] Hl Hn H.
  assert (HE : E <> []) by (destruct (p_last p); [exact C10|]; intro Ee; apply C10 in Ee; tauto).
  pose proof (good_constant n l t0 v0) as Gc.
  unfold in_time, timely in *. 
  assert (G : (s_time s <= now (S n) \/ match after ph0 E with Hold t _ => E <> [] /\ s_time s = t | Decay q0 q1 qt qc => ~ settled q0 q1 qt qc (qstart (s_time s)) end) ->
    match after (Hold t0 v0) l with
    | Hold t _ => forall k, (n <= k)%nat -> t <= now (S k) -> s_time s <= now (S k)
    | Decay q0 q1 qt qc => forall k, (n <= k)%nat -> settled q0 q1 qt qc (now (S k)) -> now (S k) <= s_time s -> s_time s <= now (S (S k))
    end).
  { intros [G|G].
    - destruct (after (Hold t0 v0) l); intros k Hk; [intros _; pose proof (now_mono (S n) (S k) ltac:(lia)); lra|].
      intros _ _. pose proof (now_mono (S n) (S (S k)) ltac:(lia)); lra.
    - destruct C9 as [C9|(t1 & v1 & vt & tc & b & A1 & A2 & A3 & A4 & A5)].
      + rewrite C9. rewrite C9 in Gc. destruct (after ph0 E) as [t v|q0 q1 qt qc] eqn:Ea.
        * destruct G as [_ G]. intros k Hk Hle. lra.
        * intros k Hk Hs Hle. exfalso. apply G. eapply settled_mono; [eapply Gc; [exact C6|reflexivity]|exact Hs|]. apply qstart_ge. exact Hle.
      + rewrite A1 in G. exfalso. apply G. eapply settled_mono; [exact A2|exact A3|]. apply qstart_ge. exact Hn. }
  destruct (s_shape s); try exact I; (destruct H as [H|[H|[H _]]]; [apply G; left; exact H|apply G; right; exact H|tauto]).
Qed.

Definition event_of (s : sev) : event :=
  match s_shape s with
  | Jump v => simple SetValueAtTime v (s_time s)
  | Linear v => simple LinearRamp v (s_time s)
  | Expo v => simple ExponentialRamp v (s_time s)
  | Target v tc => mk_event SetTarget v (s_time s) (Some tc) None None None
  | Curve vs d => mk_event SetValueCurve 0 (s_time s) None None (Some d) (Some vs)
  end.
Lemma event_time : forall s, ev_time (event_of s) = s_time s.
Proof. intro s. unfold event_of. destruct (s_shape s); reflexivity. Qed.
Lemma call_of_event : forall s, arguments_ok s -> 0 <= s_time s -> call_event P (call_of s) = Some (event_of s).
Proof.
  intros s Ha Ht. assert (E0 : R_le 0 (s_time s) = true) by (apply R_le_true; exact Ht).
  unfold call_of, event_of, arguments_ok in *. destruct (s_shape s); cbn [call_event v_finite t_finite v_eq v_zero t_eq t_zero t_lt t_le real_ops valid_time andb negb] in *;
    unfold valid_time; cbn [t_finite t_le t_zero real_ops andb]; rewrite E0; cbn [andb]; try reflexivity.
  - assert (E1 : R_eq v 0 = false) by (apply R_eq_false; exact Ha). rewrite E1. reflexivity.
  - assert (E1 : R_le 0 tc = true) by (apply R_le_true; lra). assert (E2 : R_eq tc 0 = false) by (apply R_eq_false; lra). rewrite E1, E2. reflexivity.
  - destruct Ha as [H1 H2]. apply Nat.leb_le in H1. assert (E1 : R_lt 0 d = true) by (apply R_lt_true; exact H2). rewrite H1, E1. reflexivity.
Qed.
Lemma event_rel1 : forall n s, now n <= s_time s -> rel1 (now n) (event_of s) s.
Proof.
  intros n s H. split; [|symmetry; apply event_time]. split.
  - split; [unfold event_of; destruct (s_shape s); reflexivity|]. unfold event_of. destruct (s_shape s); cbn; auto.
  - rewrite event_time. destruct (s_shape s); try reflexivity. destruct (R_eq (s_time s) 0) eqn:E0; [|reflexivity].
    apply R_eq_true in E0. pose proof (now_pos n). lra.
Qed.

(** what is pending does not overlap a new event *)
Lemma pending_before : forall n E p l t0 v0 s, core n 0 E p l t0 v0 -> now n <= s_time s -> follows (after ph0 E) s ->
  phase_time (after (Hold t0 v0) l) <= s_time s.
Proof.
  intros n E p l t0 v0 s C Hn Hf. destruct (c_akin _ _ _ _ _ _ _ C) as [-> |(t1 & v1 & vt & tc & b & A1 & A2 & A3 & A4 & A5)].
  - apply follows_time. exact Hf.
  - rewrite A4. cbn. lra.
Qed.
Lemma follows_akin : forall n A A' s, akin n A A' -> now n <= s_time s -> follows A s -> follows A' s.
Proof.
  intros n A A' s [-> |(t1 & v1 & vt & tc & b & -> & A2 & A3 & -> & A5)] Hn [H1 H2]; [split; assumption|].
  split; [lra|]. destruct (s_shape s); try exact I. rewrite (value_settled _ _ _ _ n) in H2 by assumption. exact H2.
Qed.

Lemma rels_forall2 : forall n tl l, rels (now n) tl l -> Forall2 (fun e s => matches e s /\ ev_time e <= s_time s) tl l.
Proof.
  intros n [|e tl] [|s l] H; try contradiction; [constructor|]. destruct H as [[H1 H2] H]. constructor.
  - split; [exact H1|]. pose proof (now_pos n). destruct (s_shape s); try lra. destruct (R_eq (ev_time e) 0) eqn:E0; [apply R_eq_true in E0|]; lra.
  - induction H as [|e1 s1 tl l [[A B] D] H IH]; constructor; [split; [exact A|lra]|exact IH].
Qed.

Lemma checks_ok : forall n E p l t0 v0 s, core n 0 E p l t0 v0 -> now n <= s_time s -> follows (after ph0 E) s ->
  curve_checks P p (event_of s) = Ok tt /\ Forall (fun x => ev_time x <= s_time s) (p_timeline p).
Proof.
  intros n E p l t0 v0 s C Hn Hf. pose proof (pending_before n E p l t0 v0 s C Hn Hf) as Hp.
  destruct (good_end _ _ _ (c_good _ _ _ _ _ _ _ C)) as [_ Ge]. pose proof (rels_forall2 _ _ _ (c_rel _ _ _ _ _ _ _ C)) as R.
  assert (A : Forall (fun x => ev_time x <= s_time s /\ (ev_type x = SetValueCurve -> exists d, ev_duration x = Some d /\ ev_time x + d <= s_time s)) (p_timeline p)).
  { clear - R Ge Hp. revert R Ge Hp. generalize (phase_time (after (Hold t0 v0) l)). intros w R Ge Hp.
    induction R as [|e x tl l [[A1 A2] B] R IH]; constructor; inversion Ge as [|? ? G1 G2]; subst; [|apply IH; exact G2].
    split; [lra|]. intro Et. unfold s_end in G1. destruct (s_shape x).
    - destruct A2 as [[A2|A2] _]; congruence.
    - destruct A2 as [A2 _]; congruence.
    - destruct A2 as [A2 _]; congruence.
    - destruct A2 as [A2 _]; congruence.
    - destruct A2 as (_ & A2 & _). eexists. split; [exact A2|]. lra. }
  split; [|eapply Forall_impl; [|exact A]; cbn; tauto].
  assert (F1 : forallb (fun q : event => if etype_eqb (ev_type q) SetValueCurve then
                             match ev_duration q with
                             | None => false
                             | Some d => R_le (s_time s) (ev_time q) || R_le (ev_time q + d) (s_time s)
                             end
                           else true) (p_timeline p) = true).
  { apply forallb_forall. intros x Hx. rewrite Forall_forall in A. destruct (A x Hx) as [_ B].
    destruct (ev_type x) eqn:Ex; cbn [etype_eqb]; try reflexivity. destruct (B eq_refl) as (d & D1 & D2). rewrite D1. apply orb_true_iff. right. apply R_le_true. exact D2. }
  unfold curve_checks, event_of. destruct (s_shape s); cbn [simple ev_type ev_time ev_duration etype_eqb bind t_le t_add real_ops]; try (rewrite F1; reflexivity).
  assert (F2 : forallb (fun q : event => R_le (ev_time q) (s_time s) || R_le (s_time s + d) (ev_time q)) (p_timeline p) = true).
  { apply forallb_forall. intros x Hx. rewrite Forall_forall in A. destruct (A x Hx) as [B _]. apply orb_true_iff. left. apply R_le_true. exact B. }
  rewrite F2. reflexivity.
Qed.

Lemma sort_append : forall tl (e : event), time_sorted P tl -> Forall (fun x => ev_time x <= ev_time e) tl -> sort_timeline P (tl ++ [e]) = Ok (tl ++ [e]).
Proof.
  intros tl e H Hs. rewrite (sort_timeline_ok P (fun _ => True) TO) by (apply Forall_forall; intros; exact I). f_equal. apply (sort_sorted P).
  induction H as [|x tl H IH Hx]; [repeat constructor|]. cbn [app]. constructor; [apply IH; inversion Hs; assumption|].
  apply Forall_app. split; [exact Hx|]. constructor; [|constructor]. unfold in_order. cbn. apply R_le_true. inversion Hs; assumption.
Qed.

(** the implicit event before a first ramp, or before a target when nothing is pending *)
Lemma implicit_ok : forall n E p t0 v0 v, core n 0 E p [] t0 v0 -> t0 <= now n -> p_intrinsic p = v ->
  core n 0 (E ++ [mk_sev (Jump v) (now n)]) (set_timeline p [simple SetValue v 0]) [mk_sev (Jump v) (now n)] t0 v0.
Proof.
  intros n E p t0 v0 v C Ht0 Hv. assert (Tl : p_timeline p = []).
  { pose proof (c_rel _ _ _ _ _ _ _ C) as Hr. destruct (p_timeline p); [reflexivity|contradiction]. }
  set (J := mk_sev (Jump v) (now n)).
  assert (Fw : follows (after ph0 E) J).
  { split; [|exact I]. destruct (c_akin _ _ _ _ _ _ _ C) as [A|(t1 & v1 & vt & tc & b & A1 & A2 & A3 & A4 & A5)].
    - cbn in A. rewrite <- A. exact Ht0.
    - rewrite A1. destruct A3 as [A3 _]. split; [exact A3|reflexivity]. }
  pose proof (append_ok n E p [] t0 v0 (simple SetValue v 0) J C) as H. rewrite Tl in H. cbn [app] in H. apply H; clear H; try exact I; try (intros; exact I); try assumption.
  - split; [split; [reflexivity|split; [left; reflexivity|reflexivity]]|]. cbn. destruct (R_eq 0 0) eqn:E0; [reflexivity|]. apply R_eq_false in E0. tauto.
  - constructor.
  - cbn. lra.
  - split; [cbn; exact Ht0|exact I].
  - intros _ _. reflexivity.
Qed.

Lemma schedule : forall n E p s, st n E p -> plan_ok dt RQ dflt n E s ->
  exists p', handle_incoming_event P p (event_of s) = Ok p' /\ st n (plan dt RQ dflt n E s) p'.
Proof.
  intros n E p s [Rg (l & t0 & v0 & C & Ht0)] (G1 & G2 & G3 & G4).
  destruct (checks_ok n E p l t0 v0 s C G2 G3) as [Ck Tm].
  assert (T1 : ev_type (event_of s) <> CancelScheduled) by (unfold event_of; destruct (s_shape s); discriminate).
  assert (T2 : ev_type (event_of s) <> CancelAndHold) by (unfold event_of; destruct (s_shape s); discriminate).
  assert (T3 : etype_eqb (ev_type (event_of s)) SetValue = false) by (unfold event_of; destruct (s_shape s); reflexivity).
  rewrite (schedule_eq P p (event_of s) T1 T2 Ck). unfold with_implicit. rewrite T3.
  assert (Fl : follows (after (Hold t0 v0) l) s) by (eapply follows_akin; [exact (c_akin _ _ _ _ _ _ _ C)|exact G2|exact G3]).
  assert (Er : is_ramp (ev_type (event_of s)) = is_slope s) by (unfold event_of, is_slope; destruct (s_shape s); reflexivity).
  assert (Eg : etype_eqb (ev_type (event_of s)) SetTarget = match s_shape s with Target _ _ => true | _ => false end) by (unfold event_of; destruct (s_shape s); reflexivity).
  rewrite Er, Eg. cbn [t_zero real_ops].
  pose proof (c_rel _ _ _ _ _ _ _ C) as Hrel. pose proof (c_first _ _ _ _ _ _ _ C) as Hfst.
  destruct (p_timeline p) as [|e0 tl] eqn:Tl, l as [|s0 l]; try contradiction.
  - (* nothing is pending *)
    pose proof (c_intr _ _ _ _ _ _ _ C) as Hin. cbn in Hin.
    destruct ((match p_last p with None => is_slope s | _ => false end) || (match s_shape s with Target _ _ => true | _ => false end)) eqn:Imp.
    + (* with an implicit event *)
      pose proof (implicit_ok n E p t0 v0 v0 C Ht0 Hin) as CJ. rewrite Hin. set (J := mk_sev (Jump v0) (now n)) in *.
      rewrite sort_append; [|repeat constructor|constructor; [|constructor]; rewrite event_time; cbn; pose proof (now_pos n); lra]. cbn [bind app].
      eexists. split; [reflexivity|]. constructor; [exact Rg|]. exists [J; s], t0, v0. split; [|exact Ht0].
      assert (HJ : value (after ph0 E) (s_time s) = v0) by (rewrite (value_akin n _ _ _ (c_akin _ _ _ _ _ _ _ C) G2); reflexivity).
      assert (FJ : follows (after ph0 (E ++ [J])) s).
      { rewrite after_app. cbn [J Param_EnvelopeSpec.pass s_shape s_time]. split; [exact G2|]. destruct G3 as [_ G3]. destruct (s_shape s); try exact I. rewrite HJ in G3. exact G3. }
      assert (CJs : core n 0 ((E ++ [J]) ++ [s]) (set_timeline p ([simple SetValue v0 0] ++ [event_of s])) ([J] ++ [s]) t0 v0).
      { pose proof (append_ok n (E ++ [J]) (set_timeline p [simple SetValue v0 0]) [J] t0 v0 (event_of s) s CJ) as H. apply H; clear H.
        - apply event_rel1. exact G2.
        - cbn. constructor; [|constructor]. rewrite event_time. cbn. pose proof (now_pos n). lra.
        - exact G1.
        - exact G2.
        - exact FJ.
        - rewrite after_app in FJ. exact FJ.
        - intros _. unfold timely. cbn [after Param_EnvelopeSpec.after fold_left J Param_EnvelopeSpec.pass s_shape s_time].
          assert (Hle : match s_shape s with Target _ _ | Curve _ _ => s_time s <= now (S n) | _ => True end).
          { unfold in_time in G4. destruct (s_shape s) eqn:Ks; try exact I.
            - destruct G4 as [G4|[G4|[_ []]]]; [exact G4|]. destruct (c_akin _ _ _ _ _ _ _ C) as [A|(t1 & v1 & vt & tc1 & b & A1 & A2 & A3 & A4 & A5)].
              + cbn in A. rewrite <- A in G4. destruct G4 as [_ G4]. pose proof (now_lt n (S n) ltac:(lia)). lra.
              + rewrite A1 in G4. exfalso. apply G4. eapply settled_mono; [exact A2|exact A3|]. apply qstart_ge. exact G2.
            - unfold is_slope in Imp. rewrite Ks in Imp. destruct (p_last p); discriminate. }
          destruct (s_shape s); try exact I; intros k Hk _; pose proof (now_mono (S n) (S k) ltac:(lia)); lra.
        - discriminate.
        - discriminate. }
      destruct (p_last p) as [la|] eqn:El.
      * (* a target *)
        assert (Pl : plan dt RQ dflt n E s = E ++ [s]) by (unfold plan; destruct E; [congruence|reflexivity]).
        rewrite Pl. cbn [orb] in Imp.
        assert (Ns : is_slope s = false) by (unfold is_slope; destruct (s_shape s); try discriminate; reflexivity).
        destruct CJs as [D1 D2 D3 D4 D5 D6 D7 D8 D9 D10]. constructor; cbn [set_timeline p_timeline p_last p_intrinsic] in *; try assumption.
        -- intros X f HX Hf.
           assert (HX2 : suffix_ok n E (s :: X)).
           { destruct HX as [X1 X2]. split; [constructor; assumption|]. destruct (after ph0 E); [exact I|exact Ns]. }
           rewrite <- app_assoc. cbn [app]. rewrite (c_future _ _ _ _ _ _ _ C (s :: X) f HX2 Hf). cbn [app].
           change (Z.of_nat 0) with 0%Z in Hf. rewrite Z.add_0_r in Hf.
           assert (Hnf : now n <= ftime f) by (apply ftime_le; exact Hf).
           rewrite (curve_over _ J) by (cbn [J s_end s_shape s_time]; apply near_le; exact Hnf). cbn [J Param_EnvelopeSpec.pass s_shape s_time].
           apply (curve_same _ _ _ _ (now n)); [exact Ns|exact G2|reflexivity|exact Hnf].
        -- rewrite !after_app in D9. rewrite after_app. left. change (after (Hold t0 v0) [J; s]) with (pass (Hold (now n) v0) s).
           unfold Param_EnvelopeSpec.pass. destruct (s_shape s); try discriminate. rewrite HJ. reflexivity.
        -- destruct (p_last p); [destruct E; discriminate|]. destruct E; discriminate.
      * (* the first event *)
        assert (EE : E = []) by (apply Hfst; reflexivity). subst E.
        assert (Dv : v0 = dflt).
        { pose proof (c_future _ _ _ _ _ _ _ C [] (first_frame RQ n) (suffix_nil n [])) as H. cbn in H. symmetry. apply H. lia. }
        unfold plan. destruct (is_slope s) eqn:Sl.
        -- unfold J in CJs. cbn [app] in CJs. rewrite <- Dv. unfold J. exact CJs.
        -- cbn [orb] in Imp. destruct CJs as [D1 D2 D3 D4 D5 D6 D7 D8 D9 D10]. constructor; cbn [set_timeline p_timeline p_last p_intrinsic] in *; try assumption.
           ++ intros X f HX Hf. rewrite Dv at 1.
              assert (HX2 : suffix_ok n [] (s :: X)). { destruct HX as [X1 X2]. split; [constructor; assumption|exact I]. }
              cbn [app]. pose proof (c_future _ _ _ _ _ _ _ C (s :: X) f HX2 Hf) as H. cbn [app] in H. rewrite Dv in H. rewrite H.
              change (Z.of_nat 0) with 0%Z in Hf. rewrite Z.add_0_r in Hf.
              assert (Hnf : now n <= ftime f) by (apply ftime_le; exact Hf).
              rewrite (curve_over _ J) by (cbn [J s_end s_shape s_time]; apply near_le; exact Hnf). cbn [J Param_EnvelopeSpec.pass s_shape s_time]. rewrite Dv.
              apply (curve_same _ _ _ _ (now n)); [exact Sl|exact G2|reflexivity|exact Hnf].
           ++ left. change (after (Hold t0 v0) [J; s]) with (pass (Hold (now n) v0) s). change (after ph0 [s]) with (pass ph0 s).
              unfold Param_EnvelopeSpec.pass. destruct (s_shape s); try discriminate. cbn [Param_EnvelopeSpec.value]. rewrite Dv. reflexivity.
           ++ rewrite El. split; discriminate.
    + (* without *)
      apply orb_false_iff in Imp. destruct Imp as [Imp1 Imp2].
      assert (CA : core n 0 (E ++ [s]) (set_timeline p ([] ++ [event_of s])) ([] ++ [s]) t0 v0).
      { pose proof (append_ok n E p [] t0 v0 (event_of s) s C) as H. rewrite Tl in H. apply H; clear H; try assumption.
        - apply event_rel1. exact G2.
        - constructor.
        - tauto.
        - intros _. destruct (s_shape s); try exact I. discriminate.
        - intros _ Hl. rewrite Hl in Imp1. exact Imp1. }
      rewrite sort_append; [|constructor|constructor]. cbn [bind]. eexists. split; [reflexivity|]. constructor; [exact Rg|]. exists [s], t0, v0. split; [|exact Ht0].
      assert (Pl : plan dt RQ dflt n E s = E ++ [s]).
      { unfold plan. destruct E; [|reflexivity]. destruct (p_last p); [congruence|]. rewrite Imp1. reflexivity. }
      rewrite Pl. exact CA.
  - (* behind what is pending *)
    rewrite sort_append; [|rewrite <- Tl; exact (c_sorted _ _ _ _ _ _ _ C)|rewrite event_time; exact Tm]. cbn [bind]. eexists. split; [reflexivity|].
    constructor; [exact Rg|]. exists ((s0 :: l) ++ [s]), t0, v0. split; [|exact Ht0].
    assert (HE : E <> []) by (destruct (p_last p); [exact Hfst|]; intro Ee; apply Hfst in Ee; discriminate).
    assert (Pl : plan dt RQ dflt n E s = E ++ [s]) by (unfold plan; destruct E; [congruence|reflexivity]).
    rewrite Pl, <- Tl. apply append_ok; try assumption; try discriminate.
    + apply event_rel1. exact G2.
    + rewrite event_time, Tl. exact Tm.
    + intros _. eapply in_time_timely; [exact C|discriminate|exact G2|exact G4].
Qed.

(** ** The value setter *)
Lemma nothing_pending : forall n E p l t0 v0, core n 0 E p l t0 v0 -> setter_ok dt RQ dflt n E -> l = [].
Proof.
  intros n E p l t0 v0 C H. pose proof (c_first _ _ _ _ _ _ _ C) as Hf. destruct H as [H|H].
  - destruct (p_last p); [congruence|]. apply Hf. exact H.
  - destruct l as [|s l]; [reflexivity|]. exfalso. destruct (after ph0 E) as [t v|] eqn:Ea; [|exact H].
    destruct (c_akin _ _ _ _ _ _ _ C) as [A|(t1 & v1 & vt & tc1 & b & A1 & _)]; [|rewrite Ea in A1; discriminate]. rewrite Ea in A.
    destruct (good_end _ _ _ (c_good _ _ _ _ _ _ _ C)) as [_ Ge]. rewrite A in Ge. cbn [phase_time] in Ge. destruct (c_low _ _ _ _ _ _ _ C) as [L1 L2].
    destruct l as [|s1 l].
    + apply Forall_inv in Ge. cbn in A. unfold Param_EnvelopeSpec.pass in A. destruct (s_shape s); try discriminate; lra.
    + pose proof (Forall_inv (Forall_inv_tail Ge)) as Ge2. apply Forall_inv in L2. cbv beta in Ge2. lra.
Qed.

Lemma set_value_ok : forall n E p v, st n E p -> setter_ok dt RQ dflt n E ->
  exists p', handle_incoming_event P p (simple SetValue v 0) = Ok p' /\ st n (setter dt RQ n E v) p'.
Proof.
  intros n E p v [Rg (l & t0 & v0 & C & Ht0)] Hs. pose proof (nothing_pending n E p l t0 v0 C Hs). subst l.
  assert (Tl : p_timeline p = []).
  { pose proof (c_rel _ _ _ _ _ _ _ C) as Hr. destruct (p_timeline p); [reflexivity|contradiction]. }
  rewrite schedule_eq; [|discriminate|discriminate|unfold curve_checks; rewrite Tl; reflexivity].
  unfold with_implicit. rewrite Tl. cbn [simple ev_type ev_value etype_eqb is_ramp orb]. destruct (match p_last p with Some _ => false | None => false end) eqn:X; [destruct (p_last p); discriminate|].
  pose proof (sort_append [] (simple SetValue v 0) (SSorted_nil _) (Forall_nil _)) as So. cbn [app] in So. cbn [orb app]. unfold simple in *. rewrite So. cbn [bind app].
  eexists. split; [reflexivity|]. constructor; [exact Rg|]. exists [mk_sev (Jump v) (now n)], t0, v0. split; [|exact Ht0].
  set (p1 := set_intrinsic p v).
  assert (C1 : core n 0 E (set_intrinsic p v0) [] t0 v0) by (destruct C; constructor; assumption || reflexivity).
  set (J := mk_sev (Jump v) (now n)).
  assert (Fw : follows (after ph0 E) J).
  { split; [|exact I]. destruct (c_akin _ _ _ _ _ _ _ C) as [A|(t1 & v1 & vt & tc & b & A1 & A2 & A3 & A4 & A5)].
    - cbn in A. rewrite <- A. exact Ht0.
    - rewrite A1. destruct A3 as [A3 _]. split; [exact A3|reflexivity]. }
  assert (C2 : core n 0 (E ++ [J]) (set_timeline p ([] ++ [simple SetValue v 0])) ([] ++ [J]) t0 v0).
  { pose proof (append_ok n E p [] t0 v0 (simple SetValue v 0) J C) as H. rewrite Tl in H. apply H; clear H; try assumption; try exact I; try (intros; exact I).
    - split; [split; [reflexivity|split; [left; reflexivity|reflexivity]]|]. cbn. destruct (R_eq 0 0) eqn:E0; [reflexivity|]. apply R_eq_false in E0. tauto.
    - constructor.
    - cbn. lra.
    - split; [cbn; exact Ht0|exact I].
    - intros _ _. reflexivity. }
  unfold setter. fold J. destruct C2 as [D1 D2 D3 D4 D5 D6 D7 D8 D9 D10]. constructor; try assumption.
  cbn. left. change (Z.of_nat 0) with 0%Z. rewrite Z.add_0_r. apply Rle_refl.
Qed.

(** ** Histories *)
Lemma envelope : forall os n E p, st n E p -> plans_ok dt RQ dflt n E os ->
  exists p' outs, prun P RQ p (to_ops dt RQ n os) = Ok (p', outs) /\ map (spread RQ) outs = expected dt RQ dflt lo hi n E os.
Proof.
  induction os as [|o os IH]; intros n E p S0 H; [exists p, []; split; reflexivity|].
  destruct o as [s|v|input silent]; cbn [to_ops prun pstep plans_ok expected] in *; destruct H as [H1 H2].
  - rewrite call_of_event by (try apply H1; pose proof (now_pos n); destruct H1 as (_ & H1 & _); lra).
    destruct (schedule n E p s S0 H1) as (p' & -> & S1). cbn [bind fst snd]. destruct (IH n _ p' S1 H2) as (q & outs & -> & Ho).
    cbn [bind fst snd app]. exists q, outs. split; [reflexivity|exact Ho].
  - cbn [call_event v_finite t_zero real_ops]. destruct (set_value_ok n E p v S0 H1) as (p' & -> & S1). cbn [bind fst snd].
    destruct (IH n _ p' S1 H2) as (q & outs & -> & Ho). cbn [bind fst snd app]. exists q, outs. split; [reflexivity|exact Ho].
  - destruct (play n E p input silent S0 H1) as (p' & out & -> & S1 & Eo). cbn [bind fst snd]. destruct (IH (S n) _ p' S1 H2) as (q & outs & -> & Ho).
    cbn [bind fst snd app]. exists q, (out :: outs). split; [reflexivity|]. cbn [map]. rewrite Eo, Ho. reflexivity.
Qed.
End Envelope.
