(** The sound of the echo program (C87) *)
From Coq Require Import List Arith Bool ZArith Reals Lra Lia.
From Flocq Require Import Core.
From Verif Require Import Common_Model Arith_Model Arith_Real Source_Model Absn_Spec Delay_Model Delay_Spec Delay_Proofs Delay_ExactProofs Delay_RunProofs
  Graph_Model Graph_TraceModel Flow_Spec Thread_Model Thread_Spec Whole_Model Whole_Spec Whole_Proofs Echo_Model Echo_Spec Echo_GraphProofs.
Import ListNotations.
Local Open Scope R_scope.

(** ** The recursion *)
Section Recursion.
Variables (g : R) (d : Z) (x : Z -> R).
Hypothesis Hd : (0 < d)%Z.
(** what is written into the delay *)
Definition fed (t : Z) : R := if (t <? 0)%Z then 0 else total (map (fun j => g ^ j * x (t - Z.of_nat j * d)%Z) (seq 0 (S (Z.to_nat (t / d))))).

Lemma total_scale c l : total (map (fun j => c * j) l) = c * total l.
Proof. induction l as [|a l IH]; cbn; [ring|]. unfold total in *. cbn. rewrite IH. ring. Qed.
Lemma total_ext (f h : nat -> R) l : (forall j, In j l -> f j = h j) -> total (map f l) = total (map h l).
Proof. intros H. rewrite (map_ext_in _ _ _ H). reflexivity. Qed.

Lemma echoes_fed t : echoes g d x t = fed (t - d).
Proof.
  unfold echoes, fed. destruct (Z.ltb_spec (t - d) 0) as [L|L].
  - assert (X : (t / d <= 0)%Z) by (destruct (Z_lt_le_dec t 0); [pose proof (Z.div_lt_upper_bound t d 0 Hd ltac:(lia)); lia|rewrite Z.div_small; lia]).
    replace (Z.to_nat (t / d)) with 0%nat by lia. reflexivity.
  - replace (Z.to_nat (t / d)) with (S (Z.to_nat ((t - d) / d))).
    + apply total_ext. intros j _. f_equal. f_equal. lia.
    + replace t with (t - d + 1 * d)%Z at 2 by lia. rewrite Z.div_add by lia. pose proof (Z.div_pos (t - d) d ltac:(lia) Hd). lia.
Qed.
Lemma fed_step t : (0 <= t)%Z -> fed t = x t + g * fed (t - d).
Proof.
  intros Ht. rewrite <- echoes_fed. unfold fed, echoes. destruct (Z.ltb_spec t 0); [lia|]. cbn [seq map]. unfold total at 1. cbn [fold_right]. fold (total (map (fun j => g ^ j * x (t - Z.of_nat j * d)%Z) (seq 1 (Z.to_nat (t / d))))).
  rewrite Z.mul_0_l, Z.sub_0_r, pow_O, Rmult_1_l. f_equal. rewrite <- seq_shift, map_map. rewrite <- total_scale, map_map. apply total_ext. intros j _.
  cbn [pow]. rewrite Rmult_assoc. do 3 f_equal. lia.
Qed.
Lemma fed_neg t : (t < 0)%Z -> fed t = 0.
Proof. intros H. unfold fed. destruct (Z.ltb_spec t 0); [reflexivity|lia]. Qed.

(** never louder than the geometric series *)
Lemma geometric b n : 0 <= b -> (forall t, Rabs (x t) <= b) -> Rabs g < 1 ->
  forall (h : nat -> Z) s, Rabs (total (map (fun j => g ^ j * x (h j)) (seq s n))) <= Rabs g ^ s * b * (1 - Rabs g ^ n) / (1 - Rabs g).
Proof.
  intros Hb Hx Hg h. induction n as [|n IH]; intros s; cbn [seq map].
  - unfold total. cbn. rewrite Rabs_R0. right. unfold Rdiv. ring.
  - unfold total. cbn [fold_right]. fold (total (map (fun j => g ^ j * x (h j)) (seq (S s) n))). eapply Rle_trans; [apply Rabs_triang|].
    assert (G : 0 <= Rabs g) by apply Rabs_pos. assert (N : 1 - Rabs g <> 0) by lra.
    replace (Rabs g ^ s * b * (1 - Rabs g ^ S n) / (1 - Rabs g)) with (Rabs g ^ s * b + Rabs g ^ S s * b * (1 - Rabs g ^ n) / (1 - Rabs g)) by (cbn [pow]; field; exact N).
    apply Rplus_le_compat; [|apply IH]. rewrite Rabs_mult, <- RPow_abs. apply Rmult_le_compat_l; [apply pow_le; exact G|apply Hx].
Qed.
Lemma echoes_bounded b t : 0 <= b -> (forall t, Rabs (x t) <= b) -> Rabs g < 1 -> Rabs (echoes g d x t) <= b / (1 - Rabs g).
Proof.
  intros Hb Hx Hg. unfold echoes. eapply Rle_trans; [apply (geometric b _ Hb Hx Hg (fun j => t - (Z.of_nat j + 1) * d)%Z 0)|].
  cbn [pow]. rewrite Rmult_1_l. unfold Rdiv. apply Rmult_le_compat_r; [left; apply Rinv_0_lt_compat; lra|].
  pose proof (pow_le (Rabs g) (Z.to_nat (t / d)) (Rabs_pos g)). nra.
Qed.
End Recursion.

(** ** Lists of samples *)
Definition quantum_of (f : Z -> R) (k : nat) : list R := map (fun i => f (128 * Z.of_nat k + Z.of_nat i)%Z) (seq 0 128).
Lemma quantum_length f k : length (quantum_of f k) = 128%nat.
Proof. unfold quantum_of. rewrite map_length, seq_length. reflexivity. Qed.
Lemma quantum_nth f k i : (i < 128)%nat -> nth i (quantum_of f k) 0 = f (128 * Z.of_nat k + Z.of_nat i)%Z.
Proof. intros H. unfold quantum_of. rewrite (nth_indep _ 0 (f (128 * Z.of_nat k + Z.of_nat 0)%Z)) by (rewrite map_length, seq_length; exact H). rewrite (map_nth (fun i => f (128 * Z.of_nat k + Z.of_nat i)%Z)). rewrite seq_nth by exact H. reflexivity. Qed.
Lemma same_samples (l m : list R) : length l = 128%nat -> length m = 128%nat -> (forall i, (i < 128)%nat -> nth i l 0 = nth i m 0) -> l = m.
Proof. intros Hl Hm H. apply (nth_ext _ _ 0 0); [congruence|]. intros i Hi. apply H. lia. Qed.
Lemma index_in k i : (i < 128)%nat -> ((128 * Z.of_nat k + Z.of_nat i) / 128 = Z.of_nat k)%Z /\ ((128 * Z.of_nat k + Z.of_nat i) mod 128 = Z.of_nat i)%Z.
Proof. intros H. rewrite (Z.mul_comm 128). split; [rewrite Z.div_add_l by lia; rewrite Z.div_small by lia; lia|rewrite Z.add_comm, Z.mod_add by lia; apply Z.mod_small; lia]. Qed.

(** addition of mono quanta *)
Lemma add_quiet (l : list R) : length l = 128%nat -> map (fun p => v_add exact (fst p) (snd p)) (combine (quiet exact) l) = l.
Proof.
  intros H. unfold quiet. replace RQ with (length l) by (rewrite H; reflexivity). clear H. induction l as [|x l IH]; [reflexivity|]. cbn [length repeat combine map fst snd]. rewrite IH. f_equal. cbn. ring.
Qed.
Lemma add_nth (l m : list R) i : length l = 128%nat -> length m = 128%nat -> (i < 128)%nat ->
  nth i (map (fun p => v_add exact (fst p) (snd p)) (combine l m)) 0 = nth i l 0 + nth i m 0.
Proof.
  intros Hl Hm Hi. rewrite (nth_indep _ 0 (v_add exact (fst (0, 0)) (snd (0, 0)))) by (rewrite map_length, combine_length; lia).
  rewrite (map_nth (fun p => v_add exact (fst p) (snd p)) (combine l m) (0, 0)), combine_nth by congruence. reflexivity.
Qed.
Lemma add_length (l m : list R) : length l = 128%nat -> length m = 128%nat -> length (map (fun p => v_add exact (fst p) (snd p)) (combine l m)) = 128%nat.
Proof. intros. rewrite map_length, combine_length. lia. Qed.

Lemma gain_spec g l : length l = 128%nat -> length (gain_samples exact g l) = 128%nat /\ forall i, (i < 128)%nat -> nth i (gain_samples exact g l) 0 = applied g * nth i l 0.
Proof.
  intros H. unfold gain_samples, applied, quiet. cbn [exact v_le v_abs v_sub v_frac v_one v_mul v_zero]. unfold R_le.
  change (v_one exact) with 1. change (IZR 1 / IZR 1000000) with (1 / 1000000).
  destruct (Rle_dec (Rabs g) (1 / 1000000)).
  - split; [apply repeat_length|]. intros i Hi. rewrite nth_repeat. ring.
  - destruct (Rle_dec (Rabs (1 - g)) (1 / 1000000)); [split; [exact H|intros; ring]|].
    split; [rewrite map_length; exact H|]. intros i Hi. rewrite (nth_indep _ 0 ((fun x => x * g) 0)) by (rewrite map_length; lia). rewrite (map_nth (fun x => x * g)). ring.
Qed.

(** ** The delay *)
Lemma map_res_length {X Y} (f : X -> res Y) l r : map_res f l = Ok r -> length r = length l.
Proof.
  revert r. induction l as [|x l IH]; intros r H; cbn [map_res] in H; [injection H as <-; reflexivity|].
  destruct (f x) as [y| |]; cbn [bind] in H; try discriminate. destruct (map_res f l) as [r1| |]; cbn [bind] in H; try discriminate. injection H as <-. cbn. f_equal. apply IH. reflexivity.
Qed.
Lemma constant_infos_length size n : forall i : Z * Z * R, length (constant_infos size n i) = n.
Proof. induction n as [|n IH]; intros [[b f] k]; cbn [constant_infos length]; [reflexivity|]. rewrite IH. reflexivity. Qed.
Lemma all_infos_length sr t c size r : length (all_infos exact sr [t] c size r) = 128%nat.
Proof. unfold all_infos. apply constant_infos_length. Qed.
Lemma quiet_length : length (quiet exact) = 128%nat.
Proof. apply repeat_length. Qed.
Lemma read_shape (f : nat -> Z * Z * R -> res R) is n chs : length is = 128%nat -> map_res (fun c => map_res (f c) is) (seq 0 n) = Ok chs -> Forall (fun ch => length ch = 128%nat) chs.
Proof.
  intros Hi. generalize (seq 0 n). intros l. revert chs. induction l as [|c l IH]; intros chs H; cbn [map_res] in H; [injection H as <-; constructor|].
  destruct (map_res (f c) is) as [ch| |] eqn:EC; cbn [bind] in H; try discriminate. destruct (map_res (fun c => map_res (f c) is) l) as [r| |]; cbn [bind] in H; try discriminate. injection H as <-.
  constructor; [apply map_res_length in EC; congruence|apply IH; reflexivity].
Qed.
Lemma out_shape (chs : list (list R)) : Forall (fun ch => length ch = 128%nat) chs ->
  exists ch rest, (if existsb (existsb (v_normal exact)) chs then chs else [quiet exact]) = ch :: rest /\ length ch = 128%nat.
Proof.
  intros H. destruct (existsb _ chs) eqn:E; [|exists (quiet exact), []; split; [reflexivity|apply quiet_length]].
  destruct chs as [|ch chs]; [discriminate|]. exists ch, chs. split; [reflexivity|]. apply Forall_inv in H. exact H.
Qed.
Lemma reader_shape sr s t frame s' b alive : reader exact sr s [t] frame = Ok (s', (b, alive)) -> exists ch rest, b = ch :: rest /\ length ch = 128%nat.
Proof.
  unfold reader. cbv zeta. destruct (index (fill_ring exact s) 0) as [first| |]; cbn [bind]; try discriminate.
  match goal with |- context [map_res (fun c => map_res (read_sample ?a ?r c) ?is) (seq 0 ?n)] => destruct (map_res (fun c => map_res (read_sample a r c) is) (seq 0 n)) as [chs| |] eqn:EM end; cbn [bind]; try discriminate.
  pose proof (read_shape _ _ _ _ (all_infos_length _ _ _ _ _) EM) as G. destruct (out_shape chs G) as (ch & rest & EO & EL). clear EM G.
  change (silent_block exact) with [quiet exact]. rewrite EO.
  match goal with |- (if ?c then _ else _) = _ -> _ => destruct c end; intros H.
  - injection H as _ <- _. exists ch, rest. split; [reflexivity|exact EL].
  - match type of H with bind ?c _ = _ => destruct c as [u| |] end; cbn [bind] in H; try discriminate. injection H as _ <- _. exists ch, rest. split; [reflexivity|exact EL].
Qed.

(** ** One quantum of the delay *)
Section Line.
Variable sr : R.
Hypothesis Hsr : 0 < sr.
Variable remix : nat -> list (list R) -> list (list R).
Hypothesis remix_good : forall C n b, good C b -> (0 < n)%nat -> good n (remix n b).
Hypothesis remix_zeros : forall C n b, good C b -> zeros exact b -> (0 < n)%nat -> zeros exact (remix n b).
Variable max : R.
Hypothesis Hmax : 0 < max.
Variable n : Z.
Hypothesis Hn : (0 <= n)%Z.
Hypothesis Hnm : IZR n / sr <= max.
Notation N := (ring_size exact sr max).
Notation time := (IZR n / sr).
Definition span : Z := Z.max n 128.
Variable w : Z -> R.
Hypothesis w_neg : forall t, (t < 0)%Z -> w t = 0.

Definition one_quantum (k : nat) : list (list R) * bool * list R := ([quantum_of w k], true, [time]).
Definition first_quanta (k : nat) := map one_quantum (seq 0 k).
Lemma quanta_ok k : Forall (quantum_ok max) (first_quanta k).
Proof.
  unfold first_quanta. apply Forall_map, Forall_forall. intros j _. split.
  - split; [cbn; lia|]. constructor; [apply quantum_length|constructor].
  - split; [left; reflexivity|]. constructor; [|constructor]. split; [|exact Hnm]. unfold Rdiv. apply Rmult_le_pos; [apply (IZR_le 0); exact Hn|left; apply Rinv_0_lt_compat, Hsr].
Qed.
Lemma quanta_S k : first_quanta (S k) = first_quanta k ++ [one_quantum k].
Proof. unfold first_quanta. rewrite seq_S, map_app. reflexivity. Qed.
Lemma quanta_inputs k : recorded remix (map (fun x => fst (fst x)) (first_quanta k)) = map (fun j => [quantum_of w j]) (seq 0 k).
Proof.
  unfold first_quanta. rewrite map_map. cbn [one_quantum fst]. unfold recorded. rewrite (recorded_same remix 1); [reflexivity|lia| |left; reflexivity].
  apply Forall_map, Forall_forall. intros j _. split; [reflexivity|]. constructor; [apply quantum_length|constructor].
Qed.
Lemma recorded_at k t : (t / 128 < Z.of_nat k)%Z -> signal 0 (map (fun j => [quantum_of w j]) (seq 0 k)) 0 t = w t.
Proof.
  intros Ht. unfold signal. destruct (Z.ltb_spec t 0) as [L|L]; [symmetry; apply w_neg; exact L|].
  pose proof (Z.div_pos t 128 L ltac:(lia)) as P. pose proof (Z.mod_pos_bound t 128 ltac:(lia)) as M. pose proof (Z.div_mod t 128 ltac:(lia)) as X.
  rewrite (nth_indep _ [] ((fun j => [quantum_of w j]) 0%nat)) by (rewrite map_length, seq_length; lia). rewrite (map_nth (fun j => [quantum_of w j])), seq_nth by lia. cbn [nth Nat.add].
  rewrite quantum_nth by lia. f_equal. lia.
Qed.

Lemma line_step k : exists s s1 b s2 os os',
  delay_run exact sr remix (delay_new N) 0 (map both (first_quanta k)) = Ok (s, os) /\
  reader exact sr s [time] (Z.of_nat (k * 128)) = Ok (s1, (b, true)) /\ writer exact remix s1 [quantum_of w k] (Z.of_nat (k * 128)) = Ok s2 /\
  delay_run exact sr remix (delay_new N) 0 (map both (first_quanta (S k))) = Ok (s2, os') /\
  hd (quiet exact) b = quantum_of (fun t => w (t - span)%Z) k.
Proof.
  destruct (run_from_new sr Hsr remix remix_good remix_zeros max Hmax _ (quanta_ok (S k))) as (s2 & os' & R2 & _ & L2 & P2).
  destruct (run_from_new sr Hsr remix remix_good remix_zeros max Hmax _ (quanta_ok k)) as (s & os & R1 & _ & L1 & _).
  pose proof R2 as R3. rewrite quanta_S, map_app, delay_run_app, R1 in R3. cbn [bind fst snd map] in R3. rewrite quanta_both in R3.
  unfold first_quanta at 1 in R3. rewrite map_length, seq_length in R3. replace (0 + 128 * Z.of_nat k)%Z with (Z.of_nat (k * 128)) in R3 by lia.
  cbn [one_quantum both fst snd delay_run delay_step] in R3.
  destruct (reader exact sr s [time] (Z.of_nat (k * 128))) as [[s1 [b alive]]| |] eqn:ER; cbn [bind fst snd] in R3; try discriminate.
  destruct (writer exact remix s1 [quantum_of w k] (Z.of_nat (k * 128))) as [s3| |] eqn:EW; cbn [bind fst snd] in R3; try discriminate.
  cbn [app] in R3. injection R3 as <- EO.
  assert (LK : length (first_quanta k) = k) by (unfold first_quanta; rewrite map_length, seq_length; reflexivity).
  assert (EK : nth_error (first_quanta (S k)) k = Some (one_quantum k)) by (rewrite quanta_S, nth_error_app2, LK, Nat.sub_diag by lia; reflexivity).
  assert (EB : nth_error os' k = Some (b, alive)) by (rewrite <- EO, nth_error_app2, L1, LK, Nat.sub_diag by lia; reflexivity).
  destruct (P2 k _ _ EK EB) as [AL PS]. cbn [fst snd one_quantum] in AL, PS. subst alive.
  destruct (reader_shape _ _ _ _ _ _ _ ER) as (ch & rest & -> & EL).
  exists s, s1, (ch :: rest), s3, os, os'. split; [exact R1|]. split; [exact ER|]. split; [exact EW|]. split; [exact R2|]. cbn [hd].
  apply same_samples; [exact EL|apply quantum_length|]. intros i Hi. rewrite quantum_nth by exact Hi. cbv zeta in PS.
  assert (EF : firstn k (first_quanta (S k)) = first_quanta k) by (rewrite quanta_S, firstn_app, LK, Nat.sub_diag, firstn_O, app_nil_r; apply firstn_all2; lia).
  rewrite EF, quanta_inputs in PS.
  specialize (PS 0%nat i). unfold sample_at in PS. cbn [nth] in PS. rewrite PS; [|unfold channels; destruct k; [cbn; lia|rewrite seq_S, map_app; cbn [map]; rewrite last_last; cbn; lia]|exact Hi].
  assert (EC : existsb (fun x : list (list R) * bool * list R => snd (fst x)) (firstn (S k) (first_quanta (S k))) = true).
  { rewrite firstn_all2 by (unfold first_quanta; rewrite map_length, seq_length; lia). rewrite quanta_S, existsb_app. apply orb_true_iff. right. reflexivity. }
  rewrite EC. unfold frames, delay_at. replace (IZR n / sr * sr) with (IZR n) by (field; lra).
  assert (EM : Rmax (IZR n) 128 = IZR span).
  { unfold span. destruct (Z_le_gt_dec n 128); [rewrite Z.max_r by lia; apply Rmax_right; apply (IZR_le n 128); lia|rewrite Z.max_l by lia; apply Rmax_left; apply (IZR_le 128 n); lia]. }
  rewrite EM, <- minus_IZR, lerp_int. apply recorded_at. apply Z.div_lt_upper_bound; [lia|]. unfold span. lia.
Qed.
End Line.

(** ** The graph *)
Section Heard.
Variable sr : R.
Hypothesis Hsr : 0 < sr.
Variable remix : nat -> list (list R) -> list (list R).
Hypothesis remix_good : forall C n b, good C b -> (0 < n)%nat -> good n (remix n b).
Hypothesis remix_zeros : forall C n b, good C b -> zeros exact b -> (0 < n)%nat -> zeros exact (remix n b).
Variable max : R.
Hypothesis Hmax : 0 < max.
Variable n : Z.
Hypothesis Hn : (0 <= n)%Z.
Hypothesis Hnm : IZR n / sr <= max.
Variable x : list (list R).
Hypothesis Hx : Forall (fun q => length q = 128%nat) x.
Variable g : R.
Notation N := (ring_size exact sr max).
Notation time := (IZR n / sr).
Notation D := (span n).
Notation EE := (echo_env exact sr remix).
Notation X := (sample_of x).
Notation w := (fed (applied g) D X).

Lemma span_pos : (0 < D)%Z.
Proof. unfold span. lia. Qed.
Lemma sample_neg t : (t < 0)%Z -> X t = 0.
Proof. intros H. unfold sample_of. destruct (Z.ltb_spec t 0); [reflexivity|lia]. Qed.
Lemma source_quantum k : hd (quiet exact) (skipn k x) = quantum_of X k.
Proof.
  destruct (nth_error x k) as [q|] eqn:E.
  - assert (S : skipn k x = q :: skipn (S k) x) by (clear - E; revert k E; induction x as [|y l IH]; intros [|k] E; try discriminate; [injection E as ->; reflexivity|apply (IH k E)]).
    rewrite S. cbn [hd]. assert (L : length q = 128%nat) by (rewrite Forall_forall in Hx; apply Hx; eapply nth_error_In; exact E).
    apply same_samples; [exact L|apply quantum_length|]. intros i Hi. rewrite quantum_nth by exact Hi. unfold sample_of.
    destruct (Z.ltb_spec (128 * Z.of_nat k + Z.of_nat i) 0); [lia|].
    replace ((128 * Z.of_nat k + Z.of_nat i) / 128)%Z with (Z.of_nat k) by (apply (Z.div_unique _ 128 _ (Z.of_nat i)); lia).
    replace ((128 * Z.of_nat k + Z.of_nat i) mod 128)%Z with (Z.of_nat i) by (apply (Z.mod_unique _ 128 (Z.of_nat k)); lia).
    rewrite !Nat2Z.id. rewrite (nth_error_nth x k [] E). reflexivity.
  - apply nth_error_None in E. rewrite skipn_all2 by exact E. cbn [hd]. apply same_samples; [apply quiet_length|apply quantum_length|]. intros i Hi. rewrite quantum_nth by exact Hi.
    unfold sample_of. destruct (Z.ltb_spec (128 * Z.of_nat k + Z.of_nat i) 0); [lia|].
    replace ((128 * Z.of_nat k + Z.of_nat i) / 128)%Z with (Z.of_nat k) by (apply (Z.div_unique _ 128 _ (Z.of_nat i)); lia).
    rewrite Nat2Z.id, (nth_overflow x) by exact E. unfold quiet. rewrite nth_repeat. symmetry. destruct (Z.to_nat _); reflexivity.
Qed.
Lemma gain_quantum h k : gain_samples exact g (quantum_of h k) = quantum_of (fun t => applied g * h t) k.
Proof.
  destruct (gain_spec g (quantum_of h k) (quantum_length h k)) as [L S]. apply same_samples; [exact L|apply quantum_length|]. intros i Hi. rewrite (S i Hi), !quantum_nth by exact Hi. reflexivity.
Qed.
Lemma add_quantum h h' k : map (fun p => v_add exact (fst p) (snd p)) (combine (quantum_of h k) (quantum_of h' k)) = quantum_of (fun t => h t + h' t) k.
Proof.
  apply same_samples; [apply add_length; apply quantum_length|apply quantum_length|]. intros i Hi. rewrite add_nth, !quantum_nth by (try apply quantum_length; exact Hi). reflexivity.
Qed.
Lemma qadd_quantum h h' k c c' : qadd EE (mk_wire (quantum_of h k) c) (mk_wire (quantum_of h' k) c') tt = mk_wire (quantum_of (fun t => h t + h' t) k) None.
Proof. cbn [qadd echo_env]. unfold wire_add. cbn [w_samples]. rewrite add_quantum. reflexivity. Qed.
Lemma quantum_ext h h' k : (forall t, (0 <= t)%Z -> h t = h' t) -> quantum_of h k = quantum_of h' k.
Proof. intros H. unfold quantum_of. apply map_ext. intros i. apply H. lia. Qed.

Definition heard_at (t : Z) : R := X t + echoes (applied g) D X t.
Notation steady_at k := (fun o0 o1 o2 o3 o4 => steady EE E_destination (E_source (skipn k x)) (E_writer 3 N) (E_reader 2 N time) (E_gain g) o0 o1 o2 o3 o4).
Definition memory (k : nat) (o2 o3 : @wire R) : Prop := exists s os,
  delay_run exact sr remix (delay_new N) 0 (map both (first_quanta sr n w k)) = Ok (s, os) /\ newest N o3 (Some [o2]) = ((2 * k)%nat, s) /\
  match w_shared o2 with Some (m, _) => (m <= 2 * k)%nat | None => True end.

Lemma one_step k o0 o1 o2 o3 o4 : memory k o2 o3 -> exists lgs o0' o1' o2' o3' o4',
  render EE (k * 128) (steady_at k o0 o1 o2 o3 o4) = Some (steady_at (S k) o0' o1' o2' o3' o4', lgs, o0') /\ memory (S k) o2' o3' /\ w_samples o0' = quantum_of heard_at k.
Proof.
  intros (s & os & R1 & NW & LE).
  destruct (line_step sr Hsr remix remix_good remix_zeros max Hmax n Hn Hnm w (fun t H => fed_neg (applied g) D X t H) k) as (s0 & s1 & b & s2 & os0 & os' & R0 & RD & WR & R2 & HB).
  rewrite R1 in R0. injection R0 as <- <-.
  set (o3' := mk_wire (quantum_of (fun t => w (t - D)%Z) k) (Some (S (2 * k), s1))).
  set (o4' := mk_wire (quantum_of (fun t => applied g * w (t - D)%Z) k) None).
  set (o1' := mk_wire (quantum_of X k) None).
  set (o2' := mk_wire (quiet exact) (Some (S (S (2 * k)), s2))).
  set (o0' := mk_wire (quantum_of heard_at k) None).
  assert (Q3 : qadd EE (Graph_Model.silence EE) o3' tt = mk_wire (w_samples o3') None) by (cbn [qadd EE echo_env Graph_Model.silence]; unfold wire_add; cbn [w_samples]; rewrite add_quiet by apply quantum_length; reflexivity).
  assert (Q4 : qadd EE (Graph_Model.silence EE) o4' tt = mk_wire (w_samples o4') None) by (cbn [qadd EE echo_env Graph_Model.silence]; unfold wire_add; cbn [w_samples]; rewrite add_quiet by apply quantum_length; reflexivity).
  destruct (quantum EE (k * 128) E_destination (E_source (skipn k x)) (E_writer 3 N) (E_reader 2 N time) (E_gain g) o0 o1 o2 o3 o4
    E_destination (E_source (skipn (S k) x)) (E_writer 3 N) (E_reader 2 N time) (E_gain g) o0' o1' o2' o3' o4' true true false true false) as [lgs HR].
  - intros v Hv. cbn [process EE echo_env echo_process]. rewrite Hv, NW, RD, HB. reflexivity.
  - intros v. rewrite Q3. cbn [process EE echo_env echo_process w_samples o3']. rewrite gain_quantum. reflexivity.
  - intros v. cbn [process EE echo_env echo_process]. rewrite source_quantum. do 3 f_equal. f_equal. f_equal. destruct x as [|y l]; [destruct k; reflexivity|]. clear. revert k. generalize (y :: l) as m. induction m as [|z m IH]; intros [|k]; try reflexivity. apply IH.
  - intros v Hv. rewrite Q4. unfold o4' at 1, o1' at 1. cbn [w_samples]. rewrite qadd_quantum. cbn [process echo_env echo_process w_samples]. rewrite Hv.
    assert (EN : newest N o2 (Some [o3']) = (S (2 * k), s1)).
    { unfold newest. cbn [o3' w_shared]. destruct (w_shared o2) as [[m d]|]; [|reflexivity]. cbn [fst]. destruct (Nat.ltb_spec (S (2 * k)) m); [lia|reflexivity]. }
    rewrite EN. rewrite (quantum_ext _ w).
    + rewrite WR. reflexivity.
    + intros t Ht. rewrite (fed_step (applied g) D X span_pos t Ht). ring.
  - intros v. rewrite Q3. unfold o3' at 1, o1' at 1. cbn [w_samples]. rewrite qadd_quantum. cbn [process echo_env echo_process]. rewrite (quantum_ext _ heard_at); [reflexivity|].
    intros t _. unfold heard_at. rewrite (echoes_fed (applied g) D X span_pos t). ring.
  - exists lgs, o0', o1', o2', o3', o4'. split; [exact HR|]. split; [|reflexivity]. exists s2, os'. split; [exact R2|]. split.
    + unfold newest. cbn [o3' o2' w_shared fst]. destruct (Nat.ltb_spec (S (S (2 * k))) (S (2 * k))); [lia|]. f_equal. lia.
    + cbn [o2' w_shared]. lia.
Qed.

Lemma playing m : forall k o0 o1 o2 o3 o4, memory k o2 o3 -> exists g' ll os,
  play EE (steady_at k o0 o1 o2 o3 o4) (map (fun j => (j * 128)%nat) (seq k m)) = Some (g', ll, os) /\
  forall j o, nth_error os j = Some o -> w_samples o = quantum_of heard_at (k + j).
Proof.
  induction m as [|m IH]; intros k o0 o1 o2 o3 o4 HM; cbn [seq map play].
  - eexists _, _, _. split; [reflexivity|]. intros [|j] o Ho; discriminate.
  - destruct (one_step k o0 o1 o2 o3 o4 HM) as (lgs & o0' & o1' & o2' & o3' & o4' & HR & HM' & HO). rewrite HR.
    destruct (IH (S k) o0' o1' o2' o3' o4' HM') as (g' & ll & os & HP & HS). rewrite HP. eexists _, _, _. split; [reflexivity|].
    intros [|j] o Ho; cbn in Ho; [injection Ho as <-; rewrite Nat.add_0_r; exact HO|]. rewrite (HS j o Ho). replace (k + S j)%nat with (S k + j)%nat by lia. reflexivity.
Qed.

Lemma all_wires q : well_formed 128 (wire_channels exact q).
Proof.
  unfold wire_channels. split; [discriminate|]. constructor; [|constructor]. rewrite firstn_length, app_length, repeat_length. unfold RQ. lia.
Qed.

Theorem heard_echo len : exists t' ch,
  render_audiobuffer (audio_graph EE (wire_channels exact)) 0 128 1 len new_thread (startup (echo_program x N time g)) [] [] = Some (t', [ch], []) /\ length ch = len /\
  forall j, (j < len)%nat -> nth_error ch j = Some (heard_at (Z.of_nat j)).
Proof.
  destruct (built EE E_destination (E_source x) (E_writer 3 N) (E_reader 2 N time) (E_gain g)) as (g0 & B1 & B2).
  set (s := Graph_Model.silence EE) in *.
  assert (M0 : memory 0 s s) by (exists (delay_new N), []; split; [reflexivity|]; split; [reflexivity|exact I]).
  destruct (playing (div_ceil len 128) 0 s s s s s M0) as (g' & ll & os & HP & HS). cbn [skipn] in HP.
  assert (HP' : exists g'', play EE g0 (clock 128 (div_ceil len 128)) = Some (g'', ll, os)).
  { unfold clock. destruct (div_ceil len 128) as [|m]; [cbn in HP |- *; injection HP as <- <- <-; eexists; reflexivity|]. exists g'. cbn [seq map play] in HP |- *. rewrite B2. exact HP. }
  destruct HP' as [g'' HP'].
  destruct (offline_play EE (wire_channels exact) 0 128 ltac:(lia) all_wires 1 len (echo_program x N time g) g0 [] g'' ll os ltac:(lia)) as (t' & buf & A1 & A2 & A3);
    [repeat constructor|exact B1|exact HP'|].
  destruct buf as [|ch [|]]; cbn in A2; try discriminate. exists t', ch. split; [exact A1|].
  set (state := fun k i : nat => if (i =? 0)%nat then option_map (fun o : @wire R => (E_destination (V := R), [o])) (nth_error os (k - 1)) else None).
  destruct (A3 state) with (i := 0%nat) as (ch' & C1 & C2 & C3); [|lia|].
  - intros k o Ho. unfold outputs_of, state. cbn [Nat.eqb]. replace (S k - 1)%nat with k by lia. rewrite Ho. reflexivity.
  - injection C1 as <-. split; [exact C2|]. intros j Hj. rewrite (C3 j Hj). f_equal.
    assert (LO : length os = div_ceil len 128) by (rewrite (play_length _ _ _ _ _ _ HP'); unfold clock; rewrite map_length, seq_length; reflexivity).
    assert (X1 : (j / 128 < length os)%nat) by (rewrite LO; pose proof (ceil_covers 128 ltac:(lia) len); apply Nat.div_lt_upper_bound; lia).
    unfold heard, outputs_of, state. cbn [Nat.eqb]. replace (S (j / 128) - 1)%nat with (j / 128)%nat by lia.
    destruct (nth_error os (j / 128)) as [o|] eqn:Eo; [|apply nth_error_None in Eo; lia]. cbn [option_map snd hd_error].
    unfold wire_channels. rewrite (HS _ _ Eo), quantum_length. unfold RQ. rewrite Nat.sub_diag. cbn [repeat nth_error]. rewrite app_nil_r, firstn_all2 by (rewrite quantum_length; lia).
    pose proof (Nat.mod_upper_bound j 128 ltac:(lia)) as MB. pose proof (Nat.div_mod j 128 ltac:(lia)) as DM. rewrite quantum_nth by exact MB. f_equal. lia.
Qed.
End Heard.

(** ** Bounded feedback *)
Lemma sample_bounded b source : 0 <= b -> Forall (Forall (fun v => Rabs v <= b)) source -> forall t, Rabs (sample_of source t) <= b.
Proof.
  intros Hb HF t. unfold sample_of. destruct (t <? 0)%Z; [rewrite Rabs_R0; exact Hb|]. rewrite Forall_forall in HF.
  destruct (nth_in_or_default (Z.to_nat (t / 128)) source []) as [I|E]; [|rewrite E; destruct (Z.to_nat (t mod 128)); cbn; rewrite Rabs_R0; exact Hb].
  specialize (HF _ I). rewrite Forall_forall in HF. destruct (nth_in_or_default (Z.to_nat (t mod 128)) (nth (Z.to_nat (t / 128)) source []) 0) as [I2|E]; [apply HF; exact I2|rewrite E, Rabs_R0; exact Hb].
Qed.
Lemma applied_small g : 1 / 1000000 < Rabs (1 - g) -> Rabs (applied g) <= Rabs g.
Proof. intros H. unfold applied. destruct (Rle_dec _ _); [rewrite Rabs_R0; apply Rabs_pos|]. destruct (Rle_dec _ _); lra. Qed.
Lemma heard_bounded sr : 0 < sr -> forall remix,
  (forall C n b, good C b -> (0 < n)%nat -> good n (remix n b)) -> (forall C n b, good C b -> zeros exact b -> (0 < n)%nat -> zeros exact (remix n b)) ->
  forall max, 0 < max -> forall n, (0 <= n)%Z -> IZR n / sr <= max -> forall source, Forall (fun q => length q = 128%nat) source -> forall g len b,
  1 / 1000000 < Rabs (1 - g) -> Rabs g < 1 -> 0 <= b -> Forall (Forall (fun v => Rabs v <= b)) source ->
  exists t' ch,
    render_audiobuffer (audio_graph (echo_env exact sr remix) (wire_channels exact)) 0 128 1 len new_thread
      (startup (echo_program source (ring_size exact sr max) (IZR n / sr) g)) [] [] = Some (t', [ch], []) /\
    length ch = len /\ Forall (fun v => Rabs v <= b + b / (1 - Rabs g)) ch.
Proof.
  intros Hs remix H3 H4 max H2 n H5 H6 source H7 g len b G1 G2 Hb HF.
  destruct (heard_echo sr Hs remix H3 H4 max H2 n H5 H6 source H7 g len) as (t' & ch & R & L & S). exists t', ch. split; [exact R|]. split; [exact L|].
  apply Forall_forall. intros v Hv. apply In_nth_error in Hv as [j Hj]. assert (J : (j < len)%nat) by (rewrite <- L; apply nth_error_Some; congruence).
  rewrite (S j J) in Hj. injection Hj as <-. unfold heard_at. eapply Rle_trans; [apply Rabs_triang|]. apply Rplus_le_compat; [apply sample_bounded; assumption|].
  pose proof (applied_small g G1) as AS. eapply Rle_trans; [apply (echoes_bounded _ _ _ b); [exact Hb|apply sample_bounded; assumption|lra]|].
  unfold Rdiv. apply Rmult_le_compat_l; [exact Hb|]. apply Rinv_le_contravar; lra.
Qed.
