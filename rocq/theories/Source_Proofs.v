(** Constant sources: the ended event, and the output in exact arithmetic. *)
From Coq Require Import List Arith Bool ZArith Reals Lra Lia.
From Flocq Require Import Core.
From Verif Require Import Arith_Model Arith_Real Source_Model Source_Spec.
Import ListNotations.

Lemma const_seq : forall (X : Type) (v : X) n a, map (fun _ => v) (seq a n) = repeat v n.
Proof. induction n as [|n IH]; intros a; [reflexivity|]. cbn. f_equal. apply IH. Qed.

(** ** The ended event is sent at most once, in any arithmetic *)
Section Once.
Context {T V : Type}.
Variable A : arith T V.
Variable sr : V.

Lemma cs_process_event : forall s frame offset s' o, cs_process A sr s frame offset = (s', o) ->
  cs_ended s' = (cs_ended s || o_event o) /\ (o_event o = true -> cs_ended s = false) /\ cs_start s' = cs_start s /\ cs_stop s' = cs_stop s.
Proof.
  intros s frame offset s' o H. unfold cs_process in H. destruct (t_le A _ (cs_start s)); [destruct (t_le A (cs_stop s) _)|destruct (t_lt A _ _)]; injection H as <- <-; cbn [o_event cs_ended cs_start cs_stop];
    destruct (cs_ended s); cbn; repeat split; congruence.
Qed.

Lemma cs_run_events : forall l s frame s' f' os, cs_run A sr s frame l = (s', f', os) ->
  length (filter o_event os) = (if cs_ended s' then 1 else 0) - (if cs_ended s then 1 else 0) /\ (cs_ended s = true -> cs_ended s' = true).
Proof.
  induction l as [|a l IH]; intros s frame s' f' os H; cbn [cs_run] in H.
  - inversion H; subst. cbn. destruct (cs_ended s'); auto.
  - destruct a as [v|v|offset]; [apply IH in H; cbn [cs_ended] in H; exact H|apply IH in H; cbn [cs_ended] in H; exact H|].
    destruct (cs_process A sr s frame offset) as [s1 o] eqn:E. destruct (cs_run A sr s1 (frame + Z.of_nat RQ) l) as [[s2 f2] os2] eqn:E2. inversion H; subst.
    apply cs_process_event in E. destruct E as (E & N & _ & _). apply IH in E2. destruct E2 as [L M]. cbn [filter]. rewrite E in *.
    destruct (o_event o); cbn [length]; [rewrite (N eq_refl) in *; cbn in *; rewrite (M eq_refl) in *; split; [lia|congruence]|rewrite orb_false_r in *; auto].
Qed.

Lemma cs_events_once : forall frame l, (cs_events A sr (cs_new A) frame l <= 1)%nat.
Proof.
  intros frame l. unfold cs_events. destruct (cs_run A sr (cs_new A) frame l) as [[s f] os] eqn:E. apply cs_run_events in E. destruct E as [E _]. rewrite E. cbn [cs_new cs_ended].
  unfold cs_before_drop. destruct (cs_ended s); cbn; [lia|]. destruct (t_le A _ _ || t_le A _ _); cbn; lia.
Qed.

Lemma cs_run_frame : forall l s frame, snd (fst (cs_run A sr s frame l)) = (frame + 128 * Z.of_nat (quanta l))%Z.
Proof.
  induction l as [|a l IH]; intros s frame; cbn [cs_run]; [cbn; lia|]. destruct a as [v|v|offset]; [apply IH|apply IH|].
  destruct (cs_process A sr s frame offset) as [s1 o]. specialize (IH s1 (frame + Z.of_nat RQ)%Z). destruct (cs_run A sr s1 _ l) as [[s2 f2] os2]. cbn [fst snd] in *. rewrite IH. change (quanta (Quantum offset :: l)) with (S (quanta l)). change (Z.of_nat RQ) with 128%Z. lia.
Qed.

Lemma cs_run_app : forall l1 l2 s frame, cs_run A sr s frame (l1 ++ l2) =
  let '(s1, f1, o1) := cs_run A sr s frame l1 in let '(s2, f2, o2) := cs_run A sr s1 f1 l2 in (s2, f2, o1 ++ o2).
Proof.
  induction l1 as [|a l1 IH]; intros l2 s frame; cbn [app cs_run]; [destruct (cs_run A sr s frame l2) as [[? ?] ?]; reflexivity|].
  destruct a as [v|v|offset]; [apply IH|apply IH|]. destruct (cs_process A sr s frame offset) as [s1 o]. rewrite IH.
  destruct (cs_run A sr s1 _ l1) as [[s2 f2] o2]. destruct (cs_run A sr s2 f2 l2) as [[s3 f3] o3]. reflexivity.
Qed.

(** ** The samples of a quantum *)
Fixpoint advance (n : nat) (time : T) : T := match n with 0 => time | S n' => advance n' (t_add A time (dt A sr)) end.

Lemma cs_samples_map : forall n i time start stop offset, cs_samples A sr n i time start stop offset =
  map (fun j => if t_lt A (advance j time) start || t_le A stop (advance j time) then v_zero A else cycle A offset (i + j)) (seq 0 n).
Proof.
  induction n as [|n IH]; intros i time start stop offset; [reflexivity|]. cbn [cs_samples seq map advance]. f_equal; [rewrite Nat.add_0_r; reflexivity|].
  rewrite IH. rewrite <- seq_shift, map_map. apply map_ext. intros j. cbn [advance]. replace (S i + j) with (i + S j) by lia. reflexivity.
Qed.

Lemma cycle_value : forall offset i, values_ok offset -> i < 128 -> cycle A offset i = value_at (v_zero A) offset i.
Proof.
  intros offset i [H|H] Hi; unfold cycle, value_at; rewrite H.
  - destruct offset as [|v [|]]; try discriminate. rewrite Nat.mod_1_r. reflexivity.
  - rewrite Nat.mod_small by exact Hi. destruct offset as [|v [|w l]]; try reflexivity. discriminate.
Qed.

(** an order on the times, given by their values *)
Section Order.
Variable num : T -> Prop.
Variable val : T -> R.
Hypothesis lt_val : forall x y, num x -> num y -> t_lt A x y = R_lt (val x) (val y).
Hypothesis le_val : forall x y, num x -> num y -> t_le A x y = R_le (val x) (val y).

Lemma cs_output : forall s frame offset s' o, values_ok offset -> num (cs_start s) -> num (cs_stop s) ->
  num (next_block_time A sr frame) -> (forall i, i < 128 -> num (advance i (block_time A sr frame))) ->
  (forall i, i < 128 -> (val (advance i (block_time A sr frame)) < val (next_block_time A sr frame))%R) ->
  (forall i, i < 128 -> (val (block_time A sr frame) <= val (advance i (block_time A sr frame)))%R) ->
  cs_process A sr s frame offset = (s', o) ->
  o_output o = map (fun i => if R_le (val (cs_start s)) (val (advance i (block_time A sr frame))) && R_lt (val (advance i (block_time A sr frame))) (val (cs_stop s))
                             then value_at (v_zero A) offset i else v_zero A) (seq 0 128).
Proof.
  intros s frame offset s' o Vo Ns Np Nn Nt Lt Le H.
  assert (N0 : num (block_time A sr frame)) by (apply (Nt 0%nat); lia).
  assert (Sil : forall f, (forall i, i < 128 -> f i = v_zero A) -> silence A = map f (seq 0 128)).
  { intros f Hf. unfold silence, RQ. rewrite (map_ext_in f (fun _ => v_zero A)) by (intros a Ha; apply in_seq in Ha; apply Hf; lia). symmetry. apply const_seq. }
  unfold cs_process in H. rewrite !le_val in H by assumption. unfold R_le at 1 in H. destruct (Rle_dec (val (next_block_time A sr frame)) (val (cs_start s))) as [C|C].
  - assert (E : o_output o = silence A) by (destruct (R_le _ _) in H; inversion H; reflexivity). rewrite E. apply Sil. intros i Hi. unfold R_le. specialize (Lt i Hi).
    destruct (Rle_dec _ _); [lra|reflexivity].
  - rewrite lt_val in H by assumption. set (fast := (_ && _ && _)%bool) in H.
    assert (E : o_output o = if fast then repeat (cycle A offset 0) RQ else cs_samples A sr RQ 0 (block_time A sr frame) (cs_start s) (cs_stop s) offset) by (destruct (R_lt _ _) in H; inversion H; reflexivity).
    rewrite E. destruct fast eqn:F; unfold fast in F.
    + apply andb_true_iff in F. destruct F as [F F3]. apply andb_true_iff in F. destruct F as [F1 F2]. apply Nat.eqb_eq in F1. unfold R_le in F2, F3.
      destruct (Rle_dec _ _) as [F2'|] in F2; [|discriminate]. destruct (Rle_dec _ _) as [F3'|] in F3; [|discriminate].
      destruct offset as [|v [|]]; try discriminate.
      rewrite (map_ext_in _ (fun _ => v)).
      * change (cycle A [v] 0) with v. unfold RQ. symmetry. apply const_seq.
      * intros i Hi. apply in_seq in Hi. specialize (Lt i ltac:(lia)). specialize (Le i ltac:(lia)). unfold R_le, R_lt. destruct (Rle_dec _ _); [|lra]. destruct (Rlt_dec _ _); [reflexivity|lra].
    + rewrite cs_samples_map. apply map_ext_in. intros i Hi. apply in_seq in Hi. cbn [Nat.add]. rewrite lt_val, le_val by (try assumption; apply Nt; unfold RQ in Hi; lia).
      rewrite cycle_value by (try assumption; unfold RQ in Hi; lia). unfold R_lt, R_le. destruct (Rlt_dec _ _), (Rle_dec _ _), (Rle_dec _ _), (Rlt_dec _ _); cbn; try reflexivity; lra.
Qed.
End Order.
End Once.

(** ** Exact arithmetic *)
Section Exact.
Local Open Scope R_scope.
Variable sr : R.
Hypothesis Hsr : 0 < sr.
Notation A := exact.

Lemma block_exact : forall frame, block_time A sr frame = IZR frame / sr.
Proof. reflexivity. Qed.
Lemma dt_exact : dt A sr = / sr.
Proof. unfold dt, t_one. cbn [exact t_div t_of_Z t_of_v]. lra. Qed.
Lemma next_exact : forall frame, next_block_time A sr frame = IZR (frame + 128) / sr.
Proof. intros. unfold next_block_time. rewrite dt_exact, block_exact. cbn [exact t_add t_mul t_of_Z]. rewrite plus_IZR. unfold RQ. cbn [Z.of_nat]. change (IZR (Z.of_nat 128)) with 128. field. lra. Qed.
Lemma advance_exact : forall i t, advance A sr i t = t + INR i / sr.
Proof.
  induction i as [|i IH]; intros t; [cbn; lra|]. cbn [advance]. rewrite IH, dt_exact. cbn [exact t_add]. rewrite S_INR. field. lra.
Qed.
Lemma frame_exact : forall frame i, advance A sr i (block_time A sr frame) = IZR (frame + Z.of_nat i) / sr.
Proof. intros. rewrite advance_exact, block_exact, plus_IZR, <- INR_IZR_INZ. field. lra. Qed.

Lemma cs_output_exact : forall s frame offset s' o, values_ok offset -> cs_process A sr s frame offset = (s', o) ->
  o_output o = map (fun i => if R_le (cs_start s) (IZR (frame + Z.of_nat i) / sr) && R_lt (IZR (frame + Z.of_nat i) / sr) (cs_stop s) then value_at 0 offset i else 0) (seq 0 128).
Proof.
  intros s frame offset s' o Vo H.
  assert (L1 : forall i, (i < 128)%nat -> advance A sr i (block_time A sr frame) < next_block_time A sr frame).
  { intros i Hi. rewrite frame_exact, next_exact. apply Rmult_lt_compat_r; [apply Rinv_0_lt_compat; lra|]. apply IZR_lt. lia. }
  assert (L2 : forall i, (i < 128)%nat -> block_time A sr frame <= advance A sr i (block_time A sr frame)).
  { intros i Hi. rewrite frame_exact, block_exact. apply Rmult_le_compat_r; [left; apply Rinv_0_lt_compat; lra|]. apply IZR_le. lia. }
  rewrite (cs_output A sr (fun _ => True) (fun x => x) (fun _ _ _ _ => eq_refl) (fun _ _ _ _ => eq_refl) s frame offset s' o Vo I I I (fun _ _ => I) L1 L2 H).
  apply map_ext. intros i. rewrite frame_exact. reflexivity.
Qed.

Definition time_of (o : option R) : R := match o with Some v => v | None => t_MAX A end.
Lemma expected_run : forall l s frame start stop, Forall (action_ok (fun _ => True)) l ->
  cs_start s = time_of start -> cs_stop s = time_of stop -> IZR (frame + 128 * Z.of_nat (quanta l)) / sr < t_MAX A ->
  map (@o_output R) (snd (cs_run A sr s frame l)) = expected (in_time sr) 0 start stop frame l.
Proof.
  induction l as [|a l IH]; intros s frame start stop Hl Es Ep Hm; [reflexivity|]. apply Forall_cons_iff in Hl. destruct Hl as [Ha Hl].
  destruct a as [v|v|offset]; cbn [cs_run expected].
  - apply IH; try assumption; reflexivity.
  - apply IH; try assumption; reflexivity.
  - destruct (cs_process A sr s frame offset) as [s1 o] eqn:E. destruct (cs_process_event A sr _ _ _ _ _ E) as (_ & _ & E1 & E2).
    assert (Q : quanta (Quantum offset :: l) = S (quanta l)) by reflexivity. rewrite Q in Hm.
    specialize (IH s1 (frame + 128)%Z start stop Hl ltac:(congruence) ltac:(congruence)).
    destruct (cs_run A sr s1 (frame + Z.of_nat RQ) l) as [[s2 f2] os] eqn:E3. change (frame + Z.of_nat RQ)%Z with (frame + 128)%Z in E3. rewrite E3 in IH. cbn [snd map].
    f_equal; [|apply IH; replace (frame + 128 + 128 * Z.of_nat (quanta l))%Z with (frame + 128 * Z.of_nat (S (quanta l)))%Z by lia; exact Hm].
    rewrite (cs_output_exact _ _ _ _ _ Ha E), Es, Ep. apply map_ext_in. intros i Hi. apply in_seq in Hi.
    assert (M : IZR (frame + Z.of_nat i) / sr < t_MAX A).
    { eapply Rle_lt_trans; [|exact Hm]. apply Rmult_le_compat_r; [left; apply Rinv_0_lt_compat; lra|]. apply IZR_le. lia. }
    unfold in_time, time_of, R_le, R_lt. destruct start as [st|].
    + destruct (Rle_dec st _); [|reflexivity]. destruct stop as [sp|]; [reflexivity|]. destruct (Rlt_dec _ _); [reflexivity|contradiction].
    + destruct (Rle_dec (t_MAX A) _); [lra|reflexivity].
Qed.

(** once ended, silent *)
Definition quiet (s : csource) (frame : Z) : Prop := cs_ended s = true /\ cs_stop s <= IZR frame / sr.
Lemma time_mono : forall a b, (a <= b)%Z -> IZR a / sr <= IZR b / sr.
Proof. intros. apply Rmult_le_compat_r; [left; apply Rinv_0_lt_compat; lra|apply IZR_le; lia]. Qed.

Lemma event_quiet : forall s frame offset s' o, cs_process A sr s frame offset = (s', o) -> o_event o = true -> quiet s' (frame + 128).
Proof.
  intros s frame offset s' o E Ev. unfold cs_process in E. rewrite next_exact in E. cbn [exact t_le t_lt] in E. unfold R_le at 1 2 in E. unfold R_lt in E.
  destruct (Rle_dec _ _) in E.
  - destruct (Rle_dec (cs_stop s) _) in E; injection E as <- <-; [split; [reflexivity|assumption]|discriminate].
  - destruct (Rlt_dec _ _) in E; injection E as <- <-; [discriminate|]. split; [reflexivity|]. cbn [cs_stop]. lra.
Qed.

Lemma quiet_process : forall s frame offset s' o, values_ok offset -> quiet s frame -> cs_process A sr s frame offset = (s', o) ->
  quiet s' (frame + 128) /\ o_output o = silence A /\ o_event o = false.
Proof.
  intros s frame offset s' o Vo [Q1 Q2] E. pose proof (cs_output_exact _ _ _ _ _ Vo E) as Out. destruct (cs_process_event A sr _ _ _ _ _ E) as (E1 & E2 & E3 & E4).
  pose proof (time_mono frame (frame + 128) ltac:(lia)) as M. split; [split; [rewrite E1, Q1; reflexivity|rewrite E4; lra]|]. split.
  - rewrite Out. unfold silence, RQ. rewrite (map_ext_in _ (fun _ => 0)).
    + change (v_zero A) with 0. apply const_seq.
    + intros i Hi. pose proof (time_mono frame (frame + Z.of_nat i) ltac:(lia)). unfold R_lt. destruct (Rlt_dec _ _); [lra|]. rewrite andb_false_r. reflexivity.
  - destruct (o_event o); [|reflexivity]. rewrite E2 in Q1 by reflexivity. discriminate.
Qed.

Lemma quiet_run : forall l s frame, Forall (action_ok (fun _ => True)) l -> (forall v, ~ In (Stop v) l) -> quiet s frame ->
  Forall (fun o => o_output o = silence A /\ o_event o = false) (snd (cs_run A sr s frame l)).
Proof.
  induction l as [|a l IH]; intros s frame Hl Hn Q; [constructor|]. apply Forall_cons_iff in Hl. destruct Hl as [Ha Hl].
  assert (Hn' : forall v, ~ In (Stop v) l) by (intros v C; apply (Hn v); right; exact C).
  destruct a as [v|v|offset]; cbn [cs_run].
  - apply IH; [exact Hl|exact Hn'|exact Q].
  - exfalso. apply (Hn v). left. reflexivity.
  - destruct (cs_process A sr s frame offset) as [s1 o] eqn:E. destruct (quiet_process _ _ _ _ _ Ha Q E) as (Q1 & O1 & O2). specialize (IH s1 (frame + 128)%Z Hl Hn' Q1).
    change (frame + Z.of_nat RQ)%Z with (frame + 128)%Z. destruct (cs_run A sr s1 (frame + 128) l) as [[s2 f2] os]. constructor; [split; assumption|exact IH].
Qed.

Lemma silent_after_event : forall l1 offset l2 s f os o, Forall (action_ok (fun _ => True)) (l1 ++ Quantum offset :: l2) -> (forall v, ~ In (Stop v) l2) ->
  cs_run A sr (cs_new A) 0 (l1 ++ [Quantum offset]) = (s, f, os ++ [o]) -> o_event o = true ->
  Forall (fun o' => o_output o' = silence A /\ o_event o' = false) (snd (cs_run A sr s f l2)).
Proof.
  intros l1 offset l2 s f os o Hl Hn H Ev. rewrite cs_run_app in H. destruct (cs_run A sr (cs_new A) 0 l1) as [[s1 f1] o1] eqn:E1. cbn [cs_run] in H.
  destruct (cs_process A sr s1 f1 offset) as [s2 o2] eqn:E2. injection H as <- <- H. apply app_inj_tail in H. destruct H as [_ ->].
  apply Forall_app in Hl. destruct Hl as [_ Hl]. apply Forall_cons_iff in Hl. destruct Hl as [_ Hl].
  apply quiet_run; [exact Hl|exact Hn|]. change (Z.of_nat RQ) with 128%Z. eapply event_quiet; eassumption.
Qed.

(** the event is sent when the stop time is reached *)
Lemma event_sent : forall l offset s f os v, cs_run A sr (cs_new A) 0 (l ++ [Quantum offset]) = (s, f, os) -> cs_stop s = v -> v <= IZR f / sr ->
  length (filter o_event os) = 1%nat.
Proof.
  intros l offset s f os v H Hv Hf. rewrite cs_run_app in H. destruct (cs_run A sr (cs_new A) 0 l) as [[s1 f1] o1] eqn:E1. cbn [cs_run] in H.
  destruct (cs_process A sr s1 f1 offset) as [s2 o2] eqn:E2. injection H as <- <- <-. destruct (cs_process_event A sr _ _ _ _ _ E2) as (P1 & P2 & P3 & P4).
  destruct (cs_run_events A sr _ _ _ _ _ _ E1) as [L _]. cbn [cs_new cs_ended] in L. rewrite filter_app, app_length, L. cbn [filter]. change (Z.of_nat RQ) with 128%Z in Hf.
  assert (En : cs_ended s2 = true).
  { unfold cs_process in E2. rewrite next_exact in E2. cbn [exact t_le t_lt] in E2. unfold R_le at 1 2 in E2. unfold R_lt in E2. rewrite P4 in Hv.
    destruct (Rle_dec _ _) in E2; [destruct (Rle_dec (cs_stop s1) _) in E2|destruct (Rlt_dec _ _) in E2]; injection E2 as <- <-; try reflexivity; lra. }
  rewrite P1 in En. destruct (cs_ended s1); [destruct (o_event o2); [discriminate (P2 eq_refl)|reflexivity]|]. cbn in En. rewrite En. reflexivity.
Qed.
End Exact.
