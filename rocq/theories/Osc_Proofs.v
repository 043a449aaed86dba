(** Oscillators: the ended event, and safety for any arithmetic in which the phase stays in a set [Ph]. *)
From Coq Require Import List Arith Bool ZArith Lia.
From Verif Require Import Common_Model Arith_Model Source_Model Source_Spec Source_Proofs.
Import ListNotations.

Section Osc.
Context {T V : Type}.
Variable A : arith T V.
Variable sr : V.
Variable table : list V.

Lemma generate_fields : forall s outside incr time r, generate_sample A sr table s outside incr time = Ok r ->
  os_type (fst r) = os_type s /\ os_start (fst r) = os_start s /\ os_stop (fst r) = os_stop s /\ os_wave (fst r) = os_wave s /\ os_ended (fst r) = os_ended s.
Proof.
  intros s outside incr time r H. unfold generate_sample in H. destruct (_ || _); [injection H as <-; auto|].
  destruct (if outside then _ else _); try discriminate. injection H as <-. cbn [fst with_phase os_type os_start os_stop os_wave os_ended].
  destruct (os_started s); [|destruct (t_lt A _ _)]; cbn; auto.
Qed.

Lemma slow_fields : forall n i s freq detune time r, osc_slow A sr table n i s freq detune time = Ok r ->
  os_type (fst r) = os_type s /\ os_start (fst r) = os_start s /\ os_stop (fst r) = os_stop s /\ os_wave (fst r) = os_wave s /\ os_ended (fst r) = os_ended s.
Proof.
  induction n as [|n IH]; intros i s freq detune time r H; cbn [osc_slow] in H; [injection H as <-; auto|].
  destruct (generate_sample _ _ _ _ _ _ _) as [r1| |] eqn:E; try discriminate. cbn [bind] in H. destruct (osc_slow _ _ _ n _ _ _ _ _) as [r2| |] eqn:E2; try discriminate.
  injection H as <-. apply generate_fields in E. apply IH in E2. cbn [fst]. intuition congruence.
Qed.

Lemma fast_fields : forall n s incr r, osc_fast A table n s incr = Ok r ->
  os_type (fst r) = os_type s /\ os_start (fst r) = os_start s /\ os_stop (fst r) = os_stop s /\ os_wave (fst r) = os_wave s /\ os_ended (fst r) = os_ended s.
Proof.
  induction n as [|n IH]; intros s incr r H; cbn [osc_fast] in H; [injection H as <-; auto|].
  destruct (waveform_sample _ _ _ _) as [v| |] eqn:E; try discriminate. cbn [bind] in H. destruct (osc_fast _ _ n _ _) as [r2| |] eqn:E2; try discriminate.
  injection H as <-. apply IH in E2. cbn [fst] in *. exact E2.
Qed.

Lemma osc_process_event : forall s frame freq detune s' o, osc_process A sr table s frame freq detune = Ok (s', o) ->
  os_ended s' = (os_ended s || o_event o) /\ (o_event o = true -> os_ended s = false) /\ os_type s' = os_type s /\ os_wave s' = os_wave s /\ os_stop s' = os_stop s.
Proof.
  intros s frame freq detune s' o H. unfold osc_process in H. destruct (t_le A (os_stop s) (block_time A sr frame)).
  { injection H as <- <-. cbn. destruct (os_ended s); cbn; auto. }
  destruct (t_le A _ (os_start s)).
  { destruct (t_le A _ _); injection H as <- <-; cbn; destruct (os_ended s); cbn; repeat split; congruence. }
  set (s1 := if _ && _ then _ else s) in H. assert (F : os_type s1 = os_type s /\ os_stop s1 = os_stop s /\ os_wave s1 = os_wave s /\ os_ended s1 = os_ended s) by (unfold s1; destruct (_ && _); cbn; auto).
  clearbody s1. cbv zeta in H. destruct (if _ && _ && _ && _ then _ else _) as [r| |] eqn:E in H; try discriminate. cbn [bind] in H.
  assert (G : os_type (fst r) = os_type s1 /\ os_stop (fst r) = os_stop s1 /\ os_wave (fst r) = os_wave s1 /\ os_ended (fst r) = os_ended s1).
  { destruct (_ && _ && _ && _) in E; [apply fast_fields in E|apply slow_fields in E]; intuition. }
  destruct F as (F1 & F2 & F3 & F4). destruct G as (G1 & G2 & G3 & G4).
  destruct (t_le A (os_stop (fst r)) _) in H; injection H as <- <-; cbn [with_ended os_ended os_type os_wave os_stop o_event]; rewrite ?G1, ?G2, ?G3, ?G4, ?F1, ?F2, ?F3, ?F4; destruct (os_ended s); cbn; repeat split; congruence.
Qed.

Lemma osc_run_events : forall l s frame s' f' os, osc_run A sr table s frame l = Ok (s', f', os) ->
  length (filter o_event os) = (if os_ended s' then 1 else 0) - (if os_ended s then 1 else 0) /\ (os_ended s = true -> os_ended s' = true).
Proof.
  induction l as [|a l IH]; intros s frame s' f' os H; cbn [osc_run] in H.
  - injection H as <- <- <-. cbn. destruct (os_ended s); auto.
  - destruct a as [v|v|ty|w|freq detune]; try (apply IH in H; exact H).
    destruct (osc_process A sr table s frame freq detune) as [[s1 o]| |] eqn:E; try discriminate. cbn [bind fst] in H.
    destruct (osc_run A sr table s1 _ l) as [[[s2 f2] os2]| |] eqn:E2; try discriminate. cbn [bind fst snd] in H. injection H as <- <- <-.
    apply osc_process_event in E. destruct E as (E & N & _). apply IH in E2. destruct E2 as [L M]. cbn [filter]. rewrite E in *.
    destruct (o_event o); cbn [length]; [rewrite (N eq_refl) in *; cbn in *; rewrite (M eq_refl) in *; split; [lia|congruence]|rewrite orb_false_r in *; auto].
Qed.

Lemma osc_events_once : forall ty frame l s f os, osc_run A sr table (osc_new A ty) frame l = Ok (s, f, os) ->
  (length (filter o_event os) + (if osc_before_drop A sr s f then 1 else 0) <= 1)%nat.
Proof.
  intros ty frame l s f os E. apply osc_run_events in E. destruct E as [E _]. rewrite E. cbn [osc_new os_ended].
  unfold osc_before_drop. destruct (os_ended s); cbn; [lia|]. destruct (t_le A _ _ || t_le A _ _); cbn; lia.
Qed.

Lemma osc_run_app : forall l1 l2 s frame, osc_run A sr table s frame (l1 ++ l2) =
  do r1 <- osc_run A sr table s frame l1; do r2 <- osc_run A sr table (fst (fst r1)) (snd (fst r1)) l2; Ok (fst r2, snd r1 ++ snd r2).
Proof.
  induction l1 as [|a l1 IH]; intros l2 s frame; cbn [app osc_run bind fst snd]; [destruct (osc_run A sr table s frame l2) as [[? ?]| |]; reflexivity|].
  destruct a as [v|v|ty|w|freq detune]; try apply IH. destruct (osc_process A sr table s frame freq detune) as [[s1 o]| |]; cbn [bind fst]; try reflexivity.
  rewrite IH. destruct (osc_run A sr table s1 _ l1) as [[[s2 f2] o2]| |]; cbn [bind fst snd]; try reflexivity.
  destruct (osc_run A sr table s2 f2 l2) as [[? ?]| |]; reflexivity.
Qed.

(** ** Safety *)
Section Safe.
(** phases, tables *)
Variable Ph : T -> Prop.
Variable wave_ok : list V -> Prop.
(** frequency and detune values *)
Variable Fok : V -> V -> Prop.
(** times for start and stop *)
Variable Tok : T -> Prop.
(** quanta *)
Variable early : Z -> Prop.
(** [near start time]: a sound that has not started by [time] started less than about one frame ago *)
Variable near : T -> T -> Prop.
Let time frame i := advance A sr i (block_time A sr frame).
Let incr f d := t_div A (computed_freq A f d) (t_of_v A sr).
Let outside f d := t_le A (t_div A (t_of_v A sr) (t_of_Z A 2)) (t_abs A (computed_freq A f d)).

Hypothesis Ph_zero : Ph (t_zero A).
Hypothesis Tok_max : Tok (t_MAX A).
Hypothesis Tok_block : forall frame, early frame -> Tok (block_time A sr frame).
Hypothesis table_ok : forall w p, wave_ok w -> Ph p -> exists v, table_sample A w p = Ok v.
Hypothesis sine_ok : wave_ok table.
Hypothesis step_ok : forall p f d, Ph p -> Fok f d -> Ph (unroll A (outside f d) (t_add A p (incr f d))).
Hypothesis near_next : forall frame i start, early frame -> i < 128 -> Tok start -> t_lt A (time frame i) start = true -> near start (t_add A (time frame i) (dt A sr)).
Hypothesis near_first : forall frame start, early frame -> Tok start -> t_lt A start (block_time A sr frame) = false -> near start (block_time A sr frame).
Hypothesis near_ok : forall frame i start f d, early frame -> i < 128 -> Tok start -> Fok f d -> near start (time frame i) -> t_lt A start (time frame i) = true ->
  Ph (unroll A (outside f d) (t_mul A (incr f d) (t_div A (t_sub A (time frame i) start) (dt A sr)))).
Hypothesis stop_later : forall frame i stop, early frame -> i < 128 -> Tok stop -> t_le A stop (time frame i) = true -> t_le A stop (t_add A (time frame i) (dt A sr)) = true.
Hypothesis block_not_later : forall frame, early frame -> t_lt A (block_time A sr frame) (block_time A sr frame) = false.

Lemma advance_snoc : forall n t, advance A sr (S n) t = t_add A (advance A sr n t) (dt A sr).
Proof. induction n as [|n IH]; intros t; [reflexivity|]. cbn [advance]. rewrite <- IH. reflexivity. Qed.

Definition shape_ok (s : @osc T V) : Prop := os_type s = Custom -> exists w, os_wave s = Some w /\ wave_ok w.
Definition good (s : @osc T V) : Prop := Ph (os_phase s) /\ shape_ok s /\ Tok (os_start s) /\ Tok (os_stop s).

Lemma waveform_ok : forall s i, Ph (os_phase s) -> shape_ok s -> exists v, waveform_sample A table s i = Ok v.
Proof.
  intros s i P W. unfold waveform_sample. destruct (os_type s) eqn:E; try (eexists; reflexivity); [apply table_ok; assumption|].
  destruct (W E) as (w & -> & Hw). cbn [from_option bind]. apply table_ok; assumption.
Qed.

Definition pending (s : @osc T V) (t : T) : Prop := os_started s = false -> near (os_start s) t \/ t_le A (os_stop s) t = true.

Lemma generate_ok : forall s frame i f d, early frame -> i < 128 -> good s -> Fok f d -> pending s (time frame i) ->
  exists r, generate_sample A sr table s (outside f d) (incr f d) (time frame i) = Ok r /\ good (fst r) /\ pending (fst r) (t_add A (time frame i) (dt A sr)).
Proof.
  intros s frame i f d He Hi (P & W & Ts & Tp) Hf Hn. unfold generate_sample. destruct (t_lt A (time frame i) (os_start s)) eqn:E1; cbn [orb].
  { eexists; split; [reflexivity|]. cbn [fst]. split; [repeat split; assumption|]. intros _. left. apply near_next; assumption. }
  destruct (t_le A (os_stop s) (time frame i)) eqn:E2.
  { eexists; split; [reflexivity|]. cbn [fst]. split; [repeat split; assumption|]. intros _. right. apply stop_later; assumption. }
  cbv zeta. set (s1 := if os_started s then s else _).
  assert (Q : Ph (os_phase s1) /\ shape_ok s1 /\ os_started s1 = true /\ os_start s1 = os_start s /\ os_stop s1 = os_stop s).
  { unfold s1. destruct (os_started s) eqn:Es; [auto|]. destruct (t_lt A (os_start s) (time frame i)) eqn:E3; cbn [with_started with_phase os_phase os_started os_start os_stop].
    - split; [|auto]. apply near_ok; try assumption. destruct (Hn Es) as [H|H]; [exact H|congruence].
    - auto. }
  clearbody s1. destruct Q as (Q1 & Q2 & Q3 & Q4 & Q5).
  assert (exists v, (if outside f d then Ok (v_zero A) else waveform_sample A table s1 (incr f d)) = Ok v) as (v & ->) by (destruct (outside f d); [eexists; reflexivity|apply waveform_ok; assumption]).
  cbn [bind]. eexists; split; [reflexivity|]. cbn [fst]. unfold good, pending. cbn [with_phase os_phase os_start os_stop os_started]. rewrite Q3, Q4, Q5. split; [|discriminate].
  split; [apply step_ok; assumption|]. split; [exact Q2|]. split; assumption.
Qed.

Lemma slow_ok : forall n i s frame freq detune, early frame -> i + n <= 128 -> good s -> (forall j, j < 128 -> Fok (cycle A freq j) (cycle A detune j)) -> pending s (time frame i) ->
  exists r, osc_slow A sr table n i s freq detune (time frame i) = Ok r /\ good (fst r) /\ length (snd r) = n.
Proof.
  induction n as [|n IH]; intros i s frame freq detune He Hi G Hf P; cbn [osc_slow]; [eexists; split; [reflexivity|auto]|].
  destruct (generate_ok s frame i _ _ He ltac:(lia) G (Hf i ltac:(lia)) P) as (r & E & G1 & P1). unfold outside, incr in E. rewrite E. cbn [bind].
  unfold time in P1. rewrite <- advance_snoc in P1. destruct (IH (S i) (fst r) frame freq detune He ltac:(lia) G1 Hf P1) as (r2 & E2 & G2 & L2).
  unfold time in E2 |- *. rewrite advance_snoc in E2. rewrite E2. cbn [bind]. eexists; split; [reflexivity|]. cbn [fst snd]. split; [exact G2|cbn; lia].
Qed.

Lemma fast_ok : forall n s f d, good s -> Fok f d -> outside f d = false -> exists r, osc_fast A table n s (incr f d) = Ok r /\ good (fst r) /\ length (snd r) = n.
Proof.
  induction n as [|n IH]; intros s f d (P & W & Ts & Tp) Hf Ho; cbn [osc_fast]; [eexists; split; [reflexivity|repeat split; assumption]|].
  destruct (waveform_ok s (incr f d) P W) as (v & ->). cbn [bind].
  destruct (IH (with_phase s (unroll_phase A (t_add A (os_phase s) (incr f d)))) f d) as (r & E & G & L); [|exact Hf|exact Ho|].
  { split; [|auto]. cbn [with_phase os_phase]. pose proof (step_ok (os_phase s) f d P Hf) as S. rewrite Ho in S. exact S. }
  rewrite E. cbn [bind]. eexists; split; [reflexivity|]. cbn [fst snd]. split; [exact G|cbn; lia].
Qed.

Lemma process_ok : forall s frame freq detune, early frame -> good s -> (forall j, j < 128 -> Fok (cycle A freq j) (cycle A detune j)) ->
  exists s' o, osc_process A sr table s frame freq detune = Ok (s', o) /\ good s' /\ length (o_output o) = 128.
Proof.
  intros s frame freq detune He G Hf. assert (G' := G). destruct G' as (P & W & Ts & Tp). unfold osc_process. cbv zeta.
  assert (Ge : forall x, good x -> good (with_ended x)) by (intros x (? & ? & ? & ?); repeat split; assumption).
  destruct (t_le A (os_stop s) (block_time A sr frame)); [do 2 eexists; split; [reflexivity|split; [auto|reflexivity]]|].
  destruct (t_le A (next_block_time A sr frame) (os_start s)).
  { destruct (t_le A (os_stop s) _); do 2 eexists; (split; [reflexivity|split; [auto|reflexivity]]). }
  set (s1 := if negb (os_started s) && _ then _ else s). 
  assert (Q : good s1 /\ pending s1 (block_time A sr frame)).
  { unfold s1. destruct (os_started s) eqn:E1; cbn [negb andb]; [split; [exact G|intros C; congruence]|]. destruct (t_lt A (os_start s) (block_time A sr frame)) eqn:E2.
    - split; [repeat split; try assumption; cbn [with_start os_start]; apply Tok_block; exact He|]. intros _. left. cbn [with_start os_start]. apply near_first; [exact He|apply Tok_block; exact He|].
      apply block_not_later. exact He.
    - split; [exact G|]. intros _. left. apply near_first; assumption. }
  clearbody s1. destruct Q as [G1 P1].
  match goal with |- context [bind ?e _] => assert (R : exists r, e = Ok r /\ good (fst r) /\ length (snd r) = RQ) end.
  { destruct (_ && _ && _ && _) eqn:E; [|apply (slow_ok RQ 0 s1 frame freq detune He (le_n _) G1 Hf P1)].
    apply andb_true_iff in E. destruct E as [E Eo]. apply negb_true_iff in Eo. apply fast_ok; [exact G1|apply Hf; lia|exact Eo]. }
  destruct R as (r & -> & G2 & L2). cbn [bind]. destruct (t_le A (os_stop (fst r)) _); do 2 eexists; (split; [reflexivity|split; [auto|exact L2]]).
Qed.

(** what may happen to an oscillator *)
Definition osc_action_ok (a : @osc_action T V) : Prop :=
  match a with
  | O_start v => Tok v
  | O_stop v => Tok v
  | O_type ty => ty <> Custom
  | O_wave w => wave_ok w
  | O_quantum freq detune => values_ok freq /\ values_ok detune /\ forall j, j < 128 -> Fok (value_at (v_zero A) freq j) (value_at (v_zero A) detune j)
  end.
Definition osc_quanta (l : list (@osc_action T V)) : nat := length (filter (fun a => match a with O_quantum _ _ => true | _ => false end) l).

Lemma run_ok : forall l s frame, Forall osc_action_ok l -> good s -> (forall k, (k < osc_quanta l)%nat -> early (frame + 128 * Z.of_nat k)) ->
  exists s' f' os, osc_run A sr table s frame l = Ok (s', f', os) /\ good s' /\ length os = osc_quanta l /\ Forall (fun o => length (o_output o) = 128) os.
Proof.
  induction l as [|a l IH]; intros s frame Hl G He; cbn [osc_run]; [do 3 eexists; split; [reflexivity|split; [exact G|split; [reflexivity|constructor]]]|].
  apply Forall_cons_iff in Hl. destruct Hl as [Ha Hl]. destruct G as (P & W & Ts & Tp).
  destruct a as [v|v|ty|w|freq detune].
  - apply IH; [exact Hl| |exact He]. repeat split; assumption.
  - apply IH; [exact Hl| |exact He]. repeat split; assumption.
  - apply IH; [exact Hl| |exact He]. split; [exact P|]. split; [intros C; contradiction|]. split; assumption.
  - apply IH; [exact Hl| |exact He]. split; [exact P|]. split; [intros _; exists w; split; [reflexivity|exact Ha]|]. split; assumption.
  - destruct Ha as (V1 & V2 & Hf). change (osc_quanta (O_quantum freq detune :: l)) with (S (osc_quanta l)) in *.
    destruct (process_ok s frame freq detune) as (s1 & o & E & G1 & L1).
    { specialize (He 0 ltac:(lia)). replace (frame + 128 * Z.of_nat 0)%Z with frame in He by lia. exact He. }
    { repeat split; assumption. }
    { intros j Hj. rewrite !cycle_value by assumption. apply Hf. exact Hj. }
    rewrite E. cbn [bind fst]. destruct (IH s1 (frame + Z.of_nat RQ)%Z Hl G1) as (s2 & f2 & os & E2 & G2 & L2 & F2).
    { intros k Hk. specialize (He (S k) ltac:(lia)). replace (frame + Z.of_nat RQ + 128 * Z.of_nat k)%Z with (frame + 128 * Z.of_nat (S k))%Z by (change (Z.of_nat RQ) with 128%Z; lia). exact He. }
    rewrite E2. cbn [bind fst snd]. do 3 eexists. split; [reflexivity|]. split; [exact G2|]. split; [cbn; lia|constructor; assumption].
Qed.

Lemma good_new : forall ty, ty <> Custom -> good (osc_new A ty).
Proof. intros ty H. split; [exact Ph_zero|]. split; [intros C; contradiction|]. split; exact Tok_max. Qed.
End Safe.
End Osc.
