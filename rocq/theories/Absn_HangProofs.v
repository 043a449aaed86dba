(** Buffer source: loops that do not end; the ended event is sent once. *)
From Coq Require Import List Arith Bool ZArith Lia.
From Verif Require Import Common_Model Arith_Model Source_Model Absn_Model.
Import ListNotations.

Section Hang.
Context {T V : Type}.
Variable A : arith T V.
Variable sr : V.
Variable almost_equal : T -> T -> bool.
Variable almost_zero : T -> bool.

Lemma wrap_down_stuck : forall ls le t n, t_le A le t = true -> t_sub A t (t_sub A le ls) = t -> wrap_down A ls le n t = Stuck.
Proof. intros ls le t n H1 H2. induction n as [|n IH]; cbn [wrap_down]; rewrite H1; [reflexivity|]. rewrite H2. exact IH. Qed.
Lemma wrap_down_more : forall ls le n t x, wrap_down A ls le 0 t = Ok x -> wrap_down A ls le n t = Ok x.
Proof. intros ls le n t x. cbn [wrap_down]. destruct (t_le A le t) eqn:E; [discriminate|]. intros H. destruct n; cbn [wrap_down]; rewrite E; exact H. Qed.
Lemma wrap_up_more : forall ls le n t x, wrap_up A ls le 0 t = Ok x -> wrap_up A ls le n t = Ok x.
Proof. intros ls le n t x. cbn [wrap_up]. destruct (t_lt A t ls) eqn:E; [discriminate|]. intros H. destruct n; cbn [wrap_up]; rewrite E; exact H. Qed.

Lemma loop_position_more : forall ls le n p x, loop_position A almost_equal 0 ls le p = Ok x -> loop_position A almost_equal n ls le p = Ok x.
Proof.
  intros ls le n p x. unfold loop_position. cbv zeta. destruct (_ || _ || _); [|auto]. destruct (wrap_down A ls le 0 _) as [t1| |] eqn:E; cbn [bind]; try discriminate. rewrite (wrap_down_more _ _ n _ _ E). cbn [bind].
  destruct (wrap_up A ls le 0 t1) as [t2| |] eqn:E2; cbn [bind]; try discriminate. rewrite (wrap_up_more _ _ n _ _ E2). auto.
Qed.
Lemma slow_sample_more : forall stop duration ls le rate bdur ratio len n p time x,
  slow_sample A sr almost_equal almost_zero 0 stop duration true ls le rate bdur ratio len p time = Ok x ->
  slow_sample A sr almost_equal almost_zero n stop duration true ls le rate bdur ratio len p time = Ok x.
Proof.
  intros stop duration ls le rate bdur ratio len n p time x. unfold slow_sample. cbv zeta. set (p1 := if negb (p_started p) && _ then _ else _). set (p2 := if almost_equal (p_elapsed p1) _ then _ else _).
  destruct (_ || _ || _); [auto|]. match goal with |- context [loop_position _ _ 0 _ _ ?q] => set (p3 := q) end. clearbody p3. clear p1 p2.
  destruct (loop_position A almost_equal 0 ls le p3) as [p4| |] eqn:E; cbn [bind]; try discriminate. rewrite (loop_position_more _ _ n _ _ E). auto.
Qed.

(** A sample whose position is beyond the loop end and which the loop does not change *)
Definition hangs (stop duration ls le rate bdur : T) (p : @playback T) (time : T) : bool :=
  let p := if negb (p_started p) && almost_equal time (p_start p) then p_at p time else p in
  let p := if almost_equal (p_elapsed p) duration then p_elapse p duration else p in
  negb (t_lt A time (p_start p) || t_le A stop time || t_le A duration (p_elapsed p)) && p_started p && p_entered p &&
  (let t := if almost_equal (p_time p) le then le else p_time p in let t := if almost_equal t ls then ls else t in
   t_le A le t).
Definition fixed (duration ls le : T) (p : @playback T) (time : T) : Prop :=
  let p := if negb (p_started p) && almost_equal time (p_start p) then p_at p time else p in
  let p := if almost_equal (p_elapsed p) duration then p_elapse p duration else p in
  let t := if almost_equal (p_time p) le then le else p_time p in let t := if almost_equal t ls then ls else t in
  t_sub A t (t_sub A le ls) = t.

Lemma slow_sample_stuck : forall stop duration ls le rate bdur ratio len n p time, hangs stop duration ls le rate bdur p time = true -> fixed duration ls le p time ->
  slow_sample A sr almost_equal almost_zero n stop duration true ls le rate bdur ratio len p time = Stuck.
Proof.
  intros stop duration ls le rate bdur ratio len n p time. unfold hangs, fixed, slow_sample. cbv zeta. set (p1 := if negb (p_started p) && _ then _ else _). set (p2 := if almost_equal (p_elapsed p1) _ then _ else _). clearbody p2. clear p1 p.
  intros H1 H2. apply andb_true_iff in H1. destruct H1 as [H1 H4]. apply andb_true_iff in H1. destruct H1 as [H1 H3]. apply andb_true_iff in H1. destruct H1 as [H0 H1].
  apply negb_true_iff in H0. rewrite H0, H1. unfold loop_position. cbv zeta. rewrite H3. cbn [orb]. rewrite (wrap_down_stuck _ _ _ n H4 H2). reflexivity.
Qed.
Lemma slow_samples_stuck : forall stop duration ls le rate bdur ratio len n k i p block r,
  slow_sample A sr almost_equal almost_zero 0 stop duration true ls le rate bdur ratio len p (t_add A block (t_mul A (t_of_Z A (Z.of_nat i)) (dt A sr))) = Ok r ->
  hangs stop duration ls le rate bdur (fst r) (t_add A block (t_mul A (t_of_Z A (Z.of_nat (S i))) (dt A sr))) = true ->
  fixed duration ls le (fst r) (t_add A block (t_mul A (t_of_Z A (Z.of_nat (S i))) (dt A sr))) ->
  slow_samples A sr almost_equal almost_zero n stop duration true ls le rate bdur ratio len (S (S k)) i p block = Stuck.
Proof.
  intros stop duration ls le rate bdur ratio len n k i p block r H1 H2 H3. cbn [slow_samples]. rewrite (slow_sample_more _ _ _ _ _ _ _ _ n _ _ _ H1). cbn [bind].
  rewrite (slow_sample_stuck _ _ _ _ _ _ _ _ n _ _ H2 H3). reflexivity.
Qed.
End Hang.

(** ** The ended event *)

Section Once.
Context {T V : Type}.
Variable A : arith T V.
Variable sr : V.
Variable almost_equal : T -> T -> bool.
Variable almost_zero : T -> bool.
Variable fuel : nat.

Lemma clamp_ended : forall s, a_ended (clamp A s) = a_ended s.
Proof. intros s. unfold clamp. destruct (a_buffer s); reflexivity. Qed.
Lemma message_ended : forall s a, a_ended (absn_message A s a) = a_ended s.
Proof. intros s a. destruct a; cbn [absn_message]; rewrite ?clamp_ended; try reflexivity. destruct (a_buffer s); rewrite ?clamp_ended; reflexivity. Qed.
Lemma track_ended : forall s b block span s' chs, fast_track A sr s b block span = Ok (s', chs) -> a_ended s' = a_ended s.
Proof.
  intros s b block span s' chs. unfold fast_track. cbv zeta. match goal with |- context [bind ?x _] => destruct x as [r| |] end; cbn [bind]; try discriminate. intros H. injection H as <- _. reflexivity.
Qed.
Lemma slow_ended : forall s b block rate prate ratio s' chs, slow_track A sr almost_equal almost_zero fuel s b block rate prate ratio = Ok (s', chs) -> a_ended s' = a_ended s.
Proof.
  intros s b block rate prate ratio s' chs. unfold slow_track. cbv zeta. match goal with |- context [slow_samples A sr almost_equal almost_zero fuel ?a1 ?a2 ?a3 ?a4 ?a5 ?a6 ?a7 ?a8 ?a9 ?b1 ?b2 ?b3 ?b4] => destruct (slow_samples A sr almost_equal almost_zero fuel a1 a2 a3 a4 a5 a6 a7 a8 a9 b1 b2 b3 b4) as [r| |] end; cbn [bind]; try discriminate.
  match goal with |- context [bind ?x _] => destruct x as [r'| |] end; cbn [bind]; try discriminate. intros H. injection H as <- _. reflexivity.
Qed.
Lemma process_ended : forall s f r d s' o, absn_process A sr almost_equal almost_zero fuel s f r d = Ok (s', o) -> a_ended s' = a_ended s || o_event o /\ (a_ended s = true -> o_event o = false).
Proof.
  intros s f r d s' o. unfold absn_process. cbv zeta. destruct (a_ended s) eqn:E.
  - intros H. injection H as <- <-. cbn [o_event]. auto.
  - intros H. split; [|discriminate]. cbn [orb]. revert H. destruct (_ && _); [intros H; injection H as <- <-; reflexivity|].
    destruct (t_le A _ (p_start (a_play s))).
    + destruct (t_le A (a_stop s) _); intros H; injection H as <- <-; cbn [o_event]; [reflexivity|exact E].
    + destruct (a_buffer s) as [b|]; [|intros H; injection H as <- <-; exact E]. cbn [with_aligned a_aligned].
      match goal with |- context [if ?c then with_play s ?p else s] => set (s1 := if c then with_play s p else s) end. assert (E1 : a_ended s1 = false) by (unfold s1; destruct (_ && _); exact E). clearbody s1.
      match goal with |- context [bind ?x _] => destruct x as [[s2 chs]| |] eqn:Et end; cbn [bind]; try discriminate. intros H. injection H as <- <-. cbn [o_event fst snd].
      assert (E2 : a_ended s2 = false). { revert Et. destruct (decide _ _ _ _ _ _ _); intros Et; [apply track_ended in Et|apply slow_ended in Et]; rewrite Et; exact E1. }
      destruct (_ || _ || _); [reflexivity|exact E2].
Qed.
Lemma run_once : forall l s f s' f' os, absn_run A sr almost_equal almost_zero fuel s f l = Ok (s', f', os) -> (length (filter o_event os) + (if a_ended s' then 0 else 1) <= 1)%nat /\ (a_ended s = true -> filter o_event os = [] /\ a_ended s' = true).
Proof.
  induction l as [|a l IH]; intros s f s' f' os H; [injection H as <- <- <-; cbn [filter length]; destruct (a_ended s); split; auto; discriminate|].
  assert (Msg : absn_run A sr almost_equal almost_zero fuel (absn_message A s a) f l = Ok (s', f', os) -> (length (filter o_event os) + (if a_ended s' then 0 else 1) <= 1)%nat /\ (a_ended s = true -> filter o_event os = [] /\ a_ended s' = true)).
  { intros H'. specialize (IH _ _ _ _ _ H'). rewrite message_ended in IH. exact IH. }
  destruct a; try (apply Msg; exact H). clear Msg. cbn [absn_run] in H. match type of H with bind ?x _ = _ => destruct x as [[s1 o]| |] eqn:E end; cbn [bind] in H; try discriminate. cbn [fst snd] in H.
  match type of H with bind ?x _ = _ => destruct x as [[[s2 f2] os2]| |] eqn:E2 end; cbn [bind] in H; try discriminate. cbn [fst snd] in H. injection H as <- <- <-.
  apply process_ended in E. destruct E as [E3 E4]. destruct (IH _ _ _ _ _ E2) as [I1 I2]. cbn [filter]. destruct (a_ended s) eqn:Es.
  - rewrite (E4 eq_refl). cbn [orb] in E3. split; [exact I1|]. intros _. apply I2. exact E3.
  - cbn [orb] in E3. split; [|discriminate]. destruct (o_event o); [|exact I1]. destruct (I2 E3) as [-> ->]. cbn [length]. lia.
Qed.
Lemma events_once : forall looping ls le f l s f' os, absn_run A sr almost_equal almost_zero fuel (absn_new A looping ls le) f l = Ok (s, f', os) ->
  (length (filter o_event os) + (if absn_before_drop A sr s f' then 1 else 0) <= 1)%nat.
Proof. intros looping ls le f l s f' os H. destruct (run_once _ _ _ _ _ _ H) as [H1 _]. unfold absn_before_drop. destruct (a_ended s); cbn [negb andb]; [exact H1|]. destruct (_ || _); lia. Qed.
End Once.
