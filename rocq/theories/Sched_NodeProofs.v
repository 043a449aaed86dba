From Coq Require Import List Arith Bool ZArith Lia.
From Verif Require Import Common_Model Arith_Model Source_Model Absn_Model Source_Spec Source_Proofs Sched_Model Sched_Spec Sched_Proofs Osc_Proofs.
Import ListNotations.

Section Osc.
Context {T V : Type}.
Variable A : arith T V.
Notation valid := (valid A).
Notation oev := (event (@osc_call T V) (list V * list V)).
Notation begins := (osc_begin valid).
Notation ends := (osc_end valid).
Notation after := (handle_after (osc_do A) (@osc_render T V)).
Notation msgs := (messages (osc_do A) (@osc_render T V)).

Lemma osc_do_spec : forall h c, osc_do A h c =
  match begins c, ends c with
  | Some t, _ => if oh_start h then Panic else Ok (mk_osc_handle (oh_type h) true, [O_start t])
  | None, Some t => if oh_start h then Ok (h, [O_stop t]) else Panic
  | None, None =>
      match c with
      | O_sched _ => Panic
      | O_set_type Custom => Panic
      | O_set_type ty => match oh_type h with Custom => Ok (h, []) | _ => Ok (mk_osc_handle ty (oh_start h), [O_type ty]) end
      | O_set_wave w => Ok (mk_osc_handle Custom (oh_start h), [O_wave w])
      end
  end.
Proof.
  intros h c. destruct c as [c|ty|w].
  - destruct c as [t|t|t|t]; unfold osc_do, osc_start_at, osc_stop_at; rewrite assert_valid; cbn [osc_begin osc_end begin_time end_time]; destruct (valid t); destruct (oh_start h); reflexivity.
  - cbn [osc_do osc_begin osc_end]. destruct ty; try reflexivity; destruct (oh_type h); reflexivity.
  - reflexivity.
Qed.

Lemma osc_after : forall l h, after h l = mk_osc_handle (chosen_type (oh_type h) l) (oh_start h || some (started begins (l : list oev))).
Proof.
  induction l as [|e l IH]; intros h; [destruct h as [ty b]; cbn; rewrite orb_false_r; reflexivity|].
  change (e :: l) with ([e] ++ l) at 1. rewrite after_app, IH. clear IH. unfold handle_after. destruct e as [c|q]; cbn [session]; [|cbn; reflexivity].
  rewrite osc_do_spec. destruct h as [ty b]. cbn [chosen_type started oh_start oh_type]. destruct c as [c|ty'|w].
  - destruct (begins (O_sched c)) as [t|] eqn:B; [|destruct (ends (O_sched c)) as [t|]]; [destruct b; cbn; rewrite ?orb_true_r; reflexivity|destruct b; reflexivity|reflexivity].
  - cbn [osc_begin osc_end]. destruct ty', ty; reflexivity.
  - cbn. assert (X : forall l : list oev, chosen_type Custom l = Custom); [|rewrite X; reflexivity].
    clear. induction l as [|e l IH]; [reflexivity|]. destruct e as [c|q]; [|exact IH]. destruct c as [c|ty|w]; [exact IH|exact IH|reflexivity].
Qed.
Lemma osc_returns : forall l ty0 c, returns (osc_do A) (after (mk_osc_handle ty0 false) l) c = accepted begins ends osc_other (l : list oev) c.
Proof.
  intros l ty0 c. rewrite osc_after. unfold returns, accepted. rewrite osc_do_spec. cbn [oh_start oh_type orb].
  destruct (begins c) as [t|]; [destruct (started begins l); reflexivity|]. destruct (ends c) as [t|]; [destruct (started begins l); reflexivity|].
  destruct c as [c|ty|w]; [reflexivity| |reflexivity]. destruct ty; cbn [osc_other]; destruct (chosen_type ty0 l); reflexivity.
Qed.
Lemma osc_msgs_ok : forall (wave_ok : list V -> Prop) (Fok : V -> V -> Prop) (Tok : T -> Prop) l h, (forall t, valid t = true -> Tok t) ->
  Forall (fun e => match e with Render q => osc_action_ok A wave_ok Fok Tok (osc_render q) | Call (O_set_wave w) => wave_ok w | _ => True end) (l : list oev) ->
  Forall (osc_action_ok A wave_ok Fok Tok) (msgs h l) /\ osc_quanta (msgs h l) = renders l.
Proof.
  intros wave_ok Fok Tok l h K. revert h. induction l as [|e l IH]; intros h F; [split; [constructor|reflexivity]|]. pose proof (Forall_inv F) as F1. apply Forall_inv_tail in F.
  assert (X : forall m h', Forall (osc_action_ok A wave_ok Fok Tok) m -> osc_quanta m = 0 -> Forall (osc_action_ok A wave_ok Fok Tok) (m ++ msgs h' l) /\ osc_quanta (m ++ msgs h' l) = renders l).
  { intros m h' M1 M2. destruct (IH h' F) as [I1 I2]. split; [apply Forall_app; split; assumption|]. unfold osc_quanta in *. rewrite filter_app, app_length. lia. }
  destruct e as [c|q].
  - change (renders (Call c :: l)) with (renders l). assert (B : forall t, begins c = Some t -> Tok t) by (intros t; destruct c as [[x|x|x|x]| |]; cbn; try discriminate; destruct (valid x) eqn:E; try discriminate; intros [= <-]; auto).
    assert (E : forall t, ends c = Some t -> Tok t) by (intros t; destruct c as [[x|x|x|x]| |]; cbn; try discriminate; destruct (valid x) eqn:E; try discriminate; intros [= <-]; auto).
    unfold messages. cbn [session]. rewrite osc_do_spec.
    assert (Y : forall h' m, Forall (osc_action_ok A wave_ok Fok Tok) m -> osc_quanta m = 0 -> let '(h2, rs, ms) := session (osc_do A) (@osc_render T V) h' l in Forall (osc_action_ok A wave_ok Fok Tok) (m ++ ms) /\ osc_quanta (m ++ ms) = renders l).
    { intros h' m M1 M2. specialize (X m h' M1 M2). unfold messages in X. destruct (session _ _ h' l) as [[h2 rs] ms]. exact X. }
    assert (Y0 : forall h', let '(h2, rs, ms) := session (osc_do A) (@osc_render T V) h' l in Forall (osc_action_ok A wave_ok Fok Tok) ms /\ osc_quanta ms = renders l).
    { intros h'. exact (Y h' [] (Forall_nil _) eq_refl). }
    assert (Z : forall h' m, Forall (osc_action_ok A wave_ok Fok Tok) m -> osc_quanta m = 0 ->
      Forall (osc_action_ok A wave_ok Fok Tok) (snd (let '(h2, rs, ms) := session (osc_do A) (@osc_render T V) h' l in (h2, true :: rs, m ++ ms))) /\
      osc_quanta (snd (let '(h2, rs, ms) := session (osc_do A) (@osc_render T V) h' l in (h2, true :: rs, m ++ ms))) = renders l).
    { intros h' m M1 M2. specialize (Y h' m M1 M2). destruct (session _ _ h' l) as [[h2 rs] ms]. exact Y. }
    assert (Z0 : forall h', Forall (osc_action_ok A wave_ok Fok Tok) (snd (let '(h2, rs, ms) := session (osc_do A) (@osc_render T V) h' l in (h2, false :: rs, ms))) /\
      osc_quanta (snd (let '(h2, rs, ms) := session (osc_do A) (@osc_render T V) h' l in (h2, false :: rs, ms))) = renders l).
    { intros h'. specialize (Y0 h'). destruct (session _ _ h' l) as [[h2 rs] ms]. exact Y0. }
    destruct (begins c) as [t|]; [destruct (oh_start h); [apply Z0|apply Z; [repeat constructor; cbn; auto|reflexivity]]|].
    destruct (ends c) as [t|]; [destruct (oh_start h); [apply Z; [repeat constructor; cbn; auto|reflexivity]|apply Z0]|].
    destruct c as [c|ty|w]; [apply Z0| |apply Z; [repeat constructor; exact F1|reflexivity]].
    destruct ty; try apply Z0; destruct (oh_type h); apply Z; repeat constructor; try discriminate.
  - unfold messages. cbn [session]. specialize (IH h F). unfold messages in IH. destruct (session _ _ h l) as [[h' rs] ms]. cbn [snd] in *. destruct IH as [I1 I2].
    split; [constructor; assumption|]. change (osc_quanta (osc_render q :: ms)) with (S (osc_quanta ms)). rewrite I2. reflexivity.
Qed.

(** the renderer plays the waveform of the handle *)
Variable sr : V.
Variable table : list V.
Lemma osc_follows : forall l h s frame s' f' os, os_type s = oh_type h -> osc_run A sr table s frame (msgs h l) = Ok (s', f', os) ->
  os_type s' = oh_type (after h l) /\ os_wave s' = chosen_wave (os_wave s) (l : list oev).
Proof.
  induction l as [|e l IH]; intros h s frame s' f' os E R.
  - cbn in R. injection R as <- <- <-. split; [exact E|reflexivity].
  - unfold messages, handle_after in *. cbn [session chosen_wave] in *. destruct e as [c|q].
    + rewrite osc_do_spec in *. destruct (begins c) as [t|] eqn:B.
      { assert (C : forall x, chosen_wave x (Call c :: l : list oev) = chosen_wave x l) by (intros x; destruct c; [reflexivity|discriminate|discriminate]).
        cbn [chosen_wave] in C. rewrite C. destruct (oh_start h).
        - specialize (IH h s frame s' f' os E). destruct (session _ _ h l) as [[h' rs] ms]. exact (IH R).
        - specialize (IH (mk_osc_handle (oh_type h) true) (with_start s t) frame s' f' os E). destruct (session _ _ (mk_osc_handle (oh_type h) true) l) as [[h' rs] ms]. exact (IH R). }
      destruct (ends c) as [t|] eqn:D.
      { assert (C : forall x, chosen_wave x (Call c :: l : list oev) = chosen_wave x l) by (intros x; destruct c; [reflexivity|discriminate|discriminate]).
        cbn [chosen_wave] in C. rewrite C. destruct (oh_start h).
        - specialize (IH h (with_stop s t) frame s' f' os E). destruct (session _ _ h l) as [[h' rs] ms]. exact (IH R).
        - specialize (IH h s frame s' f' os E). destruct (session _ _ h l) as [[h' rs] ms]. exact (IH R). }
      destruct c as [c|ty|w].
      * specialize (IH h s frame s' f' os E). destruct (session _ _ h l) as [[h' rs] ms]. exact (IH R).
      * assert (I0 := IH h s frame s' f' os E). assert (I1 := IH (mk_osc_handle ty (oh_start h)) (osc_message s (O_type ty)) frame s' f' os eq_refl). clear IH.
        destruct ty; try (destruct (session _ _ h l) as [[h' rs] ms]; exact (I0 R)); destruct (oh_type h);
          try (destruct (session _ _ h l) as [[h' rs] ms]; exact (I0 R));
          match goal with |- context [session _ _ ?x l] => destruct (session (osc_do A) (@osc_render T V) x l) as [[h' rs] ms] end; exact (I1 R).
      * specialize (IH (mk_osc_handle Custom (oh_start h)) (osc_message s (O_wave w)) frame s' f' os eq_refl).
        destruct (session _ _ (mk_osc_handle Custom (oh_start h)) l) as [[h' rs] ms]. exact (IH R).
    + specialize (IH h). destruct (session _ _ h l) as [[h' rs] ms]. cbn [fst snd] in *. cbn [osc_render osc_run] in R.
      destruct (osc_process A sr table s frame (fst q) (snd q)) as [[s1 o]| |] eqn:P; try discriminate. cbn [bind fst snd] in R.
      destruct (osc_run A sr table s1 (frame + Z.of_nat RQ) ms) as [[[s2 f2] os2]| |] eqn:R2; try discriminate. cbn [bind fst snd] in R. injection R as <- <- <-.
      destruct (osc_process_event A sr table _ _ _ _ _ _ P) as (_ & _ & Ety & Ew & _). specialize (IH s1 _ _ _ _ ltac:(congruence) R2). rewrite <- Ew. exact IH.
Qed.
End Osc.

Section Absn.
Context {T V : Type}.
Variable A : arith T V.
Notation valid := (valid A).
Notation aev := (event (@absn_call T V) (V * V)).
Notation begins := (absn_begin (t_zero A) (t_MAX A) valid).
Notation ends := (absn_end valid).
Notation after := (handle_after (absn_do A) (@absn_render T V)).
Notation msgs := (messages (absn_do A) (@absn_render T V)).
Hypothesis valid_zero : valid (t_zero A) = true.
Hypothesis valid_max : valid (t_MAX A) = true.

Definition given (h : @absn_handle T V) : absn_handle := mk_absn_handle (ah_buffer h) (ah_loop h) (ah_lstart h) (ah_lend h) true.
Lemma absn_do_spec : forall h c, absn_do A h c =
  match begins c, ends c with
  | Some (t, o, d), _ => if ah_start h then Panic else Ok (given h, [A_start t o d])
  | None, Some t => if ah_start h then Ok (h, [A_stop t]) else Panic
  | None, None =>
      match c with
      | B_set_buffer b => match ah_buffer h with None => Ok (mk_absn_handle (Some b) (ah_loop h) (ah_lstart h) (ah_lend h) (ah_start h), [A_buffer b]) | Some _ => Panic end
      | B_set_loop b => Ok (mk_absn_handle (ah_buffer h) b (ah_lstart h) (ah_lend h) (ah_start h), [A_loop b])
      | B_set_loop_start t => Ok (mk_absn_handle (ah_buffer h) (ah_loop h) t (ah_lend h) (ah_start h), [A_lstart t])
      | B_set_loop_end t => Ok (mk_absn_handle (ah_buffer h) (ah_loop h) (ah_lstart h) t (ah_start h), [A_lend t])
      | _ => Panic
      end
  end.
Proof.
  intros h c. destruct c as [c|t o|t o d|b|b|t|t]; [destruct c as [t|t|t|t]|..];
    unfold absn_do, absn_start_at, absn_stop_at, absn_set_buffer, given; rewrite ?assert_valid, ?valid_zero, ?valid_max; cbn [absn_begin absn_end begin_time end_time];
    try (destruct (valid t)); try (destruct (valid o)); try (destruct (valid d)); try (destruct (ah_start h)); try (destruct (ah_buffer h)); reflexivity.
Qed.
Notation loop_of h := (ah_loop h, ah_lstart h, ah_lend h).

Lemma absn_after : forall l h, let x := latest_loop (loop_of h) (l : list aev) in
  after h l = mk_absn_handle (given_buffer (ah_buffer h) l) (fst (fst x)) (snd (fst x)) (snd x) (ah_start h || some (started begins l)).
Proof.
  induction l as [|e l IH]; intros h; cbv zeta in *; [destruct h; cbn; rewrite orb_false_r; reflexivity|].
  change (e :: l) with ([e] ++ l) at 1. rewrite after_app, IH. clear IH. unfold handle_after. destruct e as [c|q]; cbn [session]; [|reflexivity].
  rewrite absn_do_spec. destruct h as [b lp ls le g]. cbn [started ah_start ah_buffer ah_loop ah_lstart ah_lend given].
  destruct c as [c|t o|t o d|b'|b'|t|t].
  1,2,3: match goal with |- context [begins ?c] => destruct (begins c) as [[[t0 o0] d0]|] eqn:B; [|destruct (ends c) as [t1|]] end; [destruct g; cbn; rewrite ?orb_true_r; reflexivity|destruct g; reflexivity|reflexivity].
  - cbn [absn_begin absn_end]. destruct b; reflexivity.
  - reflexivity.
  - reflexivity.
  - reflexivity.
Qed.
Lemma absn_returns : forall l b lp ls le c, returns (absn_do A) (after (mk_absn_handle b lp ls le false) l) c = accepted begins ends (absn_other b) (l : list aev) c.
Proof.
  intros l b lp ls le c. rewrite absn_after. unfold returns, accepted. rewrite absn_do_spec. cbn [ah_start ah_buffer orb].
  destruct (begins c) as [[[t o] d]|]; [destruct (started begins l); reflexivity|]. destruct (ends c) as [t|]; [destruct (started begins l); reflexivity|].
  destruct c; cbn [absn_other]; try reflexivity. destruct (given_buffer b l); reflexivity.
Qed.

(** what the renderer keeps *)
Variable sr : V.
Variable almost_equal : T -> T -> bool.
Variable almost_zero : T -> bool.
Variable fuel : nat.
Notation loop_state s := (a_loop s, a_lstart s, a_lend s).
Lemma process_keeps : forall s frame r d s' o, absn_process A sr almost_equal almost_zero fuel s frame r d = Ok (s', o) -> a_buffer s' = a_buffer s /\ loop_state s' = loop_state s /\ a_stop s' = a_stop s /\ a_duration s' = a_duration s.
Proof.
  intros s frame r d s' o H. unfold absn_process in H. destruct (a_ended s); [injection H as <- <-; auto|]. cbv zeta in H.
  destruct (match a_buffer s with None => true | _ => false end && _); [injection H as <- <-; auto|].
  destruct (t_le A _ (p_start (a_play s))); [destruct (t_le A (a_stop s) _); injection H as <- <-; auto|].
  destruct (a_buffer s) as [b|] eqn:B; [|injection H as <- <-; auto].
  match type of H with bind (if a_aligned ?s1 then _ else _) _ = _ => set (s2 := s1) in H; assert (K : a_buffer s2 = a_buffer s /\ loop_state s2 = loop_state s /\ a_stop s2 = a_stop s /\ a_duration s2 = a_duration s) by (unfold s2; destruct (_ && _); cbn; auto); clearbody s2 end.
  match type of H with bind ?r _ = _ => destruct r as [[s3 chs]| |] eqn:E; try discriminate end. cbn [bind fst snd] in H.
  assert (K3 : a_buffer s3 = a_buffer s2 /\ loop_state s3 = loop_state s2 /\ a_stop s3 = a_stop s2 /\ a_duration s3 = a_duration s2).
  { destruct (a_aligned s2).
    - unfold fast_track in E. cbv zeta in E. match type of E with bind ?r _ = _ => destruct r as [x| |]; try discriminate end. cbn [bind] in E. injection E as <- <-. cbn. auto.
    - unfold slow_track in E. cbv zeta in E. match type of E with bind ?r _ = _ => destruct r as [x| |]; try discriminate end. cbn [bind] in E.
      match type of E with bind ?r _ = _ => destruct r as [y| |]; try discriminate end. cbn [bind] in E. injection E as <- <-. cbn. auto. }
  destruct K as (K1 & K2 & K5 & K6). destruct K3 as (K3 & K4 & K7 & K8). rewrite <- B, <- K1, <- K2, <- K3, <- K4, <- K5, <- K6, <- K7, <- K8.
  match type of H with Ok (if ?c then _ else _, _) = _ => destruct c end; injection H as <- <-; auto.
Qed.

(** the times the renderer has been sent *)
Fixpoint sent (x : option (T * T * T) * option T) (l : list (@absn_action T V)) : option (T * T * T) * option T :=
  match l with
  | [] => x
  | A_start t o d :: l' => sent (Some (t, o, d), snd x) l'
  | A_stop t :: l' => sent (fst x, Some t) l'
  | _ :: l' => sent x l'
  end.
Lemma sent_running : forall l h st sp, ah_start h = true -> sent (st, sp) (msgs h l) = (st, match latest_stop ends (l : list aev) with Some t => Some t | None => sp end).
Proof.
  induction l as [|e l IH]; intros h st sp S; [reflexivity|]. unfold messages in *. cbn [session latest_stop]. destruct e as [c|q].
  - rewrite absn_do_spec, S. assert (X : forall t, begins c = Some t -> ends c = None) by (intros t; destruct c as [[| | |]| | | | | |]; cbn; try reflexivity; discriminate).
    destruct (begins c) as [[[t o] d]|].
    + rewrite (X _ eq_refl). specialize (IH h st sp S). destruct (session _ _ h l) as [[h' rs] ms]. cbn [snd] in *. rewrite IH. destruct (latest_stop ends l); reflexivity.
    + destruct (ends c) as [t|].
      * specialize (IH h st (Some t) S). destruct (session _ _ h l) as [[h' rs] ms]. cbn [snd app sent fst] in *. rewrite IH. destruct (latest_stop ends l); reflexivity.
      * destruct c as [c|t o|t o d|b|b|t|t]; [| | |destruct (ah_buffer h)|..];
          match goal with |- context [session _ _ ?x l] => specialize (IH x st sp ltac:(first [exact S|reflexivity])); destruct (session (absn_do A) (@absn_render T V) x l) as [[h' rs] ms] end;
          cbn [snd app sent fst] in *; rewrite IH; destruct (latest_stop ends l); reflexivity.
  - specialize (IH h st sp S). destruct (session _ _ h l) as [[h' rs] ms]. exact IH.
Qed.
Lemma sent_session : forall l h, ah_start h = false -> sent (None, None) (msgs h l) = (started begins (l : list aev), stopped begins ends l).
Proof.
  induction l as [|e l IH]; intros h S; [reflexivity|]. destruct e as [c|q].
  - cbn [started stopped]. pose proof (absn_do_spec h c) as D. rewrite S in D. destruct (begins c) as [[[t o] d]|].
    + pose proof (sent_running l (given h) (Some (t, o, d)) None eq_refl) as X. unfold messages in *. cbn [session]. rewrite D. destruct (session _ _ (given h) l) as [[h' rs] ms]. cbn [snd app sent] in *. rewrite X. destruct (latest_stop ends l); reflexivity.
    + unfold messages in *. cbn [session]. rewrite D. destruct (ends c).
      { specialize (IH h S). destruct (session _ _ h l) as [[h' rs] ms]. exact IH. }
      destruct c as [c|t o|t o d|b|b|t|t]; [| | |destruct (ah_buffer h)|..];
          match goal with |- context [session _ _ ?x l] => specialize (IH x ltac:(first [exact S|reflexivity])); destruct (session (absn_do A) (@absn_render T V) x l) as [[h' rs] ms] end; exact IH.
  - specialize (IH h S). unfold messages in *. cbn [session started stopped]. destruct (session _ _ h l) as [[h' rs] ms]. exact IH.
Qed.
Lemma sent_renderer : forall l s frame s' f' os st sp, absn_run A sr almost_equal almost_zero fuel s frame l = Ok (s', f', os) ->
  a_duration s = match st with Some x => snd x | None => t_MAX A end -> a_stop s = match sp with Some t => t | None => t_MAX A end ->
  a_duration s' = match fst (sent (st, sp) l) with Some x => snd x | None => t_MAX A end /\ a_stop s' = match snd (sent (st, sp) l) with Some t => t | None => t_MAX A end.
Proof.
  assert (K : forall s : @absn T V, a_duration (clamp A s) = a_duration s /\ a_stop (clamp A s) = a_stop s) by (intros s; unfold clamp; destruct (a_buffer s); auto).
  induction l as [|a l IH]; intros s frame s' f' os st sp R D P; [cbn in R; injection R as <- <- <-; auto|].
  destruct a as [t o d|t|b|t|t|b|r d]; cbn [sent absn_run absn_message fst snd] in *.
  7:{ destruct (absn_process A sr almost_equal almost_zero fuel s frame r d) as [[s1 o]| |] eqn:E; try discriminate. cbn [bind fst snd] in R.
      destruct (absn_run A sr almost_equal almost_zero fuel s1 (frame + Z.of_nat RQ) l) as [[[s2 f2] os2]| |] eqn:R2; try discriminate. cbn [bind fst snd] in R. injection R as <- <- <-.
      destruct (process_keeps _ _ _ _ _ _ E) as (_ & _ & K1 & K2). refine (IH _ _ _ _ _ st sp R2 _ _); congruence. }
  6:{ refine (IH _ _ _ _ _ st sp R _ _); destruct (a_buffer s); rewrite ?(proj1 (K _)), ?(proj2 (K _)); assumption. }
  1: refine (IH _ _ _ _ _ (Some (t, o, d)) sp R _ _).
  3: refine (IH _ _ _ _ _ st (Some t) R _ _).
  5: refine (IH _ _ _ _ _ st sp R _ _).
  7: refine (IH _ _ _ _ _ st sp R _ _).
  9: refine (IH _ _ _ _ _ st sp R _ _).
  all: rewrite ?(proj1 (K _)), ?(proj2 (K _)); first [assumption|reflexivity].
Qed.

Hypothesis zero_zero : t_lt A (t_zero A) (t_zero A) = false.
Definition sane (b : @buffer V) : Prop := t_lt A (b_duration A b) (t_zero A) = false /\ t_lt A (b_duration A b) (b_duration A b) = false.
Lemma points_idem : forall b x, (forall b', b = Some b' -> sane b') -> loop_points A b (loop_points A b x) = loop_points A b x.
Proof.
  intros [b|] [[lp s] e] S; [|reflexivity]. destruct (S b eq_refl) as [S1 S2]. cbn [loop_points]. f_equal; [f_equal|].
  - destruct (t_lt A s (t_zero A)) eqn:E1; [rewrite zero_zero, S1; reflexivity|]. destruct (t_lt A (b_duration A b) s) eqn:E2; [rewrite S1, S2; reflexivity|rewrite E1, E2; reflexivity].
  - destruct (t_le A e (t_zero A) || t_lt A (b_duration A b) e) eqn:E; [destruct (t_le A (b_duration A b) (t_zero A) || t_lt A (b_duration A b) (b_duration A b)); reflexivity|rewrite E; reflexivity].
Qed.
Lemma points_start : forall b lp s e t, loop_points A b (lp, s, t) = (lp, snd (fst (loop_points A b (lp, s, e))), snd (loop_points A b (lp, s, t))).
Proof. intros [b|] lp s e t; reflexivity. Qed.
Lemma clamp_points : forall (s : @absn T V), a_buffer (clamp A s) = a_buffer s /\ loop_state (clamp A s) = loop_points A (a_buffer s) (loop_state s).
Proof. intros s. unfold clamp, loop_points. destruct (a_buffer s) as [b|] eqn:B; cbn; auto. Qed.

Definition good_call (e : aev) : Prop := match e with Call (B_set_buffer b) => sane b | _ => True end.
(** the renderer's buffer is the handle's, and its loop points are those of the handle, within the buffer *)
Definition follows (s : @absn T V) (h : @absn_handle T V) : Prop :=
  a_buffer s = ah_buffer h /\ loop_state s = loop_points A (ah_buffer h) (loop_of h) /\ forall b, ah_buffer h = Some b -> sane b.
Lemma follows_message : forall s h m h', follows s h ->
  match m with
  | A_start _ _ _ | A_stop _ => h' = h \/ h' = given h
  | A_loop b => h' = mk_absn_handle (ah_buffer h) b (ah_lstart h) (ah_lend h) (ah_start h)
  | A_lstart t => h' = mk_absn_handle (ah_buffer h) (ah_loop h) t (ah_lend h) (ah_start h)
  | A_lend t => h' = mk_absn_handle (ah_buffer h) (ah_loop h) (ah_lstart h) t (ah_start h)
  | A_buffer b => ah_buffer h = None /\ sane b /\ h' = mk_absn_handle (Some b) (ah_loop h) (ah_lstart h) (ah_lend h) (ah_start h)
  | A_quantum _ _ => False
  end -> follows (absn_message A s m) h'.
Proof.
  intros s h m h' (F1 & F2 & F3) M. assert (N : h' = h \/ h' = given h -> ah_buffer h' = ah_buffer h /\ loop_of h' = loop_of h) by (intros [-> | ->]; auto).
  assert (P : a_loop s = ah_loop h) by (destruct (ah_buffer h); injection F2 as E _ _; exact E).
  assert (D1 : forall lp t, loop_points A (ah_buffer h) (lp, t, a_lend s) = loop_points A (ah_buffer h) (lp, t, ah_lend h)).
  { intros lp t. pose proof (points_idem (ah_buffer h) (lp, t, ah_lend h) F3) as I. assert (X : a_lend s = snd (loop_points A (ah_buffer h) (lp, t, ah_lend h))) by (destruct (ah_buffer h); injection F2 as _ _ E; exact E). rewrite X.
    destruct (ah_buffer h) as [b|]; [|reflexivity]. cbn [loop_points snd] in *. injection I as I1 I2. f_equal. exact I2. }
  assert (D2 : forall lp t, loop_points A (ah_buffer h) (lp, a_lstart s, t) = loop_points A (ah_buffer h) (lp, ah_lstart h, t)).
  { intros lp t. pose proof (points_idem (ah_buffer h) (lp, ah_lstart h, t) F3) as I. assert (X : a_lstart s = snd (fst (loop_points A (ah_buffer h) (lp, ah_lstart h, t)))) by (destruct (ah_buffer h); injection F2 as _ E _; exact E). rewrite X.
    destruct (ah_buffer h) as [b|]; [|reflexivity]. cbn [loop_points fst snd] in *. injection I as I1 I2. f_equal. f_equal. exact I1. }
  unfold follows. destruct m as [t o d|t|b|t|t|b|r d]; cbn [absn_message]; [| | | | | |contradiction].
  - destruct (N M) as [N1 N2]. rewrite N1, N2. match goal with |- context [clamp A ?x] => destruct (clamp_points x) as [-> ->] end. cbn [a_buffer a_loop a_lstart a_lend]. rewrite F1, D1, D2, P. auto.
  - destruct (N M) as [N1 N2]. rewrite N1, N2. match goal with |- context [clamp A ?x] => destruct (clamp_points x) as [-> ->] end. cbn [a_buffer a_loop a_lstart a_lend]. rewrite F1, D1, D2, P. auto.
  - subst h'. cbn [ah_buffer ah_loop ah_lstart ah_lend]. match goal with |- context [clamp A ?x] => destruct (clamp_points x) as [-> ->] end. cbn [a_buffer a_loop a_lstart a_lend]. rewrite F1, D1, D2. auto.
  - subst h'. cbn [ah_buffer ah_loop ah_lstart ah_lend]. match goal with |- context [clamp A ?x] => destruct (clamp_points x) as [-> ->] end. cbn [a_buffer a_loop a_lstart a_lend]. rewrite F1, D1, P. auto.
  - subst h'. cbn [ah_buffer ah_loop ah_lstart ah_lend]. match goal with |- context [clamp A ?x] => destruct (clamp_points x) as [-> ->] end. cbn [a_buffer a_loop a_lstart a_lend]. rewrite F1, D2, P. auto.
  - destruct M as (B & S & ->). rewrite B in *. cbn [loop_points] in F2. rewrite F1. cbn [ah_buffer ah_loop ah_lstart ah_lend].
    match goal with |- context [clamp A ?x] => destruct (clamp_points x) as [-> ->] end. cbn [a_buffer a_loop a_lstart a_lend]. injection F2 as -> -> ->. split; [reflexivity|split; [reflexivity|]]. intros b' [= <-]. exact S.
Qed.

Lemma absn_follows : forall l h s frame s' f' os, Forall good_call (l : list aev) -> follows s h -> absn_run A sr almost_equal almost_zero fuel s frame (msgs h l) = Ok (s', f', os) -> follows s' (after h l).
Proof.
  induction l as [|e l IH]; intros h s frame s' f' os G F R; [cbn in R; injection R as <- <- <-; exact F|].
  pose proof (Forall_inv G) as G1. apply Forall_inv_tail in G. unfold messages, handle_after in *. cbn [session] in *. destruct e as [c|q].
  - assert (X : match absn_do A h c with Ok (h1, [m]) => follows (absn_message A s m) h1 /\ match m with A_quantum _ _ => False | _ => True end | Ok _ => False | _ => True end).
    { rewrite absn_do_spec. destruct (begins c) as [[[t o] d]|]; [destruct (ah_start h); [exact I|split; [|exact I]; apply (follows_message _ h); [exact F|right; reflexivity]]|].
      destruct (ends c) as [t|]; [destruct (ah_start h); [split; [|exact I]; apply (follows_message _ h); [exact F|left; reflexivity]|exact I]|].
      destruct c; try exact I; try (split; [|exact I]; apply (follows_message _ h); [exact F|reflexivity]).
      destruct (ah_buffer h) eqn:B; [exact I|]. split; [|exact I]. apply (follows_message _ h); [exact F|]. auto. }
    destruct (absn_do A h c) as [[h1 ms1]| |].
    + destruct ms1 as [|m [|]]; try contradiction. destruct X as [X Q]. specialize (IH h1 (absn_message A s m) frame s' f' os G X). destruct (session _ _ h1 l) as [[h' rs] ms]. cbn [fst snd app] in *.
      apply IH. destruct m; try contradiction; exact R.
    + specialize (IH h s frame s' f' os G F). destruct (session _ _ h l) as [[h' rs] ms]. exact (IH R).
    + specialize (IH h s frame s' f' os G F). destruct (session _ _ h l) as [[h' rs] ms]. exact (IH R).
  - specialize (IH h). destruct (session _ _ h l) as [[h' rs] ms]. cbn [fst snd] in *. cbn [absn_render absn_run] in R.
    destruct (absn_process A sr almost_equal almost_zero fuel s frame (fst q) (snd q)) as [[s1 o]| |] eqn:P; try discriminate. cbn [bind fst snd] in R.
    destruct (absn_run A sr almost_equal almost_zero fuel s1 (frame + Z.of_nat RQ) ms) as [[[s2 f2] os2]| |] eqn:R2; try discriminate. cbn [bind fst snd] in R. injection R as <- <- <-.
    destruct (process_keeps _ _ _ _ _ _ P) as (K1 & K2 & _). refine (IH s1 _ _ _ _ G _ R2). destruct F as (F1 & F2 & F3). split; [congruence|split; [congruence|exact F3]].
Qed.
End Absn.

(** ** Buffer source without loop, floating point *)
From Flocq Require Import BinarySingleNaN.
From Verif Require Import Float_Model Arith_Real Absn_SafetyProofs.
Section Plain.
Variable M : libm.
Notation A := (ieee M).
Notation aev := (event (@absn_call f64 f32) (f32 * f32)).
Notation msgs := (messages (absn_do A) (@absn_render f64 f32)).
Definition plain_event (e : aev) : Prop := match e with Call (B_set_buffer b) => buffer_ok b | Call (B_set_loop b) => b = false | _ => True end.
Lemma v64_zero : valid A (t_zero A) = true.
Proof. vm_compute. reflexivity. Qed.
Lemma v64_max : valid A (t_MAX A) = true.
Proof. vm_compute. reflexivity. Qed.
Lemma plain_msgs : forall l h, Forall plain_event l -> plain (ah_start h) (msgs h l) /\ absn_quanta (msgs h l) = renders l.
Proof.
  induction l as [|e l IH]; intros h F; [split; [exact I|reflexivity]|]. pose proof (Forall_inv F) as F1. apply Forall_inv_tail in F. unfold messages in *. cbn [session]. destruct e as [c|q].
  - rewrite (absn_do_spec A v64_zero v64_max). change (renders (Call c :: l)) with (renders l).
    assert (B : forall t o d, absn_begin (t_zero A) (t_MAX A) (valid A) c = Some (t, o, d) -> is_finite t = true).
    { intros t o d. assert (X : forall x : f64, valid A x = true -> is_finite x = true) by (intros x Hx; apply andb_true_iff in Hx; exact (proj1 Hx)).
      destruct c as [[x|x|x|x]|x y|x y z| | | |]; cbn [absn_begin begin_time]; try discriminate; destruct (valid A x) eqn:E; cbn [andb]; try discriminate; try (destruct (valid A y); cbn [andb]; try discriminate); try (destruct (valid A z); try discriminate); intros H; injection H; intros; subst; apply X; exact E. }
    destruct (absn_begin _ _ _ c) as [[[t o] d]|].
    { destruct (ah_start h) eqn:S.
      - specialize (IH h F). rewrite S in IH. destruct (session _ _ h l) as [[h' rs] ms]. exact IH.
      - specialize (IH (given h) F). destruct (session _ _ (given h) l) as [[h' rs] ms]. cbn [snd app plain absn_quanta given ah_start] in *. destruct IH as [I1 I2]. split; [|exact I2].
        split; [reflexivity|split; [exact (B t o d eq_refl)|exact I1]]. }
    destruct (absn_end _ c) as [t|].
    { destruct (ah_start h) eqn:S; specialize (IH h F); rewrite S in IH; destruct (session _ _ h l) as [[h' rs] ms]; exact IH. }
    destruct c as [c|t o|t o d|b|b|t|t]; [| | |destruct (ah_buffer h)|..];
      match goal with |- context [session _ _ ?x l] => specialize (IH x F); destruct (session (absn_do A) (@absn_render f64 f32) x l) as [[h' rs] ms] end;
      cbn [snd app plain absn_quanta ah_start] in *; destruct IH as [I1 I2]; (split; [|exact I2]); try exact I1; split; assumption.
  - specialize (IH h F). destruct (session _ _ h l) as [[h' rs] ms]. cbn [snd absn_render plain absn_quanta] in *. destruct IH as [I1 I2]. split; [exact I1|]. rewrite I2. reflexivity.
Qed.
End Plain.
