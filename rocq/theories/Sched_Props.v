(** C72: the control side of the scheduled sources.

    A history is a list of calls of the handle and rendered quanta, in the order in which the renderer sees them.
    The arguments of the calls are any values of f64 (NaN, infinite and negative ones too); a call may panic and
    the user may go on with the handle. *)
From Coq Require Import List Arith Bool ZArith Reals Lia Lra.
From Flocq Require Import Core BinarySingleNaN.
From Verif Require Import Common_Model Float_Model Float_Proofs Float_BoundProofs Float_ErrorProofs Arith_Model Arith_Real Source_Model Absn_Model Source_Spec Source_Proofs Source_ClockProofs Sched_Model Sched_Spec Sched_Proofs Sched_NodeProofs
  Osc_Proofs Osc_ExactProofs Osc_IeeeProofs Absn_SafetyProofs Buffer_ResampleProofs Source_Props.
Import ListNotations.

(** ** The calls that return: valid arguments, one call of start, no call of stop before it *)
Theorem C72_constant_calls : forall T V (A : arith T V) l1 c l2, let valid t := t_finite A t && t_le A (t_zero A) t in
  nth_error (snd (fst (cs_session (V := V) A (l1 ++ Call c :: l2)))) (calls l1) = Some (accepted (begin_time valid) (end_time valid) cs_other l1 c).
Proof.
  intros T V A l1 c l2 valid. pose proof (result_at (cs_do A) (@Quantum T V) l1 c l2 false) as X. rewrite cs_returns in X. exact X.
Qed.
Lemma osc_session_fst : forall T V (A : arith T V) ty wave l, fst (osc_session A ty wave l) = fst (session (osc_do A) (@osc_render T V) (fst (@osc_create T V ty wave)) l).
Proof. intros T V A ty wave l. unfold osc_session. destruct (@osc_create T V ty wave) as [h m]. cbn [fst]. destruct (session _ _ h l) as [[h' rs] ms]. reflexivity. Qed.
Theorem C72_oscillator_calls : forall T V (A : arith T V) ty wave l1 c l2, let valid t := t_finite A t && t_le A (t_zero A) t in
  nth_error (snd (fst (osc_session A ty wave (l1 ++ Call c :: l2)))) (calls l1) = Some (accepted (osc_begin valid) (osc_end valid) osc_other l1 c).
Proof.
  intros T V A ty wave l1 c l2 valid. rewrite osc_session_fst. pose proof (result_at (osc_do A) (@osc_render T V) l1 c l2 (fst (@osc_create T V ty wave))) as X.
  destruct wave as [w|]; cbn [osc_create osc_set_wave fst] in *; rewrite osc_returns in X; exact X.
Qed.
Theorem C72_buffer_calls : forall T V (A : arith T V) buffer looping ls le l1 c l2, let valid t := t_finite A t && t_le A (t_zero A) t in
  valid (t_zero A) = true -> valid (t_MAX A) = true ->
  exists h rs ms, absn_session A buffer looping ls le (l1 ++ Call c :: l2) = Ok (h, rs, ms) /\
    nth_error rs (calls l1) = Some (accepted (absn_begin (t_zero A) (t_MAX A) valid) (absn_end valid) (absn_other buffer) l1 c).
Proof.
  intros T V A buffer looping ls le l1 c l2 valid V0 VM. unfold absn_session, absn_create.
  destruct buffer as [b|]; cbn [bind absn_set_buffer check ah_buffer ah_loop ah_lstart ah_lend ah_start fst snd].
  - match goal with |- context [session _ _ ?h _] => pose proof (result_at (absn_do A) (@absn_render T V) l1 c l2 h) as X; unfold results in X; rewrite absn_returns in X by assumption; destruct (session (absn_do A) (@absn_render T V) h (l1 ++ Call c :: l2)) as [[h' rs] ms] end.
    exists h', rs, ([A_buffer b] ++ ms). split; [reflexivity|exact X].
  - match goal with |- context [session _ _ ?h _] => pose proof (result_at (absn_do A) (@absn_render T V) l1 c l2 h) as X; unfold results in X; rewrite absn_returns in X by assumption; destruct (session (absn_do A) (@absn_render T V) h (l1 ++ Call c :: l2)) as [[h' rs] ms] end.
    exists h', rs, ms. split; [reflexivity|exact X].
Qed.

(** A call that panics changes nothing: the handle and everything the renderer gets are as if it had not been made. *)
Theorem C72_refused_no_effect : forall handle call quantum action (do_call : handle -> call -> res (handle * list action)) (render : quantum -> action) h l1 c l2,
  match do_call (fst (fst (session do_call render h l1))) c with Ok _ => False | _ => True end ->
  fst (fst (session do_call render h (l1 ++ Call c :: l2))) = fst (fst (session do_call render h (l1 ++ l2))) /\
  snd (session do_call render h (l1 ++ Call c :: l2)) = snd (session do_call render h (l1 ++ l2)).
Proof.
  intros handle call quantum action do_call render h l1 c l2 H. apply (refused do_call render l1 c l2 h). unfold returns, handle_after. destruct (do_call _ c); [contradiction|reflexivity|reflexivity].
Qed.

(** ** The sound of a constant source: between the first accepted start and the latest accepted stop, for every history *)
Local Open Scope R_scope.
Definition quanta_ok {V call} (l : list (event call (list V))) : Prop := Forall (fun e => match e with Render o => values_ok o | _ => True end) l.
Theorem C72_constant_exact : forall sr l1 offset l2, let l := l1 ++ Render offset :: l2 in let valid t := t_finite exact t && t_le exact (t_zero exact) t in
  0 < sr -> quanta_ok l -> IZR (128 * Z.of_nat (renders l)) / sr < t_MAX exact ->
  nth_error (map (@o_output R) (snd (cs_run exact sr (cs_new exact) 0 (snd (cs_session exact l))))) (renders l1) =
  Some (map (fun i => if in_time sr (started (begin_time valid) l1) (stopped (begin_time valid) (end_time valid) l1) (128 * Z.of_nat (renders l1) + Z.of_nat i) then value_at 0 offset i else 0) (seq 0 128)).
Proof.
  intros sr l1 offset l2 l valid Hsr Q M.
  assert (E : map (@o_output R) (snd (cs_run exact sr (cs_new exact) 0 (snd (cs_session exact l)))) = expected (in_time sr) 0 None None 0 (snd (cs_session exact l))).
  { apply C23_exact; [exact Hsr|apply (cs_msgs_ok exact (fun _ => True) l false); [auto|exact Q]|].
    change (snd (cs_session exact l)) with (messages (cs_do exact) (@Quantum R R) false l). rewrite cs_quanta. exact M. }
  rewrite E. exact (cs_sound exact (in_time sr) 0 l1 offset l2).
Qed.
Theorem C72_constant_ieee : forall M sr l1 (offset : list f32) l2, let l := l1 ++ Render offset :: l2 in let valid (t : f64) := is_finite t && f64_le f64_zero t in
  rate_ok sr -> quanta_ok l -> IZR (128 * Z.of_nat (renders l)) / B2R (f64_of_f32 sr) <= 8388608 ->
  nth_error (map (@o_output f32) (snd (cs_run (ieee M) sr (cs_new (ieee M)) 0 (snd (cs_session (ieee M) l))))) (renders l1) =
  Some (map (fun i => if in_time_ieee M sr (started (begin_time valid) l1) (stopped (begin_time valid) (end_time valid) l1) (128 * Z.of_nat (renders l1) + Z.of_nat i) then value_at f32_zero offset i else f32_zero) (seq 0 128)).
Proof.
  intros M sr l1 offset l2 l valid Hsr Q Hm.
  assert (E : map (@o_output f32) (snd (cs_run (ieee M) sr (cs_new (ieee M)) 0 (snd (cs_session (ieee M) l)))) = expected (in_time_ieee M sr) f32_zero None None 0 (snd (cs_session (ieee M) l))).
  { apply C23_ieee_partial; [exact Hsr|apply (cs_msgs_ok (ieee M) valid_time l false); [|exact Q]|].
    - intros t Ht. apply andb_true_iff in Ht. exact Ht.
    - change (snd (cs_session (ieee M) l)) with (messages (cs_do (ieee M)) (@Quantum f64 f32) false l). rewrite cs_quanta. exact Hm. }
  rewrite E. exact (cs_sound (ieee M) (in_time_ieee M sr) f32_zero l1 offset l2).
Qed.
(** started with start() (the present time is not after the next quantum's), the source sounds from the first sample of that quantum *)
Theorem C72_start_now : forall M sr (l1 : list (event (@cs_call f64) (list f32))) offset l2 now, let l := l1 ++ Call (S_start now) :: Render offset :: l2 in
  rate_ok sr -> quanta_ok l -> IZR (128 * Z.of_nat (renders l)) / B2R (f64_of_f32 sr) <= 8388608 ->
  (forall t, ~ In (Call (S_start t)) l1) -> (forall t, ~ In (Call (S_start_at t)) l1) -> is_finite now = true -> f64_le f64_zero now = true ->
  f64_le now (block_time (ieee M) sr (128 * Z.of_nat (renders l1))) = true ->
  nth_error (map (@o_output f32) (snd (cs_run (ieee M) sr (cs_new (ieee M)) 0 (snd (cs_session (ieee M) l))))) (renders l1) = Some (map (value_at f32_zero offset) (seq 0 128)).
Proof.
  intros M sr l1 offset l2 now l Hsr Q Hm N1 N2 Fn Pn Le.
  assert (R : renders (l1 ++ [Call (S_start now)]) = renders l1) by (unfold renders; rewrite filter_app, app_length; cbn; lia).
  assert (El : l = (l1 ++ [Call (S_start now)]) ++ Render offset :: l2) by (unfold l; rewrite <- app_assoc; reflexivity).
  clearbody l. subst l. pose proof (C72_constant_ieee M sr (l1 ++ [Call (S_start now)]) offset l2 Hsr Q Hm) as X. cbv zeta in X.  rewrite R in X. rewrite X. f_equal. apply map_ext_in. intros i Hi. apply in_seq in Hi.
  assert (S : started (begin_time (fun t : f64 => is_finite t && f64_le f64_zero t)) (l1 ++ [Call (S_start now)]) = Some now /\
              stopped (begin_time (fun t : f64 => is_finite t && f64_le f64_zero t)) (end_time (fun t : f64 => is_finite t && f64_le f64_zero t)) (l1 ++ [Call (S_start now)]) = None).
  { clear - N1 N2 Fn Pn. induction l1 as [|e l1 IH]; [cbn; rewrite Fn, Pn; auto|].
    assert (I := IH (fun t H => N1 t (or_intror H)) (fun t H => N2 t (or_intror H))). clear IH.
    destruct e as [c|q]; [|exact I]. cbn [app started stopped]. destruct c as [t|t|t|t]; [exfalso; exact (N1 t (or_introl eq_refl))|exfalso; exact (N2 t (or_introl eq_refl))|exact I|exact I]. }
  destruct S as [-> ->]. unfold in_time_ieee. rewrite andb_true_r.
  assert (He : early sr (128 * Z.of_nat (renders l1))).
  { split; [lia|]. eapply Rle_trans; [|exact Hm]. pose proof (S_range sr Hsr). apply Rmult_le_compat_r; [left; apply Rinv_0_lt_compat; lra|]. apply IZR_le.
    unfold renders. rewrite filter_app, app_length. cbn [filter length]. fold (renders (l1 ++ [Call (S_start now)])). rewrite R. unfold renders. lia. }
  rewrite frame_time_split by lia. destruct (block_ieee M sr Hsr _ He) as (Fb & _ & _). destruct (advance_ieee M sr Hsr _ i He ltac:(lia)) as (Fa & _ & Lb).
  apply f64_le_R in Le; [|exact Fn|exact Fb]. replace (f64_le now _) with true; [reflexivity|]. symmetry. apply f64_le_R; [exact Fn|exact Fa|]. lra.
Qed.

(** ** Oscillator *)
(** The type the handle reports is the latest valid choice, and the renderer plays that waveform: the periodic wave once there is one. *)
Theorem C72_oscillator_waveform : forall T V (A : arith T V) sr table ty wave l,
  let first := match wave with Some _ => Custom | None => ty end in
  oh_type (fst (fst (osc_session A ty wave l))) = chosen_type first l /\
  forall s f os, osc_run A sr table (osc_new A ty) 0 (snd (osc_session A ty wave l)) = Ok (s, f, os) -> os_type s = chosen_type first l /\ os_wave s = chosen_wave wave l.
Proof.
  intros T V A sr table ty wave l first. split.
  - rewrite osc_session_fst. pose proof (osc_after A l (fst (@osc_create T V ty wave))) as X. unfold handle_after in X. rewrite X. cbn [oh_type]. unfold first. destruct wave; reflexivity.
  - intros s f os R. assert (E : snd (osc_session A ty wave l) = snd (@osc_create T V ty wave) ++ messages (osc_do A) (@osc_render T V) (fst (@osc_create T V ty wave)) l).
    { unfold osc_session, messages. destruct (@osc_create T V ty wave) as [h m]. cbn [fst snd]. destruct (session _ _ h l) as [[h' rs] ms]. reflexivity. }
    rewrite E in R. clear E. destruct wave as [w|]; cbn [osc_create osc_set_wave fst snd app osc_run] in R.
    + pose proof (fun E => osc_follows A sr table l _ _ _ _ _ _ E R) as X. destruct (X eq_refl) as [X1 X2]. rewrite X1, X2, osc_after. split; reflexivity.
    + pose proof (fun E => osc_follows A sr table l _ _ _ _ _ _ E R) as X. destruct (X eq_refl) as [X1 X2]. rewrite X1, X2, osc_after. split; reflexivity.
Qed.
(** once custom, always custom *)
Theorem C72_custom_stays : forall T V (A : arith T V) ty wave l1 w l2, oh_type (fst (fst (osc_session A ty wave (l1 ++ Call (O_set_wave w) :: l2)))) = Custom.
Proof.
  intros T V A ty wave l1 w l2. rewrite osc_session_fst. pose proof (osc_after A (l1 ++ Call (O_set_wave w) :: l2) (fst (@osc_create T V ty wave))) as X. unfold handle_after in X. rewrite X. cbn [oh_type]. clear X.
  generalize (oh_type (fst (@osc_create T V ty wave))). induction l1 as [|e l1 IH]; intros t; [reflexivity|]. destruct e as [c|q]; [|apply IH]. destruct c; cbn [app chosen_type]; [apply IH|apply IH|reflexivity].
Qed.

(** Whatever the calls, the renderer of an oscillator never panics (floating point; periodic waves have 2^k samples, the frequency
    is finite and not negative, see C24; the options with type custom have a periodic wave). *)
Definition osc_event_ok (M : libm) (e : event (@osc_call f64 f32) (list f32 * list f32)) : Prop :=
  match e with
  | Render (freq, detune) => values_ok freq /\ values_ok detune /\ forall j, (j < 128)%nat -> freq_ok (value_at f32_zero freq j) (value_at f32_zero detune j)
  | Call (O_set_wave w) => wave64 w
  | _ => True
  end.
Theorem C72_oscillator_safe : forall M sr (table : list f32) ty wave l, rate_ok sr ->
  (forall x : f64, is_finite x = true -> Rabs (B2R x) <= 128 -> is_finite (m64_exp2 M x) = true /\ 0 <= B2R (m64_exp2 M x) <= bpow radix2 129) ->
  wave64 table -> match wave with Some w => wave64 w | None => ty <> Custom end -> Forall (osc_event_ok M) l -> IZR (128 * Z.of_nat (renders l)) / B2R (f64_of_f32 sr) <= 8388608 ->
  exists s f os, osc_run (ieee M) sr table (osc_new (ieee M) ty) 0 (snd (osc_session (ieee M) ty wave l)) = Ok (s, f, os) /\ length os = renders l /\ Forall (fun o => length (o_output o) = 128%nat) os.
Proof.
  intros M sr table ty wave l Hsr He Ht Hw Hl Hm. set (h := fst (@osc_create f64 f32 ty wave)).
  assert (E : snd (osc_session (ieee M) ty wave l) = snd (@osc_create f64 f32 ty wave) ++ messages (osc_do (ieee M)) (@osc_render f64 f32) h l).
  { unfold osc_session, messages, h. destruct (@osc_create f64 f32 ty wave) as [h0 m]. cbn [fst snd]. destruct (session _ _ h0 l) as [[h' rs] ms]. reflexivity. }
  destruct (osc_msgs_ok (ieee M) wave64 freq_ok time_ok l h) as [K1 K2].
  { intros t V. apply andb_true_iff in V. exact (proj1 V). }
  { eapply Forall_impl; [|exact Hl]. intros [c|[freq detune]]; [destruct c; auto|]. intros X. exact X. }
  rewrite E. clear E. destruct wave as [w|]; cbn [osc_create osc_set_wave snd app].
  - destruct (C24_ieee_partial M sr table Sine (O_wave w :: messages (osc_do (ieee M)) (@osc_render f64 f32) h l) Hsr He Ht) as (s & f & os & R & _ & L & F).
    + discriminate.
    + constructor; [exact Hw|exact K1].
    + change (osc_quanta (O_wave w :: messages (osc_do (ieee M)) (@osc_render f64 f32) h l)) with (osc_quanta (messages (osc_do (ieee M)) (@osc_render f64 f32) h l)). rewrite K2. exact Hm.
    + exists s, f, os. split; [exact R|split; [|exact F]]. rewrite L. exact K2.
  - destruct (C24_ieee_partial M sr table ty (messages (osc_do (ieee M)) (@osc_render f64 f32) h l) Hsr He Ht Hw K1) as (s & f & os & R & _ & L & F); [rewrite K2; exact Hm|].
    exists s, f, os. split; [exact R|split; [|exact F]]. rewrite L. exact K2.
Qed.

(** ** Buffer source *)
(** The renderer has the buffer that was set first, the loop attributes that were set last (the points within the buffer), the
    duration of the accepted start and the time of the latest accepted stop. *)
Theorem C72_buffer_state : forall M sr almost_equal almost_zero fuel buffer looping ls le l h rs ms s f os, let A := ieee M in let valid (t : f64) := is_finite t && f64_le f64_zero t in
  let begins := absn_begin f64_zero f64_MAX valid in
  match buffer with Some b => buffer_ok b | None => True end -> Forall (fun e => match e with Call (B_set_buffer b) => buffer_ok b | _ => True end) l ->
  absn_session A buffer looping ls le l = Ok (h, rs, ms) -> absn_run A sr almost_equal almost_zero fuel (absn_new A looping ls le) 0 ms = Ok (s, f, os) ->
  ah_buffer h = given_buffer buffer l /\ (ah_loop h, ah_lstart h, ah_lend h) = latest_loop (looping, ls, le) l /\
  a_buffer s = ah_buffer h /\ (a_loop s, a_lstart s, a_lend s) = loop_points A (ah_buffer h) (ah_loop h, ah_lstart h, ah_lend h) /\
  a_duration s = match started begins l with Some (_, _, d) => d | None => f64_MAX end /\
  a_stop s = match stopped begins (absn_end valid) l with Some t => t | None => f64_MAX end.
Proof.
  intros M sr ae az fuel buffer looping ls le l h rs ms s f os A vld begins Hb Hl S R.
  assert (Z : t_lt A (t_zero A) (t_zero A) = false) by (vm_compute; reflexivity).
  assert (Sane : forall b, buffer_ok b -> sane A b).
  { intros b [Rb (L & Sh & Lb)]. destruct (rate_val _ Rb) as [Fr Br]. destruct (f64_of_Z_exact (Z.of_nat L)) as [E1 F1]; [rewrite Z.abs_eq by lia; lia|].
    unfold sane, b_duration. rewrite (shape_length _ _ Sh). cbn [A ieee t_lt t_div t_of_Z t_of_v t_zero].
    set (d := f64_div (f64_of_Z (Z.of_nat L)) (f64_of_f32 (b_rate b))).
    assert (D : is_finite d = true /\ 0 <= B2R d).
    { destruct (div_between 53 1024 f64_prec f64_emax (f64_of_Z (Z.of_nat L)) (f64_of_f32 (b_rate b)) 0 (2 ^ 30) F1) as (F4 & _ & B4); [lra|lia|cbn; lia| |split; [exact F4|exact (proj1 B4)]].
      rewrite E1. split; [apply Rmult_le_pos; [apply IZR_le; lia|left; apply Rinv_0_lt_compat; lra]|].
      apply Rle_trans with (IZR (Z.of_nat L) * 1); [apply Rmult_le_compat_l; [apply IZR_le; lia|]; rewrite <- Rinv_1; apply Rinv_le; lra|]. rewrite Rmult_1_r. apply IZR_le. exact Lb. }
    clearbody d. destruct D as [Fd Pd]. split.
    - destruct (f64_lt d (f64_of_Z 0)) eqn:E; [|reflexivity]. apply f64_lt_R in E; [|exact Fd|reflexivity]. change (B2R (f64_of_Z 0)) with 0 in E. lra.
    - destruct (f64_lt d d) eqn:E; [|reflexivity]. apply f64_lt_R in E; [lra|exact Fd|exact Fd]. }
  set (h0 := mk_absn_handle buffer looping ls le false). set (m := match buffer with Some b => [@A_buffer f64 f32 b] | None => [] end).
  assert (E : (h, rs, ms) = (handle_after (absn_do A) (@absn_render f64 f32) h0 l, results (absn_do A) (@absn_render f64 f32) h0 l, m ++ messages (absn_do A) (@absn_render f64 f32) h0 l)).
  { unfold absn_session, absn_create, absn_set_buffer in S. unfold h0, m. destruct buffer as [b|]; cbn [bind check ah_buffer ah_loop ah_lstart ah_lend ah_start fst snd] in S;
      rewrite session_parts in S; injection S as <- <- <-; reflexivity. }
  injection E as -> -> ->. pose proof (absn_after A (v64_zero M) (v64_max M) l h0) as X. cbv zeta in X.
  assert (G : Forall (good_call A) l). { eapply Forall_impl; [|exact Hl]. intros [c|q]; [|auto]. destruct c; auto. apply Sane. }
  set (s0 := match buffer with Some b => absn_message A (absn_new A looping ls le) (A_buffer b) | None => absn_new A looping ls le end).
  assert (R0 : absn_run A sr ae az fuel s0 0 (messages (absn_do A) (@absn_render f64 f32) h0 l) = Ok (s, f, os)) by (unfold s0, m in *; destruct buffer; exact R).
  assert (F0 : follows A s0 h0).
  { unfold s0. destruct buffer as [b|]; [|split; [reflexivity|split; [reflexivity|discriminate]]].
    apply (follows_message A Z _ (mk_absn_handle None looping ls le false)); [split; [reflexivity|split; [reflexivity|discriminate]]|]. split; [reflexivity|split; [apply Sane; exact Hb|reflexivity]]. }
  pose proof (absn_follows A (v64_zero M) (v64_max M) sr ae az fuel Z l h0 s0 0 s f os G F0 R0) as (W1 & W2 & _).
  destruct (sent_renderer A sr ae az fuel _ s0 0 s f os None None R0) as [D1 D2].
  { unfold s0. destruct buffer as [b|]; reflexivity. }
  { unfold s0. destruct buffer as [b|]; reflexivity. }
  rewrite (sent_session A (v64_zero M) (v64_max M) l h0 eq_refl) in D1, D2. cbn [fst snd] in D1, D2.
  split; [rewrite X; reflexivity|]. split; [rewrite X; cbn [ah_loop ah_lstart ah_lend h0]; destruct (latest_loop (looping, ls, le) l) as [[x1 x2] x3]; reflexivity|].
  split; [exact W1|]. split; [exact W2|]. split; [|exact D2]. rewrite D1.
  match goal with |- match ?a with _ => _ end = match ?b with _ => _ end => change b with a; destruct a as [[[t o] d]|]; reflexivity end.
Qed.

(** Whatever the calls, the renderer of a buffer source that does not loop never panics (floating point). *)
Theorem C72_buffer_safe : forall M sr almost_equal almost_zero fuel buffer ls le l, rate_ok sr ->
  match buffer with Some b => buffer_ok b | None => True end -> Forall plain_event l -> early sr (128 * Z.of_nat (renders l)) ->
  exists h rs ms s os, absn_session (ieee M) buffer false ls le l = Ok (h, rs, ms) /\ absn_run (ieee M) sr almost_equal almost_zero fuel (absn_new (ieee M) false ls le) 0 ms = Ok (s, (128 * Z.of_nat (renders l))%Z, os) /\ length os = renders l.
Proof.
  intros M sr ae az fuel buffer ls le l Hsr Hb Hl He. set (h0 := mk_absn_handle buffer false ls le false). destruct (plain_msgs M l h0 Hl) as [P Q].
  set (m := match buffer with Some b => [@A_buffer f64 f32 b] | None => [] end). set (ms := m ++ messages (absn_do (ieee M)) (@absn_render f64 f32) h0 l).
  assert (Pm : plain false ms) by (unfold ms, m; destruct buffer; [split; [exact Hb|exact P]|exact P]).
  assert (Qm : absn_quanta ms = renders l) by (unfold ms, m; destruct buffer; exact Q).
  destruct (safe_run M sr Hsr ae az fuel ms ls le Pm) as (s & os & R & L); [rewrite Qm; exact He|].
  exists (handle_after (absn_do (ieee M)) (@absn_render f64 f32) h0 l), (results (absn_do (ieee M)) (@absn_render f64 f32) h0 l), ms, s, os. split; [|rewrite Qm in *; auto].
  unfold absn_session, absn_create, absn_set_buffer, ms, m, h0. destruct buffer as [b|]; cbn [bind check ah_buffer ah_loop ah_lstart ah_lend ah_start fst snd]; rewrite session_parts; reflexivity.
Qed.

Print Assumptions C72_constant_calls. Print Assumptions C72_oscillator_calls. Print Assumptions C72_buffer_calls. Print Assumptions C72_refused_no_effect.
Print Assumptions C72_constant_exact. Print Assumptions C72_constant_ieee. Print Assumptions C72_start_now.
Print Assumptions C72_oscillator_waveform. Print Assumptions C72_custom_stays. Print Assumptions C72_oscillator_safe. Print Assumptions C72_buffer_state. Print Assumptions C72_buffer_safe.

(** ** Examples *)
Definition at_ (n : Z) : f64 := f64_lit n (-15).
(** stop before start, invalid start times, start, start again, invalid stop, two stops *)
Definition a_history : list (event (@cs_call f64) (list f32)) :=
  [Call (S_stop_at (at_ 3)); Render [one32]; Call (S_start_at (B754_nan : f64)); Call (S_start_at (at_ (-1))); Call (S_start_at (at_ 130)); Call (S_start (at_ 128)); Render [one32];
   Call (S_stop_at (at_ 150)); Call (S_stop_at (B754_nan : f64)); Call (S_stop_at (at_ 384)); Render [one32]; Render [one32]].
Example a_history_calls : snd (fst (cs_session (ieee libm_one) a_history)) = [false; false; false; true; false; true; false; true].
Proof. vm_compute. reflexivity. Qed.
Example a_history_sound :
  map (fun o => length (filter (fun v => negb (f32_eq v f32_zero)) (o_output o))) (snd (cs_run (ieee libm_one) (f32_of_Z 32768) (cs_new (ieee libm_one)) 0 (snd (cs_session (ieee libm_one) a_history)))) = [0; 126; 128; 0]%nat.
Proof. vm_compute. reflexivity. Qed.
Example a_history_ok : quanta_ok a_history /\ IZR (128 * Z.of_nat (renders a_history)) / B2R (f64_of_f32 k44) <= 8388608.
Proof.
  split; [unfold quanta_ok, a_history; repeat (constructor; [first [exact I|left; reflexivity]|]); constructor|]. change (renders a_history) with 4%nat. rewrite k44_val. change (IZR (128 * Z.of_nat 4)) with 512. lra.
Qed.
(** the type custom is refused; after the periodic wave the type stays custom *)
Definition an_osc_history : list (event (@osc_call f64 f32) (list f32 * list f32)) :=
  [Call (O_set_type Square); Call (O_set_type Custom); Call (O_sched (S_start f64_zero)); Render ([f32_of_Z 440], [f32_zero]); Call (O_set_wave (repeat one32 64)); Call (O_set_type Sine); Render ([f32_of_Z 440], [f32_zero])].
Example an_osc_history_calls : fst (osc_session (ieee libm_one) Triangle None an_osc_history) = (mk_osc_handle Custom true, [true; false; true; true; true]).
Proof. vm_compute. reflexivity. Qed.
Example an_osc_history_ok : Forall (osc_event_ok libm_one) an_osc_history.
Proof.
  assert (Q : osc_event_ok libm_one (Render ([f32_of_Z 440], [f32_zero]))).
  { split; [left; reflexivity|split; [left; reflexivity|]]. intros j _. cbn [value_at]. destruct (Float_BoundProofs.of_Z_exact 24 128 f32_prec f32_emax 440) as [E1 E2]; [cbn; lia|].
    split; [exact E2|split]; [|split; [reflexivity|]].
    - replace (B2R (f32_of_Z 440)) with 440 by (symmetry; exact E1). lra.
    - change (B2R f32_zero) with 0. rewrite Rabs_R0. lra. }
  unfold an_osc_history. repeat (constructor; [first [exact I|exact Q|exists 6%Z; split; [lia|reflexivity]]|]). constructor.
Qed.
(** the buffer is set once; the loop end is after the end of the buffer *)
Definition two (v : Z) : @buffer f32 := mk_buffer [[f32_of_Z v; f32_of_Z v]] (f32_of_Z 32768).
Definition a_buffer_history : list (event (@absn_call f64 f32) (f32 * f32)) :=
  [Call (B_set_loop_end (f64_of_Z 9)); Call (B_start_duration f64_zero (B754_nan : f64) f64_zero); Call (B_start_offset f64_zero f64_zero); Call (B_set_buffer (two 1)); Call (B_set_buffer (two 2)); Render (one32, f32_zero); Call (B_sched (S_stop (f64_of_Z 1)))].
Example a_buffer_history_calls : match absn_session (ieee libm_one) None false f64_zero f64_zero a_buffer_history with Ok (h, rs, _) => rs | _ => [] end = [true; false; true; true; false; true].
Proof. vm_compute. reflexivity. Qed.
Example a_buffer_history_points :
  match absn_session (ieee libm_one) None false f64_zero f64_zero a_buffer_history with
  | Ok (h, _, ms) => match absn_run (ieee libm_one) (f32_of_Z 32768) (fun _ _ => false) (fun _ => false) 10 (absn_new (ieee libm_one) false f64_zero f64_zero) 0 ms with
                     | Ok (s, _, os) => f64_eq (ah_lend h) (f64_of_Z 9) && f64_eq (a_lend s) (at_ 2) && match a_buffer s with Some b => match b_channels b with [[v; _]] => f32_eq v one32 | _ => false end | None => false end
                     | _ => false end
  | _ => false
  end = true.
Proof. vm_compute. reflexivity. Qed.
Example a_buffer_history_ok : Forall plain_event a_buffer_history.
Proof.
  assert (B : forall v, buffer_ok (two v)). { intros v. split; [vm_compute; reflexivity|]. exists 2%nat. split; [|cbn; lia]. split; [discriminate|repeat constructor]. }
  unfold a_buffer_history. repeat (constructor; [first [exact I|apply B]|]). constructor.
Qed.
