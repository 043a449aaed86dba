(** The context and its output device. *)
From Coq Require Import List Arith Bool ZArith String Reals Lia.
From Flocq Require Import BinarySingleNaN.
From Verif Require Import Common_Model Float_Model Buffer_Model Device_Model Device_Spec Device_IdProofs Device_SizeProofs.
Import ListNotations.
Open Scope Z_scope.

Lemma bind_ok : forall A B (r : res A) (f : A -> res B) b, bind r f = Ok b -> exists a, r = Ok a /\ f a = Ok b.
Proof. intros A B [a| |] f b; cbn; try discriminate. intros H. exists a. auto. Qed.

Section Hash.
Variable hash : kind -> string -> Z -> Z -> Z.

Lemma build_cpal_ok : forall h o b, build_output_cpal hash h o = Ok (inr b) ->
  exists d s, b_stream b = Some (d, s) /\ b_sink b = o_sink o /\ as_asked o d s /\ fits b /\
    select hash h AudioOutput (h_default_out h) (o_sink o) = Ok (inr d) /\ d_plays d = true.
Proof.
  intros h o b H. unfold build_output_cpal in H.
  apply attempt_inr in H. destruct H as (d & Ed & H). apply attempt_inr in H. destruct H as (nm & _ & H).
  apply attempt_inr in H. destruct H as (c & Ec & H). cbv zeta in H.
  apply bind_ok in H. destruct H as (rate & Er & H). apply bind_ok in H. destruct H as (size & Es & H).
  apply attempt_inr in H. destruct H as (s & E & H).
  destruct (d_plays d) eqn:Ep; [|discriminate]. injection H as <-.
  assert (d_out d = Some c) as Eo. { unfold or_error in Ec. destruct (d_out d); [injection Ec as ->; reflexivity | discriminate]. }
  assert (s_channels s = Z.min (f_channels c) 32) as Ch.
  { destruct (d_accepts d _) in E; [injection E as <-; reflexivity|]. destruct (d_accepts d _) in E; [injection E as <-; reflexivity | discriminate]. }
  exists d, s. cbn [b_stream b_sink].
  split; [reflexivity|]. split; [reflexivity|]. split; [|split; [|split; [exact Ed | exact Ep]]].
  - exists c, rate, size. split; [exact Eo|]. split.
    + unfold chosen_rate in Er. destruct (o_rate o); [|injection Er as ->; reflexivity]. apply bind_ok in Er. destruct Er as (u & Eu & Er). injection Er as <-. apply valid_rate_u32. destruct (is_valid_sample_rate f); [reflexivity|discriminate].
    + split; [exact Es|]. cbv zeta. unfold default_stream in E.
      destruct (d_accepts d (mk_stream (Z.min (f_channels c) 32) rate (Some size))) eqn:Ea.
      * injection E as <-. split; [left; reflexivity | exact Ea].
      * destruct (d_accepts d (mk_stream (Z.min (f_channels c) 32) (f_rate c) None)) eqn:Ea'; [|discriminate].
        injection E as <-. split; [right; split; [reflexivity | reflexivity] | exact Ea'].
  - unfold fits. cbn [b_renderer b_rate b_channels b_stream]. rewrite Ch. auto.
Qed.
Lemma build_ok : forall h o b, build_output hash h o = Ok (inr b) ->
  b_sink b = o_sink o /\ fits b /\
  match b_stream b with
  | Some (d, s) => as_asked o d s /\ select hash h AudioOutput (h_default_out h) (o_sink o) = Ok (inr d)
  | None => b_channels b = 32 /\ b_rate b = match o_rate o with Some r => r | None => f32_lit 48000 0 end
  end.
Proof.
  intros h o b. unfold build_output. destruct (o_sink o) eqn:Es.
  - intros H. destruct (build_cpal_ok h o b H) as (d & s & -> & E & A & F & S & _). rewrite Es in *. auto.
  - intros [= <-]. unfold build_output_none, fits. cbn [b_sink b_renderer b_rate b_channels b_stream].
    split; [reflexivity|]. split; [split; reflexivity | split; reflexivity].
  - intros H. destruct (build_cpal_ok h o b H) as (d & s & -> & E & A & F & S & _). rewrite Es in *. auto.
Qed.

Lemma new_ok : forall h h' o x, try_new hash h h' o = Ok (inr x) ->
  x_rate x = b_rate (x_backend x) /\ x_channels x = b_channels (x_backend x) /\ x_graph x = true /\ x_state x = Running /\
  b_sink (x_backend x) = o_sink o /\ fits (x_backend x) /\ 
  match b_stream (x_backend x) with Some (d, s) => as_asked o d s | None => x_rate x = match o_rate o with Some r => r | None => f32_lit 48000 0 end end.
Proof.
  intros h h' o x H. unfold try_new in H. apply bind_ok in H. destruct H as (v & _ & H). destruct v; [|discriminate].
  destruct (match o_rate o with Some r => is_valid_sample_rate r | None => true end); [|discriminate].
  apply attempt_inr in H. destruct H as (b & E & H). injection H as <-. cbn [x_rate x_backend x_channels x_graph x_state].
  destruct (build_ok h' o b E) as (S & F & M). repeat (split; [first [reflexivity | assumption]|]).
  destruct (b_stream b) as [[d s]|]; apply M.
Qed.

Lemma not_sink : forall h o b, build_output hash h o = Ok (inl b) -> b <> E_sink /\ b <> E_rate.
Proof.
  intros h o b. unfold build_output. 
  assert (build_output_cpal hash h o = Ok (inl b) -> b <> E_sink /\ b <> E_rate) as G.
  { unfold build_output_cpal. intros H.
    assert (forall s e, select hash h AudioOutput (h_default_out h) s = Ok (inl e) -> e <> E_sink /\ e <> E_rate) as S.
    { intros s e. unfold select, or_error. destruct s.
      - destruct (h_default_out h); cbn; [discriminate | intros [= <-]; split; discriminate].
      - destruct (h_default_out h); cbn; [discriminate | intros [= <-]; split; discriminate].
      - unfold attempt. destruct (device_for_id hash h AudioOutput id) as [[e'|od]| |] eqn:E; cbn [bind]; try discriminate.
        + intros [= <-]. unfold device_for_id, or_error, attempt in E. destruct (h_out h) as [ds|]; cbn [bind fine fail] in E.
          * revert E. generalize (@nil Z). induction ds as [|d ds IH]; intros seen; cbn [lookup_loop]; [discriminate|].
            destruct (default_of AudioOutput d); [|apply IH]. unfold attempt, or_error. destruct (d_name d); cbn [bind fine fail].
            -- destruct (stable_id _ _ _ _ _); cbn [bind]; try discriminate. destruct (_ =? _); [discriminate | apply IH].
            -- intros [= <-]. split; discriminate.
          * injection E as <-. split; discriminate.
        + destruct od; [discriminate|]. destruct (h_default_out h); cbn; [discriminate | intros [= <-]; split; discriminate]. }
    unfold attempt at 1 in H. destruct (select hash h AudioOutput (h_default_out h) (o_sink o)) as [[e|d]| |] eqn:E; cbn [bind] in H; try discriminate.
    - injection H as <-. exact (S _ _ E).
    - unfold attempt, or_error in H. destruct (d_name d); cbn [bind fine fail] in H; [|injection H as <-; split; discriminate].
      destruct (d_out d); cbn [bind fine fail] in H; [|injection H as <-; split; discriminate].
      destruct (chosen_rate _ _); cbn [bind] in H; try discriminate. destruct (clamped_size _ _ _); cbn [bind] in H; try discriminate.
      destruct (d_accepts d _) in H; cbn [bind fine fail] in H.
      + destruct (d_plays d); [discriminate | injection H as <-; split; discriminate].
      + destruct (d_accepts d _) in H; cbn [bind fine fail] in H; [|injection H as <-; split; discriminate].
        destruct (d_plays d); [discriminate | injection H as <-; split; discriminate]. }
  destruct (o_sink o); [exact G | discriminate | exact G].
Qed.
Lemma refused_same : forall h h' x s x', set_sink hash h h' x s = Ok (Some E_sink, x') -> x' = x.
Proof.
  intros h h' x s x' H. unfold set_sink in H. destruct (sink_eqb _ _); [discriminate|].
  apply bind_ok in H. destruct H as (v & _ & H). destruct (negb v); [injection H as <-; reflexivity|].
  destruct (x_state x); try discriminate; (destruct (negb (x_graph x)); [discriminate|];
    apply bind_ok in H; destruct H as (r & E & H); destruct r as [e|b]; [|discriminate]; injection H as -> _;
    destruct (not_sink _ _ _ E) as [N _]; contradiction).
Qed.

(** ** Histories *)
Lemma step_facts : forall x o e x', step hash x o = Ok (e, x') -> fits (x_backend x) ->
  fits (x_backend x') /\ x_rate x' = x_rate x /\ x_channels x' = x_channels x.
Proof.
  intros x o e x' H F. destruct o as [h h' s | | |]; cbn [step] in H.
  - unfold set_sink in H. destruct (sink_eqb _ _); [injection H as <- <-; auto|].
    apply bind_ok in H. destruct H as (v & _ & H). destruct (negb v); [injection H as <- <-; auto|].
    destruct (x_state x); [| |injection H as <- <-; auto];
      (destruct (negb (x_graph x)); [discriminate|]; apply bind_ok in H; destruct H as (r & E & H); destruct r as [e'|b]; injection H as <- <-; cbn; [auto|];
       apply build_ok in E; destruct E as (_ & Fb & _); auto).
  - apply bind_ok in H. destruct H as (y & E & H). injection H as <- <-. unfold resume in E.
    destruct (x_state x); [destruct (x_graph x); [injection E as <-; auto | discriminate] | injection E as <-; auto | injection E as <-; auto].
  - apply bind_ok in H. destruct H as (y & E & H). injection H as <- <-. unfold suspend in E.
    destruct (x_state x); [injection E as <-; auto | destruct (x_graph x); [injection E as <-; auto | discriminate] | injection E as <-; auto].
  - injection H as <- <-. auto.
Qed.
Lemma run_facts : forall ops x x', run hash x ops = Ok x' -> fits (x_backend x) ->
  fits (x_backend x') /\ x_rate x' = x_rate x /\ x_channels x' = x_channels x.
Proof.
  induction ops as [|o ops IH]; intros x x' H F; cbn [run] in H.
  - injection H as <-. auto.
  - apply bind_ok in H. destruct H as ([e y] & E & H). destruct (step_facts _ _ _ _ E F) as (Fy & Ry & Cy).
    destruct (IH y x' H Fy) as (A & B & C). split; [exact A|]. split; [rewrite B; exact Ry | rewrite C; exact Cy].
Qed.

(** ** Well-behaved hosts *)
Lemma sink_eqb_eq : forall a b, sink_eqb a b = true <-> a = b.
Proof. intros [| |i] [| |j]; cbn; try (split; [discriminate | congruence]); try tauto. rewrite Z.eqb_eq. split; congruence. Qed.
Lemma listed_In : forall k id l, listed k id l = true <-> exists e, In e l /\ i_kind e = k /\ i_id e = id.
Proof.
  intros k id l. unfold listed. rewrite existsb_exists. split.
  - intros (e & H & E). apply andb_true_iff in E. destruct E as [E1 E2]. exists e. rewrite <- kind_eqb_eq, <- Z.eqb_eq. auto.
  - intros (e & H & E1 & E2). exists e. split; [exact H|]. apply andb_true_iff. rewrite kind_eqb_eq, Z.eqb_eq. auto.
Qed.
(** what an id stands for *)
Lemma lookup_listed : forall h l k id, tells_apart hash h -> try_enumerate hash h = Ok (inr l) ->
  if listed k id l
  then exists i d e, nth_error (devices h) i = Some (k, d) /\ nth_error l i = Some e /\ i_id e = id /\ device_for_id hash h k id = Ok (inr (Some d))
  else device_for_id hash h k id = Ok (inr None).
Proof.
  intros h l k id HA E. destruct (listed k id l) eqn:L.
  - apply listed_In in L. destruct L as (e & Hin & Ek & Ei). apply In_nth_error in Hin. destruct Hin as [i Hi].
    destruct (enumerate_ids hash h l HA E) as [Hl Hn].
    assert (exists kd, nth_error (devices h) i = Some kd) as [[k' d] Hd].
    { destruct (nth_error (devices h) i) eqn:N; [eexists; reflexivity|]. apply nth_error_None in N. rewrite <- Hl in N. apply nth_error_None in N. congruence. }
    destruct (Hn i k' d Hd) as (name & c & _ & _ & Hi'). rewrite Hi in Hi'. injection Hi' as ->. cbn [i_kind] in Ek. subst k'.
    exists i, d. eexists. split; [exact Hd|]. split; [exact Hi|]. split; [exact Ei|]. rewrite <- Ei.
    exact (enumerate_selects hash h l i k d _ HA E Hd Hi).
  - apply (enumerate_misses hash h l k id HA E). intros e Hin Ek Ei.
    assert (listed k id l = true) by (apply listed_In; exists e; auto). congruence.
Qed.
Lemma select_works : forall rate h s, well_behaved hash rate h -> s <> S_none ->
  exists d, select hash h AudioOutput (h_default_out h) s = Ok (inr d) /\ works rate d.
Proof.
  intros rate h s (HA & [l El] & (d0 & Ed & Wd) & HW) Hs. unfold select. rewrite Ed. destruct s as [| |id].
  - exists d0. split; [reflexivity | exact Wd].
  - contradiction.
  - pose proof (lookup_listed h l AudioOutput id HA El) as G. destruct (listed AudioOutput id l).
    + destruct G as (i & d & e & Hd & _ & _ & G). rewrite G. exists d. split; [reflexivity|]. apply HW. eapply nth_error_In. exact Hd.
    + rewrite G. exists d0. split; [reflexivity | exact Wd].
Qed.
Lemma rate_valid : forall r n, whole r n -> is_valid_sample_rate r = true.
Proof.
  intros r n (F & E & H). unfold is_valid_sample_rate. apply andb_true_iff.
  assert (forall x y : f32, is_finite x = true -> is_finite y = true -> (B2R x <= B2R y)%R -> f32_le x y = true) as G.
  { intros x y Fx Fy L. unfold f32_le. rewrite Bleb_correct by assumption. apply Raux.Rle_bool_true. exact L. }
  assert (B2R MIN_SAMPLE_RATE = IZR 3000 /\ is_finite MIN_SAMPLE_RATE = true) as [E1 F1] by (apply (Float_BoundProofs.of_Z_exact 24 128 f32_prec f32_emax 3000); cbn; lia).
  assert (B2R MAX_SAMPLE_RATE = IZR 768000 /\ is_finite MAX_SAMPLE_RATE = true) as [E2 F2] by (apply (Float_BoundProofs.of_Z_exact 24 128 f32_prec f32_emax 768000); cbn; lia).
  split; apply G; try assumption; rewrite ?E1, ?E2, E; apply IZR_le; lia.
Qed.
Lemma build_works : forall n r h s, whole r n -> well_behaved hash n h ->
  exists b, build_output hash h (mk_options Interactive (Some r) s) = Ok (inr b) /\ b_rate b = r.
Proof.
  intros n r h s W H. unfold build_output. cbn [o_sink].
  assert (s <> S_none -> exists b, build_output_cpal hash h (mk_options Interactive (Some r) s) = Ok (inr b) /\ b_rate b = r) as G.
  { intros Hs. destruct (select_works n h s H Hs) as (d & Sd & Nd & Pd & c & Ec & Hsz & Acc).
    unfold build_output_cpal. cbn [o_sink o_rate o_latency]. rewrite Sd. unfold attempt, or_error. cbn [bind].
    destruct (d_name d); [|contradiction]. cbn [bind fine]. rewrite Ec. cbn [bind fine].
    unfold chosen_rate. rewrite (rate_valid r n W). cbn [check bind].
    destruct W as (F & E & B). destruct (whole_rate r n E B F) as [-> Er].
    unfold clamped_size. cbn [buffer_size bind].
    destruct (f_sizes c) as [[lo hi]|].
    - destruct (lo <=? hi) eqn:L; [|apply Z.leb_gt in L; lia]. cbn [check bind]. rewrite Acc. cbn [bind fine]. rewrite Pd. eexists. split; [reflexivity|]. exact Er.
    - cbn [bind]. rewrite Acc. cbn [bind fine]. rewrite Pd. eexists. split; [reflexivity|]. exact Er. }
  destruct s; [apply G; discriminate | eexists; split; reflexivity | apply G; discriminate].
Qed.
Lemma valid_total : forall n h s, well_behaved hash n h -> exists v, is_valid_sink hash h s = Ok v.
Proof.
  intros n h s (_ & [l El] & _). destruct s; [eexists; reflexivity | eexists; reflexivity |].
  unfold is_valid_sink, enumerate. rewrite El. eexists. reflexivity.
Qed.

Definition alive (n : Z) (x : context) : Prop := x_graph x = true /\ fits (x_backend x) /\ b_rate (x_backend x) = x_rate x /\ whole (x_rate x) n.
Lemma step_works : forall n x o, alive n x ->
  match o with D_sink h h' _ => well_behaved hash n h /\ well_behaved hash n h' | _ => True end ->
  exists e x', step hash x o = Ok (e, x') /\ alive n x' /\ (e = None \/ e = Some E_sink /\ x' = x).
Proof.
  intros n x o (Hg & Hf & Hr & Hw) Ho.
  assert (forall (P : option error * context -> Prop) e x', P (e, x') -> exists e x', P (e, x')) as Ex by eauto.
  destruct o as [h h' s | | |]; cbn [step].
  - destruct Ho as [H H']. unfold set_sink. destruct (sink_eqb (b_sink (x_backend x)) s).
    + exists None, x. unfold alive. auto 8.
    + destruct (valid_total n h s H) as [v ->]. cbn [bind]. destruct v; cbn [negb].
      2: { exists (Some E_sink), x. unfold alive. auto 8. }
      destruct (build_works n (x_rate x) h' s Hw H') as (b & Eb & Rb).
      destruct (x_state x).
      * rewrite Hg. cbn [negb]. rewrite Eb. cbn [bind]. eexists _, _. split; [reflexivity|]. split; [|left; reflexivity].
        unfold alive. cbn. destruct (build_ok _ _ _ Eb) as (_ & Fb & _). auto.
      * rewrite Hg. cbn [negb]. rewrite Eb. cbn [bind]. eexists _, _. split; [reflexivity|]. split; [|left; reflexivity].
        unfold alive. cbn. destruct (build_ok _ _ _ Eb) as (_ & Fb & _). auto.
      * exists None, x. unfold alive. auto 8.
  - unfold resume. destruct (x_state x); [rewrite Hg; cbn [bind]; eexists _, _; split; [reflexivity|]; unfold alive; cbn; auto 8 | exists None, x; unfold alive; auto 8 | exists None, x; unfold alive; auto 8].
  - unfold suspend. destruct (x_state x); [exists None, x; unfold alive; auto 8 | rewrite Hg; cbn [bind]; eexists _, _; split; [reflexivity|]; unfold alive; cbn; auto 8 | exists None, x; unfold alive; auto 8].
  - eexists _, _. split; [reflexivity|]. unfold alive, close. cbn. auto 8.
Qed.
Lemma run_works : forall n ops x, alive n x ->
  Forall (fun o => match o with D_sink h h' _ => well_behaved hash n h /\ well_behaved hash n h' | _ => True end) ops ->
  exists x', run hash x ops = Ok x' /\ alive n x'.
Proof.
  intros n. induction ops as [|o ops IH]; intros x Hx H; cbn [run].
  - eauto.
  - pose proof (Forall_inv H) as Ho. pose proof (Forall_inv_tail H) as Ht.
    destruct (step_works n x o Hx Ho) as (e & y & E & Hy & _). rewrite E. cbn [bind snd]. apply IH; assumption.
Qed.

(** a change that succeeds *)
Lemma change_ok : forall h x s x', set_sink hash h h x s = Ok (None, x') -> x_state x <> Closed -> b_sink (x_backend x) <> s ->
  x_graph x' = true /\ x_state x' = x_state x /\ b_sink (x_backend x') = s /\ x_rate x' = x_rate x /\
  match s with
  | S_none => b_stream (x_backend x') = None
  | S_default => exists d st, h_default_out h = Some d /\ b_stream (x_backend x') = Some (d, st)
  | S_named id => tells_apart hash h -> exists l i d e st, try_enumerate hash h = Ok (inr l) /\
      nth_error (devices h) i = Some (AudioOutput, d) /\ nth_error l i = Some e /\ i_id e = id /\ b_stream (x_backend x') = Some (d, st)
  end.
Proof.
  intros h x s x' H Hc Hs. unfold set_sink in H. destruct (sink_eqb (b_sink (x_backend x)) s) eqn:Es; [apply sink_eqb_eq in Es; contradiction|].
  apply bind_ok in H. destruct H as (v & Ev & H). destruct v; [|discriminate]. cbn [negb] in H.
  assert (exists b, build_output hash h (mk_options Interactive (Some (x_rate x)) s) = Ok (inr b) /\ x' = mk_context (x_rate x) (x_channels x) b true (x_state x)) as (b & Eb & ->).
  { destruct (x_state x); [| |contradiction]; (destruct (negb (x_graph x)); [discriminate|]; apply bind_ok in H; destruct H as (r & E & H);
      destruct r as [e|b]; [discriminate|]; injection H as <-; exists b; auto). }
  cbn [x_graph x_state x_backend x_rate].
  destruct (build_ok _ _ _ Eb) as (Sb & Fb & Mb). cbn [o_sink] in *.
  split; [reflexivity|]. split; [reflexivity|]. split; [exact Sb|]. split; [reflexivity|].
  destruct s as [| |id].
  - unfold build_output in Eb. cbn [o_sink] in Eb. destruct (build_cpal_ok _ _ _ Eb) as (d & st & Est & _ & _ & _ & Sel & _).
    cbn [o_sink select] in Sel. unfold or_error in Sel. destruct (h_default_out h) as [d0|]; [|discriminate]. injection Sel as ->.
    exists d, st. auto.
  - injection Eb as <-. reflexivity.
  - intros HA. unfold build_output in Eb. cbn [o_sink] in Eb. destruct (build_cpal_ok _ _ _ Eb) as (d & st & Est & _ & _ & _ & Sel & _).
    cbn [o_sink] in Sel. unfold is_valid_sink, enumerate in Ev. apply bind_ok in Ev. destruct Ev as (l & El & Ev).
    apply bind_ok in El. destruct El as (r & Er & El). injection El as <-. injection Ev as Ev.
    destruct r as [er|l]; [discriminate|].
    pose proof (lookup_listed h l AudioOutput id HA Er) as G. rewrite Ev in G. destruct G as (i & d' & e & Hd & He & Ei & G).
    unfold select in Sel. rewrite G in Sel. cbn in Sel. injection Sel as ->.
    exists l, i, d, e, st. auto.
Qed.

(** ** Microphones *)
Lemma input_default : forall h h' t i, get_user_media hash h h' t = Ok (inr i) ->
  let o := match t with None => mk_options Interactive None S_default | Some t => options_of t end in
  is_valid_input hash h (o_sink o) = Ok false \/ o_sink o = S_default -> h_default_in h' = Some (n_device i).
Proof.
  intros h h' t i H o Ho.
  assert (exists c o', o_sink o' = S_default /\ build_input hash h' o' c = Ok (inr i)) as (c & o' & So & Eb).
  { unfold get_user_media in H. destruct t as [t|]; cbn [o_sink] in H.
    - apply bind_ok in H. destruct H as (v & Ev & H). subst o. destruct Ho as [Ho | Ho].
      + rewrite Ev in Ho. injection Ho as ->. eexists _, _. split; [|exact H]. reflexivity.
      + destruct v; eexists _, _; (split; [|exact H]); [exact Ho | reflexivity].
    - apply bind_ok in H. destruct H as (v & Ev & H). destruct v; eexists _, _; (split; [|exact H]); reflexivity. }
  unfold build_input in Eb. rewrite So in Eb. apply attempt_inr in Eb. destruct Eb as (d & Ed & H0).
  apply attempt_inr in H0. destruct H0 as (nm & _ & H0). apply attempt_inr in H0. destruct H0 as (cf & _ & H0). cbv zeta in H0.
  apply bind_ok in H0. destruct H0 as (rt & _ & H0). apply bind_ok in H0. destruct H0 as (sz & _ & H0).
  apply attempt_inr in H0. destruct H0 as (s & _ & H0). destruct (d_plays d); [|discriminate]. injection H0 as <-. cbn [n_device].
  cbn [select] in Ed. unfold or_error in Ed. destruct (h_default_in h'); [injection Ed as ->; reflexivity | discriminate].
Qed.
Lemma input_named : forall h t id i, t_device t = Some (S_named id) -> get_user_media hash h h (Some t) = Ok (inr i) ->
  is_valid_input hash h (S_named id) = Ok true -> tells_apart hash h ->
  exists l j e, try_enumerate hash h = Ok (inr l) /\ nth_error (devices h) j = Some (AudioInput, n_device i) /\ nth_error l j = Some e /\ i_id e = id.
Proof.
  intros h t id i Et H V HA. unfold get_user_media, options_of in H. cbn [o_sink] in H. rewrite Et in H. cbn [o_sink] in H. rewrite V in H. cbn [bind] in H.
  unfold is_valid_input, enumerate in V. apply bind_ok in V. destruct V as (l & El & V). apply bind_ok in El. destruct El as (r & Er & El). injection El as <-. injection V as V.
  destruct r as [er|l]; [discriminate|].
  pose proof (lookup_listed h l AudioInput id HA Er) as G. rewrite V in G. destruct G as (j & d & e & Hd & He & Ei & G).
  unfold build_input in H. apply attempt_inr in H. destruct H as (d' & Ed & H). cbn [o_sink] in Ed. unfold select in Ed. rewrite G in Ed. cbn in Ed. injection Ed as <-.
  apply attempt_inr in H. destruct H as (nm & _ & H). apply attempt_inr in H. destruct H as (cf & _ & H). cbv zeta in H.
  apply bind_ok in H. destruct H as (rt & _ & H). apply bind_ok in H. destruct H as (sz & _ & H).
  apply attempt_inr in H. destruct H as (s & _ & H). destruct (d_plays d); [|discriminate]. injection H as <-. cbn [n_device].
  exists l, j, e. auto.
Qed.
Lemma listed_in : forall k id l, listed k id l = true <-> exists e, In e l /\ i_kind e = k /\ i_id e = id.
Proof.
  intros k id l. unfold listed. rewrite existsb_exists. split; intros (e & He & H); exists e; (split; [exact He|]).
  - apply andb_true_iff in H. destruct H as [H1 H2]. apply Z.eqb_eq in H2. split; [|exact H2]. destruct (i_kind e), k; (reflexivity || discriminate H1).
  - destruct H as [<- <-]. rewrite Z.eqb_refl, andb_true_r. destruct (i_kind e); reflexivity.
Qed.
Lemma input_named_listed : forall h t id i l e0, t_device t = Some (S_named id) -> get_user_media hash h h (Some t) = Ok (inr i) ->
  tells_apart hash h -> try_enumerate hash h = Ok (inr l) -> In e0 l -> i_kind e0 = AudioInput -> i_id e0 = id ->
  exists j e, nth_error (devices h) j = Some (AudioInput, n_device i) /\ nth_error l j = Some e /\ i_id e = id.
Proof.
  intros h t id i l e0 Et H HA El Hin Hk Hi.
  assert (is_valid_input hash h (S_named id) = Ok true) as V.
  { unfold is_valid_input, enumerate. rewrite El. cbn [bind]. f_equal. apply listed_in. exists e0. auto. }
  destruct (input_named h t id i Et H V HA) as (l' & j & e & El' & P). rewrite El in El'. injection El' as <-. exists j, e. exact P.
Qed.
Lemma input_default_unlisted : forall h h' t i, get_user_media hash h h' t = Ok (inr i) ->
  match t with
  | Some t =>
      match t_device t with
      | Some (S_named id) => forall l e, try_enumerate hash h = Ok (inr l) -> In e l -> i_kind e = AudioInput -> i_id e <> id
      | _ => True
      end
  | None => True
  end -> h_default_in h' = Some (n_device i).
Proof.
  intros h h' t i H Hu. apply (input_default h h' t i H). destruct t as [t|]; [|right; reflexivity].
  unfold options_of. cbn [o_sink]. destruct (t_device t) as [[| |id]|] eqn:Et; [right; reflexivity | left; reflexivity | left | right; reflexivity].
  unfold get_user_media, options_of in H. cbn [o_sink] in H. rewrite Et in H. cbn [o_sink] in H. apply bind_ok in H. destruct H as (v & Ev & _).
  rewrite Ev. f_equal. destruct v; [|reflexivity]. exfalso. unfold is_valid_input, enumerate in Ev. apply bind_ok in Ev. destruct Ev as (l & El & Ev).
  injection Ev as Ev. apply listed_in in Ev. destruct Ev as (e & He & Hk & Hi). apply bind_ok in El. destruct El as (r & Er & El). injection El as <-.
  destruct r as [er|l]; [destruct He|]. exact (Hu l e Er He Hk Hi).
Qed.
Lemma input_stream : forall h h' t i, get_user_media hash h h' t = Ok (inr i) ->
  let channels := match t with Some t => t_channels t | None => None end in
  match channels with Some n => 0 <= n < 65536 | None => True end ->
  n_channels i = s_channels (n_stream i) /\ n_rate i = f32_of_Z (s_rate (n_stream i)) /\ d_plays (n_device i) = true /\
  heard_as_asked (match t with Some t => options_of t | None => mk_options Interactive None S_default end) channels (n_device i) (n_stream i).
Proof.
  intros h h' t i H channels Hc. unfold get_user_media in H.
  set (o := match t with Some t => options_of t | None => mk_options Interactive None S_default end).
  replace (match t with None => (None, mk_options Interactive None S_default) | Some t => (t_channels t, options_of t) end) with (channels, o) in H
    by (destruct t; reflexivity).
  clearbody channels o. apply bind_ok in H. destruct H as (v & _ & H).
  set (o' := if v then o else _) in H.
  assert (o_rate o' = o_rate o /\ o_latency o' = o_latency o) as [R L] by (unfold o'; destruct v; split; reflexivity).
  unfold build_input in H. apply attempt_inr in H. destruct H as (d & _ & H). apply attempt_inr in H. destruct H as (nm & _ & H).
  apply attempt_inr in H. destruct H as (c & Ec & H). cbv zeta in H.
  apply bind_ok in H. destruct H as (rate & Er & H). apply bind_ok in H. destruct H as (size & Es & H).
  apply attempt_inr in H. destruct H as (s & E & H).
  destruct (d_plays d) eqn:Ep; [|discriminate]. injection H as <-. cbn [n_channels n_rate n_stream n_device].
  split; [reflexivity|]. split; [reflexivity|]. split; [exact Ep|].
  assert (d_in d = Some c) as Eo. { unfold or_error in Ec. destruct (d_in d); [injection Ec as ->; reflexivity | discriminate]. }
  rewrite R in Er. rewrite L in Es.
  exists c, rate, size. split; [exact Eo|]. split.
  { unfold chosen_rate in Er. destruct (o_rate o); [|injection Er as ->; reflexivity]. apply bind_ok in Er. destruct Er as (u & Eu & Er).
    injection Er as <-. apply valid_rate_u32. destruct (is_valid_sample_rate f); [reflexivity|discriminate]. }
  split; [exact Es|]. cbv zeta.
  assert (match channels with Some n => as_u16 n | None => f_channels c end = match channels with Some n => n | None => f_channels c end) as Ch.
  { destruct channels as [n|]; [|reflexivity]. unfold as_u16. apply Z.mod_small. exact Hc. }
  rewrite Ch in E. unfold default_stream in E. set (asked := mk_stream _ rate (Some size)) in *.
  destruct (d_accepts d asked) eqn:Ea.
  - injection E as <-. split; [left; reflexivity | exact Ea].
  - destruct (d_accepts d (mk_stream (f_channels c) (f_rate c) None)) eqn:Ea'; [|discriminate].
    injection E as <-. split; [right; split; reflexivity | exact Ea'].
Qed.
End Hash.
