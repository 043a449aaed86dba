(** The attributes of panners and wave shapers: theorems.

    C82 The attributes of effect nodes: a getter returns the latest value that was accepted, values out of range are
    refused and change nothing, and every quantum is rendered with the values the getters return at that time. *)
From Coq Require Import List Arith Bool ZArith Lia Reals Lra.
From Flocq Require Import Core BinarySingleNaN.
From Verif Require Import Common_Model Float_Model Arith_Model Arith_Real Quantum_Model Route_Spec Source_Props Sched_Model Shape_Model Shape_Spec Shape_Proofs Over_Model Over_Spec Over_Proofs Over_Props Pan_Model Pan_Spec Attr_Model Attr_Spec Attr_PanSpec Attr_Proofs Attr_NodeProofs Attr_SoundProofs.
Import ListNotations.
Local Open Scope R_scope.

(** ** Panner *)
(** Any arithmetic, any history of calls and quanta that ends without a panic of the renderer: the attributes of the
    handle are the latest accepted values; a call returns exactly if its value is in range; a quantum is rendered by a
    renderer with the attributes of the moment, and with impulse responses if that is the panning model. *)
Theorem C82_panner : forall T V (A : arith T V) H hp hl (h0 : H) size p m l w ss, panner_use A size hp hl h0 p m l = Ok (w, ss) ->
  u_handle w = mk_panner_handle (settings_after A p l) (model_after m l) /\
  (forall i c, nth_error l i = Some (Call c) -> nth_error ss i = Some (Returned (in_range A c))) /\
  (forall i q, nth_error l i = Some (Render q) -> exists n n' o, n_settings n = settings_after A p (firstn i l) /\ (n_hrtf n = None <-> model_after m (firstn i l) = EqualPower) /\
     panner_process A size hp hl n q = Ok (n', o) /\ nth_error ss i = Some (Heard o)).
Proof. intros T V A H. exact (fun hp hl h0 size => panner_use_spec A size hp hl h0). Qed.
Print Assumptions C82_panner.
(** options out of range are refused *)
Theorem C82_panner_options : forall T V (A : arith T V) H hp hl (h0 : H) size p m l,
  t_le A (t_zero A) (p_ref p) && t_lt A (t_zero A) (p_max p) && t_le A (t_zero A) (p_rolloff p) && (t_le A (t_zero A) (p_outer_gain p) && t_le A (p_outer_gain p) (t_one A)) = false ->
  panner_use A size hp hl h0 p m l = Panic.
Proof. intros T V A H hp hl h0 size p m l E. unfold panner_use, panner_create. unfold settings_valid. rewrite E. reflexivity. Qed.
Print Assumptions C82_panner_options.

(** Exact arithmetic: no history of calls and quanta makes the panner panic, and what is heard in each quantum is the
    sound of the source for the attributes of the moment ([pan_sound], Attr_PanSpec.v). *)
Theorem C82_panner_sound : forall H (hp : H -> list R -> R -> vec (V := R) -> H * list (R * R)) hl (h0 : H) size p m l, (0 < size)%nat ->
  (forall h x g d, length x = size -> length (snd (hp h x g d)) = size) -> accepted p -> Forall (pan_fine size) l ->
  exists w ss, panner_use exact size hp hl h0 p m l = Ok (w, ss) /\
    forall i q, nth_error l i = Some (Render q) -> exists o, nth_error ss i = Some (Heard o) /\
      pan_sound size hp (settings_after exact p (firstn i l)) (model_after m (firstn i l)) q o.
Proof. intros H hp hl h0 size p m l Hs Hh. exact (pan_use size hp hl h0 Hs Hh p m l). Qed.
Print Assumptions C82_panner_sound.

(** A session: the reference distance is set, a wrong maximal distance is refused, the model is changed twice. *)
Definition c82_still : positions (V := R) := mk_positions ([2], [0], [0]) ([1], [0], [0]) ([0], [0], [0]) ([0], [0], [-1]) ([0], [1], [0]).
Definition c82_quantum : nat * list (chan R) * list (chan R) * positions (V := R) := (5%nat, [mk_chan 1 [1; 1]], [mk_chan 0 [0; 0]], c82_still).
Definition c82_history : list (event (panner_call (T := R)) (nat * list (chan R) * list (chan R) * positions (V := R))) :=
  [Call (P_set (Set_ref 2)); Render c82_quantum; Call (P_set (Set_max (-1))); Call (P_panning Hrtf); Render c82_quantum; Call (P_panning EqualPower); Call (P_set (Set_ref 3)); Render c82_quantum].
Example C82_panner_case : accepted (mk_settings Inverse 1 10000 1 360 360 0) /\ Forall (pan_fine 2) c82_history /\
  settings_after exact (mk_settings Inverse 1 10000 1 360 360 0) (firstn 7 c82_history) = mk_settings Inverse 3 10000 1 360 360 0 /\ model_after EqualPower (firstn 4 c82_history) = Hrtf.
Proof.
  split; [unfold accepted; cbn; lra|]. split.
  - assert (Q : pan_fine 2 (Render c82_quantum)).
    { cbn. split; [unfold given; cbn; repeat split; discriminate|]. split; [split; [discriminate|repeat constructor]|]. split; [lia|]. split; [repeat constructor; cbn; discriminate|]. split; [discriminate|repeat constructor]. }
    unfold c82_history. repeat (constructor; [exact I || exact Q|]). constructor.
  - split; [|reflexivity]. unfold settings_after. cbn [c82_history firstn latest]. unfold valued, in_range, t_zero, t_one. cbn [exact t_le t_lt t_of_Z]. unfold R_le, R_lt.
    destruct (Rle_dec 0 2); [|lra]. destruct (Rle_dec 0 3); [|lra]. destruct (Rlt_dec 0 (-1)); [lra|]. reflexivity.
Qed.

(** ** Wave shaper *)
(** The curve is the first that was given, and a second one is refused; the oversampling is the latest. *)
Theorem C82_shaper : forall T V (A : arith T V) RS size (new : nat -> nat -> RS) step curve m l w ss,
  (forall c, curve = Some c -> c <> []) -> Forall (fun e => match e with Call (W_curve c) => c <> [] | _ => True end) l -> shaper_use A size new step curve m l = Ok (w, ss) ->
  u_handle w = mk_shaper_handle (curve_after curve l) (mode_after m l) /\
  (forall i c, nth_error l i = Some (Call c) -> nth_error ss i = Some (Returned (match c, curve_after curve (firstn i l) with W_curve _, Some _ => false | _, _ => true end))) /\
  (forall i q, nth_error l i = Some (Render q) -> exists st st' o, o_mode st = mode_after m (firstn i l) /\
     match curve_after curve (firstn i l) with None => o_shaper st = mk_shaper None true | Some c => set_curve A c = Ok (o_shaper st) end /\
     shaper_process A size new step st q = Ok (st', o) /\ nth_error ss i = Some (Heard o)).
Proof. intros T V A RS size new step. exact (shaper_use_spec A size new step). Qed.
Print Assumptions C82_shaper.

(** Exact arithmetic, the curve is given in the options: what is heard is the shaped input, for every history of
    quanta, changes of the oversampling and refused curves ([ideal_run], Over_Spec.v). *)
Theorem C82_shaper_sound : forall RS size (new : nat -> nat -> RS) step ok, resampler_ok size new step ok ->
  forall m curve l, curve <> [] -> Forall (good_op size) (shaper_ops l) ->
  exists w ss skip, shaper_use exact size new step (Some curve) m l = Ok (w, ss) /\ (skip = true -> Rabs (shaped curve 0) < / 1000000000) /\
    Forall2 (plays size 0) (ideal_run new step skip (shaped curve) (mk_heard m [] []) (shaper_ops l)) (sounds ss).
Proof.
  intros RS size new step ok OK m curve l Hc F. destruct (set_curve_ok _ _ exact curve Hc) as (skip & E).
  destruct (C71_history R R exact RS size new step ok OK m curve (shaped curve) skip (shaper_ops l) (fun x => apply_exact curve x Hc) E F) as (st & outs & R1 & P).
  cbn [over_run over_step] in R1. rewrite E in R1. cbn [bind] in R1. destruct (over_run exact size new step _ _) as [[st1 os]| |] eqn:R2 in R1; try discriminate. injection R1 as <- <-.
  match type of R2 with over_run _ _ _ _ ?x _ = _ => destruct (shaper_run exact size new step curve m [M_curve curve] (oshaper_new new m) x l st1 os) as (w & ss & U & S); [cbn [deliver shaper_on_msg]; rewrite E; reflexivity|exact R2|] end.
  exists w, ss, skip. split; [exact U|]. split.
  - intros ->. destruct (middle curve _ Hc E) as [_ Mid]. exact (Mid eq_refl).
  - rewrite S. exact P.
Qed.
Print Assumptions C82_shaper_sound.

(** Floating point: no panic, whatever the history, for curves of 1 to 2^24 points. *)
Theorem C82_shaper_safe : forall M RS size (new : nat -> nat -> RS) step ok, resampler_ok size new step ok ->
  forall curve m l, Forall (fun c => (0 < length c)%nat /\ (Z.of_nat (length c) <= 2 ^ 24)%Z) (match curve with Some c => [c] | None => [] end) ->
  Forall (fun e => match e with Call (W_curve c) => (0 < length c)%nat /\ (Z.of_nat (length c) <= 2 ^ 24)%Z | _ => True end) l ->
  Forall (good_op size) (shaper_ops l) ->
  exists w ss, shaper_use (ieee M) size new step curve m l = Ok (w, ss).
Proof.
  intros M RS size new step ok OK curve m l Fc Fl F. unfold shaper_use. destruct curve as [curve|]; cbn [shaper_create].
  - apply Forall_cons_iff in Fc. destruct Fc as [[C1 C2] _]. destruct (C71_safe M RS size new step ok OK m curve (shaper_ops l) C1 C2 F) as (st & outs & R1).
    cbn [over_run over_step] in R1. destruct (set_curve (ieee M) curve) as [sh| |] eqn:E; try discriminate. cbn [bind] in R1. destruct (over_run (ieee M) size new step _ _) as [[st1 os]| |] eqn:R2 in R1; try discriminate.
    match type of R2 with over_run _ _ _ _ ?x _ = _ => destruct (shaper_run (ieee M) size new step curve m [M_curve curve] (oshaper_new new m) x l st1 os) as (w & ss & U & S); [cbn [deliver shaper_on_msg]; rewrite E; reflexivity|exact R2|] end. eauto.
  - apply shaper_before; [reflexivity| |].
    + apply Forall_forall. intros e I. pose proof (proj1 (Forall_forall _ _) Fl e I) as Fe. destruct e as [[c|m']|[[s input] output]]; [destruct c; [cbn in Fe; lia|discriminate]|exact Logic.I|].
      assert (G : good_op size (OQuantum s input output)). { apply (proj1 (Forall_forall _ _) F). unfold shaper_ops. apply in_flat_map. eexists. split; [exact I|]. left. reflexivity. } apply G.
    + intros m' c l1 l2 ->. assert (Fc' : (0 < length c)%nat /\ (Z.of_nat (length c) <= 2 ^ 24)%Z). { apply (proj1 (Forall_forall _ _) Fl (Call (W_curve c))). apply in_or_app. right. left. reflexivity. }
      destruct Fc' as [C1 C2]. apply (C71_safe M RS size new step ok OK m' c (shaper_ops l2) C1 C2). unfold shaper_ops in *. rewrite flat_map_app in F. apply Forall_app in F. apply F.
Qed.
Print Assumptions C82_shaper_safe.

Definition c82_shapes : list (event (shaper_call (V := R)) (nat * list (chan R) * list (chan R))) :=
  [Render (5%nat, [mk_chan 1 [1; 1]], [mk_chan 0 [0; 0]]); Call (W_curve [3]); Call (W_mode X2); Render (5%nat, [mk_chan 1 [1; 1]], [mk_chan 0 [0; 0]])].
Example C82_shaper_case : Forall (good_op 2) (shaper_ops c82_shapes) /\ curve_after (Some [0; 1]) c82_shapes = Some [0; 1] /\ mode_after NoOver c82_shapes = X2.
Proof.
  split; [|split; reflexivity]. cbn [c82_shapes shaper_ops flat_map app].
  assert (Q : good_op 2 (OQuantum 5 [mk_chan 1 [1; 1]] [mk_chan 0 [0; 0]])) by (split; [discriminate|split; [repeat constructor|discriminate]]).
  repeat (constructor; [exact I || exact Q|]). constructor.
Qed.
