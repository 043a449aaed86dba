(** What panners and wave shapers play, given the attributes. *)
From Coq Require Import List Arith Bool ZArith Lia Reals Lra.
From Verif Require Import Common_Model Float_Model Arith_Model Arith_Real Quantum_Model Route_Spec Sched_Model Shape_Model Shape_Spec Shape_Proofs Over_Model Over_Spec Over_Proofs Pan_Model Pan_Spec Pan_NodeProofs Pan_HrtfProofs Attr_Model Attr_Spec Attr_PanSpec Attr_Proofs Attr_NodeProofs.
Import ListNotations.
Local Open Scope R_scope.

(** ** Panner *)
Section Panner.
Context {H : Type}.
Variable size : nat.
Variable hp : H -> list R -> R -> vec (V := R) -> H * list (R * R).
Variable hl : H -> nat.
Variable h0 : H.
Hypothesis Hs : (0 < size)%nat.
Hypothesis Hh : forall h x g d, length x = size -> length (snd (hp h x g d)) = size.
Notation pr_ := (panner_process exact size hp hl).

Notation pan_fine := (pan_fine size).
Definition pan_agrees (h : panner_handle (T := R)) (n : panner (T := R) (H := H)) : Prop := panner_agrees h n /\ accepted (ph_settings h).

Lemma valid_accepted p : settings_valid exact p = true <-> accepted p.
Proof.
  unfold settings_valid, accepted, t_zero, t_one. cbn [exact t_le t_lt t_of_Z]. unfold R_le, R_lt.
  destruct (Rle_dec 0 (p_ref p)), (Rlt_dec 0 (p_max p)), (Rle_dec 0 (p_rolloff p)), (Rle_dec 0 (p_outer_gain p)), (Rle_dec (p_outer_gain p) 1); cbn; split; try discriminate; try tauto; lra.
Qed.
Lemma in_range_accepted p o : accepted p -> in_range exact (P_set o) = true -> accepted (overwrite p o).
Proof.
  unfold accepted, in_range, t_zero, t_one. cbn [exact t_le t_lt t_of_Z]. unfold R_le, R_lt. intros (H1 & H2 & H3 & H4). destruct o; cbn; auto 6.
  - destruct (Rle_dec 0 x); [auto 6|discriminate].
  - destruct (Rlt_dec 0 x); [auto 6|discriminate].
  - destruct (Rle_dec 0 x); [auto 6|discriminate].
  - destruct (Rle_dec 0 x), (Rle_dec x 1); cbn; try discriminate. auto 6.
Qed.
Lemma pan_call_agrees h c h' ms n : pan_fine (Call c) -> panner_do exact h0 h c = Ok (h', ms) -> pan_agrees h n -> exists n', deliver (panner_on_msg (T := R) (H := H)) n ms = Ok n' /\ pan_agrees h' n'.
Proof.
  intros _ E [Ag Ac]. destruct (panner_call_agrees exact h0 h c h' ms n E Ag) as (n' & D & Ag'). exists n'. split; [exact D|]. split; [exact Ag'|]. destruct c as [o|m]; cbn [panner_do] in E.
  - rewrite set_ok in E. destruct (in_range exact (P_set o)) eqn:I; try discriminate. injection E as <- <-. cbn. apply in_range_accepted; assumption.
  - injection E as <- <-. exact Ac.
Qed.
Lemma pan_process_agrees h q n n' o : pan_fine (Render q) -> pr_ n q = Ok (n', o) -> pan_agrees h n -> pan_agrees h n'.
Proof. intros _ E [Ag Ac]. split; [|exact Ac]. eapply panner_process_agrees; eauto. Qed.
Notation pan_sound := (pan_sound size hp).
Lemma pan_process_sound h q n : pan_fine (Render q) -> pan_agrees h n -> exists n' o, pr_ n q = Ok (n', o) /\ pan_sound (ph_settings h) (ph_model h) q o.
Proof.
  destruct q as [[[s input] output] l]. cbn [Attr_PanSpec.pan_fine]. intros (G & Si & Li & Zi & So) [[A1 A2] Ac]. rewrite <- A1 in *. unfold panner_process. destruct (ph_model h) eqn:M.
  - destruct (panner_ok hp hl size n s input output l (proj2 A2 eq_refl) Hs Ac G Si Li Zi So) as (out & E & L & P). rewrite E. cbn [bind]. eexists _, _. split; [reflexivity|]. cbn. auto.
  - destruct (n_hrtf n) as [h1|] eqn:Hn; [|exfalso; destruct A2 as [A2 _]; discriminate (A2 eq_refl)]. destruct n as [p h1' tl]. cbn in Hn. subst h1'. cbn [n_settings] in *.
    destruct (is_silent input && negb (tl <? hl h1)%nat) eqn:Q.
    + assert (So' : output <> []) by (destruct So; assumption). destruct output as [|c output]; [congruence|]. unfold panner_quantum. cbn [n_hrtf n_tail]. rewrite Q. cbn [make_silent from_option bind]. eexists _, _. split; [reflexivity|]. cbn. apply andb_prop in Q. split; [apply Q|reflexivity].
    + destruct (hp h1 (heard size input) (cone_at p l 0 * dist_at p l 0) (direction (azimuth_at l 0) (elevation_at l 0))) as [h' pairs] eqn:E.
      destruct (hrtf_panner hp hl size p tl s h1 input output l h' pairs Hs Ac G Si Li) as (out & Eo & Lo & P); [|exact E| |].
      { destruct (is_silent input); [right|left; reflexivity]. destruct (Nat.ltb_spec tl (hl h1)); [assumption|discriminate]. }
      { replace pairs with (snd (hp h1 (heard size input) (cone_at p l 0 * dist_at p l 0) (direction (azimuth_at l 0) (elevation_at l 0)))) by (rewrite E; reflexivity). apply Hh. unfold heard. rewrite map_length, seq_length. reflexivity. }
      rewrite Eo. cbn [bind]. eexists _, _. split; [reflexivity|]. cbn. exists h1. split; [exact Lo|]. rewrite E. exact P.
Qed.
Lemma pan_use p m l : accepted p -> Forall pan_fine l -> exists w ss, panner_use exact size hp hl h0 p m l = Ok (w, ss) /\
  forall i q, nth_error l i = Some (Render q) -> exists o, nth_error ss i = Some (Heard o) /\ pan_sound (settings_after exact p (firstn i l)) (model_after m (firstn i l)) q o.
Proof.
  intros Ac F. assert (exists w0, panner_create exact h0 p m = Ok w0) as (w0 & E0). { unfold panner_create. rewrite (proj2 (valid_accepted p) Ac). cbn [check bind set_panning_model]. eauto. }
  destruct (panner_settled exact h0 p m w0 E0) as [Hw (r & D & Ag)]. assert (W : settled (panner_on_msg (T := R) (H := H)) pan_agrees w0). { exists r. split; [exact D|]. split; [exact Ag|]. rewrite Hw. exact Ac. }
  destruct (use_ok (panner_do exact h0) (panner_on_msg (T := R) (H := H)) pr_ pan_agrees pan_fine pan_call_agrees pan_process_agrees) with (w := w0) (l := l) as (w & ss & E).
  { intros h q n Fq An. destruct (pan_process_sound h q n Fq An) as (n' & o & P & _). eauto. }
  { exact F. } { exact W. }
  exists w, ss. split; [unfold panner_use; rewrite E0; exact E|]. intros i q N.
  destruct (use_sounds _ _ _ pan_agrees pan_fine pan_call_agrees pan_process_agrees w0 l w ss i q F W E N) as (n & n' & o & An & P & S). exists o. split; [exact S|].
  destruct (pan_process_sound _ q n (proj1 (Forall_forall _ _) F _ (nth_error_In _ _ N)) An) as (n2 & o2 & P2 & So). rewrite P in P2. injection P2 as <- <-. rewrite Hw, panner_after in So. exact So.
Qed.
End Panner.

(** ** Wave shaper *)
Section Shaper.
Context {T V RS : Type}.
Variable A : arith T V.
Variable size : nat.
Variable new : nat -> nat -> RS.
Variable step : RS -> list V -> RS * list V.
Notation do_ := (shaper_do (V := V)).
Notation on_ := (shaper_on_msg A (RS := RS)).
Notation pr_ := (shaper_process A size new step).
Lemma shaper_run curve m ms r st l st' outs : deliver on_ r ms = Ok st -> over_run A size new step st (shaper_ops l) = Ok (st', outs) ->
  exists w ss, use do_ on_ pr_ (mk_use (mk_shaper_handle (Some curve) m) ms r) l = Ok (w, ss) /\ sounds ss = outs.
Proof.
  revert m ms r st outs. induction l as [|[c|q] l IH]; intros m ms r st outs D E; cbn [use].
  - injection E as <- <-. eexists _, _. split; reflexivity.
  - unfold use_step. cbn [u_handle u_queue u_rend]. destruct c as [c|m']; cbn [shaper_do wh_curve check bind wh_mode].
    + destruct (IH m ms r st outs D E) as (w & ss & U & S). rewrite U. cbn [bind]. eexists _, _. split; [reflexivity|exact S].
    + cbn [shaper_ops flat_map app over_run over_step bind] in E. destruct (over_run A size new step _ _) as [[st1 os]| |] eqn:R in E; try discriminate. injection E as <- <-.
      destruct (IH m' (ms ++ [M_mode m']) r (mk_oshaper m' (o_shaper st) (o_x2 st) (o_x4 st)) os) as (w & ss & U & S); [rewrite deliver_app, D; reflexivity|exact R|]. rewrite U. cbn [bind]. eexists _, _. split; [reflexivity|exact S].
  - unfold use_step. cbn [u_handle u_queue u_rend]. rewrite D. cbn [bind]. destruct q as [[s input] output]. cbn [shaper_ops flat_map app over_run over_step] in E. unfold shaper_process at 1.
    destruct (over_quantum A size new step st s input output) as [[st1 o]| |]; try discriminate. cbn [bind] in *. destruct (over_run A size new step _ _) as [[st2 os]| |] eqn:R in E; try discriminate. injection E as <- <-.
    destruct (IH m [] st1 st1 os eq_refl R) as (w & ss & U & S). rewrite U. cbn [bind]. eexists _, _. split; [reflexivity|]. cbn. f_equal. exact S.
Qed.
(** without a curve the input passes, and nothing but the mode changes *)
Lemma shaper_before m ms r l : deliver on_ r ms = Ok (oshaper_new new m) ->
  Forall (fun e => match e with Call (W_curve c) => c <> [] | Call _ => True | Render (_, input, output) => output <> [] end) l ->
  (forall m' c l1 l2, l = l1 ++ Call (W_curve c) :: l2 -> exists st outs, over_run A size new step (oshaper_new new m') (OCurve c :: shaper_ops l2) = Ok (st, outs)) ->
  exists w ss, use do_ on_ pr_ (mk_use (mk_shaper_handle None m) ms r) l = Ok (w, ss).
Proof.
  revert m ms r. induction l as [|[c|q] l IH]; intros m ms r D F L; cbn [use]; [eauto| |]; apply Forall_cons_iff in F; destruct F as [Fe F]; unfold use_step; cbn [u_handle u_queue u_rend].
  - destruct c as [c|m']; cbn [shaper_do wh_curve check bind wh_mode].
    + destruct (L m c [] l eq_refl) as (st & outs & R). cbn [over_run over_step] in R. destruct (set_curve_some A c Fe) as (sh & Es). rewrite Es in R. cbn [bind] in R. destruct (over_run A size new step _ _) as [[st1 os]| |] eqn:R1 in R; try discriminate.
      match type of R1 with over_run _ _ _ _ ?x _ = _ => destruct (shaper_run c m (ms ++ [M_curve c]) r x l st1 os) as (w & ss & U & _); [rewrite deliver_app, D; cbn [bind deliver shaper_on_msg]; rewrite Es; reflexivity|exact R1|] end.
      rewrite U. cbn [bind]. eauto.
    + destruct (IH m' (ms ++ [M_mode m']) r) as (w & ss & U); [rewrite deliver_app, D; reflexivity|exact F|intros m2 c2 l1 l2 ->; exact (L m2 c2 (Call (W_mode m') :: l1) l2 eq_refl)|]. rewrite U. cbn [bind]. eauto.
  - rewrite D. cbn [bind]. destruct q as [[s input] output]. unfold shaper_process at 1. unfold over_quantum. cbn [oshaper_new o_shaper sh_silence shaper_new sh_curve].
    assert (N : forall o, exists w ss, bind (use do_ on_ pr_ (mk_use (mk_shaper_handle None m) [] (oshaper_new new m)) l) (fun '(w, ss) => Ok (w, Heard o :: ss)) = Ok (w, ss)).
    { intros o. destruct (IH m [] (oshaper_new new m) eq_refl F) as (w & ss & U); [intros m2 c2 l1 l2 ->; exact (L m2 c2 (Render (s, input, output) :: l1) l2 eq_refl)|]. rewrite U. cbn [bind]. eauto. }
    destruct (is_silent input && true); [|cbn [bind]; apply N]. destruct output as [|c output]; [congruence|]. cbn [make_silent from_option bind]. apply N.
Qed.
End Shaper.
