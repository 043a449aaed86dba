(** The attributes of effect nodes, node by node. *)
From Coq Require Import List Arith Bool ZArith Lia.
From Verif Require Import Common_Model Arith_Model Quantum_Model Route_Spec Sched_Model Pan_Model Shape_Model Over_Model Filter_Model Conv_Model Attr_Model Attr_Spec Attr_Proofs.
Import ListNotations.

Section Nodes.
Context {T V : Type}.
Variable A : arith T V.
Variable size : nat.
Notation quantum := (list (chan V)).

(** ** Panner *)
Section Panner.
Context {H : Type}.
Variable hp : H -> list V -> V -> vec (V := V) -> H * list (V * V).
Variable hl : H -> nat.
Variable h0 : H.
Notation do_ := (panner_do A h0).
Notation on_ := (panner_on_msg (T := T) (H := H)).
Notation pr_ := (panner_process A size hp hl).
Definition panner_agrees (h : panner_handle (T := T)) (n : panner (T := T) (H := H)) : Prop :=
  n_settings n = ph_settings h /\ (n_hrtf n = None <-> ph_model h = EqualPower).

Lemma set_ok p o : set A p o = if in_range A (P_set o) then Ok (overwrite p o) else Panic.
Proof. destruct o; cbn [set in_range overwrite]; unfold check; try reflexivity; destruct (_ : bool); reflexivity. Qed.
Lemma panner_returns h c : returns do_ h c = in_range A c.
Proof. unfold returns. destruct c as [o|m]; cbn [panner_do]; [|reflexivity]. rewrite set_ok. destruct (in_range A (P_set o)); reflexivity. Qed.
Lemma panner_after {Q} p m (l : list (event (panner_call (T := T)) Q)) : handle_after do_ (mk_panner_handle p m) l = mk_panner_handle (settings_after A p l) (model_after m l).
Proof.
  revert p m. induction l as [|[c|q] l IH]; intros p m.
  - destruct p. reflexivity.
  - unfold handle_after in *. cbn [fold_left handle_step]. destruct c as [o|m']; cbn [panner_do].
    + cbn [ph_settings ph_model]. rewrite set_ok. destruct (in_range A (P_set o)) eqn:I; cbn [bind]; rewrite IH; unfold settings_after, model_after; cbn [latest]; unfold valued; rewrite I; destruct o; reflexivity.
    + unfold set_panning_model. rewrite IH. unfold settings_after, model_after. cbn [latest]. reflexivity.
  - unfold handle_after in *. cbn [fold_left handle_step]. rewrite IH. reflexivity.
Qed.
Lemma panner_call_agrees h c h' ms n : do_ h c = Ok (h', ms) -> panner_agrees h n -> exists n', deliver on_ n ms = Ok n' /\ panner_agrees h' n'.
Proof.
  intros E [A1 A2]. destruct c as [o|m]; cbn [panner_do] in E.
  - rewrite set_ok in E. destruct (in_range A (P_set o)); try discriminate. cbn [bind] in E. injection E as <- <-. eexists. split; [reflexivity|]. split; cbn; [rewrite A1; reflexivity|exact A2].
  - injection E as <- <-. eexists. split; [reflexivity|]. split; cbn; [exact A1|]. destruct m; split; congruence.
Qed.
Lemma panner_process_agrees h q n n' o : pr_ n q = Ok (n', o) -> panner_agrees h n -> panner_agrees h n'.
Proof.
  intros E [A1 A2]. destruct q as [[[s input] output] l]. unfold panner_process in E. destruct (panner_quantum A size hp hl n s input output l) as [[[n1 o1] b]| |] eqn:Q; try discriminate. injection E as <- <-.
  assert (n_settings n1 = n_settings n /\ (n_hrtf n1 = None <-> n_hrtf n = None)) as [B1 B2]; [|split; [congruence|tauto]].
  unfold panner_quantum in Q. destruct (is_silent input && _).
  - destruct (from_option _) as [x| |]; try discriminate. injection Q as <- <- <-. tauto.
  - destruct (n_hrtf n) as [h1|].
    + destruct (hrtf A size hp (n_settings n) s h1 input l) as [[h2 o2]| |]; try discriminate. injection Q as <- <- <-. cbn. split; [reflexivity|]. split; discriminate.
    + destruct (equal_power A size (n_settings n) s input output l) as [x| |]; try discriminate. injection Q as <- <- <-. cbn. tauto.
Qed.
Lemma panner_settled p m w : panner_create A h0 p m = Ok w -> u_handle w = mk_panner_handle p m /\ settled on_ panner_agrees w.
Proof.
  unfold panner_create. destruct (settings_valid A p); cbn [check bind]; [|discriminate]. cbn [set_panning_model]. intros [= <-]. split; [reflexivity|]. eexists. split; [reflexivity|].
  split; [reflexivity|]. cbn. destruct m; split; congruence.
Qed.
Lemma panner_use_spec p m l w ss : panner_use A size hp hl h0 p m l = Ok (w, ss) ->
  u_handle w = mk_panner_handle (settings_after A p l) (model_after m l) /\
  (forall i c, nth_error l i = Some (Call c) -> nth_error ss i = Some (Returned (in_range A c))) /\
  (forall i q, nth_error l i = Some (Render q) -> exists n n' o, n_settings n = settings_after A p (firstn i l) /\ (n_hrtf n = None <-> model_after m (firstn i l) = EqualPower) /\
     pr_ n q = Ok (n', o) /\ nth_error ss i = Some (Heard o)).
Proof.
  unfold panner_use. destruct (panner_create A h0 p m) as [w0| |] eqn:E0; try discriminate. cbn [bind]. intros E. destruct (panner_settled p m w0 E0) as [Hh W]. split.
  { rewrite (use_handle _ _ _ _ _ _ _ E), Hh. apply panner_after. }
  split.
  - intros i c N. rewrite (use_calls _ _ _ _ _ _ _ _ _ E N). rewrite panner_returns. reflexivity.
  - intros i q N. destruct (use_sounds do_ on_ pr_ panner_agrees (fun _ => True) (fun h c h' ms r _ => panner_call_agrees h c h' ms r) (fun h q r r' o _ => panner_process_agrees h q r r' o) w0 l w ss i q (proj2 (Forall_forall _ _) (fun _ _ => I)) W E N) as (n & n' & o & [A1 A2] & P & S).
    rewrite Hh, panner_after in A1, A2. cbn in A1, A2. exists n, n', o. auto.
Qed.
End Panner.

(** ** Wave shaper *)
Section Shaper.
Context {RS : Type}.
Variable new : nat -> nat -> RS.
Variable step : RS -> list V -> RS * list V.
Notation do_ := (shaper_do (V := V)).
Notation on_ := (shaper_on_msg A (RS := RS)).
Notation pr_ := (shaper_process A size new step).
Lemma shaper_after {Q} curve m (l : list (event (shaper_call (V := V)) Q)) : handle_after do_ (mk_shaper_handle curve m) l = mk_shaper_handle (curve_after curve l) (mode_after m l).
Proof.
  revert curve m. induction l as [|[c|q] l IH]; intros curve m; [reflexivity| |unfold handle_after in *; cbn [fold_left handle_step]; rewrite IH; reflexivity].
  unfold handle_after in *. cbn [fold_left handle_step]. destruct c as [c|m']; cbn [shaper_do wh_curve wh_mode].
  - destruct curve as [c'|]; cbn [check bind]; rewrite IH; reflexivity.
  - rewrite IH. unfold curve_after, mode_after. cbn [latest earliest]. destruct curve; reflexivity.
Qed.
(** the renderer has the curve of the handle, and knows whether silence stays silence *)
Definition shaper_agrees (h : shaper_handle (V := V)) (st : oshaper (V := V) (RS := RS)) : Prop :=
  o_mode st = wh_mode h /\ match wh_curve h with None => o_shaper st = shaper_new | Some curve => set_curve A curve = Ok (o_shaper st) end.
Definition shaper_fine {Q} (e : event (shaper_call (V := V)) Q) : Prop := match e with Call (W_curve c) => c <> [] | _ => True end.
Lemma set_curve_some curve : curve <> [] -> exists sh, set_curve A curve = Ok sh.
Proof.
  intros N. unfold set_curve. assert (1 <= length curve) by (destruct curve; [congruence|cbn; lia]). destruct (Nat.eqb_spec (length curve mod 2) 1) as [O|O].
  - assert (length curve / 2 < length curve) by (apply Nat.div_lt; lia). unfold index. destruct (nth_error curve (length curve / 2)) eqn:E; [cbn [from_option bind]; eexists; reflexivity|apply nth_error_None in E; lia].
  - assert (length curve mod 2 < 2) by (apply Nat.mod_upper_bound; lia). assert (Z : length curve mod 2 = 0) by lia. pose proof (Nat.div_mod (length curve) 2 ltac:(lia)) as D. rewrite Z in D.
    destruct (Nat.leb_spec 1 (length curve / 2)); [|lia]. cbn [check bind]. unfold index. destruct (nth_error curve (length curve / 2 - 1)) eqn:E1; [|apply nth_error_None in E1; lia]. destruct (nth_error curve (length curve / 2)) eqn:E2; [|apply nth_error_None in E2; lia]. cbn [from_option bind]. eexists. reflexivity.
Qed.
Lemma shaper_call_agrees {Q} h c h' ms st : shaper_fine (Q := Q) (Call c) -> do_ h c = Ok (h', ms) -> shaper_agrees h st -> exists st', deliver on_ st ms = Ok st' /\ shaper_agrees h' st'.
Proof.
  intros F E [A1 A2]. destruct c as [c|m]; cbn [shaper_do] in E.
  - destruct (wh_curve h); cbn [check bind] in E; try discriminate. injection E as <- <-. destruct (set_curve_some c F) as (sh & Es). cbn [deliver shaper_on_msg]. rewrite Es. cbn [bind]. eexists. split; [reflexivity|]. split; cbn; [exact A1|exact Es].
  - injection E as <- <-. eexists. split; [reflexivity|]. split; cbn; [reflexivity|exact A2].
Qed.
Lemma shaper_process_agrees h q st st' o : pr_ st q = Ok (st', o) -> shaper_agrees h st -> shaper_agrees h st'.
Proof.
  intros E [A1 A2]. assert (o_mode st' = o_mode st /\ o_shaper st' = o_shaper st) as [B1 B2]; [|unfold shaper_agrees; rewrite B1, B2; auto].
  destruct q as [[s input] output]. unfold shaper_process, over_quantum in E. destruct (is_silent input && _).
  - destruct (from_option _); try discriminate. injection E as <- <-. auto.
  - destruct (sh_curve (o_shaper st)) as [c|]; [|injection E as <- <-; auto]. destruct (o_mode st) eqn:M.
    + destruct (shape_channels A c s input); try discriminate. injection E as <- <-. auto.
    + destruct (shape_over A new step 2 (o_x2 st) c s input) as [[p x]| |]; try discriminate. injection E as <- <-. cbn. auto.
    + destruct (shape_over A new step 4 (o_x4 st) c s input) as [[p x]| |]; try discriminate. injection E as <- <-. cbn. auto.
Qed.
Lemma shaper_settled curve m : (forall c, curve = Some c -> c <> []) -> settled on_ shaper_agrees (shaper_create new curve m) /\ u_handle (shaper_create new curve m) = mk_shaper_handle curve m.
Proof.
  intros F. destruct curve as [c|]; cbn [shaper_create]; (split; [|reflexivity]).
  - destruct (set_curve_some c (F c eq_refl)) as (sh & E). eexists. cbn [u_rend u_queue deliver shaper_on_msg]. rewrite E. cbn [bind]. split; [reflexivity|]. split; cbn; [reflexivity|exact E].
  - eexists. split; [reflexivity|]. split; reflexivity.
Qed.
Lemma shaper_returns h c : returns do_ h c = match c, wh_curve h with W_curve _, Some _ => false | _, _ => true end.
Proof. unfold returns. destruct c; cbn [shaper_do]; destruct (wh_curve h); reflexivity. Qed.
Lemma shaper_use_spec curve m l w ss : (forall c, curve = Some c -> c <> []) -> Forall shaper_fine l -> shaper_use A size new step curve m l = Ok (w, ss) ->
  u_handle w = mk_shaper_handle (curve_after curve l) (mode_after m l) /\
  (forall i c, nth_error l i = Some (Call c) -> nth_error ss i = Some (Returned (match c, curve_after curve (firstn i l) with W_curve _, Some _ => false | _, _ => true end))) /\
  (forall i q, nth_error l i = Some (Render q) -> exists st st' o, o_mode st = mode_after m (firstn i l) /\
     match curve_after curve (firstn i l) with None => o_shaper st = shaper_new | Some c => set_curve A c = Ok (o_shaper st) end /\ pr_ st q = Ok (st', o) /\ nth_error ss i = Some (Heard o)).
Proof.
  intros C F E. destruct (shaper_settled curve m C) as [W Hh]. unfold shaper_use in E. split.
  { rewrite (use_handle _ _ _ _ _ _ _ E), Hh. apply shaper_after. }
  split.
  - intros i c N. rewrite (use_calls _ _ _ _ _ _ _ _ _ E N). rewrite shaper_returns, Hh, shaper_after. reflexivity.
  - intros i q N. destruct (use_sounds do_ on_ pr_ shaper_agrees shaper_fine shaper_call_agrees (fun h q r r' o _ => shaper_process_agrees h q r r' o) _ l w ss i q F W E N) as (st & st' & o & [A1 A2] & P & S).
    rewrite Hh, shaper_after in A1, A2. cbn in A1, A2. exists st, st', o. auto.
Qed.
End Shaper.

(** ** Biquad filter *)
Lemma biquad_use_spec rate ty l r w ss : use biquad_do biquad_on_msg (biquad_process A size rate) (mk_use ty (fst r) (snd r)) l = Ok (w, ss) ->
  (exists ty', deliver biquad_on_msg (snd r) (fst r) = Ok (ty', snd (snd r)) /\ ty' = ty) ->
  exists st, run_calls (biquad_call A size rate) (snd (snd r)) (played ty l) = Ok (st, map fst (sounds ss)).
Proof.
  revert ty r ss. induction l as [|[c|q] l IH]; intros ty [ms [ty0 st]] ss E (ty' & D & ->); cbn [fst snd] in *; cbn [use use_step] in E.
  - injection E as <- <-. exists st. reflexivity.
  - unfold use_step, biquad_do in E. cbn [u_handle u_queue u_rend bind] in E. destruct (use _ _ _ _ l) as [[w1 ss1]| |] eqn:E1 in E; try discriminate. cbn [bind] in E. injection E as <- <-.
    specialize (IH c (ms ++ [c], (ty0, st)) ss1 E1). cbn [fst snd] in IH. destruct IH as (st' & R).
    { exists c. split; [|reflexivity]. rewrite deliver_app, D. reflexivity. }
    exists st'. exact R.
  - unfold use_step in E. cbn [u_rend u_queue u_handle] in E. rewrite D in E. cbn [bind] in E. destruct q as [[[p s] input] output]. unfold biquad_process in E. cbn [fst snd] in E.
    destruct (biquad_quantum A size ty rate p st s input output) as [[[st1 o] b]| |] eqn:Q; try discriminate. cbn [bind] in E. destruct (use _ _ _ _ l) as [[w1 ss1]| |] eqn:E1 in E; try discriminate. cbn [bind] in E. injection E as <- <-.
    specialize (IH ty ([], (ty, st1)) ss1 E1). cbn [fst snd] in IH. destruct IH as (st' & R); [exists ty; auto|].
    exists st'. cbn [played run_calls]. unfold biquad_call at 1. cbn [l_settings l_name l_input l_output fst snd]. rewrite Q. cbn [bind]. rewrite R. reflexivity.
Qed.
Lemma biquad_use_handle rate ty l w ss : biquad_use A size rate ty l = Ok (w, ss) -> u_handle w = latest Some ty l.
Proof.
  intros E. rewrite (use_handle _ _ _ _ _ _ _ E). cbn [u_handle]. clear. revert ty. induction l as [|[c|q] l IH]; intros ty; unfold handle_after in *; cbn [fold_left handle_step biquad_do latest]; [reflexivity| |]; apply IH.
Qed.
Lemma biquad_use_ok rate ty ms r l st outs : deliver biquad_on_msg r ms = Ok (ty, snd r) -> run_calls (biquad_call A size rate) (snd r) (played ty l) = Ok (st, outs) ->
  exists w ss, use biquad_do biquad_on_msg (biquad_process A size rate) (mk_use ty ms r) l = Ok (w, ss).
Proof.
  revert ty ms r st outs. induction l as [|[c|q] l IH]; intros ty ms r st outs D R; cbn [use]; [eauto| |].
  - unfold use_step. unfold biquad_do at 1. cbn [u_handle u_queue u_rend bind]. destruct (IH c (ms ++ [c]) r st outs) as (w & ss & E); [rewrite deliver_app, D; reflexivity|exact R|]. rewrite E. cbn [bind]. eauto.
  - unfold use_step. cbn [u_rend u_queue u_handle]. rewrite D. cbn [bind]. destruct q as [[[p s] input] output]. unfold biquad_process at 1. cbn [fst snd]. cbn [played run_calls] in R. unfold biquad_call at 1 in R. cbn [l_settings l_name l_input l_output fst snd] in R.
    destruct (biquad_quantum A size ty rate p (snd r) s input output) as [[[st1 o] b]| |]; try discriminate. cbn [bind] in *. destruct (run_calls _ st1 _) as [[st2 os]| |] eqn:R2; try discriminate.
    destruct (IH ty [] (ty, st1) st2 os) as (w & ss & E); [reflexivity|exact R2|]. rewrite E. cbn [bind]. eauto.
Qed.

(** ** Convolver *)
Section Convolver.
Context {E : Type}.
Variable fresh : list V -> E.
Variable run : E -> list V -> E * list V.
Variable context_rate : V.
Notation do_ := (conv_do A fresh context_rate).
Notation on_ := (conv_on_msg (E := E)).
Notation pr_ := (conv_quantum A size run).
Notation acceptable := (acceptable A context_rate).
Lemma set_buffer_ok n rate len chs : match set_buffer A fresh n context_rate rate len chs with Ok _ => true | _ => false end = acceptable (rate, len, chs).
Proof.
  unfold set_buffer, Attr_Spec.acceptable. destruct (v_eq A rate context_rate); cbn [check bind andb]; [|reflexivity]. destruct (existsb (Nat.eqb (length chs)) [1; 2; 4]) eqn:Ex; cbn [check bind]; [|reflexivity].
  assert (L : length chs <> 0). { destruct chs; [discriminate|cbn; lia]. } clear Ex.
  match goal with |- context [map_res ?f ?l] => assert (exists es, map_res f l = Ok es) as (es & ->) end; [|reflexivity].
  set (k := if n then _ else _). clearbody k. generalize (seq 0 (Nat.max (length chs) 2)). intros is. induction is as [|i is IH]; cbn [map_res]; [eauto|].
  unfold index at 1. destruct (nth_error chs (Nat.min i (length chs - 1))) eqn:N; [|apply nth_error_None in N; lia]. cbn [bind]. destruct IH as (es & ->). cbn. eauto.
Qed.
Lemma conv_after {Q} n b (l : list (event (conv_call (V := V)) Q)) : handle_after do_ (mk_conv_handle n b) l = mk_conv_handle (normalize_after n l) (buffer_after A context_rate b l).
Proof.
  revert n b. induction l as [|[c|q] l IH]; intros n b; [reflexivity| |unfold handle_after in *; cbn [fold_left handle_step]; rewrite IH; reflexivity].
  unfold handle_after in *. cbn [fold_left handle_step]. destruct c as [[[rate len] chs]|n']; cbn [conv_do ch_normalize ch_buffer].
  - pose proof (set_buffer_ok n rate len chs) as S. unfold normalize_after, buffer_after. cbn [latest]. rewrite <- S. destruct (set_buffer A fresh n context_rate rate len chs) as [ms| |]; cbn [bind]; rewrite IH; reflexivity.
  - rewrite IH. reflexivity.
Qed.
Lemma conv_returns h c : returns do_ h c = match c with V_buffer b => acceptable b | V_normalize _ => true end.
Proof. unfold returns. destruct c as [[[rate len] chs]|n]; cbn [conv_do]; [|reflexivity]. rewrite <- (set_buffer_ok (ch_normalize h)). destruct (set_buffer _ _ _ _ _ _ _); reflexivity. Qed.
Lemma conv_deliver st ms : exists st', deliver on_ st ms = Ok st' /\ (ms = [] -> st' = st).
Proof. revert st. induction ms as [|m ms IH]; intros st; cbn; [eauto|]. unfold conv_on_msg at 1. cbn [bind]. destruct (IH (on_message st m)) as (st' & E1 & _). exists st'. split; [exact E1|discriminate]. Qed.
(** after the last buffer: the quanta are rendered one after the other *)
Lemma conv_tail h ms r st l w ss : deliver on_ r ms = Ok st -> Forall (fun e => match e with Call (V_buffer b) => acceptable b = false | _ => True end) l ->
  use do_ on_ pr_ (mk_use h ms r) l = Ok (w, ss) -> conv_run A size run st (quanta l) = Ok (sounds ss).
Proof.
  intros D F. revert h ms r st ss D. induction F as [|e l Fe F IH]; intros h ms r st ss D U; cbn [use] in U; [injection U as <- <-; reflexivity|]. destruct e as [c|q]; unfold use_step in U; cbn [u_handle u_queue u_rend] in U.
  - assert (exists h1 b, (do_ h c = Ok (h1, []) \/ (do_ h c = Panic \/ do_ h c = Stuck) /\ h1 = h) /\ bind (use do_ on_ pr_ (mk_use h1 ms r) l) (fun '(w, ss) => Ok (w, Returned b :: ss)) = Ok (w, ss)) as (h1 & b & _ & U1).
    { destruct c as [[[rate len] chs]|n].
      - cbn [conv_do] in *. pose proof (set_buffer_ok (ch_normalize h) rate len chs) as S. rewrite Fe in S. destruct (set_buffer A fresh (ch_normalize h) context_rate rate len chs) as [m| |]; try discriminate; cbn [bind] in *; exists h, false; split; auto; exact U.
      - cbn [conv_do bind] in *. rewrite app_nil_r in U. eexists _, true. split; [left; reflexivity|exact U]. }
    destruct (use do_ on_ pr_ (mk_use h1 ms r) l) as [[w1 ss1]| |] eqn:E1; try discriminate. cbn [bind] in U1. injection U1 as <- <-. exact (IH _ _ _ _ _ D E1).
  - rewrite D in U. cbn [bind] in U. destruct q as [[s input] output]. unfold conv_quantum at 1 in U. destruct (conv_process A size run st s input output) as [[[st1 o] b]| |] eqn:P; try discriminate. cbn [bind] in U.
    destruct (use do_ on_ pr_ (mk_use h [] st1) l) as [[w1 ss1]| |] eqn:E1; try discriminate. cbn [bind] in U. injection U as <- <-. cbn [quanta flat_map app conv_run]. rewrite P. cbn [bind fst snd]. specialize (IH h [] st1 st1 ss1 eq_refl E1). unfold quanta in IH. rewrite IH. reflexivity.
Qed.

(** no panic *)
Definition conv_agrees (h : conv_handle (V := V)) (st : conv E) : Prop :=
  match c_engines st with None => True | Some es => In (c_channels st) [1; 2; 4] /\ length es = Nat.max (c_channels st) 2 end.
Definition conv_fine (e : event (conv_call (V := V)) (nat * quantum * quantum)) : Prop :=
  match e with Call _ => True | Render (_, input, output) => (length input = 1 \/ length input = 2) /\ output <> [] end.
Lemma map_res_length {X Y} (f : X -> res Y) l ys : map_res f l = Ok ys -> length ys = length l.
Proof. revert ys. induction l as [|x l IH]; cbn [map_res]; intros ys; [intros [= <-]; reflexivity|]. destruct (f x); cbn [bind]; try discriminate. destruct (map_res f l); cbn [bind]; try discriminate. intros [= <-]. cbn. f_equal. apply IH. reflexivity. Qed.
Lemma set_buffer_agrees n rate len chs m st h : set_buffer A fresh n context_rate rate len chs = Ok m -> conv_agrees h (on_message st m).
Proof.
  unfold set_buffer. destruct (v_eq A rate context_rate); cbn [check bind]; [|discriminate]. destruct (existsb (Nat.eqb (length chs)) [1; 2; 4]) eqn:Ex; cbn [check bind]; [|discriminate].
  destruct (map_res _ _) as [es| |] eqn:Em; cbn [bind]; try discriminate. intros [= <-]. unfold conv_agrees, on_message. cbn [c_engines c_channels g_engines g_channels]. split.
  - apply existsb_exists in Ex. destruct Ex as (k & I & Ek). apply Nat.eqb_eq in Ek. subst k. exact I.
  - rewrite (map_res_length _ _ _ Em), seq_length. reflexivity.
Qed.
Lemma conv_call_agrees h c h' ms st : conv_fine (Call c) -> do_ h c = Ok (h', ms) -> conv_agrees h st -> exists st', deliver on_ st ms = Ok st' /\ conv_agrees h' st'.
Proof.
  intros _ Ec Ag. destruct c as [[[rate len] chs]|n]; cbn [conv_do] in Ec; [|injection Ec as <- <-; exists st; auto].
  destruct (set_buffer A fresh (ch_normalize h) context_rate rate len chs) as [m| |] eqn:Es; try discriminate. injection Ec as <- <-. eexists. split; [reflexivity|]. eapply set_buffer_agrees. exact Es.
Qed.
Lemma update_length {X} i f (l : list X) : length (update i f l) = length l.
Proof. revert i. induction l as [|x l IH]; intros [|i]; cbn; auto. Qed.
Lemma drive_ok es k i : k < length es -> exists es' o, drive run es k i = Ok (es', o) /\ length es' = length es.
Proof.
  intros L. unfold drive. unfold index. destruct (nth_error es k) as [e|] eqn:N; [|apply nth_error_None in N; lia]. cbn [from_option bind]. unfold store. destruct (Nat.ltb_spec k (length es)); [|lia]. cbn [bind]. eexists _, _. split; [reflexivity|]. apply update_length.
Qed.
Lemma drive_all_ok l : forall es, Forall (fun x => fst x < length es) l -> exists es' os, drive_all run es l = Ok (es', os) /\ length es' = length es /\ length os = length l.
Proof.
  induction l as [|[k i] l IH]; intros es F; cbn [drive_all]; [eauto|]. apply Forall_cons_iff in F. destruct F as [Fk F]. destruct (drive_ok es k i Fk) as (es1 & o & D & L1). rewrite D. cbn [bind fst snd].
  destruct (IH es1) as (es2 & os & D2 & L2 & L3); [rewrite L1; exact F|]. rewrite D2. cbn [bind fst snd]. eexists _, _. split; [reflexivity|]. split; [lia|cbn; lia].
Qed.
Lemma conv_process_ok h q st : conv_fine (Render q) -> conv_agrees h st -> exists st' o, pr_ st q = Ok (st', o) /\ conv_agrees h st'.
Proof.
  destruct q as [[s input] output]. cbn [conv_fine]. intros [Li Lo] Ag. unfold conv_quantum, conv_process. destruct (is_silent input && _).
  { destruct output as [|c output]; [congruence|]. cbn [make_silent from_option bind]. eauto. }
  unfold conv_agrees in Ag. destruct (c_engines st) as [es|] eqn:Ee; [|cbn [bind]; eexists _, _; split; [reflexivity|]; exact I].
  destruct Ag as [Ic Le].
  assert (G : forall r : res (list E * list (list V)), (exists es' os, r = Ok (es', os) /\ length es' = length es) -> exists st' o, (do (st0, o0, b) <- (do r <- r; Ok (mk_conv (Some (fst r)) (c_length st) (c_channels st) (if is_silent input then c_tail st + size else 0), named s (snd r), true)); Ok (st0, (o0, b))) = Ok (st', o) /\ conv_agrees h st').
  { intros r (es' & os & -> & L'). cbn [bind fst snd]. eexists _, _. split; [reflexivity|]. unfold conv_agrees. cbn [c_engines c_channels]. split; [exact Ic|congruence]. }
  assert (M : forall l, length l = 4 -> Forall (fun x => fst x < length es) l -> exists es' os, (do d <- drive_all run es l; do o <- mix_back A (snd d); Ok (fst d, o)) = Ok (es', os) /\ length es' = length es).
  { intros l L4 F. destruct (drive_all_ok l es F) as (es' & os & D & L1 & L2). rewrite D. cbn [bind fst snd]. rewrite L4 in L2. do 5 (destruct os as [|? os]; try discriminate). cbn. eauto. }
  assert (N : forall l, Forall (fun x => fst x < length es) l -> exists es' os, drive_all run es l = Ok (es', os) /\ length es' = length es).
  { intros l F. destruct (drive_all_ok l es F) as (es' & os & D & L1 & _). eauto. }
  apply G. assert (K : forall l : list (nat * list V), Forall (fun x => fst x < Nat.max (c_channels st) 2) l -> Forall (fun x => fst x < length es) l) by (rewrite Le; auto). clear Le.
  destruct input as [|i0 [|i1 [|i2 input]]]; cbn [length] in Li; try lia; cbn [map]; clear G Li; (destruct Ic as [Ic|[Ic|[Ic|[]]]]; rewrite <- Ic in *; cbn [Nat.max] in K; first [apply N|apply M; [reflexivity|]]; apply K; repeat (apply Forall_cons; [cbn [fst]; lia|]); apply Forall_nil).
Qed.
Lemma conv_use_ok n l : Forall conv_fine l -> exists w ss, conv_use A size fresh run context_rate n None l = Ok (w, ss).
Proof.
  intros F. unfold conv_use. cbn [conv_create bind]. apply (use_ok do_ on_ pr_ conv_agrees conv_fine conv_call_agrees).
  - intros h q r r' o Fq P Ag. destruct (conv_process_ok h q r Fq Ag) as (st' & o' & P' & Ag'). congruence.
  - intros h q r Fq Ag. destruct (conv_process_ok h q r Fq Ag) as (st' & o' & P' & _). eauto.
  - exact F.
  - eexists. split; [reflexivity|exact I].
Qed.
End Convolver.
End Nodes.
