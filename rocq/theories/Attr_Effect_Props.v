(** The attributes of biquad filters and convolvers: theorems (C82, continued). *)
From Coq Require Import List Arith Bool ZArith Lia Reals Lra.
From Verif Require Import Common_Model Arith_Model Arith_Real Quantum_Model Route_Spec Sched_Model Filter_Model Filter_Spec Filter_Props Attr_Model Attr_Spec Attr_Proofs Attr_NodeProofs.
From Verif Require Import Conv_Model Conv_Spec Conv_Proofs Conv_Props.
Import ListNotations.
Local Open Scope R_scope.

(** ** Biquad filter *)
(** Exact arithmetic, any history of changes of the type and quanta: every call returns, the getter returns the latest
    type, and each sample satisfies the difference equation of the type (and the parameters) of its quantum, with the
    samples before it, which may have been filtered with other types.  [played] (Attr_Spec.v) pairs the quanta with the
    types. *)
Theorem C82_biquad : forall size rate ty l, (0 < size)%nat -> 0 < rate -> Forall (call_ok (sops_of exact) size) (played ty l) -> Forall (fun c => params_ok (snd (l_settings _ c))) (played ty l) ->
  exists w ss, biquad_use exact size rate ty l = Ok (w, ss) /\ u_handle w = latest Some ty l /\
    (forall i c, nth_error l i = Some (Call c) -> nth_error ss i = Some (Returned true)) /\
    forall c, let h := channel_history 0 size c (settings 0 size) empty_history (played ty l) (map fst (sounds ss)) in length (h_in h) = length (h_env h) /\ length (h_out h) = length (h_env h) /\
      forall t g, nth_error (h_env h) t = Some g -> let f0 := cents (g_frequency g) (g_detune g) in 0 < f0 < rate / 2 -> (needs_q (g_type g) = true -> 0 < g_q g) ->
        let s := cookbook (g_type g) rate f0 (g_gain g) (g_q g) in 0 < f_a0 s /\
        weighted [f_a0 s; f_a1 s; f_a2 s] (h_out h) (Z.of_nat t) = weighted [f_b0 s; f_b1 s; f_b2 s] (h_in h) (Z.of_nat t).
Proof.
  intros size rate ty l Hs Hr Hok Hp. destruct (C29_biquad size rate (played ty l) Hs Hr Hok Hp) as (st & outs & R & P).
  destruct (biquad_use_ok exact size rate ty [] (ty, []) l st outs eq_refl R) as (w & ss & U). exists w, ss. split; [exact U|]. split; [exact (biquad_use_handle exact size rate ty l w ss U)|]. split.
  - intros i c N. rewrite (use_calls _ _ _ _ _ _ _ _ _ U N). reflexivity.
  - destruct (biquad_use_spec exact size rate ty l ([], (ty, [])) w ss U (ex_intro _ ty (conj eq_refl eq_refl))) as (st' & R'). cbn [snd] in R'. rewrite R in R'. injection R' as _ <-. exact P.
Qed.
Print Assumptions C82_biquad.
Definition c82_params : biquad_params (V := R) := mk_biquad_params [350] [0] [1] [0].
Definition c82_filters : list (event filter_type (biquad_params (V := R) * nat * list (chan R) * list (chan R))) :=
  [Render (c82_params, 5%nat, [mk_chan 1 [1; 1]], [mk_chan 0 [0; 0]]); Call Notch; Call Highpass; Render (c82_params, 5%nat, [mk_chan 1 [1; 1]], [mk_chan 0 [0; 0]])].
Example C82_biquad_case : Forall (call_ok (sops_of exact) 2) (played Lowpass c82_filters) /\ Forall (fun c => params_ok (snd (l_settings _ c))) (played Lowpass c82_filters) /\
  map (fun c => fst (l_settings _ c)) (played Lowpass c82_filters) = [Lowpass; Highpass].
Proof.
  assert (Q : forall ty, call_ok (sops_of exact) 2 (mk_call (filter_type * biquad_params) (ty, c82_params) 5 [mk_chan 1 [1; 1]] [mk_chan 0 [0; 0]])).
  { intros ty. split; [|discriminate]. cbn [l_input]. split; [cbn; lia|]. split; [repeat constructor|]. repeat constructor; cbn; discriminate. }
  split; [unfold c82_filters; cbn [played]; constructor; [apply Q|]; constructor; [apply Q|constructor]|]. split; [unfold c82_filters; cbn [played]; constructor; [|constructor; [|constructor]]; cbn; repeat split; discriminate|reflexivity].
Qed.

(** ** Convolver *)
(** Any arithmetic: the response is the latest acceptable one, [normalize] the latest value; a response is refused if it
    has another sample rate than the context or a number of channels other than 1, 2 and 4. *)
Theorem C82_convolver : forall T V (A : arith T V) E (fresh : list V -> E) run size rate normalize l w ss, conv_use A size fresh run rate normalize None l = Ok (w, ss) ->
  u_handle w = mk_conv_handle (normalize_after normalize l) (buffer_after A rate None l) /\
  (forall i c, nth_error l i = Some (Call c) -> nth_error ss i = Some (Returned (match c with V_buffer b => acceptable A rate b | V_normalize _ => true end))).
Proof.
  intros T V A E fresh run size rate normalize l w ss U. unfold conv_use in U. cbn [conv_create bind] in U. split.
  - rewrite (use_handle _ _ _ _ _ _ _ U). apply conv_after.
  - intros i c N. rewrite (use_calls _ _ _ _ _ _ _ _ _ U N). rewrite conv_returns. reflexivity.
Qed.
Print Assumptions C82_convolver.
(** a response in the options is like a call right after the creation, except that a refused one is a panic *)
Theorem C82_convolver_options : forall T V (A : arith T V) E (fresh : list V -> E) run size rate normalize b l,
  if acceptable A rate b
  then conv_use A size fresh run rate normalize None (Call (V_buffer b) :: l) = do (w, ss) <- conv_use A size fresh run rate normalize (Some b) l; Ok (w, Returned true :: ss)
  else conv_use A size fresh run rate normalize (Some b) l = Panic \/ conv_use A size fresh run rate normalize (Some b) l = Stuck.
Proof.
  intros T V A E fresh run size rate normalize [[r len] chs] l. pose proof (set_buffer_ok A fresh rate normalize r len chs) as S. rewrite <- S. unfold conv_use, conv_create. cbn [conv_do ch_normalize bind use use_step u_handle u_queue u_rend ch_buffer].
  destruct (set_buffer A fresh normalize rate r len chs) as [m| |]; cbn [bind app]; auto.
Qed.
Print Assumptions C82_convolver_options.

(** No history of calls and of mono and stereo quanta makes it panic, in any arithmetic. *)
Theorem C82_convolver_safe : forall T V (A : arith T V) E (fresh : list V -> E) run size rate normalize l,
  Forall (fun e => match e with Call _ => True | Render (_, input, output) => (length input = 1%nat \/ length input = 2%nat) /\ output <> [] end) l ->
  exists w ss, conv_use A size fresh run rate normalize None l = Ok (w, ss).
Proof. intros T V A E fresh run size rate normalize l. exact (conv_use_ok A size fresh run rate normalize l). Qed.
Print Assumptions C82_convolver_safe.

(** Exact arithmetic, any engine that convolves: after a response is set, whatever happened before, the node plays the
    convolution of the quanta since then with the channels of the response, scaled by the normalization if [normalize]
    was true at that time.  Later changes of [normalize] and refused responses have no effect. *)
Theorem C82_convolver_sound : forall (E : Type) size fresh (run : E -> list R -> E * list R), convolves size fresh run ->
  forall normalize rate l1 len (chs : list (list R)) l2 w ss u, In (length chs) [1; 2; 4]%nat -> Forall (fun c : list R => length c = len) chs ->
  Forall (fun e => match e with Call (V_buffer b) => acceptable exact rate b = false | _ => True end) l2 -> Forall (fit size u) (quanta l2) ->
  conv_use exact size fresh run rate normalize None (l1 ++ Call (V_buffer (rate, len, chs)) :: l2) = Ok (w, ss) ->
  let scale := if normalize_after normalize l1 then / Rmax (1 / 8000) (rms chs len) * (1 / 800) * (44100 / rate) * (if (length chs =? 4)%nat then 1 / 2 else 1) else 1 in
  let irs := map (map (fun x => x * scale)) chs in let outs := map fst (sounds (skipn (length l1) ss)) in
  heard 0 outs = map (expected irs (heard 0 (ins (quanta l2))) (heard 1 (ins (quanta l2))) 0) (seq 0 (size * length (quanta l2))) /\
  (u <> Mixed \/ (1 < length chs)%nat -> heard 1 outs = map (expected irs (heard 0 (ins (quanta l2))) (heard 1 (ins (quanta l2))) 1) (seq 0 (size * length (quanta l2)))).
Proof.
  intros E size fresh run engine normalize rate l1 len chs l2 w ss u Ch F F2 Q U scale irs outs. unfold conv_use in U. cbn [conv_create bind] in U. rewrite use_app in U.
  destruct (use _ _ _ _ l1) as [[w1 ss1]| |] eqn:E1 in U; try discriminate. cbn [bind use] in U. pose proof (use_handle _ _ _ _ _ _ _ E1) as Hh. cbn [u_handle] in Hh. rewrite conv_after in Hh. cbn [ch_normalize ch_buffer] in Hh.
  destruct (conv_deliver (u_rend w1) (u_queue w1)) as (before & D & _).
  destruct (C58_convolution_partial E size fresh run engine (normalize_after normalize l1) rate len chs before u (quanta l2) Ch F Q) as (m & outs' & Em & R & Ln & H0 & H1).
  unfold use_step at 1 in U. cbn [conv_do] in U. rewrite Hh in U. cbn [ch_normalize bind u_handle] in U. rewrite Em in U. cbn [bind] in U.
  destruct (use _ _ _ _ l2) as [[w2 ss2]| |] eqn:E2 in U; try discriminate. cbn [bind] in U. injection U as _ <-.
  assert (D2 : deliver (conv_on_msg (E := E)) (u_rend w1) (u_queue w1 ++ [m]) = Ok (on_message before m)) by (rewrite deliver_app, D; reflexivity).
  pose proof (conv_tail exact size fresh run rate _ _ _ (on_message before m) l2 w2 ss2 D2 F2 E2) as R2. rewrite R in R2. injection R2 as ->.
  assert (So : outs = map fst (sounds ss2)). { unfold outs. rewrite <- (use_length _ _ _ _ _ _ _ E1). rewrite skipn_app, skipn_all, Nat.sub_diag. reflexivity. }
  assert (Si : (if normalize_after normalize l1 then normalize_buffer exact rate len chs else 1) = scale). { unfold scale. destruct (normalize_after normalize l1); [|reflexivity]. apply C59_gain. }
  rewrite Si in H0, H1. rewrite So. split; [exact H0|exact H1].
Qed.
Print Assumptions C82_convolver_sound.

(** The hypotheses can be met: a first response, then [normalize] off, a second one, a refused one, and sound. *)
Definition c82_block (x : R) : nat * list (chan R) * list (chan R) := (5%nat, [mk_chan 1 [x; x]], [mk_chan 0 [0; 0]]).
Definition c82_before : list (event (conv_call (V := R)) (nat * list (chan R) * list (chan R))) := [Call (V_buffer (44100, 1%nat, [[1]])); Render (c82_block 1); Call (V_normalize false)].
Definition c82_after : list (event (conv_call (V := R)) (nat * list (chan R) * list (chan R))) := [Call (V_normalize true); Call (V_buffer (44100, 1%nat, [[1]; [1]; [1]])); Render (c82_block 3)].
Example C82_convolver_case : (exists w ss, conv_use exact 2 direct_fresh direct_run 44100 true None (c82_before ++ Call (V_buffer (44100, 2%nat, [[0; 1]])) :: c82_after) = Ok (w, ss)) /\
  Forall (fun e => match e with Call (V_buffer b) => acceptable exact 44100 b = false | _ => True end) c82_after /\ Forall (fit 2 Mono) (quanta c82_after) /\ normalize_after true c82_before = false.
Proof.
  split; [|split; [|split; [|reflexivity]]].
  - apply C82_convolver_safe. unfold c82_before, c82_after, c82_block. cbn [app]. repeat (apply Forall_cons; [exact I || (split; [left; reflexivity|discriminate])|]). apply Forall_nil.
  - unfold c82_after, acceptable. repeat (apply Forall_cons; [exact I || apply andb_false_r|]). apply Forall_nil.
  - unfold c82_after. cbn [quanta flat_map app]. constructor; [|constructor]. split; [|split; [reflexivity|discriminate]]. cbn. split; [left; reflexivity|]. repeat constructor; discriminate.
Qed.
