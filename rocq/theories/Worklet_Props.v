(** C60: AudioWorkletNode: the processor sees exactly the inputs, and its buffers are the outputs. *)
From Coq Require Import List Arith Bool Lia.
From Verif Require Import Worklet_Model Worklet_Spec Worklet_Proofs.
Import ListNotations.

(** The options are accepted exactly when there is an input or an output and the channel counts, if given, are one
    number from 1 to 32 for every output. *)
Theorem C60_options : forall ni no counts,
  (exists stored, worklet_counts ni no counts = Ok stored) <->
  (ni <> 0 \/ no <> 0) /\ (counts = [] \/ (length counts = no /\ Forall (fun c => 1 <= c <= 32) counts)).
Proof.
  intros ni no counts. split.
  - intros [stored E]. assert (A : ni <> 0 \/ no <> 0).
    { unfold worklet_counts in E. destruct ni; [|left; lia]. destruct no; [discriminate|right; lia]. }
    split; [exact A|]. destruct (stored_cases ni no counts stored E) as [(K & _)|[(K & _)|(_ & _ & W & L)]]; auto.
  - intros [A B]. assert (C : negb (ni =? 0) || negb (no =? 0) = true) by (destruct ni, no; cbn; auto; lia).
    unfold worklet_counts. rewrite C. cbn [check bind]. destruct counts as [|c cs]; [eexists; reflexivity|].
    destruct B as [B|[L F]]; [discriminate|].
    assert (D : forallb (fun c => (0 <? c) && (c <=? max_channels)) (c :: cs) = true).
    { apply forallb_forall. rewrite Forall_forall in F. intros x Hx. specialize (F x Hx). apply andb_true_intro. split; [apply Nat.ltb_lt; lia|apply Nat.leb_le; unfold max_channels; lia]. }
    rewrite D. cbn [check bind]. rewrite (proj2 (Nat.eqb_eq _ _) L). eexists. reflexivity.
Qed.
Print Assumptions C60_options.

(** Over any sequence of quanta and messages, with any inputs: the processor is constructed once, gets every message and
    every quantum in order, with exactly the samples of the inputs; every output has the configured number of channels;
    the output of the node is what the processor left in the buffers; and the node panics only if the user's code does.
    Missing: the buffers must be zero when the processor gets them; here they have the contents of the last quantum. *)
Theorem C60_calls_partial : forall V U O (P : program V U O) ni no counts stored o u (es : list (event V)) (first : list (list (chan V))),
  worklet_counts ni no counts = Ok stored -> keeps_shape P -> p_constructor P o = Some u ->
  ports_ok no first -> (forall s q, In (Quantum s q) es -> ports_ok ni q) ->
  match ideal P ni no counts u (old_fill (samples first)) [] es with
  | Some (u', outs) => exists p' qs, worklet_run P stored (Uninit o) first es = Ok (p', qs) /\ load P p' = Ok u' /\
      map samples qs = outs /\ map (map (@length _)) qs = map (wanted ni no counts) (quanta es)
  | None => worklet_run P stored (Uninit o) first es = Panic
  end.
Proof.
  intros V U O P ni no counts stored o u es first A K C F H.
  apply (run_ok ni no counts stored A P K es (Uninit o) u first (samples first) []); auto.
  - cbn. rewrite C. reflexivity.
  - apply Forall_forall. intros [s q|m] He; cbn; [eapply H; exact He|exact Logic.I].
Qed.
Print Assumptions C60_calls_partial.

(** A processor which writes all the samples of its outputs behaves as with buffers filled with zeros. *)
Theorem C60_zero_filled_partial : forall V U O (P : program V U O) ni no counts stored o u (es : list (event V)) (first : list (list (chan V))) zero size,
  worklet_counts ni no counts = Ok stored -> keeps_shape P -> p_constructor P o = Some u ->
  (forall u i b b', shape b = shape b' -> p_process P u i b = p_process P u i b') ->
  ports_ok no first -> (forall q c, In q first -> In c q -> length (c_val c) = size) ->
  (forall s q, In (Quantum s q) es -> ports_ok ni q) ->
  match ideal P ni no counts u (zero_fill zero size) [] es with
  | Some (u', outs) => exists p' qs, worklet_run P stored (Uninit o) first es = Ok (p', qs) /\ load P p' = Ok u' /\ map samples qs = outs
  | None => worklet_run P stored (Uninit o) first es = Panic
  end.
Proof.
  intros V U O P ni no counts stored o u es first zero size A K C W F S H.
  assert (Fe : Forall (fine ni) es) by (apply Forall_forall; intros [s q|m] He; cbn; [eapply H; exact He|exact Logic.I]).
  pose proof (run_ok ni no counts stored A P K es (Uninit o) u first (samples first) []) as R.
  rewrite (fills_agree ni no counts stored A P K zero size W es u (samples first) [] []) in R; auto.
  - cbn [load] in R. rewrite C in R. specialize (R eq_refl F Fe eq_refl).
    destruct (ideal P ni no counts u (zero_fill zero size) [] es) as [[u' outs]|]; [|exact R]. destruct R as (p' & qs & R1 & R2 & R3 & _). exists p', qs. auto.
  - unfold samples. rewrite map_length. apply F.
  - apply Forall_map. eapply Forall_impl; [|apply F]. cbn. intros a Ha. rewrite map_length. lia.
  - apply Forall_map. apply Forall_forall. intros q Hq. apply Forall_map. apply Forall_forall. intros c Hc. eapply S; eassumption.
Qed.
Print Assumptions C60_zero_filled_partial.

(** Panics of the user's constructor are passed on. *)
Theorem C60_constructor : forall V U O (P : program V U O) stored o first (es : list (event V)),
  p_constructor P o = None -> es <> [] -> worklet_run P stored (Uninit o) first es = Panic.
Proof.
  intros V U O P stored o first [|[s q|m] es] C N; [congruence| |]; cbn [worklet_run]; unfold worklet_process, worklet_message; cbn [load]; rewrite C; reflexivity.
Qed.
Print Assumptions C60_constructor.

(** a processor with a factor, changed by messages; 0 panics *)
Definition scaler : program nat nat nat := mk_program
  (fun o => Some o)
  (fun u i b => if u =? 0 then None else Some (u, map (map (map (fun _ => u * hd 0 (hd [] (hd [] i))))) b, true))
  (fun u m => Some (u * m)).
Lemma scaler_keeps : keeps_shape scaler.
Proof.
  intros u i b u' b' t E. cbn in E. destruct (u =? 0); [discriminate|]. injection E as _ <- _. unfold shape. rewrite map_map. apply map_ext. intros a.
  rewrite map_map. apply map_ext. intros c. apply map_length.
Qed.
Example C60_hypotheses :
  worklet_counts 2 2 [1; 2] = Ok [1; 2] /\ keeps_shape scaler /\
  worklet_run scaler [1; 2] (Uninit 2) [[mk_chan 0 [0; 0]]; [mk_chan 0 [0; 0]]]
    [Quantum 10 [[mk_chan 5 [3; 4]]; [mk_chan 0 [0; 0]]]; Message 5; Quantum 10 [[mk_chan 5 [1; 4]; mk_chan 6 [7; 7]]; [mk_chan 0 [0; 0]]]] =
  Ok (Init 10, [[[mk_chan 10 [6; 6]]; [mk_chan 11 [6; 6]; mk_chan 12 [6; 6]]]; [[mk_chan 10 [10; 10]]; [mk_chan 11 [10; 10]; mk_chan 12 [10; 10]]]]) /\
  (* one input, one output, no counts: the output has the channels of the input *)
  worklet_run scaler [] (Uninit 2) [[mk_chan 0 [0; 0]]] [Quantum 10 [[mk_chan 5 [3; 4]; mk_chan 6 [1; 1]]]; Message 0; Message 1] =
  Ok (Init 0, [[[mk_chan 10 [6; 6]; mk_chan 11 [6; 6]]]]) /\
  worklet_counts 2 2 [1; 33] = Panic /\ worklet_counts 0 0 [] = Panic.
Proof. split; [reflexivity|]. split; [exact scaler_keeps|]. repeat split. Qed.

(** Finding: the buffers are not cleared. A processor which writes a block of ones once and then does nothing plays ones for
    ever (with a mono input throughout); zero filled buffers would give silence. *)
Definition once : program nat bool unit := mk_program
  (fun _ => Some true)
  (fun u i b => Some (false, if u then map (map (map (fun _ => 1))) b else b, true))
  (fun u m => Some u).
Lemma once_keeps : keeps_shape once.
Proof.
  intros u i b u' b' t E. cbn in E. injection E as _ <- _. destruct u; [|reflexivity]. unfold shape. rewrite map_map. apply map_ext. intros a.
  rewrite map_map. apply map_ext. intros c. apply map_length.
Qed.
Theorem C60_not_zero_filled_refuted :
  let silent := [mk_chan 0 [0; 0]] in
  let es := fun n => Quantum 10 [silent] :: repeat (Quantum 10 [silent]) n in
  (forall n, worklet_run once [] (Uninit tt) [silent] (es n) = Ok (Init false, [[mk_chan 10 [1; 1]]] :: repeat [[mk_chan 10 [1; 1]]] n)) /\
  (forall n, ideal once 1 1 [] true (zero_fill 0 2) [] (es n) = Some (false, [[[1; 1]]] :: repeat [[[0; 0]]] n)).
Proof.
  cbv zeta. split; intros n.
  - change (worklet_run once [] (Uninit tt) [[mk_chan 0 [0; 0]]] (Quantum 10 [[mk_chan 0 [0; 0]]] :: repeat (Quantum 10 [[mk_chan 0 [0; 0]]]) n))
      with (do r' <- worklet_run once [] (Init false) [[mk_chan 10 [1; 1]]] (repeat (Quantum 10 [[mk_chan 0 [0; 0]]]) n); Ok (fst r', [[mk_chan 10 [1; 1]]] :: snd r')).
    assert (H : worklet_run once [] (Init false) [[mk_chan 10 [1; 1]]] (repeat (Quantum 10 [[mk_chan 0 [0; 0]]]) n) = Ok (Init false, repeat [[mk_chan 10 [1; 1]]] n)).
    { induction n as [|n IH]; [reflexivity|]. cbn [repeat worklet_run].
      change (worklet_process once [] (Init false) 10 [[mk_chan 0 [0; 0]]] [[mk_chan 10 [1; 1]]]) with (Ok (@Init bool unit false, [[mk_chan 10 [1; 1]]], true)).
      cbn [bind fst snd]. rewrite IH. reflexivity. }
    rewrite H. reflexivity.
  - cbn [ideal]. cbn -[ideal repeat zero_fill].
    assert (H : forall b, ideal once 1 1 [] false (zero_fill 0 2) b (repeat (Quantum 10 [[mk_chan 0 [0; 0]]]) n) = Some (false, repeat [[[0; 0]]] n)).
    { induction n as [|n IH]; intros b; [reflexivity|]. cbn [repeat ideal]. cbn -[ideal repeat]. rewrite IH. reflexivity. }
    rewrite H. reflexivity.
Qed.
Print Assumptions C60_not_zero_filled_refuted.
