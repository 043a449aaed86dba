From Coq Require Import List Arith Bool ZArith Lia Permutation.
From Verif Require Import Common_Model Arith_Model Quantum_Model Route_Model Route_Spec Source_Model Graph_Model Graph_Spec Graph_OrderProofs
  Graph_TraceModel Graph_TraceSpec Graph_TraceProofs Flow_Spec Flow_Proofs Thread_Model Thread_Spec Thread_OfflineProofs Whole_Model Whole_Spec Whole_Proofs
  Desk_Model Desk_Spec Desk_BuildProofs Desk_MixProofs Desk_FlowProofs.
From Verif Require Param_Model.
Import ListNotations.

Section Desk.
Context {T V : Type}.
Variable A : arith T V.
Variable PO : @Param_Model.param_ops T V.
Variable sr : V.
Notation E := (desk_env A PO sr).
Notation param := (@Param_Model.param T V).
Notation voice := (voice T V).
Notation zeros := (repeat (v_zero A) RQ).
Notation run := (@run T V).

Lemma desk_env_ok : env_ok E.
Proof.
  intros p ins outs v f p' outs' t H. cbn [process desk_env] in H. unfold desk_process in H.
  destruct p, ins as [|i ins], outs as [|o outs]; try discriminate.
  all: try (injection H as <- <- <-; reflexivity).
  all: match type of H with option_map _ ?x = _ => destruct x as [r|]; [|discriminate] end; cbn [option_map] in H; injection H as <- <- <-; reflexivity.
Qed.
Lemma samples_ok q : well_formed RQ (samples A q).
Proof.
  unfold samples. destruct (q_chans q) as [|c cs]; [split; [discriminate|repeat constructor]|]. split; [discriminate|]. apply Forall_forall. intros x Hx. apply in_map_iff in Hx. destruct Hx as (c0 & <- & _).
  rewrite firstn_length, app_length, repeat_length. lia.
Qed.

(** ** The values of an AudioParam *)
Definition quanta_ops (k0 K : nat) : list (@Param_Model.pop T V) :=
  map (fun k => Param_Model.Quantum (block_time A sr (Z.of_nat (k * RQ))) (dt A sr) zeros true) (seq k0 K).
Lemma prun_quanta K : forall k0 p p' outs, Param_Model.prun PO RQ p (quanta_ops k0 K) = Ok (p', outs) ->
  length outs = K /\ exists ps, ps 0 = p /\ forall k, k < K ->
    Param_Model.process PO RQ (ps k) (block_time A sr (Z.of_nat ((k0 + k) * RQ))) (dt A sr) zeros true = Ok (ps (S k), nth k outs []).
Proof.
  induction K as [|K IH]; intros k0 p p' outs H; cbn [quanta_ops seq map Param_Model.prun] in H.
  - injection H as <- <-. split; [reflexivity|]. exists (fun _ => p). split; [reflexivity|]. intros k Hk. lia.
  - cbn [Param_Model.pstep] in H. destruct (Param_Model.process PO RQ p _ _ _ _) as [[p1 o]| |] eqn:Ep; cbn [bind fst snd] in H; try discriminate.
    fold (quanta_ops (S k0) K) in H. destruct (Param_Model.prun PO RQ p1 (quanta_ops (S k0) K)) as [[p2 outs']| |] eqn:E2; cbn [bind fst snd] in H; try discriminate.
    injection H as <- <-. destruct (IH _ _ _ _ E2) as [L (ps & P0 & P1)]. split; [cbn; rewrite L; reflexivity|].
    exists (fun k => match k with 0 => p | S k' => ps k' end). split; [reflexivity|]. intros [|k] Hk; cbn [nth app].
    + rewrite Nat.add_0_r, P0. exact Ep.
    + replace (k0 + S k) with (S k0 + k) by lia. apply P1. lia.
Qed.

(** The values of a parameter in [K] quanta, after the calls made before the start *)
Definition plays (K : nat) (x : V) (calls : list (@Param_Model.call T V)) (values : list (list V)) : Prop :=
  exists p, Param_Model.prun PO RQ (fresh_param A) (set_up x calls ++ quanta_ops 0 K) = Ok (p, values).
Lemma set_up_silent calls : forall p p' o, Param_Model.prun PO RQ p (map Param_Model.Schedule calls) = Ok (p', o) -> o = [].
Proof.
  induction calls as [|c calls IH]; intros p p' o H; cbn [map Param_Model.prun] in H; [injection H as _ <-; reflexivity|].
  cbn [Param_Model.pstep] in H. destruct (Param_Model.call_event PO c) as [e|].
  - destruct (Param_Model.handle_incoming_event PO p e) as [q| |]; cbn [bind fst snd] in H; try discriminate.
    destruct (Param_Model.prun PO RQ q (map Param_Model.Schedule calls)) as [[q' o']| |] eqn:E2; cbn [bind fst snd] in H; try discriminate. injection H as _ <-. apply (IH _ _ _ E2).
  - cbn [bind fst snd] in H. destruct (Param_Model.prun PO RQ p (map Param_Model.Schedule calls)) as [[q' o']| |] eqn:E2; cbn [bind fst snd] in H; try discriminate. injection H as _ <-. apply (IH _ _ _ E2).
Qed.
Lemma plays_steps K x calls values : plays K x calls values ->
  length values = K /\ exists ps, ready A PO x calls (ps 0) /\ steps A PO sr K ps (fun k => nth k values []).
Proof.
  intros [p H]. destruct (prun_app PO RQ _ _ _ _ _ H) as (p1 & o1 & o2 & H1 & H2 & ->). pose proof (set_up_silent _ _ _ _ H1) as ->. cbn [app].
  destruct (prun_quanta K 0 p1 p o2 H2) as [L (ps & P0 & P1)]. split; [exact L|]. exists ps. split; [rewrite P0; exists []; exact H1|]. exact P1.
Qed.

(** a voice with the values of its offset and its gain *)
Definition valued : Type := (voice * (list (list V) * list (list V))).
Definition valued_ok (K : nat) (w : valued) : Prop :=
  plays K (v_offset (fst w)) (v_offset_calls (fst w)) (fst (snd w)) /\ plays K (v_gain (fst w)) (v_gain_calls (fst w)) (snd (snd w)) /\ Forall (fun g => g <> []) (snd (snd w)).
Definition sound (w : valued) (k : nat) : option (list V) := voice_out A sr (fst w) (fun k => nth k (fst (snd w)) []) (fun k => nth k (snd (snd w)) []) k.

Lemma to_runs K (ws : list valued) : Forall (valued_ok K) ws ->
  exists runs, Forall (run_ok A PO sr K) runs /\ map r_voice runs = map fst ws /\ (forall i k, played A sr runs i k = match nth_error ws i with Some w => sound w k | None => None end) /\ length runs = length ws.
Proof.
  induction 1 as [|[v [vo vg]] ws (H1 & H2 & H3) _ (runs & R1 & R2 & R3 & R4)]; [exists []; split; [constructor|]; split; [reflexivity|]; split; [intros [|i] k; reflexivity|reflexivity]|].
  cbn [fst snd] in *. destruct (plays_steps _ _ _ _ H1) as [L1 (ps & S1 & S2)]. destruct (plays_steps _ _ _ _ H2) as [L2 (qs & T1 & T2)].
  exists (mk_run v ps (fun k => nth k vo []) qs (fun k => nth k vg []) :: runs). split; [constructor; [|exact R1]|].
  - split; [split; [exact S1|exact T1]|]. split; [exact S2|]. split; [exact T2|]. cbn [r_vg]. intros k Hk. rewrite Forall_forall in H3. apply H3. apply nth_In. lia.
  - split; [cbn; rewrite R2; reflexivity|]. split; [|cbn; rewrite R4; reflexivity]. intros [|i] k; [reflexivity|]. apply R3.
Qed.

Lemma index_map {X} (ws : list X) : map Some ws = map (nth_error ws) (seq 0 (length ws)).
Proof. induction ws as [|w ws IH]; [reflexivity|]. cbn [length seq map nth_error]. f_equal. rewrite IH, <- seq_shift, map_map. reflexivity. Qed.

Theorem desk_rendered n len (ws : list valued) : 0 < n <= max_channels -> Forall (valued_ok (div_ceil len RQ)) ws ->
  exists order t' buf, Permutation ws order /\
    render_audiobuffer (audio_graph E (samples A)) (v_zero A) RQ n len new_thread (startup (desk A PO n (map fst ws))) [] [] = Some (t', buf, []) /\ length buf = n /\
    forall c, c < n -> exists ch, nth_error buf c = Some ch /\ length ch = len /\ forall j, j < len -> nth_error ch j = Some (
      if speaker n c then nth (j mod RQ) (match sum (v_add A) (map (fun w => sound w (j / RQ)) order) with Some v => v | None => zeros end) (v_zero A) else v_zero A).
Proof.
  intros Hn Hw. set (K := div_ceil len RQ) in *. destruct (to_runs K ws Hw) as (runs & R1 & R2 & R3 & R4).
  assert (VR : Forall (voice_ready A PO) (map r_set runs)).
  { apply Forall_forall. intros x Hx. apply in_map_iff in Hx. destruct Hx as (r & <- & Hr). rewrite Forall_forall in R1. apply R1. exact Hr. }
  destruct (desk_built A PO sr n (map r_set runs) VR) as (g & ls & B1 & B2 & B3).
  assert (M : map fst (map r_set runs) = map fst ws) by (rewrite map_map; exact R2). rewrite M in B1, B2.
  destruct (offline_solved E (samples A) (v_zero A) RQ ltac:(unfold RQ; lia) samples_ok desk_env_ok n len (desk A PO n (map fst ws)) g ls) as (ns & ord & C1 & C2 & C3 & C4).
  - apply Hn.
  - exact B1.
  - apply desk_in_time.
  - apply desk_only.
  - exact B2.
  - intros i [x Hx]. rewrite B3 in Hx. pose proof (desk_handles A PO n _ _ _ Hx) as Y. rewrite M in Y. exact Y.
  - intros i (c & Hc & _). exact (desk_acyclic A n _ _ B3 c Hc).
  - exists (n_destination A n). rewrite B3. split; [reflexivity|discriminate].
  - assert (NS : forall j, get ns j = desk_table A n (map r_set runs) j).
    { intros j. rewrite <- B3. destruct (C1 j) as [X|(x & _ & _ & (c & Hc & _) & _)]; [exact X|]. exfalso. exact (desk_acyclic A n _ _ B3 c Hc). }
    pose proof (solves A PO sr n runs (voices_in ord) ns NS ord C2 C3 eq_refl K R1) as SOL.
    destruct (C4 _ (reads A PO sr n runs (voices_in ord) ns NS) SOL) as (t' & buf & D1 & D2 & D3).
    pose proof (voices_permuted A n runs ns NS ord C2 C3) as PM. rewrite R4 in PM.
    assert (ORD : exists order, Permutation ws order /\ map Some order = map (nth_error ws) (voices_in ord)).
    { assert (X : Permutation (map Some ws) (map (nth_error ws) (voices_in ord))) by (rewrite index_map; apply Permutation_map; exact PM).
      apply Permutation_sym in X. destruct (Permutation_map_inv _ _ X) as (order & O1 & O2). exists order. split; [exact O2|symmetry; exact O1]. }
    destruct ORD as (order & O1 & O2). exists order, t', buf. split; [exact O1|]. split; [exact D1|]. split; [exact D2|]. intros c Hc.
    destruct (D3 c Hc) as (ch & X1 & X2 & X3). exists ch. split; [exact X1|]. split; [exact X2|]. intros j Hj. rewrite (X3 j Hj). f_equal.
    rewrite (heard_desk A PO sr n runs (voices_in ord) K R1 Hn c j Hc).
    + destruct (speaker n c); [|reflexivity].
      replace (map (fun i => played A sr runs i (j / RQ)) (voices_in ord)) with (map (fun w => sound w (j / RQ)) order); [reflexivity|].
      transitivity (map (fun o => match o with Some w => sound w (j / RQ) | None => None end) (map Some order)); [rewrite map_map; reflexivity|].
      rewrite O2, map_map. apply map_ext. intros i. rewrite R3. reflexivity.
    + unfold K. eapply Nat.lt_le_trans; [exact Hj|apply div_ceil_enough; unfold RQ; lia].
Qed.
End Desk.
