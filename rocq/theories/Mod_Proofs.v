(** The sound of the tremolo program, for any arithmetic (C88) *)
From Coq Require Import List Arith Bool ZArith Lia.
From Verif Require Import Common_Model Arith_Model Quantum_Model Route_Model Route_Spec Source_Model Graph_Model Graph_Spec
  Graph_TraceModel Flow_Spec Thread_Model Thread_Spec Whole_Model Whole_Spec Whole_Proofs
  Desk_Model Desk_Spec Desk_BuildProofs Desk_MixProofs Desk_FlowProofs Desk_Proofs Mod_Model Mod_GraphProofs.
From Verif Require Param_Model.
Import ListNotations.

Section Mod.
Context {T V : Type}.
Variable A : arith T V.
Variable PO : @Param_Model.param_ops T V.
Variable sr : V.
Notation E := (desk_env A PO sr).
Notation O := (sops_of A).
Notation sil := (silence_chan O RQ).
Notation param := (@Param_Model.param T V).
Notation voice := (voice T V).
Notation holds := (holds A).
Notation zeros := (repeat (v_zero A) RQ).

(** ** Building *)
Definition reactions (calls : list (@Param_Model.call T V)) : list (proc T V -> option (proc T V)) :=
  flat_map (fun c => match Param_Model.call_event PO c with Some e => [on_event PO e] | None => [] end) calls.
Lemma automation_to id calls : automation PO id calls = to id (reactions calls).
Proof. unfold automation, reactions, to. induction calls as [|c calls IH]; cbn [flat_map map]; [reflexivity|]. rewrite map_app, IH. destruct (Param_Model.call_event PO c); reflexivity. Qed.
Lemma reacted calls : forall p p' o, Param_Model.prun PO RQ p (map Param_Model.Schedule calls) = Ok (p', o) -> changed (reactions calls) (P_param p) = Some (P_param p').
Proof.
  induction calls as [|c calls IH]; intros p p' o H; cbn [map Param_Model.prun] in H; [injection H as <- <-; reflexivity|].
  cbn [Param_Model.pstep] in H. cbn [reactions flat_map]. fold (reactions calls). destruct (Param_Model.call_event PO c) as [e|].
  - destruct (Param_Model.handle_incoming_event PO p e) as [q| |] eqn:Eh; cbn [bind fst snd] in H; try discriminate.
    destruct (Param_Model.prun PO RQ q (map Param_Model.Schedule calls)) as [[q' o']| |] eqn:E2; cbn [bind fst snd] in H; try discriminate. injection H as <- <-.
    cbn [app changed on_event]. rewrite Eh. apply (IH _ _ _ E2).
  - cbn [bind fst snd] in H. destruct (Param_Model.prun PO RQ p (map Param_Model.Schedule calls)) as [[q' o']| |] eqn:E2; cbn [bind fst snd] in H; try discriminate. injection H as <- <-. apply (IH _ _ _ E2).
Qed.
Lemma ready_changed x calls p : ready A PO x calls p -> exists r, changed (reactions [Param_Model.C_set_value x]) (P_param (fresh_param A)) = Some (P_param r) /\ changed (reactions calls) (P_param r) = Some (P_param p).
Proof.
  intros [o H]. unfold set_up in H. change (Param_Model.C_set_value x :: calls) with ([Param_Model.C_set_value x] ++ calls) in H. rewrite map_app in H.
  destruct (prun_app PO RQ _ _ _ _ _ H) as (p1 & o1 & o2 & H1 & H2 & _). exists p1. split; [exact (reacted _ _ _ _ H1)|exact (reacted _ _ _ _ H2)].
Qed.
Definition timing (v : voice) : list (proc T V -> option (proc T V)) := on_start (v_start v) :: match v_stop v with Some t => [on_stop t] | None => [] end.
Lemma timing_changed v id : changed (timing v) (P_constant (cs_new A) id) = Some (P_constant (source_state A v) id).
Proof. unfold timing, source_state. destruct (v_stop v); reflexivity. Qed.

Definition initial (v m : voice) (n : nat) : list (gop (proc T V) channel_config) :=
  OpAdd 0 P_destination 1 1 (destination_config n) ::
  voice1 node_config param_config (P_constant (cs_new A) 12) (P_param (fresh_param A)) (P_gain 14) (P_param (fresh_param A))
    (reactions [Param_Model.C_set_value (v_offset v)]) (reactions [Param_Model.C_set_value (v_gain v)]) (reactions (v_offset_calls v)) (reactions (v_gain_calls v)) (timing v) 0 ++
  voice2 node_config param_config (P_constant (cs_new A) 16) (P_param (fresh_param A)) (P_gain 18) (P_param (fresh_param A))
    (reactions [Param_Model.C_set_value (v_offset m)]) (reactions [Param_Model.C_set_value (v_gain m)]) (reactions (v_offset_calls m)) (reactions (v_gain_calls m)) (timing m) 14.
Lemma timing_to v id : OpMessage id (on_start (v_start v)) :: match v_stop v with Some t => [OpMessage id (on_stop t)] | None => [] end = to (CFG := channel_config) id (timing v).
Proof. unfold timing, to. destruct (v_stop v); reflexivity. Qed.
Lemma tremolo_initial n v m : tremolo A PO n v m = initial v m n.
Proof.
  unfold tremolo, desk, initial. cbn [voices_messages app]. f_equal. rewrite app_nil_r. f_equal.
  - unfold voice_messages, voice1. rewrite timing_to, !automation_to. reflexivity.
  - unfold modulator_messages, voice2. rewrite timing_to, !automation_to. reflexivity.
Qed.

(** ** One quantum *)
Definition as_input (x : option (list V)) : list V := match x with Some v => v | None => zeros end.
Definition as_silent (x : option (list V)) : bool := match x with Some _ => false | None => true end.

Lemma param_input q x : holds q x -> exists c, q_chans (qadd E (silence E) q param_config) = [c] /\ holds_chan A c x.
Proof.
  intros (c & Hc & H). cbn [silence qadd desk_env]. unfold signal_add. rewrite Hc. cbn [silent_signal q_chans].
  change (max_name [sil]) with 0.
  destruct (apart_chan A 0 c x H) as (c' & -> & H'). unfold add. cbn [param_config cc_interp cc_mode cc_count new_channels length Nat.max all_channels_identical forallb].
  unfold add_plain. unfold mix. cbn [length Nat.eqb add_zip].
  destruct (chan_add_holds A (S (0 + max_name [c'])) sil c' None x ltac:(lia) eq_refl H') as (s' & c2 & -> & _ & H2).
  exists c2. split; [reflexivity|]. destruct x; exact H2.
Qed.

Section Play.
Variables v m : voice.
Variable n : nat.
Hypothesis Hn : 0 < n <= max_channels.
Variable K : nat.
Variables vo1 vl vo2 vg2 : nat -> list V.
Variables po1 pl po2 pg2 : nat -> param.
Notation depth := (voice_out A sr m vo2 vg2).
Hypothesis O1 : steps A PO sr K po1 vo1.
Hypothesis O2 : steps A PO sr K po2 vo2.
Hypothesis G2 : steps A PO sr K pg2 vg2.
Hypothesis L1 : forall k, k < K -> Param_Model.process PO RQ (pl k) (block_time A sr (Z.of_nat (k * RQ))) (dt A sr) (as_input (depth k)) (as_silent (depth k)) = Ok (pl (S k), vl k).
Hypothesis N1 : forall k, k < K -> vl k <> [].
Hypothesis N2 : forall k, k < K -> vg2 k <> [].

Definition heard_signal (k : nat) : signal V := match k with 0 => silent_signal A | S _ => qadd E (silence E) (gsig A PO sr v vo1 vl k) (destination_config n) end.
Definition moment_at (k : nat) : graph (proc T V) (signal V) channel_config :=
  steady E (destination_config n) node_config param_config
    P_destination (P_constant (fst (src A sr v vo1 k)) 12) (P_param (po1 k)) (P_gain 14) (P_param (pl k)) (P_constant (fst (src A sr m vo2 k)) 16) (P_param (po2 k)) (P_gain 18) (P_param (pg2 k))
    (heard_signal k) (snd (src A sr v vo1 k)) (psig A vo1 k) (gsig A PO sr v vo1 vl k) (psig A vl k) (snd (src A sr m vo2 k)) (psig A vo2 k) (gsig A PO sr m vo2 vg2 k) (psig A vg2 k).

Lemma run_param_at p vals k : steps A PO sr K p vals -> k < K -> forall view, process E (P_param (p k)) [silence E] [psig A vals k] view (k * RQ) = Some (P_param (p (S k)), [psig A vals (S k)], true).
Proof. intros H Hk view. cbn [process desk_env desk_process silence]. rewrite (run_param_ok A PO sr K p vals k H Hk). reflexivity. Qed.

Lemma one_quantum k : k < K -> exists lgs, render E (k * RQ) (moment_at k) = Some (moment_at (S k), lgs, heard_signal (S k)).
Proof.
  intros Hk.
  destruct (src_run A sr v vo1 k) as [t1 S1]. destruct (src_run A sr m vo2 k) as [t2 S2].
  assert (M1 : exists c, q_chans (gsig A PO sr v vo1 vl k) = [c]) by (apply gsig_mono; intros j Hj; apply N1; lia).
  assert (M2 : exists c, q_chans (gsig A PO sr m vo2 vg2 k) = [c]) by (apply gsig_mono; intros j Hj; apply N2; lia).
  destruct (gain_run A PO sr v vo1 vl k (N1 k Hk) M1) as [R1 _]. destruct (gain_run A PO sr m vo2 vg2 k (N2 k Hk) M2) as [R2 H2].
  destruct (param_input _ _ H2) as (c & Ec & Hc).
  destruct (quantum E (destination_config n) node_config param_config (k * RQ)
    P_destination (P_constant (fst (src A sr v vo1 k)) 12) (P_param (po1 k)) (P_gain 14) (P_param (pl k)) (P_constant (fst (src A sr m vo2 k)) 16) (P_param (po2 k)) (P_gain 18) (P_param (pg2 k))
    (heard_signal k) (snd (src A sr v vo1 k)) (psig A vo1 k) (gsig A PO sr v vo1 vl k) (psig A vl k) (snd (src A sr m vo2 k)) (psig A vo2 k) (gsig A PO sr m vo2 vg2 k) (psig A vg2 k)
    P_destination (P_constant (fst (src A sr v vo1 (S k))) 12) (P_param (po1 (S k))) (P_gain 14) (P_param (pl (S k))) (P_constant (fst (src A sr m vo2 (S k))) 16) (P_param (po2 (S k))) (P_gain 18) (P_param (pg2 (S k)))
    (heard_signal (S k)) (snd (src A sr v vo1 (S k))) (psig A vo1 (S k)) (gsig A PO sr v vo1 vl (S k)) (psig A vl (S k)) (snd (src A sr m vo2 (S k))) (psig A vo2 (S k)) (gsig A PO sr m vo2 vg2 (S k)) (psig A vg2 (S k))
    true t1 true false true t2 true false true) as [lgs H].
  - apply run_param_at; assumption.
  - apply run_param_at; assumption.
  - intros view Hv. cbn [process desk_env desk_process]. rewrite (psig_values A vo2 k view 16 Hv), S2. reflexivity.
  - intros view Hv. change (process E) with (desk_process A PO sr). cbn [desk_process]. rewrite (psig_values A vg2 k view 18 Hv). change (qadd E (silence E) (snd (src A sr m vo2 (S k))) node_config) with (mixed E node_config [snd (src A sr m vo2 (S k))]).
    rewrite R2. reflexivity.
  - intros view. change (process E) with (desk_process A PO sr). cbn [desk_process]. unfold run_param. rewrite Ec.
    assert (VC : c_val c = as_input (depth k) /\ is_silent [c] = as_silent (depth k)).
    { unfold is_silent, chan_is_silent. cbn [existsb]. destruct (depth k) as [x|]; cbn in Hc.
      - destruct Hc as (X1 & X2 & _). split; [exact X2|]. destruct (Nat.eqb_spec (c_name c) 0); [contradiction|reflexivity].
      - subst c. split; reflexivity. }
    destruct VC as [-> ->]. rewrite (L1 k Hk). rewrite psig_output. reflexivity.
  - apply run_param_at; assumption.
  - intros view Hv. cbn [process desk_env desk_process]. rewrite (psig_values A vo1 k view 12 Hv), S1. reflexivity.
  - intros view Hv. change (process E) with (desk_process A PO sr). cbn [desk_process]. rewrite (psig_values A vl k view 14 Hv). change (qadd E (silence E) (snd (src A sr v vo1 (S k))) node_config) with (mixed E node_config [snd (src A sr v vo1 (S k))]).
    rewrite R1. reflexivity.
  - intros view. reflexivity.
  - exists lgs. exact H.
Qed.

Lemma played_all j : forall k, k + j <= K -> exists g' ll, play E (moment_at k) (map (fun i => i * RQ) (seq k j)) = Some (g', ll, map (fun i => heard_signal (S i)) (seq k j)).
Proof.
  induction j as [|j IH]; intros k Hk; cbn [seq map play]; [eexists _, _; reflexivity|].
  destruct (one_quantum k ltac:(lia)) as [lgs ->]. destruct (IH (S k) ltac:(lia)) as (g' & ll & ->). eexists _, _. reflexivity.
Qed.

Lemma signal_samples k c i : k < K -> c < n ->
  match nth_error (samples A (heard_signal (S k))) c with Some ch => nth i ch (v_zero A) | None => v_zero A end =
  if speaker n c then nth i (as_input (voice_out A sr v vo1 vl k)) (v_zero A) else v_zero A.
Proof.
  intros Hk Hc.
  assert (M1 : exists c, q_chans (gsig A PO sr v vo1 vl k) = [c]) by (apply gsig_mono; intros j Hj; apply N1; lia).
  destruct (gain_run A PO sr v vo1 vl k (N1 k Hk) M1) as [_ H1].
  pose proof (dest_mixed A PO sr n Hn [gsig A PO sr v vo1 vl (S k)] [voice_out A sr v vo1 vl k] (Forall2_cons _ _ H1 (Forall2_nil _))) as D.
  change (mixed E (destination_config n) [gsig A PO sr v vo1 vl (S k)]) with (heard_signal (S k)) in D.
  pose proof (dest_samples A n _ _ c D Hc) as X. unfold silent_samples, Desk_Spec.sum, as_input in *. cbn [fold_left sum2] in X.
  assert (Z : forall m, nth m zeros (v_zero A) = v_zero A).
  { intros i0. destruct (Nat.lt_ge_cases i0 RQ); [apply nth_repeat|]. apply nth_overflow. rewrite repeat_length. exact H. }
  destruct (nth_error (samples A (heard_signal (S k))) c) as [ch|].
  - rewrite X. destruct (speaker n c); [reflexivity|apply Z].
  - rewrite <- (Z i) at 1. rewrite X at 1. destruct (speaker n c); [reflexivity|apply Z].
Qed.
End Play.

(** ** A rendering *)
Definition modulated_ops (ins : nat -> option (list V)) (k0 K : nat) : list (@Param_Model.pop T V) :=
  map (fun k => Param_Model.Quantum (block_time A sr (Z.of_nat (k * RQ))) (dt A sr) (as_input (ins k)) (as_silent (ins k))) (seq k0 K).
Definition plays_with (K : nat) (x : V) (calls : list (@Param_Model.call T V)) (ins : nat -> option (list V)) (values : list (list V)) : Prop :=
  exists p, Param_Model.prun PO RQ (fresh_param A) (set_up x calls ++ modulated_ops ins 0 K) = Ok (p, values).
Lemma prun_modulated ins K : forall k0 p p' outs, Param_Model.prun PO RQ p (modulated_ops ins k0 K) = Ok (p', outs) ->
  length outs = K /\ exists ps, ps 0 = p /\ forall k, k < K ->
    Param_Model.process PO RQ (ps k) (block_time A sr (Z.of_nat ((k0 + k) * RQ))) (dt A sr) (as_input (ins (k0 + k))) (as_silent (ins (k0 + k))) = Ok (ps (S k), nth k outs []).
Proof.
  induction K as [|K IH]; intros k0 p p' outs H; cbn [modulated_ops seq map Param_Model.prun] in H.
  - injection H as <- <-. split; [reflexivity|]. exists (fun _ => p). split; [reflexivity|]. intros k Hk. lia.
  - cbn [Param_Model.pstep] in H. destruct (Param_Model.process PO RQ p _ _ _ _) as [[p1 o]| |] eqn:Ep; cbn [bind fst snd] in H; try discriminate.
    fold (modulated_ops ins (S k0) K) in H. destruct (Param_Model.prun PO RQ p1 (modulated_ops ins (S k0) K)) as [[p2 outs']| |] eqn:E2; cbn [bind fst snd] in H; try discriminate.
    injection H as <- <-. destruct (IH _ _ _ _ E2) as [L (ps & P0 & P1)]. split; [cbn; rewrite L; reflexivity|].
    exists (fun k => match k with 0 => p | S k' => ps k' end). split; [reflexivity|]. intros [|k] Hk; cbn [nth app].
    + rewrite Nat.add_0_r, P0. exact Ep.
    + replace (k0 + S k) with (S k0 + k) by lia. apply P1. lia.
Qed.
Lemma plays_with_steps K x calls ins values : plays_with K x calls ins values ->
  length values = K /\ exists ps, ready A PO x calls (ps 0) /\
    forall k, k < K -> Param_Model.process PO RQ (ps k) (block_time A sr (Z.of_nat (k * RQ))) (dt A sr) (as_input (ins k)) (as_silent (ins k)) = Ok (ps (S k), nth k values []).
Proof.
  intros [p H]. destruct (prun_app PO RQ _ _ _ _ _ H) as (p1 & o1 & o2 & H1 & H2 & ->). pose proof (set_up_silent PO _ _ _ _ H1) as ->. cbn [app].
  destruct (prun_modulated ins K 0 p1 p o2 H2) as [L (ps & P0 & P1)]. split; [exact L|]. exists ps. split; [rewrite P0; exists []; exact H1|]. exact P1.
Qed.

Lemma modulator_only m : messages_only (modulator_messages A PO m).
Proof.
  assert (X : forall id calls, messages_only (automation (T := T) (V := V) PO id calls)).
  { intros id calls. eapply Forall_impl; [|apply automation_messages]. intros []; tauto. }
  unfold modulator_messages, messages_only. repeat (apply Forall_app; split); try apply X; repeat (apply Forall_nil || (apply Forall_cons; [exact I|])). all: try destruct (v_stop m); try (destruct (Param_Model.call_event _ _)); repeat (apply Forall_nil || (apply Forall_cons; [exact I|])).
Qed.

Theorem tremolo_rendered n len (v m : voice) vo1 vl vo2 vg2 : 0 < n <= max_channels -> let K := div_ceil len RQ in
  let at_ := fun (l : list (list V)) k => nth k l [] in
  plays A PO sr K (v_offset v) (v_offset_calls v) vo1 -> plays A PO sr K (v_offset m) (v_offset_calls m) vo2 -> plays A PO sr K (v_gain m) (v_gain_calls m) vg2 ->
  plays_with K (v_gain v) (v_gain_calls v) (voice_out A sr m (at_ vo2) (at_ vg2)) vl -> Forall (fun g => g <> []) vg2 -> Forall (fun g => g <> []) vl ->
  exists t' buf, render_audiobuffer (audio_graph E (samples A)) (v_zero A) RQ n len new_thread (startup (tremolo A PO n v m)) [] [] = Some (t', buf, []) /\ length buf = n /\
    forall c, c < n -> exists ch, nth_error buf c = Some ch /\ length ch = len /\ forall j, j < len -> nth_error ch j = Some (
      if speaker n c then nth (j mod RQ) (as_input (voice_out A sr v (at_ vo1) (at_ vl) (j / RQ))) (v_zero A) else v_zero A).
Proof.
  intros Hn K at_ P1 P2 P3 P4 F2 Fl.
  destruct (plays_steps A PO sr _ _ _ _ P1) as [Q1 (po1 & I1 & S1)]. destruct (plays_steps A PO sr _ _ _ _ P2) as [Q2 (po2 & I2 & S2)]. destruct (plays_steps A PO sr _ _ _ _ P3) as [Q3 (pg2 & I3 & S3)].
  destruct (plays_with_steps _ _ _ _ _ P4) as [Q4 (pl & I4 & S4)].
  destruct (ready_changed _ _ _ I1) as (r1 & A1 & B1). destruct (ready_changed _ _ _ I2) as (r2 & A2 & B2). destruct (ready_changed _ _ _ I3) as (r3 & A3 & B3). destruct (ready_changed _ _ _ I4) as (r4 & A4 & B4).
  destruct (built E (destination_config n) node_config param_config P_destination _ _ (P_gain 14) _ _ _ (P_gain 18) _ _ _ _ _ _ _ _ _ _ _ _ _ _ _ _ _ _ _ _ _ A1 B1 A4 B4 (timing_changed v 12) A2 B2 A3 B3 (timing_changed m 16)) as (g & ls & BG & BR).
  assert (NL : forall k, k < K -> at_ vl k <> []) by (intros k Hk; rewrite Forall_forall in Fl; apply Fl; apply nth_In; lia).
  assert (NG : forall k, k < K -> at_ vg2 k <> []) by (intros k Hk; rewrite Forall_forall in F2; apply F2; apply nth_In; lia).
  destruct (played_all v m n Hn K (at_ vo1) (at_ vl) (at_ vo2) (at_ vg2) po1 pl po2 pg2 S1 S2 S3 S4 NL NG K 0 ltac:(lia)) as (g' & ll & HP).
  assert (HP' : exists g'', play E g (clock RQ K) = Some (g'', ll, map (fun i => heard_signal v n (at_ vo1) (at_ vl) (S i)) (seq 0 K))).
  { unfold clock. clear - HP BR. destruct K as [|k]; [cbn in HP |- *; injection HP as _ <-; eexists; reflexivity|]. exists g'. cbn [seq map play] in HP |- *. rewrite BR. exact HP. }
  destruct HP' as [g'' HP'].
  assert (BG' : grun E (tremolo A PO n v m) graph_new = Some (g, ls)) by (rewrite tremolo_initial; exact BG).
  assert (MO : messages_only (tremolo A PO n v m)).
  { unfold tremolo. apply Forall_app. split; [apply desk_only|apply modulator_only]. }
  destruct (offline_play E (samples A) (v_zero A) RQ ltac:(unfold RQ; lia) (samples_ok A) n len (tremolo A PO n v m) g ls g'' ll _ ltac:(apply Hn) MO BG' HP') as (t' & buf & A5 & A6 & A7).
  exists t', buf. split; [exact A5|]. split; [exact A6|]. intros c Hc.
  set (state := fun k i : nat => if i =? 0 then Some (P_destination (T := T) (V := V), [heard_signal v n (at_ vo1) (at_ vl) k]) else None).
  destruct (A7 state) with (i := c) as (ch & C1 & C2 & C3); [|exact Hc|].
  - intros k o Ho. rewrite nth_error_map in Ho. destruct (nth_error (seq 0 K) k) as [y|] eqn:Ey; [|discriminate]. injection Ho as <-.
    assert (Lk : k < K) by (rewrite <- (seq_length K 0); apply nth_error_Some; congruence). rewrite (nth_error_nth' _ 0) in Ey by (rewrite seq_length; exact Lk). rewrite seq_nth in Ey by exact Lk. injection Ey as <-. reflexivity.
  - exists ch. split; [exact C1|]. split; [exact C2|]. intros j Hj. rewrite (C3 j Hj). f_equal.
    assert (Kj : j / RQ < K) by (apply Nat.div_lt_upper_bound; [discriminate|]; eapply Nat.lt_le_trans; [exact Hj|]; rewrite Nat.mul_comm; apply ceil_covers; unfold RQ; lia).
    unfold heard, outputs_of, state. cbn [Nat.eqb].
    exact (signal_samples v n Hn K (at_ vo1) (at_ vl) NL (j / RQ) c (j mod RQ) Kj Hc).
Qed.
End Mod.
