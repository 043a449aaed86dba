(** Filters: the part shared by both nodes. *)
From Coq Require Import List Arith Bool ZArith Lia.
From Verif Require Import Arith_Model Route_Spec Route_Proofs Shape_Proofs Filter_Model Filter_Spec.
Import ListNotations.

Section Shared.
Context {T V E P S : Type}.
Variable A : arith T V.
Variable size : nat.
Notation zero := (v_zero A).
Notation quantum := (list (chan V)).
Notation O := (sops_of A).
Variable start : S.
Variable live : S -> bool.
(** the relation between the state of a channel and its history *)
Variable rel : S -> history E V -> Prop.
Hypothesis live_start : live start = false.
Hypothesis rel_start : rel start empty_history.
Hypothesis rel_rest : forall s h env, live s = false -> rel s h -> length env = size -> rel s (mk_history (h_env h ++ env) (h_in h ++ repeat zero size) (h_out h ++ repeat zero size)).
(** admissible samples *)
Variable fine : V -> Prop.

Section Quantum.
Variable run : S -> list V -> res (S * list V).
Variable env : list E.
Hypothesis env_size : length env = size.
Hypothesis run_rel : forall s h xs, rel s h -> length xs = size -> Forall fine xs -> exists s' ys, run s xs = Ok (s', ys) /\ length ys = size /\ rel s' (mk_history (h_env h ++ env) (h_in h ++ xs) (h_out h ++ ys)).

Lemma channels_rel : forall states input s i (h : nat -> history E V), quantum_ok O size input -> Forall (fun c => Forall fine (c_val c)) input ->
  (is_silent input = true \/ i + length states <= length input) -> (forall c st, nth_error states c = Some st -> rel st (h (i + c))) ->
  exists sts os, run_channels run states input i s = Ok (sts, os) /\ length sts = length states /\ length os = length states /\
    forall c st, nth_error sts c = Some st -> exists o, nth_error os c = Some o /\ length (c_val o) = size /\
      rel st (mk_history (h_env (h (i + c)) ++ env) (h_in (h (i + c)) ++ if is_silent input then repeat zero size else c_val (nth (i + c) input (mk_chan 0 []))) (h_out (h (i + c)) ++ c_val o)).
Proof.
  induction states as [|st states IH]; intros input s i h Hq Hf Hi Hr; [exists [], []; repeat split; intros [|c] x Hx; discriminate|]. cbn [run_channels].
  set (j := if is_silent input then 0 else i). destruct Hq as (Hl & Hs & Hz). cbn [length] in Hi.
  assert (Hj : j < length input) by (unfold j; destruct (is_silent input) eqn:Q; [lia|destruct Hi as [C|C]; [discriminate|lia]]).
  rewrite index_nth with (d := mk_chan 0 []) by exact Hj. cbn [bind]. set (ch := nth j input (mk_chan 0 [])). assert (Hin : In ch input) by (apply nth_In; exact Hj).
  rewrite Forall_forall in Hs, Hf. destruct (run_rel st (h i) (c_val ch)) as (s' & ys & E1 & L1 & R1).
  { specialize (Hr 0 st eq_refl). rewrite Nat.add_0_r in Hr. exact Hr. } { apply Hs; exact Hin. } { apply Hf; exact Hin. }
  rewrite E1. cbn [bind]. destruct (IH input (Datatypes.S s) (Datatypes.S i) h) as (sts & os & E2 & L2 & L3 & R2).
  { repeat split; try lia; [rewrite Forall_forall; exact Hs|exact Hz]. } { rewrite Forall_forall; exact Hf. } { destruct Hi; [left; assumption|right; lia]. }
  { intros c x Hx. replace (Datatypes.S i + c) with (i + Datatypes.S c) by lia. apply Hr. exact Hx. }
  rewrite E2. cbn [bind]. do 2 eexists. split; [reflexivity|]. split; [cbn [length]; lia|]. split; [cbn [length]; lia|]. intros [|c] x Hx; cbn [nth_error] in Hx |- *.
  - injection Hx as <-. eexists. split; [reflexivity|]. cbn [c_val]. split; [exact L1|]. rewrite Nat.add_0_r. replace (if is_silent input then repeat zero size else c_val (nth i input (mk_chan 0 []))) with (c_val ch); [exact R1|].
    unfold ch, j. destruct (is_silent input) eqn:Q; [|reflexivity]. unfold is_silent in Q. apply negb_true_iff in Q. assert (Hn : c_name (nth 0 input (mk_chan 0 [])) = 0).
    { destruct (Nat.eq_dec (c_name (nth 0 input (mk_chan 0 []))) 0) as [E0|E0]; [exact E0|exfalso]. assert (existsb (fun c => negb (chan_is_silent c)) input = true); [|congruence]. apply existsb_exists. exists (nth 0 input (mk_chan 0 [])). split; [apply nth_In; lia|]. unfold chan_is_silent. destruct (Nat.eqb_spec (c_name (nth 0 input (mk_chan 0 []))) 0); [contradiction|reflexivity]. }
    unfold silent_zero in Hz. rewrite Forall_forall in Hz. apply (Hz (nth 0 input (mk_chan 0 []))); [apply nth_In; lia|exact Hn].
  - destruct (R2 c x Hx) as (o & Q1 & Q2 & Q3). exists o. replace (i + Datatypes.S c) with (Datatypes.S i + c) by lia. auto.
Qed.

Lemma sample_channel : forall (os : quantum) c o, nth_error os c = Some o -> length (c_val o) = size -> map (sample zero os c) (seq 0 size) = c_val o.
Proof.
  intros os c o H L. unfold sample. rewrite (nth_error_nth _ _ (mk_chan 0 []) H). apply nth_ext with (d := zero) (d' := zero).
  - rewrite map_length, seq_length. lia.
  - intros n Hn. rewrite map_length, seq_length in Hn. rewrite (nth_indep _ zero (nth 0 (c_val o) zero)) by (rewrite map_length, seq_length; exact Hn). rewrite (map_nth (fun t => nth t (c_val o) zero)). rewrite seq_nth by exact Hn. reflexivity.
Qed.
Lemma sample_none : forall (os : quantum) c, length os <= c -> map (sample zero os c) (seq 0 size) = repeat zero size.
Proof.
  intros os c H. apply nth_ext with (d := zero) (d' := zero); [rewrite map_length, seq_length, repeat_length; reflexivity|]. intros n Hn. rewrite map_length, seq_length in Hn.
  rewrite nth_repeat. rewrite (nth_indep _ zero (sample zero os c 0)) by (rewrite map_length, seq_length; exact Hn). rewrite map_nth. apply sample_absent. exact H.
Qed.
Lemma sample_silent : forall c, map (sample zero [silence_chan O size] c) (seq 0 size) = repeat zero size.
Proof.
  intros c. apply nth_ext with (d := zero) (d' := zero); [rewrite map_length, seq_length, repeat_length; reflexivity|]. intros n Hn. rewrite map_length, seq_length in Hn.
  rewrite nth_repeat. rewrite (nth_indep _ zero (sample zero [silence_chan O size] c 0)) by (rewrite map_length, seq_length; exact Hn). rewrite map_nth. apply (sample_silence O size).
Qed.

Lemma live_index : forall states, existsb live states = true -> states <> [].
Proof. intros [|s states]; cbn; congruence. Qed.

Lemma quantum_rel : forall states (h : nat -> history E V) input output s, length states <= 32 -> (forall c, rel (nth c states start) (h c)) ->
  quantum_ok O size input -> Forall (fun c => Forall fine (c_val c)) input -> output <> [] ->
  exists sts out b, filter_quantum A size start live run states s input output = Ok (sts, out, b) /\ length sts <= 32 /\
    forall c, rel (nth c sts start) (extend zero size c (h c) env input out).
Proof.
  intros states h input output s Hn Hr Hq Hf Ho. unfold filter_quantum. destruct (is_silent input && negb (existsb live states)) eqn:Q.
  { apply andb_prop in Q. destruct Q as [Q1 Q2]. apply negb_true_iff in Q2. destruct output as [|o0 os0]; [contradiction|]. do 3 eexists. split; [reflexivity|]. split; [exact Hn|]. intros c. unfold extend. rewrite Q1. cbv zeta. rewrite sample_silent.
    assert (Hd : live (nth c states start) = false). { destruct (nth_in_or_default c states start) as [Hin|Hd]; [|rewrite Hd; exact live_start]. destruct (live (nth c states start)) eqn:Ql; [|reflexivity]. assert (existsb live states = true) by (apply existsb_exists; eauto). congruence. }
    apply rel_rest; auto. }
  set (states' := if is_silent input then states else firstn (length input) (states ++ repeat start (length input - length states))).
  assert (Hlen : 0 < length states' <= 32 /\ (is_silent input = true \/ 0 + length states' <= length input) /\ (is_silent input = false -> length states' = length input) /\ (is_silent input = true -> states' = states)).
  { unfold states'. destruct (is_silent input) eqn:Qs; cbn [andb] in Q.
    - apply negb_false_iff in Q. apply live_index in Q. repeat split; auto; try discriminate. destruct states; [contradiction|cbn; lia].
    - assert (length (firstn (length input) (states ++ repeat start (length input - length states))) = length input) as Ef by (rewrite firstn_length, app_length, repeat_length; lia). rewrite Ef. destruct Hq as (Hl & _). repeat split; auto; try lia; discriminate. }
  destruct Hlen as (Hl1 & Hl2 & Hl3 & Hl4). destruct (set_number_ok output (length states') Ho Hl1) as (o1 & Eo & _). rewrite Eo. cbn [from_option bind].
  assert (Hr' : forall c st, nth_error states' c = Some st -> rel st (h (0 + c))).
  { intros c st Hc. cbn [Nat.add]. specialize (Hr c). replace (nth c states start) with st in Hr; [exact Hr|]. unfold states' in Hc. destruct (is_silent input).
    - symmetry. apply nth_error_nth. exact Hc.
    - assert (Hcl : c < length input). { assert (c < length (firstn (length input) (states ++ repeat start (length input - length states)))) by (apply nth_error_Some; congruence). rewrite firstn_length in H. lia. }
      assert (Hx : nth_error (states ++ repeat start (length input - length states)) c = Some st). { rewrite <- (firstn_skipn (length input) (states ++ _)). rewrite nth_error_app1; [exact Hc|]. apply nth_error_Some. congruence. }
      destruct (Nat.lt_ge_cases c (length states)) as [L|L].
      + rewrite nth_error_app1 in Hx by exact L. symmetry. apply nth_error_nth. exact Hx.
      + rewrite nth_error_app2 in Hx by exact L. rewrite nth_overflow by exact L. apply nth_error_In in Hx. apply (repeat_spec (length input - length states)). exact Hx. }
  destruct (channels_rel states' input s 0 h Hq Hf Hl2 Hr') as (sts & os & E1 & L1 & L2 & R1). rewrite E1. cbn [bind]. do 3 eexists. split; [reflexivity|]. split; [lia|].
  intros c. destruct (Nat.lt_ge_cases c (length sts)) as [L|L].
  - destruct (nth_error sts c) as [st|] eqn:Es; [|apply nth_error_None in Es; lia]. destruct (R1 c st Es) as (o & Q1 & Q2 & Q3). rewrite (nth_error_nth _ _ start Es). unfold extend. cbv zeta. rewrite (sample_channel os c o Q1 Q2). cbn [Nat.add] in Q3.
    destruct (is_silent input) eqn:Qs; [exact Q3|]. destruct (Nat.ltb_spec c (length input)); [exact Q3|]. rewrite (Hl3 eq_refl) in L1. lia.
  - rewrite nth_overflow by exact L. unfold extend. cbv zeta. rewrite sample_none by lia. destruct (is_silent input) eqn:Qs.
    + apply rel_rest; [exact live_start| |exact env_size]. specialize (Hr c). rewrite nth_overflow in Hr; [exact Hr|]. rewrite <- (Hl4 eq_refl). lia.
    + destruct (Nat.ltb_spec c (length input)); [rewrite (Hl3 eq_refl) in L1; lia|exact rel_start].
Qed.
End Quantum.

(** calls one after the other *)
Variable envs : P -> list E.
Variable call_fine : call (V := V) P -> Prop.
Variable f : list S -> call (V := V) P -> res (list S * quantum * bool).
Hypothesis step : forall states (h : nat -> history E V) l, length states <= 32 -> (forall c, rel (nth c states start) (h c)) -> call_ok O size l -> call_fine l ->
  exists sts out b, f states l = Ok (sts, out, b) /\ length sts <= 32 /\ forall c, rel (nth c sts start) (extend zero size c (h c) (envs (l_settings _ l)) (l_input _ l) out).

Lemma calls_rel : forall ls states (h : nat -> history E V), length states <= 32 -> (forall c, rel (nth c states start) (h c)) -> Forall (call_ok O size) ls -> Forall call_fine ls ->
  exists sts outs, run_calls f states ls = Ok (sts, outs) /\ length outs = length ls /\ forall c, rel (nth c sts start) (channel_history zero size c envs (h c) ls outs).
Proof.
  induction ls as [|l ls IH]; intros states h Hn Hr Hok Hfi; [exists states, []; auto|]. inversion Hok as [|? ? H1 H2]; subst. inversion Hfi as [|? ? H3 H4]; subst. cbn [run_calls].
  destruct (step states h l Hn Hr H1 H3) as (sts & out & b & E1 & L1 & R1). rewrite E1. cbn [bind]. destruct (IH sts (fun c => extend zero size c (h c) (envs (l_settings _ l)) (l_input _ l) out) L1 R1 H2 H4) as (sts2 & outs & E2 & L2 & R2).
  rewrite E2. cbn [bind]. do 2 eexists. split; [reflexivity|]. split; [cbn [length]; lia|]. exact R2.
Qed.
End Shared.
