From Coq Require Import List Arith Bool ZArith Lia Permutation.
From Verif Require Import Common_Model Arith_Model Quantum_Model Route_Model Route_Spec Source_Model Graph_Model Graph_Spec Graph_OrderProofs
  Graph_TraceModel Graph_TraceSpec Graph_TraceProofs Flow_Spec Flow_Proofs Thread_Model Thread_Spec Whole_Model Whole_Spec Whole_Proofs
  Desk_Model Desk_Spec Desk_BuildProofs Desk_MixProofs.
From Verif Require Param_Model.
Import ListNotations.

Section Flow.
Context {T V : Type}.
Variable A : arith T V.
Variable PO : @Param_Model.param_ops T V.
Variable sr : V.
Notation E := (desk_env A PO sr).
Notation O := (sops_of A).
Notation sil := (silence_chan O RQ).
Notation param := (@Param_Model.param T V).
Notation voice := (voice T V).
Notation holds := (holds A).
Notation zeros := (repeat (v_zero A) RQ).

(** ** One voice: what its nodes put out in each quantum *)
Section Voice.
Variable v : voice.
Variables vo vg : nat -> list V.        (* values of offset and gain in each quantum *)

Fixpoint psig (vals : nat -> list V) (k : nat) : signal V :=
  match k with
  | 0 => silent_signal A
  | S k' => match param_output (psig vals k') (vals k') with Some q => q | None => silent_signal A end
  end.
Lemma psig_mono vals k : exists c, q_chans (psig vals k) = [c].
Proof.
  induction k as [|k [c IH]]; cbn [psig]; [eexists; reflexivity|]. unfold param_output.
  destruct (vals k) as [|x [|y l]]; try (eexists; reflexivity). rewrite IH. eexists. reflexivity.
Qed.
Lemma psig_output vals k : param_output (psig vals k) (vals k) = Some (psig vals (S k)).
Proof.
  cbn [psig]. unfold param_output. destruct (psig_mono vals k) as [c Hc]. destruct (vals k) as [|x [|y l]]; try reflexivity. rewrite Hc. reflexivity.
Qed.
Lemma psig_values vals k view id : view id = Some [psig vals (S k)] -> param_values view id = Some (vals k).
Proof.
  intros H. unfold param_values. rewrite H. cbn [psig]. unfold param_output. destruct (psig_mono vals k) as [c Hc].
  destruct (vals k) as [|x [|y l]]; cbn; try reflexivity. rewrite Hc. reflexivity.
Qed.

(** the source *)
Fixpoint src (k : nat) : @csource T * signal V :=
  match k with
  | 0 => (source_state A v, silent_signal A)
  | S k' => match run_constant A sr (fst (src k')) (k' * RQ) (snd (src k')) (Some (vo k')) with
            | Some (s, q, _) => (s, q)
            | None => src k'
            end
  end.
Definition source_out (k : nat) : option (list V) :=
  if t_le A (next_block_time A sr (Z.of_nat (k * RQ))) (v_start v) then None
  else Some (o_output (snd (cs_process A sr (source_state A v) (Z.of_nat (k * RQ)) (vo k)))).

Lemma cs_process_state s frame offset : cs_start (fst (cs_process A sr s frame offset)) = cs_start s /\ cs_stop (fst (cs_process A sr s frame offset)) = cs_stop s.
Proof.
  unfold cs_process. destruct (t_le A (next_block_time A sr frame) (cs_start s)).
  - destruct (t_le A (cs_stop s) (next_block_time A sr frame)); split; reflexivity.
  - destruct (t_lt A (next_block_time A sr frame) (cs_stop s)); split; reflexivity.
Qed.
Lemma cs_process_same s s' frame offset : cs_start s = cs_start s' -> cs_stop s = cs_stop s' ->
  o_output (snd (cs_process A sr s frame offset)) = o_output (snd (cs_process A sr s' frame offset)).
Proof.
  intros H1 H2. unfold cs_process. rewrite H1, H2. destruct (t_le A (next_block_time A sr frame) (cs_start s')).
  - destruct (t_le A (cs_stop s') (next_block_time A sr frame)); reflexivity.
  - destruct (t_lt A (next_block_time A sr frame) (cs_stop s')); reflexivity.
Qed.
Lemma cs_samples_length n : forall i t a b o, length (cs_samples A sr n i t a b o) = n.
Proof. induction n as [|n IH]; intros; cbn [cs_samples length]; [reflexivity|]. rewrite IH. reflexivity. Qed.
Lemma cs_output_length s frame offset : length (o_output (snd (cs_process A sr s frame offset))) = RQ.
Proof.
  unfold cs_process. destruct (t_le A (next_block_time A sr frame) (cs_start s)).
  - destruct (t_le A (cs_stop s) (next_block_time A sr frame)); apply repeat_length.
  - destruct (t_lt A (next_block_time A sr frame) (cs_stop s)); cbn [snd o_output]; destruct (_ && _ && _)%bool; apply repeat_length || apply cs_samples_length.
Qed.

Lemma src_step k : (cs_start (fst (src k)) = cs_start (source_state A v) /\ cs_stop (fst (src k)) = cs_stop (source_state A v)) /\
  (exists c, q_chans (snd (src k)) = [c]).
Proof.
  induction k as [|k [[I1 I2] [c I3]]]; [split; [split; reflexivity|eexists; reflexivity]|]. cbn [src]. unfold run_constant. rewrite I3. cbn [make_silent force_mono firstn].
  set (f := Z.of_nat (k * RQ)). destruct (t_le A (next_block_time A sr f) (cs_start (fst (src k)))).
  - pose proof (cs_process_state (fst (src k)) f []) as X. destruct (cs_process A sr (fst (src k)) f []) as [s' o]. cbn [fst snd q_chans] in *. split; [rewrite <- I1, <- I2; exact X|eexists; reflexivity].
  - pose proof (cs_process_state (fst (src k)) f (vo k)) as X. destruct (cs_process A sr (fst (src k)) f (vo k)) as [s' o]. cbn [fst snd q_chans] in *. split; [rewrite <- I1, <- I2; exact X|eexists; reflexivity].
Qed.
Lemma src_run k : exists tail, run_constant A sr (fst (src k)) (k * RQ) (snd (src k)) (Some (vo k)) = Some (fst (src (S k)), snd (src (S k)), tail).
Proof.
  destruct (src_step k) as [_ [c Hc]]. cbn [src].
  assert (X : exists s q t, run_constant A sr (fst (src k)) (k * RQ) (snd (src k)) (Some (vo k)) = Some (s, q, t)).
  { unfold run_constant. rewrite Hc. cbn [make_silent force_mono firstn]. destruct (t_le A _ _).
    - destruct (cs_process A sr (fst (src k)) (Z.of_nat (k * RQ)) []) as [s' o]. eauto.
    - destruct (cs_process A sr (fst (src k)) (Z.of_nat (k * RQ)) (vo k)) as [s' o]. eauto. }
  destruct X as (s & q & t & ->). exists t. reflexivity.
Qed.
Lemma src_holds k : holds (snd (src (S k))) (source_out k).
Proof.
  destruct (src_step k) as [[S1 S2] [c Hc]]. cbn [src]. unfold run_constant, source_out. rewrite Hc. cbn [make_silent force_mono firstn].
  rewrite S1. cbn [source_state cs_start]. destruct (t_le A _ _).
  - destruct (cs_process A sr (fst (src k)) (Z.of_nat (k * RQ)) []) as [s' o]. eexists. split; reflexivity.
  - pose proof (cs_process_same (fst (src k)) (source_state A v) (Z.of_nat (k * RQ)) (vo k) S1 S2) as X.
    pose proof (cs_output_length (source_state A v) (Z.of_nat (k * RQ)) (vo k)) as L.
    destruct (cs_process A sr (fst (src k)) (Z.of_nat (k * RQ)) (vo k)) as [s' o]. cbn [fst snd q_chans] in *.
    eexists. split; [reflexivity|]. cbn. split; [discriminate|]. split; [exact X|exact L].
Qed.

(** the gain *)
Definition threshold : V := v_frac A 1 1000000.
Definition amplified (g : list V) (x : list V) : list V := map (fun p => v_mul A (snd p) (nth (fst p mod length g) g (v_zero A))) (combine (seq 0 (length x)) x).
Definition voice_out (k : nat) : option (list V) :=
  match source_out k with
  | None => None
  | Some x => match vg k with
              | [g] => if v_le A (v_abs A g) threshold then None else if v_le A (v_abs A (v_sub A (v_one A) g)) threshold then Some x else Some (amplified [g] x)
              | gs => Some (amplified gs x)
              end
  end.
Lemma scale_ok g : g <> [] -> forall x i, scale A g i x = Ok (map (fun p => v_mul A (snd p) (nth (fst p mod length g) g (v_zero A))) (combine (seq i (length x)) x)).
Proof.
  intros Hg. assert (Lg : length g <> 0) by (destruct g; [congruence|discriminate]).
  induction x as [|y x IH]; intros i; [reflexivity|]. cbn [scale length seq combine map fst snd]. unfold index.
  rewrite (nth_error_nth' g (v_zero A)) by (apply Nat.mod_upper_bound; exact Lg). cbn [from_option bind]. rewrite IH. reflexivity.
Qed.
Lemma amplified_length g x : length (amplified g x) = length x.
Proof. unfold amplified. rewrite map_length, combine_length, seq_length. lia. Qed.

Fixpoint gsig (k : nat) : signal V :=
  match k with
  | 0 => silent_signal A
  | S k' => match run_gain A (mixed E node_config [snd (src (S k'))]) (gsig k') (Some (vg k')) with Some q => q | None => silent_signal A end
  end.
Lemma gain_run k : vg k <> [] -> (exists c, q_chans (gsig k) = [c]) ->
  run_gain A (mixed E node_config [snd (src (S k))]) (gsig k) (Some (vg k)) = Some (gsig (S k)) /\ holds (gsig (S k)) (voice_out k).
Proof.
  intros Hg [c Hc].
  assert (X : exists q, run_gain A (mixed E node_config [snd (src (S k))]) (gsig k) (Some (vg k)) = Some q /\ holds q (voice_out k)).
  { destruct (mono_input A PO sr _ _ (src_holds k)) as (q' & -> & (c' & Hc' & H') & _). unfold run_gain, voice_out. rewrite Hc', Hc. cbn [is_silent existsb make_silent option_map].
    unfold is_silent, chan_is_silent. cbn [existsb]. destruct (source_out k) as [x|].
    - destruct H' as (N1 & N2 & N3). destruct (Nat.eqb_spec (c_name c') 0); [contradiction|]. cbn [negb orb].
      unfold gain_quantum, is_silent, chan_is_silent. cbn [existsb]. destruct (Nat.eqb_spec (c_name c') 0); [contradiction|]. cbn [negb orb].
      assert (Sc : scale_channels A (vg k) 1 [c'] = Ok [mk_chan 1 (amplified (vg k) x)]).
      { cbn [scale_channels]. rewrite (scale_ok (vg k) Hg). cbn [bind]. rewrite N2. reflexivity. }
      assert (Hs : forall b, holds (mk_signal [mk_chan 1 (amplified (vg k) x)] b) (Some (amplified (vg k) x))).
      { intros b. eexists. split; [reflexivity|]. cbn. split; [discriminate|]. split; [reflexivity|]. rewrite amplified_length. exact N3. }
      destruct (vg k) as [|g [|g2 gs]] eqn:Eg; [congruence| |].
      + fold threshold. destruct (v_le A (v_abs A g) threshold).
        * eexists. split; [reflexivity|]. eexists. split; reflexivity.
        * destruct (v_le A (v_abs A (v_sub A (v_one A) g)) threshold).
          -- eexists. split; [reflexivity|]. exists c'. split; [reflexivity|]. split; [exact N1|]. split; [exact N2|exact N3].
          -- rewrite Sc. eexists. split; [reflexivity|]. apply Hs.
      + rewrite Sc. eexists. split; [reflexivity|]. apply Hs.
    - cbn in H'. subst c'. cbn. eexists. split; [reflexivity|]. eexists. split; reflexivity. }
  destruct X as (q & H1 & H2). cbn [gsig]. rewrite H1. split; [reflexivity|exact H2].
Qed.
Lemma gsig_mono k : (forall j, j < k -> vg j <> []) -> exists c, q_chans (gsig k) = [c].
Proof.
  induction k as [|k IH]; intros H; [eexists; reflexivity|]. destruct (gain_run k (H k ltac:(lia)) (IH ltac:(intros; apply H; lia))) as [_ (c & Hc & _)]. eauto.
Qed.
End Voice.

(** ** All voices *)
Record run := mk_run { r_voice : voice; r_po : nat -> param; r_vo : nat -> list V; r_pg : nat -> param; r_vg : nat -> list V }.
Definition r_set (r : run) : set_voice := (r_voice r, (r_po r 0, r_pg r 0)).
Definition steps (K : nat) (p : nat -> param) (vals : nat -> list V) : Prop :=
  forall k, k < K -> Param_Model.process PO RQ (p k) (block_time A sr (Z.of_nat (k * RQ))) (dt A sr) zeros true = Ok (p (S k), vals k).
Definition run_ok (K : nat) (r : run) : Prop :=
  voice_ready A PO (r_set r) /\ steps K (r_po r) (r_vo r) /\ steps K (r_pg r) (r_vg r) /\ forall k, k < K -> r_vg r k <> [].
Definition out (r : run) (k : nat) : option (list V) := voice_out (r_voice r) (r_vo r) (r_vg r) k.

Section Solution.
Variable n : nat.
Variable runs : list run.
Variable order : list nat.      (* of the voices *)

Definition gains (k : nat) : list (signal V) := map (fun i => match nth_error runs i with Some r => gsig (r_voice r) (r_vo r) (r_vg r) k | None => silent_signal A end) order.
Definition dsig (k : nat) : signal V := match k with 0 => silent_signal A | S _ => mixed E (destination_config n) (gains k) end.

Definition solution (k j : nat) : option (proc T V * list (signal V)) :=
  if Nat.eqb j 0 then Some (P_destination, [dsig k])
  else if Nat.ltb j 11 then None
  else match nth_error runs ((j - 11) / 4) with
       | None => None
       | Some r =>
           let i := (j - 11) / 4 in
           match (j - 11) mod 4 with
           | 0 => Some (P_constant (fst (src (r_voice r) (r_vo r) k)) (offset_id i), [snd (src (r_voice r) (r_vo r) k)])
           | 1 => Some (P_param (r_po r k), [psig (r_vo r) k])
           | 2 => Some (P_gain (level_id i), [gsig (r_voice r) (r_vo r) (r_vg r) k])
           | _ => Some (P_param (r_pg r k), [psig (r_vg r) k])
           end
       end.
Lemma solution_at k i m : m < 4 -> solution k (11 + 4 * i + m) =
  match nth_error runs i with
  | None => None
  | Some r =>
      match m with
      | 0 => Some (P_constant (fst (src (r_voice r) (r_vo r) k)) (offset_id i), [snd (src (r_voice r) (r_vo r) k)])
      | 1 => Some (P_param (r_po r k), [psig (r_vo r) k])
      | 2 => Some (P_gain (level_id i), [gsig (r_voice r) (r_vo r) (r_vg r) k])
      | _ => Some (P_param (r_pg r k), [psig (r_vg r) k])
      end
  end.
Proof.
  intros H. unfold solution. destruct (Nat.eqb_spec (11 + 4 * i + m) 0); [lia|]. destruct (Nat.ltb_spec (11 + 4 * i + m) 11); [lia|]. destruct (div4 i m H) as [-> ->]. reflexivity.
Qed.
Lemma sol_source k i r : nth_error runs i = Some r -> solution k (source_id i) = Some (P_constant (fst (src (r_voice r) (r_vo r) k)) (offset_id i), [snd (src (r_voice r) (r_vo r) k)]).
Proof. intros H. replace (source_id i) with (11 + 4 * i + 0) by (unfold source_id; lia). rewrite solution_at, H by lia. reflexivity. Qed.
Lemma sol_offset k i r : nth_error runs i = Some r -> solution k (offset_id i) = Some (P_param (r_po r k), [psig (r_vo r) k]).
Proof. intros H. replace (offset_id i) with (11 + 4 * i + 1) by (unfold offset_id; lia). rewrite solution_at, H by lia. reflexivity. Qed.
Lemma sol_gain k i r : nth_error runs i = Some r -> solution k (gain_id i) = Some (P_gain (level_id i), [gsig (r_voice r) (r_vo r) (r_vg r) k]).
Proof. intros H. replace (gain_id i) with (11 + 4 * i + 2) by (unfold gain_id; lia). rewrite solution_at, H by lia. reflexivity. Qed.
Lemma sol_level k i r : nth_error runs i = Some r -> solution k (level_id i) = Some (P_param (r_pg r k), [psig (r_vg r) k]).
Proof. intros H. replace (level_id i) with (11 + 4 * i + 3) by (unfold level_id; lia). rewrite solution_at, H by lia. reflexivity. Qed.

Variable ns : nodes (proc T V) (signal V) channel_config.
Hypothesis NS : forall j, get ns j = desk_table A n (map r_set runs) j.

Lemma table_runs j x : get ns j = Some x -> (j = 0 /\ x = n_destination A n) \/
  exists i r, nth_error runs i = Some r /\
    ((j = source_id i /\ x = n_source A i (r_voice r)) \/ (j = offset_id i /\ x = n_param A (r_po r 0) (source_id i)) \/
     (j = gain_id i /\ x = n_gain A i) \/ (j = level_id i /\ x = n_param A (r_pg r 0) (gain_id i))).
Proof.
  intros H. rewrite NS in H. destruct (table_cases A n (map r_set runs) j x H) as [X|(i & v & po & pg & Hi & Hj)]; [left; exact X|]. right.
  assert (X : exists r, nth_error runs i = Some r /\ r_set r = (v, (po, pg))).
  { clear - Hi. revert i Hi. induction runs as [|r0 l IH]; intros [|i] Hi; cbn in Hi; try discriminate; [injection Hi as Hi1 Hi2 Hi3; exists r0; split; [reflexivity|unfold r_set; congruence]|]. apply IH. exact Hi. }
  destruct X as (r & Hr & Hs). unfold r_set in Hs. exists i, r. split; [exact Hr|].
  assert (E1 : r_voice r = v) by congruence. assert (E2 : r_po r 0 = po) by congruence. assert (E3 : r_pg r 0 = pg) by congruence. subst. exact Hj.
Qed.
Lemma map_runs i r : nth_error runs i = Some r -> nth_error (map r_set runs) i = Some (r_voice r, (r_po r 0, r_pg r 0)).
Proof. intros H. exact (map_nth_error r_set i runs H). Qed.

Lemma solution_start j : solution 0 j = option_map (fun x => (n_proc x, n_outputs x)) (get ns j).
Proof.
  rewrite NS. unfold solution, desk_table, slot. destruct (Nat.eqb j 0); [reflexivity|]. destruct (Nat.ltb j 11); [reflexivity|].
  rewrite nth_error_map. destruct (nth_error runs ((j - 11) / 4)) as [r|]; [|reflexivity]. cbn [option_map]. unfold r_set.
  destruct ((j - 11) mod 4) as [|[|[|m]]]; reflexivity.
Qed.

Lemma reads : reads_connected E ns solution.
Proof.
  intros k j p outs ins vw vw' f H Hv.
  assert (X : forall i, connected ns i j -> vw i = vw' i) by exact Hv. clear Hv.
  assert (L : j = 0 \/ exists i r, nth_error runs i = Some r /\ (j = source_id i \/ j = offset_id i \/ j = gain_id i \/ j = level_id i)).
  { destruct (Nat.eq_dec j 0) as [->|J0]; [left; reflexivity|]. right. unfold solution in H. destruct (Nat.eqb_spec j 0); [contradiction|]. destruct (Nat.ltb_spec j 11) as [L|L]; [discriminate|].
    destruct (split4 j L) as (i & m & Hm & ->). destruct (div4 i m Hm) as [E1 _]. rewrite E1 in H. destruct (nth_error runs i) as [r|] eqn:Er; [|discriminate]. exists i, r. split; [exact Er|].
    unfold source_id, offset_id, gain_id, level_id. lia. }
  destruct L as [->|(i & r & Hr & [->|[->|[->| ->]]])].
  - cbn in H. injection H as <- <-. reflexivity.
  - rewrite (sol_source k i r Hr) in H. injection H as <- <-. cbn [process desk_env desk_process]. 
    assert (Y : param_values vw (offset_id i) = param_values vw' (offset_id i)); [|rewrite Y; reflexivity]. unfold param_values. rewrite X; [reflexivity|].
    exists (n_param A (r_po r 0) (source_id i)), (mk_edge 0 (source_id i) None). split; [|split; [left; reflexivity|reflexivity]].
    rewrite NS. exact (table_offset A n (map r_set runs) i (r_voice r) (r_po r 0) (r_pg r 0) (map_runs i r Hr)).
  - rewrite (sol_offset k i r Hr) in H. injection H as <- <-. reflexivity.
  - rewrite (sol_gain k i r Hr) in H. injection H as <- <-. cbn [process desk_env desk_process].
    assert (Y : param_values vw (level_id i) = param_values vw' (level_id i)); [|rewrite Y; reflexivity]. unfold param_values. rewrite X; [reflexivity|].
    exists (n_param A (r_pg r 0) (gain_id i)), (mk_edge 0 (gain_id i) None). split; [|split; [left; reflexivity|reflexivity]].
    rewrite NS. exact (table_level A n (map r_set runs) i (r_voice r) (r_po r 0) (r_pg r 0) (map_runs i r Hr)).
  - rewrite (sol_level k i r Hr) in H. injection H as <- <-. reflexivity.
Qed.

(** ** What arrives *)
Variable ord : list nat.
Hypothesis ORD : rendering_order ns ord.
Hypothesis ALL : forall i, Graph_Spec.live ns i -> In i ord.

Lemma flat_map_nil {X Y} (f : X -> list Y) l : (forall x, In x l -> f x = []) -> flat_map f l = [].
Proof. induction l as [|x l IH]; intros H; [reflexivity|]. cbn. rewrite (H x (or_introl eq_refl)). apply IH. intros y Hy. apply H. right. exact Hy. Qed.
Lemma flat_map_one {X Y} (f : X -> list Y) a : forall l, NoDup l -> In a l -> (forall x, In x l -> x <> a -> f x = []) -> flat_map f l = f a.
Proof.
  induction l as [|x l IH]; intros HN HI H; [destruct HI|]. inversion HN as [|? ? N1 N2]; subst. cbn. destruct HI as [->|HI].
  - rewrite flat_map_nil; [apply app_nil_r|]. intros y Hy. apply H; [right; exact Hy|]. intros ->. contradiction.
  - rewrite (H x (or_introl eq_refl)) by (intros ->; contradiction). cbn. apply IH; [exact N2|exact HI|]. intros y Hy. apply H. right. exact Hy.
Qed.

(** nothing arrives at an AudioParam *)
Lemma arrives_nowhere m j : (forall i, j <> gain_id i) -> j <> 0 -> arriving ns ord m j 0 = [].
Proof.
  intros H1 H2. apply flat_map_nil. intros a _. destruct (get ns a) as [x|] eqn:Ea; [|reflexivity].
  destruct (table_runs a x Ea) as [[_ ->]|(i & r & _ & [[_ ->]|[[_ ->]|[[_ ->]|[_ ->]]]])]; cbn [n_edges n_destination n_source n_param n_gain signals_of flat_map e_dest e_port port_eqb].
  - reflexivity.
  - destruct (Nat.eqb_spec (gain_id i) j); [exfalso; apply (H1 i); auto|reflexivity].
  - rewrite andb_false_r. reflexivity.
  - destruct (Nat.eqb_spec 0 j); [congruence|reflexivity].
  - rewrite andb_false_r. reflexivity.
Qed.
Lemma arrives_gain k i r : nth_error runs i = Some r -> arriving ns ord (solution k) (gain_id i) 0 = [snd (src (r_voice r) (r_vo r) k)].
Proof.
  intros Hr. destruct ORD as (O1 & O2 & O3).
  pose proof (table_source A n (map r_set runs) i (r_voice r) (r_po r 0) (r_pg r 0) (map_runs i r Hr)) as S1. rewrite <- NS in S1.
  unfold arriving. rewrite (flat_map_one _ (source_id i)); [|exact O1|apply ALL; eexists; exact S1|].
  - rewrite S1. unfold outputs_of. rewrite (sol_source k i r Hr). cbn [n_edges n_source signals_of flat_map e_dest e_port e_self port_eqb nth_error]. rewrite Nat.eqb_refl. reflexivity.
  - intros a _ Ha. destruct (get ns a) as [x|] eqn:Ea; [|reflexivity].
    destruct (table_runs a x Ea) as [[_ ->]|(i' & r' & _ & [[E1 ->]|[[_ ->]|[[_ ->]|[_ ->]]]])]; cbn [n_edges n_destination n_source n_param n_gain signals_of flat_map e_dest e_port port_eqb].
    + reflexivity.
    + destruct (Nat.eqb_spec (gain_id i') (gain_id i)) as [G|]; [|reflexivity]. exfalso. apply Ha. rewrite E1. unfold gain_id in G. unfold source_id. lia.
    + rewrite andb_false_r. reflexivity.
    + destruct (Nat.eqb_spec 0 (gain_id i)) as [G|]; [unfold gain_id in G; lia|reflexivity].
    + rewrite andb_false_r. reflexivity.
Qed.

(** the voices in the order in which their gain nodes are rendered *)
Definition voice_of (j : nat) : list nat := if Nat.ltb j 11 then [] else if Nat.eqb ((j - 11) mod 4) 2 then [(j - 11) / 4] else [].
Definition voices_in (ord : list nat) : list nat := flat_map voice_of ord.
Lemma voice_of_gain i : voice_of (gain_id i) = [i].
Proof. replace (gain_id i) with (11 + 4 * i + 2) by (unfold gain_id; lia). unfold voice_of. destruct (Nat.ltb_spec (11 + 4 * i + 2) 11); [lia|]. destruct (div4 i 2 ltac:(lia)) as [-> ->]. reflexivity. Qed.
Lemma voice_of_other i m : m < 4 -> m <> 2 -> voice_of (11 + 4 * i + m) = [].
Proof. intros H H'. unfold voice_of. destruct (Nat.ltb_spec (11 + 4 * i + m) 11); [reflexivity|]. destruct (div4 i m H) as [-> ->]. destruct (Nat.eqb_spec m 2); [contradiction|reflexivity]. Qed.
Lemma voice_of_in j i : In i (voice_of j) -> j = gain_id i.
Proof.
  unfold voice_of. destruct (Nat.ltb_spec j 11); [intros []|]. destruct (Nat.eqb_spec ((j - 11) mod 4) 2) as [M|]; [|intros []]. intros [<-|[]].
  unfold gain_id. pose proof (Nat.div_mod (j - 11) 4 ltac:(lia)). lia.
Qed.

Lemma arrives_destination k : order = voices_in ord -> arriving ns ord (solution k) 0 0 = gains k.
Proof.
  intros Ho. destruct ORD as (_ & O2 & _). unfold arriving, gains. rewrite Ho. unfold voices_in.
  clear ORD ALL Ho. induction ord as [|a l IH]; [reflexivity|]. cbn [flat_map]. rewrite map_app, <- IH by (intros j Hj; apply O2; right; exact Hj). f_equal.
  destruct (O2 a (or_introl eq_refl)) as [x Ea]. rewrite Ea.
  destruct (table_runs a x Ea) as [[-> ->]|(i & r & Hr & [[E1 ->]|[[E1 ->]|[[E1 ->]|[E1 ->]]]])]; cbn [n_edges n_destination n_source n_param n_gain signals_of flat_map e_dest e_port e_self port_eqb].
  - reflexivity.
  - rewrite E1. replace (source_id i) with (11 + 4 * i + 0) by (unfold source_id; lia). rewrite voice_of_other by lia. destruct (Nat.eqb_spec (gain_id i) 0) as [G|]; [unfold gain_id in G; lia|reflexivity].
  - rewrite E1. replace (offset_id i) with (11 + 4 * i + 1) by (unfold offset_id; lia). rewrite voice_of_other by lia. rewrite andb_false_r. reflexivity.
  - rewrite E1, voice_of_gain. cbn [map]. rewrite Hr. unfold outputs_of. rewrite (sol_gain k i r Hr). reflexivity.
  - rewrite E1. replace (level_id i) with (11 + 4 * i + 3) by (unfold level_id; lia). rewrite voice_of_other by lia. rewrite andb_false_r. reflexivity.
Qed.

Lemma NoDup_voices l : NoDup l -> NoDup (voices_in l).
Proof.
  induction l as [|a l IH]; intros H; [constructor|]. inversion H as [|? ? H1 H2]; subst. cbn. unfold voice_of at 1.
  assert (X : forall i, voice_of a = [i] -> NoDup (i :: flat_map voice_of l)).
  { intros i Hi. constructor; [|apply IH; exact H2]. intros HI. apply in_flat_map in HI. destruct HI as (b & Hb & Hb'). apply voice_of_in in Hb'.
    assert (a = gain_id i) by (apply voice_of_in; rewrite Hi; left; reflexivity). congruence. }
  unfold voice_of at 1 in X. destruct (Nat.ltb a 11); [apply IH; exact H2|]. destruct (Nat.eqb _ 2); [|apply IH; exact H2]. apply (X _ eq_refl).
Qed.
Lemma voices_permuted : Permutation (seq 0 (length runs)) (voices_in ord).
Proof.
  destruct ORD as (O1 & O2 & _). apply NoDup_Permutation; [apply seq_NoDup|apply NoDup_voices; exact O1|]. intros i. rewrite in_seq. split.
  - intros [_ H]. destruct (nth_error runs i) as [r|] eqn:Er; [|apply nth_error_None in Er; lia].
    apply in_flat_map. exists (gain_id i). split; [|rewrite voice_of_gain; left; reflexivity]. apply ALL. exists (n_gain A i). rewrite NS.
    exact (table_gain A n (map r_set runs) i (r_voice r) (r_po r 0) (r_pg r 0) (map_runs i r Er)).
  - intros H. apply in_flat_map in H. destruct H as (a & Ha & Hi). apply voice_of_in in Hi. subst a. destruct (O2 _ Ha) as [x Hx]. rewrite NS in Hx.
    replace (gain_id i) with (11 + 4 * i + 2) in Hx by (unfold gain_id; lia). rewrite table_at in Hx by lia. rewrite nth_error_map in Hx.
    destruct (nth_error runs i) as [r|] eqn:Er; [|discriminate]. assert (i < length runs) by (apply nth_error_Some; congruence). lia.
Qed.

(** ** The equations hold *)
Hypothesis ORDER : order = voices_in ord.
Variable K : nat.
Hypothesis OKS : Forall (run_ok K) runs.

Lemma run_param_ok p vals k : steps K p vals -> k < K -> run_param A PO sr (p k) (k * RQ) (silent_signal A) (psig vals k) = Some (p (S k), psig vals (S k)).
Proof.
  intros H Hk. unfold run_param. cbn [silent_signal q_chans silence_chan c_val].
  assert (S1 : is_silent [silence_chan O RQ] = true) by reflexivity. unfold silence_chan in S1 |- *. cbn [c_val] in *. rewrite S1.
  change (s_zero O) with (v_zero A). rewrite (H k Hk). rewrite psig_output. reflexivity.
Qed.

Lemma solves : dataflow E ns ord (clock RQ K) solution.
Proof.
  constructor; [exact ORD|exact ALL|exact solution_start|].
  intros k f j x Hf Hx.
  assert (HK : k < K /\ f = k * RQ).
  { unfold clock in Hf. rewrite nth_error_map in Hf. destruct (nth_error (seq 0 K) k) as [y|] eqn:Ey; [|discriminate]. injection Hf as <-.
    assert (Lk : k < K) by (rewrite <- (seq_length K 0); apply nth_error_Some; congruence). split; [exact Lk|].
    rewrite (nth_error_nth' _ 0) in Ey by (rewrite seq_length; exact Lk). rewrite seq_nth in Ey by exact Lk. injection Ey as <-. reflexivity. }
  destruct HK as [HK ->]. clear Hf.
  assert (OK : forall i r, nth_error runs i = Some r -> run_ok K r) by (intros i r Hr; rewrite Forall_forall in OKS; apply OKS; eapply nth_error_In; exact Hr).
  destruct (table_runs j x Hx) as [[-> ->]|(i & r & Hr & [[-> ->]|[[-> ->]|[[-> ->]|[-> ->]]]])].
  - do 4 eexists. exists (fun a => Some (outputs_of (solution (S k)) a)). eexists. split; [reflexivity|]. split; [reflexivity|]. split; [|intros; reflexivity].
    cbn [n_destination n_inputs n_cfg length seq map]. rewrite arrives_destination by exact ORDER. reflexivity.
  - do 4 eexists. exists (fun a => Some (outputs_of (solution (S k)) a)). destruct (src_run (r_voice r) (r_vo r) k) as [tail Ht]. exists tail.
    split; [exact (sol_source k i r Hr)|]. split; [exact (sol_source (S k) i r Hr)|]. split; [|intros; reflexivity].
    cbn [process desk_env desk_process]. rewrite (psig_values (r_vo r) k); [rewrite Ht; reflexivity|]. unfold outputs_of. rewrite (sol_offset (S k) i r Hr). reflexivity.
  - do 4 eexists. exists (fun a => Some (outputs_of (solution (S k)) a)). eexists.
    split; [exact (sol_offset k i r Hr)|]. split; [exact (sol_offset (S k) i r Hr)|]. split; [|intros; reflexivity].
    cbn [n_param n_inputs n_cfg length seq map]. rewrite arrives_nowhere by (unfold offset_id, gain_id; intros; lia). rewrite no_input. cbn [process desk_env desk_process].
    rewrite run_param_ok; [reflexivity|apply (OK i r Hr)|exact HK].
  - do 4 eexists. exists (fun a => Some (outputs_of (solution (S k)) a)). eexists.
    split; [exact (sol_gain k i r Hr)|]. split; [exact (sol_gain (S k) i r Hr)|]. split; [|intros; reflexivity].
    cbn [n_gain n_inputs n_cfg length seq map]. rewrite (arrives_gain (S k) i r Hr). cbn [process desk_env desk_process].
    rewrite (psig_values (r_vg r) k); [|unfold outputs_of; rewrite (sol_level (S k) i r Hr); reflexivity].
    destruct (OK i r Hr) as (_ & _ & _ & G).
    destruct (gain_run (r_voice r) (r_vo r) (r_vg r) k (G k HK) (gsig_mono (r_voice r) (r_vo r) (r_vg r) k (fun j Hj => G j (Nat.lt_trans _ _ _ Hj HK)))) as [G1 _]. rewrite G1. reflexivity.
  - do 4 eexists. exists (fun a => Some (outputs_of (solution (S k)) a)). eexists.
    split; [exact (sol_level k i r Hr)|]. split; [exact (sol_level (S k) i r Hr)|]. split; [|intros; reflexivity].
    cbn [n_param n_inputs n_cfg length seq map]. rewrite arrives_nowhere by (unfold level_id, gain_id; intros; lia). rewrite no_input. cbn [process desk_env desk_process].
    rewrite run_param_ok; [reflexivity|apply (OK i r Hr)|exact HK].
Qed.

Definition played (i k : nat) : option (list V) := match nth_error runs i with Some r => out r k | None => None end.
Lemma gains_hold k : k < K -> Forall2 holds (gains (S k)) (map (fun i => played i k) order).
Proof.
  intros HK. unfold gains, played. clear ORDER. induction order as [|i l IH]; [constructor|]. cbn [map]. constructor; [|exact IH].
  destruct (nth_error runs i) as [r|] eqn:Er.
  - assert (OK : run_ok K r) by (rewrite Forall_forall in OKS; apply OKS; eapply nth_error_In; exact Er). destruct OK as (_ & _ & _ & G).
    apply (gain_run (r_voice r) (r_vo r) (r_vg r) k (G k HK) (gsig_mono (r_voice r) (r_vo r) (r_vg r) k (fun j Hj => G j (Nat.lt_trans _ _ _ Hj HK)))).
  - eexists. split; reflexivity.
Qed.
Lemma heard_desk (HN : 0 < n <= max_channels) c j : c < n -> j < K * RQ ->
  heard (samples A) (v_zero A) RQ solution c j =
  if speaker n c then nth (j mod RQ) (match sum (v_add A) (map (fun i => played i (j / RQ)) order) with Some v => v | None => zeros end) (v_zero A) else v_zero A.
Proof.
  intros Hc Hj. unfold heard.
  assert (Hk : j / RQ < K) by (apply Nat.div_lt_upper_bound; [discriminate|rewrite Nat.mul_comm; exact Hj]).
  change (outputs_of (solution (S (j / RQ))) 0) with [mixed E (destination_config n) (gains (S (j / RQ)))]. cbv iota.
  pose proof (dest_mixed A PO sr n HN _ _ (gains_hold (j / RQ) Hk)) as D. pose proof (dest_samples A n _ _ c D Hc) as X.
  assert (Z : forall m, nth m zeros (v_zero A) = v_zero A).
  { intros m. destruct (Nat.lt_ge_cases m RQ); [apply nth_repeat|]. apply nth_overflow. rewrite repeat_length. exact H. }
  unfold silent_samples in X. destruct (nth_error (samples A _) c) as [ch|].
  - rewrite X. destruct (speaker n c); [reflexivity|apply Z].
  - rewrite <- (Z (j mod RQ)) at 1. rewrite X at 1. destruct (speaker n c); [reflexivity|apply Z].
Qed.
End Solution.
End Flow.
