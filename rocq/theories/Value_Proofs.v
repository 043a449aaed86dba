(** Proofs about the two sides of an AudioParam, for any arithmetic. *)
From Coq Require Import List Arith Bool Lia.
From Verif Require Import Common_Model Param_Model Value_Model Value_Spec.
Import ListNotations.

Section Proofs.
Context {T V : Type}.
Variable P : @param_ops T V.
Variable RQ : nat.
Notation param := (@param T V).

Lemma bind_ok {X Y} (r : res X) (f : X -> res Y) y : bind r f = Ok y -> exists x, r = Ok x /\ f x = Ok y.
Proof. destruct r; cbn; intros H; try discriminate. eauto. Qed.

Definition kept (p p' : param) : Prop := p_min p' = p_min p /\ p_max p' = p_max p /\ p_default p' = p_default p /\ p_arate p' = p_arate p /\ p_current p' = p_current p.
Lemma kept_refl p : kept p p. Proof. repeat split. Qed.
Lemma kept_trans p q r : kept p q -> kept q r -> kept p r.
Proof. unfold kept. intros (A & B & C & D & E) (A' & B' & C' & D' & E'). repeat split; congruence. Qed.
Definition flush (x : V) : V := if v_subnormal P x then v_zero P else x.
Definition same_buffer (p p' : param) : Prop := p_buffer p' = p_buffer p \/ p_buffer p' = map flush (p_buffer p).

Lemma extend_kept p vs p' : extend RQ p vs = Ok p' -> kept p p' /\ p_buffer p' = p_buffer p ++ vs.
Proof. unfold extend. destruct (Nat.leb _ _); intros H; [|discriminate]. inversion H; subst. split; [repeat split|reflexivity]. Qed.
Lemma sample_kept p b t f p' : sample_block P RQ p b t f = Ok p' -> kept p p' /\ (b_arate b = false -> p' = p).
Proof.
  unfold sample_block. destruct (b_arate b); [|intros H; inversion H; subst; split; [apply kept_refl|reflexivity]].
  destruct (Nat.ltb _ _); [|intros H; inversion H; subst; split; [apply kept_refl|discriminate]]. cbv zeta. intros H. apply bind_ok in H. destruct H as (vs & _ & H). apply bind_ok in H. destruct H as (q & H1 & H). inversion H; subst.
  apply extend_kept in H1. destruct H1 as [H1 _]. split; [exact H1|discriminate].
Qed.
Ltac done := intros H; inversion H; subst; split; [eassumption|]; intros Hb; left; match goal with K : b_arate _ = false -> ?q = ?p |- _ => rewrite <- (K Hb); reflexivity | _ => reflexivity end.
Lemma do_event_kept p b p' fl : do_event P RQ p b = Ok (p', fl) -> kept p p' /\ (b_arate b = false -> same_buffer p p').
Proof.
  unfold do_event. destruct (p_timeline p) as [|e rest].
  - intros H. apply bind_ok in H. destruct H as (q & H1 & H). inversion H; subst. destruct (b_arate b).
    + apply extend_kept in H1. destruct H1 as [H1 _]. split; [exact H1|discriminate].
    + inversion H1; subst. split; [apply kept_refl|left; reflexivity].
  - assert (SV : do_set_value P RQ p b e rest = Ok (p', fl) -> kept p p' /\ (b_arate b = false -> same_buffer p p')).
    { unfold do_set_value. cbv zeta. intros H. apply bind_ok in H. destruct H as (q & H1 & H).
      assert (K : kept p q /\ (b_arate b = false -> q = p)).
      { destruct (b_arate b); [apply extend_kept in H1; destruct H1 as [H1 _]; split; [exact H1|discriminate]|inversion H1; subst; split; [apply kept_refl|reflexivity]]. }
      destruct K as [K1 K2]. destruct (t_lt P (b_next b) _); inversion H; subst; (split; [exact K1|]); intros Hb; rewrite (K2 Hb); left; reflexivity. }
    destruct (ev_type e); try exact SV; try discriminate.
    + unfold do_linear_ramp. destruct (p_last p) as [la|]; [|discriminate]. cbv zeta. intros H. apply bind_ok in H. destruct H as (q & H1 & H). apply sample_kept in H1. destruct H1 as [K1 K2].
      destruct (t_le P (b_next b) _); [|destruct (ev_cancel e)]; inversion H; subst; (split; [exact K1|]); intros Hb; rewrite (K2 Hb); left; reflexivity.
    + unfold do_exponential_ramp. destruct (p_last p) as [la|]; [|discriminate]. cbv zeta. destruct (_ || _); [intros H; inversion H; subst; split; [repeat split|left; reflexivity]|]. intros H. apply bind_ok in H. destruct H as (q & H1 & H). apply sample_kept in H1. destruct H1 as [K1 K2].
      destruct (t_le P (b_next b) _); [|destruct (ev_cancel e)]; inversion H; subst; (split; [exact K1|]); intros Hb; rewrite (K2 Hb); left; reflexivity.
    + unfold do_set_target. destruct (match rest with [] => _ | _ :: _ => _ end) as [e1 d1]. destruct (match ev_cancel e with Some _ => _ | None => _ end) as [e2 d2].
      destruct (p_last p) as [la|]; [|discriminate]. destruct (ev_constant e) as [co|]; [|discriminate]. cbv zeta. intros H. apply bind_ok in H. destruct H as (q & H1 & H). apply sample_kept in H1. destruct H1 as [K1 K2].
      destruct (negb d2); [|inversion H; subst; (split; [exact K1|]); intros Hb; rewrite (K2 Hb); left; reflexivity].
      destruct (v_lt P _ _); [|inversion H; subst; (split; [exact K1|]); intros Hb; rewrite (K2 Hb); left; reflexivity].
      destruct (v_eq P _ _); inversion H; subst; (split; [exact K1|]); intros Hb; rewrite (K2 Hb); [right|left]; reflexivity.
    + unfold do_value_curve. destruct (ev_duration e) as [du|]; [|discriminate]. destruct (ev_values e) as [vs|]; [|discriminate]. cbv zeta. intros H. apply bind_ok in H. destruct H as (q & H1 & H). apply sample_kept in H1. destruct H1 as [K1 K2].
      destruct (t_le P (b_next b) _); apply bind_ok in H; destruct H as (v & _ & H); inversion H; subst; (split; [exact K1|]); intros Hb; rewrite (K2 Hb); left; reflexivity.
Qed.
Lemma flush_flush x : v_subnormal P (v_zero P) = false -> flush (flush x) = flush x.
Proof. intros H. unfold flush. destruct (v_subnormal P x) eqn:E; [rewrite H; reflexivity|rewrite E; reflexivity]. Qed.
Lemma do_events_kept fuel : forall p b p', do_events P RQ fuel p b = Ok p' -> kept p p' /\
  (b_arate b = false -> length (p_buffer p') = length (p_buffer p) /\ ((forall x, v_subnormal P x = false) -> p_buffer p' = p_buffer p)).
Proof.
  induction fuel as [|fuel IH]; intros p b p' H; cbn [do_events] in H; [discriminate|]. apply bind_ok in H. destruct H as ([q fl] & H1 & H). cbn [fst snd] in H.
  apply do_event_kept in H1. destruct H1 as [K1 K2].
  assert (B : b_arate b = false -> length (p_buffer q) = length (p_buffer p) /\ ((forall x, v_subnormal P x = false) -> p_buffer q = p_buffer p)).
  { intros Hb. destruct (K2 Hb) as [->| ->]; [split; reflexivity|]. rewrite map_length. split; [reflexivity|]. intros Hs. rewrite <- (map_id (p_buffer p)) at 2. apply map_ext. intros x. unfold flush. rewrite Hs. reflexivity. }
  destruct fl; [inversion H; subst; split; assumption|]. apply IH in H. destruct H as [K3 K4]. split; [eapply kept_trans; eassumption|].
  intros Hb. destruct (B Hb) as [B1 B2]. destruct (K4 Hb) as [B3 B4]. split; [congruence|]. intros Hs. rewrite (B4 Hs). exact (B2 Hs).
Qed.

(** a quantum writes the cell *)
Lemma process_cell p time dt input silent p' out : process P RQ p time dt input silent = Ok (p', out) ->
  v_clamp P (p_intrinsic p) (p_min p) (p_max p) = Some (p_current p') /\ p_min p' = p_min p /\ p_max p' = p_max p /\ p_default p' = p_default p /\ p_arate p' = p_arate p /\
  (p_arate p = false -> length (p_buffer p') = 1 /\ ((forall x, v_subnormal P x = false) -> p_buffer p' = [p_intrinsic p])) /\ mix_to_output P p' input silent = Ok out.
Proof.
  unfold process. intros H. apply bind_ok in H. destruct H as (q & H1 & H). apply bind_ok in H. destruct H as (o & H2 & H). inversion H; subst. clear H.
  unfold compute_buffer in H1. apply bind_ok in H1. destruct H1 as (c & Hc & H1). destruct (v_clamp P (p_intrinsic p) (p_min p) (p_max p)) as [c0|]; [|discriminate]. cbn [from_option] in Hc. inversion Hc; subst c0. clear Hc.
  cbv zeta in H1. apply bind_ok in H1. destruct H1 as (p2 & H3 & H1). cbn [set_buffer set_current p_arate p_timeline p_intrinsic] in H3, H1.
  set (cst := match p_timeline p with [] => true | e :: _ => if is_ramp (ev_type e) then false else t_le P (t_fma P dt (t_of_nat P RQ) time) (ev_time e) end) in *.
  assert (K2 : p_min p2 = p_min p /\ p_max p2 = p_max p /\ p_default p2 = p_default p /\ p_arate p2 = p_arate p /\ p_current p2 = c /\ (p_arate p = false -> p_buffer p2 = [p_intrinsic p])).
  { destruct (negb (p_arate p) || cst) eqn:E.
    - apply extend_kept in H3. destruct H3 as [(A & B & C & D & F) G]. cbn [set_buffer set_current p_min p_max p_default p_arate p_current p_buffer app] in *. tauto.
    - inversion H3; subst. cbn [set_buffer set_current p_min p_max p_default p_arate p_current p_buffer]. repeat split. intros X. rewrite X in E. discriminate. }
  destruct K2 as (A & B & C & D & F & G). destruct cst.
  - injection H1 as <-. rewrite F. repeat (split; [assumption || reflexivity|]). split; [|exact H2]. intros X. rewrite (G X). split; reflexivity.
  - apply do_events_kept in H1. destruct H1 as [(A' & B' & C' & D' & F') G']. cbn [b_arate] in G'. split; [congruence|]. split; [congruence|]. split; [congruence|]. split; [congruence|]. split; [congruence|].
    split; [|exact H2]. intros X. destruct (G' ltac:(congruence)) as [G1 G2]. rewrite (G X) in *. split; [exact G1|exact G2].
Qed.
Lemma krate_one p time dt input silent p' out : process P RQ p time dt input silent = Ok (p', out) -> p_arate p = false -> length out = 1.
Proof.
  intros H Hr. apply process_cell in H. destruct H as (_ & _ & _ & _ & R & B & M). destruct (B Hr) as [L _]. unfold mix_to_output in M. rewrite R, Hr in M. rewrite L in M. cbn [Nat.eqb negb orb] in M.
  destruct (p_buffer p') as [|v [|? ?]]; try discriminate. rewrite orb_true_r in M. destruct input; [discriminate|]. inversion M; subst. reflexivity.
Qed.

(** ** The automation rate *)
Lemma handle_rate p e p' : handle_incoming_event P p e = Ok p' -> kept p p'.
Proof.
  unfold handle_incoming_event. assert (G : forall r, (do _ <- curve_checks P p e; r) = Ok p' -> r = Ok p') by (intros r H; apply bind_ok in H; destruct H as (u & _ & H); exact H).
  destruct (ev_type e) eqn:Et.
  all: try (intros H; apply bind_ok in H; destruct H as (u & _ & H); cbv zeta in H; apply bind_ok in H; destruct H as (l & _ & H); inversion H; subst; cbn [etype_eqb]; repeat split; fail).
  unfold handle_cancel. cbv zeta. intros H. apply bind_ok in H. destruct H as (q & H1 & H). inversion H; subst. destruct (p_timeline p) as [|c l]; [inversion H1; subst; repeat split|].
  destruct (_ && _); [destruct (p_last p); [|discriminate]|]; inversion H1; subst; repeat split.
Qed.
Definition last_rate (dflt : bool) (q : list (message T V)) : bool := fold_left (fun r m => match m with M_rate a => a | _ => r end) q dflt.
Definition rated (s : shared T V) (cur : bool) : Prop := s_rate s = cur /\ last_rate (p_arate (s_param s)) (s_queue s) = cur.
Lemma last_rate_app d q m : last_rate d (q ++ [m]) = match m with M_rate a => a | _ => last_rate d q end.
Proof. unfold last_rate. rewrite fold_left_app. reflexivity. Qed.
Lemma rate_step a s s' o cur : vstep P RQ a s = Ok (s', o) -> rated s cur -> s_fixed s' = s_fixed s /\
  rated s' (match a with Set_rate b => if s_fixed s then cur else b | _ => cur end) /\
  match a with Read_rate => o = [Rate_is cur] | Set_rate b => o = if s_fixed s && negb (Bool.eqb b cur) then [Refused] else [] | _ => True end.
Proof.
  intros H [R1 R2]. unfold rated. destruct a; cbn [vstep] in H; cbv zeta in H.
  - destruct (v_finite P v); [apply bind_ok in H; destruct H as (c & _ & H)|]; inversion H; subst; repeat split; assumption || reflexivity.
  - destruct (call_event P c); inversion H; subst; cbn [s_fixed s_rate s_param s_queue]; rewrite ?last_rate_app; repeat split; assumption || reflexivity.
  - destruct (s_fixed s) eqn:F; cbn [negb orb] in H.
    + rewrite R1 in H. destruct (Bool.eqb arate cur) eqn:E; inversion H; subst s' o; cbn [s_fixed s_rate s_param s_queue andb negb]; rewrite ?last_rate_app; [apply Bool.eqb_prop in E; subst arate|]; repeat split; assumption || reflexivity.
    + inversion H; subst s' o; cbn [s_fixed s_rate s_param s_queue andb negb]; rewrite ?last_rate_app; repeat split.
  - inversion H; subst. repeat split; assumption || reflexivity.
  - inversion H; subst. repeat split; assumption || reflexivity.
  - destruct (s_queue s) as [|[e|r] q] eqn:Q.
    + inversion H; subst s'. rewrite Q. repeat split; assumption || reflexivity.
    + apply bind_ok in H. destruct H as (p' & H1 & H). inversion H; subst. apply handle_rate in H1. destruct H1 as (_ & _ & _ & K & _). cbn [s_fixed s_rate s_param s_queue]. rewrite K. repeat split. exact R2.
    + inversion H; subst. cbn [s_fixed s_rate s_param s_queue set_rate p_arate]. repeat split. exact R2.
  - apply bind_ok in H. destruct H as ([p' out] & H1 & H). inversion H; subst. cbn [s_fixed s_rate s_param s_queue fst]. apply process_cell in H1. destruct H1 as (_ & _ & _ & _ & K & _). rewrite K. repeat split. exact R2.
Qed.
Lemma rate_run l : forall s s' o cur, vrun P RQ l s = Ok (s', o) -> rated s cur -> rated s' (rate_after (s_fixed s) cur l) /\ s_fixed s' = s_fixed s.
Proof.
  induction l as [|a l IH]; intros s s' o cur H R; cbn [vrun] in H; [inversion H; subst; split; [exact R|reflexivity]|].
  apply bind_ok in H. destruct H as ([s1 o1] & H1 & H). apply bind_ok in H. destruct H as ([s2 o2] & H2 & H). cbn [fst snd] in *. inversion H; subst.
  destruct (rate_step _ _ _ _ _ H1 R) as (F & R1 & _). destruct (IH _ _ _ _ H2 R1) as [R2 F2]. rewrite F in *. split; [|exact F2].
  destruct a; cbn [rate_after]; exact R2.
Qed.

(** ** The values read stay in range *)
Variable lo hi : V.
Variable good : V -> Prop.
Hypothesis clamp_good : forall x c, v_clamp P x lo hi = Some c -> good c.
Definition ranged (s : shared T V) : Prop := p_min (s_param s) = lo /\ p_max (s_param s) = hi /\ good (p_current (s_param s)).
Lemma range_step a s s' o : vstep P RQ a s = Ok (s', o) -> ranged s -> ranged s' /\ Forall good (values_read o).
Proof.
  intros H (R1 & R2 & R3). unfold ranged. destruct a; cbn [vstep] in H; cbv zeta in H.
  - destruct (v_finite P v).
    + rewrite R1, R2 in H. destruct (v_clamp P v lo hi) as [c|] eqn:Ec; [|discriminate]. cbn [from_option bind] in H. inversion H; subst. repeat split; try assumption; [exact (clamp_good _ _ Ec)|constructor].
    + inversion H; subst. repeat split; try assumption. constructor.
  - destruct (call_event P c); inversion H; subst; repeat split; try assumption; constructor.
  - destruct (_ || _); inversion H; subst; repeat split; try assumption; constructor.
  - inversion H; subst. repeat split; try assumption. repeat constructor. exact R3.
  - inversion H; subst. repeat split; try assumption. constructor.
  - destruct (s_queue s) as [|[e|r] q] eqn:Q.
    + inversion H; subst. repeat split; try assumption. constructor.
    + apply bind_ok in H. destruct H as (p' & H1 & H). inversion H; subst. apply handle_rate in H1. destruct H1 as (A & B & _ & _ & K). cbn [s_param]. rewrite A, B, K. repeat split; try assumption. constructor.
    + inversion H; subst. repeat split; try assumption. constructor.
  - apply bind_ok in H. destruct H as ([p' out] & H1 & H). injection H as <- <-. cbn [s_param fst]. apply process_cell in H1. destruct H1 as (C & A & B & _). rewrite A, B. rewrite R1, R2 in C. repeat split; try assumption; [exact (clamp_good _ _ C)|constructor].
Qed.
Lemma range_run l : forall s s' o, vrun P RQ l s = Ok (s', o) -> ranged s -> Forall good (values_read o).
Proof.
  induction l as [|a l IH]; intros s s' o H R; cbn [vrun] in H; [inversion H; subst; constructor|].
  apply bind_ok in H. destruct H as ([s1 o1] & H1 & H). apply bind_ok in H. destruct H as ([s2 o2] & H2 & H). cbn [fst snd] in *. inversion H; subst.
  destruct (range_step _ _ _ _ H1 R) as [R1 F]. unfold values_read. rewrite flat_map_app. apply Forall_app. split; [exact F|exact (IH _ _ _ H2 R1)].
Qed.
End Proofs.
