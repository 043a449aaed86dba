(** A control thread reads what it has assigned, if no quantum comes between. *)
From Coq Require Import List Arith Bool Lia.
From Verif Require Import Common_Model Param_Model Value_Model Value_Spec Value_Proofs.
Import ListNotations.

Section Read.
Context {T V : Type}.
Variable P : @param_ops T V.
Variable RQ : nat.
Hypothesis RQ_pos : 0 < RQ.
Hypothesis zero_le : t_le P (t_zero P) (t_zero P) = true.
Hypothesis nat_le : forall x n, t_to_nat P x n <= n.
Variable lo hi : V.
Variable limited : V -> V.
Hypothesis clamps : forall x, v_clamp P x lo hi = Some (limited x).
Notation param := (@param T V).
Definition sv (v : V) : @event T V := simple SetValue v (t_zero P).

Lemma sort_svs xs : sort_timeline P (map sv xs) = Ok (map sv xs).
Proof.
  assert (S : sort_events P (map sv xs) = map sv xs).
  { induction xs as [|x xs IH]; [reflexivity|]. cbn [map]. unfold sort_events in *. cbn [fold_right]. rewrite IH. destruct xs as [|y xs]; [reflexivity|]. cbn [map insert_event]. cbn [sv simple ev_time]. rewrite zero_le. reflexivity. }
  unfold sort_timeline. rewrite S. replace (forallb (fun e => t_le P (ev_time e) (ev_time e)) (map sv xs)) with true; [rewrite orb_true_r; reflexivity|].
  symmetry. apply forallb_forall. intros e He. apply in_map_iff in He. destruct He as (v & <- & _). exact zero_le.
Qed.
Lemma receive_sv p xs v : p_timeline p = map sv xs -> handle_incoming_event P p (sv v) = Ok (set_timeline (set_intrinsic p v) (map sv (xs ++ [v]))).
Proof.
  intros Ht. unfold handle_incoming_event. cbn [sv simple ev_type]. unfold curve_checks. cbn [sv simple ev_type etype_eqb bind]. rewrite Ht.
  match goal with |- context [forallb ?f (map sv xs)] => replace (forallb f (map sv xs)) with true end.
  2:{ symmetry. apply forallb_forall. intros e He. apply in_map_iff in He. destruct He as (w & <- & _). reflexivity. }
  cbv beta iota zeta delta [bind]. cbn [set_intrinsic p_timeline p_last ev_value is_ramp]. rewrite Ht. rewrite !andb_false_r.
  change (mk_event SetValue v (t_zero P) None None None None) with (sv v). rewrite map_app. cbn [map].
  replace (map sv xs ++ [sv v]) with (map sv (xs ++ [v])) by (rewrite map_app; reflexivity). rewrite sort_svs. reflexivity.
Qed.

Lemma extend_fits (p : param) vs : length (p_buffer p) + length vs <= RQ -> extend RQ p vs = Ok (set_buffer p (p_buffer p ++ vs)).
Proof. intros H. unfold extend. apply Nat.leb_le in H. rewrite H. reflexivity. Qed.
Lemma last_cons (x y : V) l : last (x :: l) y = last l x.
Proof. revert x y. induction l as [|z l IH]; intros x y; [reflexivity|]. change (last (x :: z :: l) y) with (last (z :: l) y). rewrite (IH z y), (IH z x). reflexivity. Qed.

Section Block.
Variable b : @block T.
Hypothesis count : b_count b = RQ.
Notation tm := (if t_eq P (t_zero P) (t_zero P) then b_time b else t_zero P).
Lemma end_le t : end_index P b t <= RQ.
Proof. unfold end_index. rewrite <- count. apply nat_le. Qed.

Lemma set_value_sv p v rest : length (p_buffer p) <= RQ -> exists p1, do_set_value P RQ p b (sv v) rest =
    (if t_lt P (b_next b) tm then Ok (p1, true)
     else Ok (set_last (set_timeline (set_intrinsic p1 v) rest) (Some (if t_eq P tm (t_zero P) then sv v else with_time (sv v) tm)), false)) /\
  length (p_buffer p1) <= RQ /\ p_timeline p1 = p_timeline p /\ p_intrinsic p1 = p_intrinsic p.
Proof.
  intros L. unfold do_set_value. cbn [sv simple ev_time ev_value]. destruct (b_arate b).
  - rewrite extend_fits; [|rewrite repeat_length; pose proof (end_le tm); lia]. cbn [bind]. eexists. split; [reflexivity|].
    cbn [set_buffer p_buffer p_timeline p_intrinsic]. rewrite app_length, repeat_length. pose proof (end_le tm). repeat split. lia.
  - cbn [bind]. exists p. split; [reflexivity|]. repeat split. exact L.
Qed.

Lemma pops fuel : forall xs p, p_timeline p = map sv xs -> length (p_buffer p) <= RQ -> length xs < fuel -> t_lt P (b_next b) tm = false ->
  exists p', do_events P RQ fuel p b = Ok p' /\ p_timeline p' = [] /\ p_intrinsic p' = last xs (p_intrinsic p).
Proof.
  induction fuel as [|fuel IH]; intros xs p Ht L F N; [lia|]. cbn [do_events]. unfold do_event. rewrite Ht. destruct xs as [|v xs]; cbn [map].
  - destruct (b_arate b).
    + rewrite extend_fits by (rewrite repeat_length, count; lia). cbn [bind fst snd]. eexists. split; [reflexivity|]. cbn [set_buffer p_timeline p_intrinsic last]. split; [exact Ht|reflexivity].
    + cbn [bind fst snd]. exists p. split; [reflexivity|]. split; [exact Ht|reflexivity].
  - cbn [sv simple ev_type]. change (mk_event SetValue v (t_zero P) None None None None) with (sv v).
    destruct (set_value_sv p v (map sv xs) L) as (p1 & E & L1 & T1 & I1). rewrite N in E. change (ev_type (sv v)) with SetValue. cbn iota. rewrite E. cbn [bind fst snd].
    cbn [length] in F.
    destruct (IH xs (set_last (set_timeline (set_intrinsic p1 v) (map sv xs)) (Some (if t_eq P tm (t_zero P) then sv v else with_time (sv v) tm)))) as (p' & A & B & C); [reflexivity|exact L1|lia|exact N|].
    exists p'. split; [exact A|]. split; [exact B|]. rewrite C. cbn [set_last set_timeline set_intrinsic p_intrinsic]. symmetry. apply last_cons.
Qed.
Lemma stays fuel v xs p : p_timeline p = map sv (v :: xs) -> length (p_buffer p) <= RQ -> 0 < fuel -> t_lt P (b_next b) tm = true ->
  exists p', do_events P RQ fuel p b = Ok p' /\ p_timeline p' = p_timeline p /\ p_intrinsic p' = p_intrinsic p.
Proof.
  intros Ht L F N. destruct fuel as [|fuel]; [lia|]. cbn [do_events]. unfold do_event. rewrite Ht. cbn [map]. change (ev_type (sv v)) with SetValue. cbn iota.
  destruct (set_value_sv p v (map sv xs) L) as (p1 & E & L1 & T1 & I1). rewrite N in E. rewrite E. cbn [bind fst snd]. exists p1. split; [reflexivity|]. rewrite T1, I1. split; [exact Ht|reflexivity].
Qed.
End Block.

Lemma plays_sv p xs time dt input silent : p_timeline p = map sv xs -> last xs (p_intrinsic p) = p_intrinsic p -> p_min p = lo -> p_max p = hi -> length input = RQ ->
  exists p' out xs', process P RQ p time dt input silent = Ok (p', out) /\ p_timeline p' = map sv xs' /\ last xs' (p_intrinsic p') = p_intrinsic p' /\ p_intrinsic p' = p_intrinsic p.
Proof.
  intros Ht Hl Hlo Hhi Hi.
  assert (CB : exists q xs', compute_buffer P RQ p time dt RQ = Ok q /\ p_timeline q = map sv xs' /\ last xs' (p_intrinsic q) = p_intrinsic q /\ p_intrinsic q = p_intrinsic p /\ p_arate q = p_arate p /\ (p_arate p = false -> length (p_buffer q) = 1)).
  { unfold compute_buffer. rewrite Hlo, Hhi, clamps. cbn [from_option bind set_buffer set_current p_timeline p_arate p_intrinsic]. rewrite Ht.
    set (next := t_fma P dt (t_of_nat P RQ) time).
    set (cst := match map sv xs with [] => true | e :: _ => if is_ramp (ev_type e) then false else t_le P next (ev_time e) end).
    set (p1 := set_buffer (set_current p (limited (p_intrinsic p))) []).
    assert (X : exists p2, (if negb (p_arate p) || cst then extend RQ p1 [p_intrinsic p] else Ok p1) = Ok p2 /\ p_timeline p2 = map sv xs /\ p_intrinsic p2 = p_intrinsic p /\ p_arate p2 = p_arate p /\ length (p_buffer p2) <= RQ /\ (p_arate p = false -> length (p_buffer p2) = 1)).
    { destruct (negb (p_arate p) || cst) eqn:E.
      - rewrite extend_fits by (cbn; lia). eexists. split; [reflexivity|]. cbn [p1 set_buffer set_current p_timeline p_intrinsic p_arate p_buffer app length]. repeat split; try assumption; lia.
      - exists p1. split; [reflexivity|]. cbn [p1 set_buffer set_current p_timeline p_intrinsic p_arate p_buffer length]. repeat split; try assumption; [lia|]. intros Y. rewrite Y in E. discriminate. }
    destruct X as (p2 & -> & T2 & I2 & A2 & L2 & K2). cbn [bind]. destruct cst eqn:Ec.
    - exists p2, xs. split; [reflexivity|]. rewrite I2. repeat split; assumption.
    - rewrite T2, map_length. set (b := mk_block time dt RQ (p_arate p2) next).
      assert (D : exists q, do_events P RQ (2 * length xs + 1) p2 b = Ok q /\ ((p_timeline q = p_timeline p2 /\ p_intrinsic q = p_intrinsic p2) \/ (p_timeline q = [] /\ p_intrinsic q = last xs (p_intrinsic p2)))).
      { destruct (t_lt P (b_next b) (if t_eq P (t_zero P) (t_zero P) then b_time b else t_zero P)) eqn:N.
        - destruct xs as [|v xs]; [discriminate|]. destruct (stays b eq_refl (2 * length (v :: xs) + 1) v xs p2 T2 L2 ltac:(lia) N) as (q & Q1 & Q2 & Q3). exists q. split; [exact Q1|left; split; assumption].
        - destruct (pops b eq_refl (2 * length xs + 1) xs p2 T2 L2 ltac:(lia) N) as (q & Q1 & Q2 & Q3). exists q. split; [exact Q1|right; split; assumption]. }
      destruct D as (q & D & R). pose proof (do_events_kept P RQ _ _ _ _ D) as [(_ & _ & _ & KA & _) KB]. cbn [b b_arate] in KB. exists q, (match p_timeline q with [] => [] | _ => xs end).
      split; [exact D|]. assert (Iq : p_intrinsic q = p_intrinsic p) by (destruct R as [[_ R]|[_ R]]; rewrite R, I2; [reflexivity|exact Hl]).
      split; [destruct R as [[R _]|[R _]]; rewrite R; [rewrite T2; destruct xs; reflexivity|reflexivity]|]. split; [rewrite Iq; destruct (p_timeline q); [reflexivity|exact Hl]|]. split; [exact Iq|]. split; [congruence|].
      intros Y. destruct (KB ltac:(congruence)) as [KL _]. rewrite KL. exact (K2 Y). }
  destruct CB as (q & xs' & CB & Q1 & Q2 & Q3 & Q4 & Q5). unfold process. rewrite CB. cbn [bind].
  assert (M : exists out, mix_to_output P q input silent = Ok out).
  { unfold mix_to_output. destruct input as [|i input]; [cbn in Hi; lia|]. destruct (Nat.eqb (length (p_buffer q)) 1 || negb (p_arate q)) eqn:E; [|eexists; reflexivity].
    destruct (p_buffer q) as [|v vs] eqn:Eb.
    - cbn [length Nat.eqb orb] in E. rewrite Q4 in E. apply negb_true_iff in E. specialize (Q5 E). discriminate.
    - destruct (silent || _); eexists; reflexivity. }
  destruct M as (out & M). rewrite M. cbn [bind]. exists q, out, xs'. repeat split; assumption.
Qed.

Definition Inv (n : nat) (cur : V) (s : shared T V) : Prop :=
  exists xs qs, p_min (s_param s) = lo /\ p_max (s_param s) = hi /\ p_timeline (s_param s) = map sv xs /\ s_queue s = map (fun v => M_event (sv v)) qs /\ length qs = n /\
    last xs (p_intrinsic (s_param s)) = p_intrinsic (s_param s) /\ p_current (s_param s) = cur /\ cur = limited (last qs (p_intrinsic (s_param s))).

Lemma reads m : forall l n cur s, length l <= m -> orderly (v_finite P) RQ n l -> Inv n cur s ->
  exists s' o, vrun P RQ l s = Ok (s', o) /\ values_read o = last_assigned limited cur l.
Proof.
  induction m as [|m IH]; intros l n cur s Hm H I; (destruct l as [|a l]; [exists s, []; split; reflexivity|]); cbn [length] in Hm; [lia|].
  destruct I as (xs & qs & I1 & I2 & I3 & I4 & I5 & I6 & I7 & I8).
  destruct a as [v|c|r| | | |time dt input silent]; cbn [orderly] in H; try contradiction.
  - destruct l as [|[ |c| | | | | ] l]; try contradiction. destruct c as [w| | | | | | |]; try contradiction. destruct H as (<- & F & H).
    cbn [vrun vstep]. rewrite F, I1, I2, clamps. cbn [from_option bind fst snd s_param s_rate s_fixed s_queue call_event]. rewrite F. cbn [bind fst snd s_param s_rate s_fixed s_queue].
    destruct (IH l (S n) (limited v) (mk_shared (set_current (s_param s) (limited v)) (s_rate s) (s_fixed s) (s_queue s ++ [M_event (simple SetValue v (t_zero P))]))) as (s' & o & A & B); [cbn [length] in Hm; lia|exact H| |].
    + exists xs, (qs ++ [v]). cbn [s_param s_queue set_current p_min p_max p_timeline p_intrinsic p_current]. rewrite I4, map_app, app_length, I5, last_last. repeat split; try assumption. cbn. lia.
    + exists s', o. rewrite A. split; [reflexivity|exact B].
  - cbn [vrun vstep bind fst snd]. destruct (IH l n cur s) as (s' & o & A & B); [lia|exact H|exists xs, qs; repeat split; assumption|]. rewrite A. cbn [bind fst snd app]. eexists _, _. split; [reflexivity|].
    cbn [values_read flat_map app last_assigned]. rewrite I7. f_equal. exact B.
  - cbn [vrun vstep]. rewrite I4. destruct qs as [|v qs]; cbn [map].
    + cbn [bind fst snd]. cbn [length] in I5. destruct (IH l (n - 1) cur s) as (s' & o & A & B); [lia|exact H|exists xs, []; repeat split; try assumption; cbn; lia|]. rewrite A. cbn [bind fst snd app]. eexists _, _. split; [reflexivity|exact B].
    + rewrite (receive_sv _ xs v I3). cbn [bind fst snd].
      destruct (IH l (n - 1) cur (mk_shared (set_timeline (set_intrinsic (s_param s) v) (map sv (xs ++ [v]))) (s_rate s) (s_fixed s) (map (fun v => M_event (sv v)) qs))) as (s' & o & A & B); [lia|exact H| |].
      * exists (xs ++ [v]), qs. cbn [s_param s_queue set_timeline set_intrinsic p_min p_max p_timeline p_intrinsic p_current]. rewrite last_last. cbn [length] in I5. repeat split; try assumption; [lia|]. rewrite I8, last_cons. reflexivity.
      * rewrite A. cbn [bind fst snd app]. eexists _, _. split; [reflexivity|exact B].
  - destruct H as (H0 & Hi & H). subst n. destruct qs as [|? ?]; [|discriminate]. cbn [last] in I8.
    destruct (plays_sv (s_param s) xs time dt input silent I3 I6 I1 I2 Hi) as (p' & out & xs' & A & B & C & D).
    pose proof (process_cell P RQ _ _ _ _ _ _ _ A) as (E & E1 & E2 & _). rewrite I1, I2, clamps in E. injection E as E.
    cbn [vrun vstep]. rewrite A. cbn [bind fst snd].
    destruct (IH l 0 cur (mk_shared p' (s_rate s) (s_fixed s) (s_queue s))) as (s' & o & A2 & B2); [lia|exact H| |].
    + exists xs', []. cbn [s_param s_queue last map length]. rewrite D. repeat split; try assumption; try congruence.
    + rewrite A2. cbn [bind fst snd app]. eexists _, _. split; [reflexivity|exact B2].
Qed.
Lemma reads_new arate fixed dflt l : limited dflt = dflt -> orderly (v_finite P) RQ 0 l ->
  exists s' o, vrun P RQ l (shared_new arate fixed dflt lo hi) = Ok (s', o) /\ values_read o = last_assigned limited dflt l.
Proof. intros Hd H. apply (reads (length l) l 0 dflt); [lia|exact H|]. exists [], []. cbn. repeat split. symmetry. exact Hd. Qed.
End Read.
