(** The compressor: the ring of quanta, and the gains frame by frame, for any arithmetic. *)
From Coq Require Import List Arith Bool ZArith Lia.
From Verif Require Import Arith_Model Route_Spec Comp_Model Comp_Spec Delay_Proofs Filter_Spec.
Import ListNotations.

Lemma last_cons_app : forall X (l : list X) a d, last (a :: l) d = last l a. Proof. intros X. induction l as [|b l IH]; intros a d; [reflexivity|]. change (last (a :: b :: l) d) with (last (b :: l) d). rewrite IH. symmetry. apply IH. Qed.
Lemma last_mid : forall X (sa sb : list X) b d, last (sa ++ b :: sb) d = last sb b.
Proof. intros X. induction sa as [|a sa IH]; intros sb b d; cbn [app]; rewrite last_cons_app; [reflexivity|apply IH]. Qed.
Lemma scan_app : forall X S (f : X -> S -> S) l1 l2 s, scan f s (l1 ++ l2) = scan f s l1 ++ scan f (last (scan f s l1) s) l2.
Proof. intros X S f. induction l1 as [|x l1 IH]; intros l2 s; [reflexivity|]. cbn [app scan]. rewrite IH, last_cons_app. reflexivity. Qed.
Lemma scan_length : forall X S (f : X -> S -> S) l s, length (scan f s l) = length l. Proof. intros X S f. induction l as [|x l IH]; intros s; cbn; [reflexivity|f_equal; apply IH]. Qed.
Section Comp.
Context {T V : Type}.
Variable A : arith T V.
Variable size : nat.
Variable rate : V.
Notation quantum := (list (chan V)).
Notation zero := (v_zero A).
Notation params := (comp_params (V := V)).

Definition level (q : quantum) (i : nat) : V :=
  fold_left (fun m c => let s := v_abs A (nth i (c_val c) zero) in if v_lt A m s then s else m) q (v_neg A (v_MAX A)).
Definition step (f : params * V) (d : V) : V := detect A (comp_curve A rate (fst f)) d (snd f).
Definition gain_of (f : params * V) (d : V) : V := db_to_lin A (v_add A (v_neg A d) (u_makeup (comp_curve A rate (fst f)))).
Definition gains_of (d : V) (fs : list (params * V)) : list V := map (fun x => gain_of (fst x) (snd x)) (combine fs (scan step d fs)).

Lemma level_ok : forall q i m, Forall (fun c => length (c_val c) = size) q -> i < size ->
  level_of A q i m = Ok (fold_left (fun m c => let s := v_abs A (nth i (c_val c) zero) in if v_lt A m s then s else m) q m).
Proof.
  induction q as [|c q IH]; intros i m F Hi; [reflexivity|]. inversion F as [|? ? L F']; subst. cbn [level_of fold_left]. rewrite (index_Some _ (c_val c) i (nth i (c_val c) zero)) by (apply nth_error_nth'; lia). cbn [bind]. apply IH; [exact F'|lia].
Qed.
Lemma frames_ok : forall p input n i d r, Forall (fun c => length (c_val c) = size) input -> i + n <= size ->
  exists r', comp_frames A (comp_curve A rate p) input n i d r = Ok (last (scan step d (map (fun j => (p, level input j)) (seq i n))) d, gains_of d (map (fun j => (p, level input j)) (seq i n)), r').
Proof.
  intros p input. induction n as [|n IH]; intros i d r F Hi; cbn [comp_frames seq map scan]; [exists r; reflexivity|]. rewrite level_ok by (auto; lia). cbn [bind].
  change (detect A (comp_curve A rate p) d _) with (step (p, level input i) d). set (d' := step (p, level input i) d). destruct (IH (S i) d' (v_add A (v_neg A d') (u_makeup (comp_curve A rate p))) F ltac:(lia)) as [r' E]. rewrite E. cbn [bind]. exists r'. cbv zeta.
  unfold gains_of. cbn [scan combine map]. rewrite last_cons_app. reflexivity.
Qed.

(** ** The ring *)
Variable capacity : nat.
Hypothesis capacity_pos : 0 < capacity.
Definition silence : quantum := [mk_chan 0 (repeat zero size)].
(** slot [m mod capacity] holds the input of [capacity] quanta before [m] *)
Definition slot (past : list quantum) (m : nat) : quantum := if m <? capacity then silence else nth (m - capacity) past [].
Definition ring_ok (past : list quantum) (st : comp (V := V)) : Prop :=
  Forall (fun q => q <> []) past /\ p_index st = length past mod capacity /\
  (p_ring st = [] /\ past = [] \/ length (p_ring st) = capacity /\ forall m, length past <= m < length past + capacity -> nth_error (p_ring st) (m mod capacity) = Some (slot past m)).
Lemma slot_app : forall past q m, m < length past + capacity -> slot (past ++ [q]) m = slot past m.
Proof using capacity_pos. intros past q m H. unfold slot. destruct (Nat.ltb_spec m capacity); [reflexivity|]. apply app_nth1. lia. Qed.
Lemma mod_inj : forall a b, a mod capacity = b mod capacity -> a <= b -> b < a + capacity -> a = b.
Proof using capacity_pos. intros a b E H1 H2. pose proof (Nat.div_mod a capacity ltac:(lia)). pose proof (Nat.div_mod b capacity ltac:(lia)). assert (a / capacity = b / capacity) by nia. nia. Qed.

Definition played (past : list quantum) (q : quantum) : quantum := delayed zero size (capacity - 1) (past ++ [q]) (length past).
Definition call_fine (l : params * nat * quantum) : Prop := snd l <> [] /\ Forall (fun c => length (c_val c) = size) (snd l).
Lemma quantum_step : forall past st p s input, ring_ok past st -> call_fine (p, s, input) ->
  let fs := map (fun j => (p, level input j)) (seq 0 size) in
  exists st' o more r, comp_quantum A size capacity rate p st s input = Ok (st', o, more, r) /\ ring_ok (past ++ [input]) st' /\ p_prev st' = last (scan step (p_prev st) fs) (p_prev st) /\
    (if is_silent (played past input) then o = silence /\ more = false else o = apply_gains A (gains_of (p_prev st) fs) s (played past input) /\ more = true).
Proof using capacity_pos.
  intros past st p s input (Hf & Hi & Hr) [Hn Hl] fs. cbn [snd] in *. unfold comp_quantum. destruct input as [|c0 input']; [contradiction|]. set (input := c0 :: input') in *. change (make_silent (sops_of A) size input) with (Some silence). cbn [from_option bind].
  set (ring := if length (p_ring st) <? capacity then _ else _).
  assert (R1 : length ring = capacity /\ forall m, length past <= m < length past + capacity -> nth_error ring (m mod capacity) = Some (slot past m)).
  { unfold ring. destruct Hr as [[Er Ep]|[Lr Hr]].
    - rewrite Er, Ep. cbn [length]. destruct (Nat.ltb_spec 0 capacity); [|lia]. cbn [app]. rewrite Nat.sub_0_r, repeat_length. split; [reflexivity|]. intros m Hm. rewrite Nat.mod_small by lia. rewrite nth_error_repeat by lia. unfold slot. destruct (Nat.ltb_spec m capacity); [reflexivity|lia].
    - rewrite Lr. destruct (Nat.ltb_spec capacity capacity); [lia|]. auto. }
  destruct R1 as [L1 R1]. clearbody ring. destruct (frames_ok p input size 0 (p_prev st) (v_of_Z A 0) Hl ltac:(lia)) as [r E]. rewrite E. cbn [bind]. fold fs.
  assert (Ix : p_index st < length ring) by (rewrite Hi, L1; apply Nat.mod_upper_bound; lia). unfold store. destruct (Nat.ltb_spec (p_index st) (length ring)); [|lia]. cbn [bind]. unfold check. destruct (Nat.ltb_spec 0 capacity); [|lia]. cbn [bind].
  set (ring' := update (p_index st) (fun _ => input) ring).
  assert (Wrap : (length past + capacity) mod capacity = length past mod capacity) by (replace (length past + capacity) with (length past + 1 * capacity) by lia; apply Nat.mod_add; lia).
  assert (R2 : forall m, length (past ++ [input]) <= m < length (past ++ [input]) + capacity -> nth_error ring' (m mod capacity) = Some (slot (past ++ [input]) m)).
  { rewrite app_length. cbn [length]. intros m Hm. unfold ring'. rewrite update_nth. destruct (Nat.eqb_spec (p_index st) (m mod capacity)) as [Q|Q].
    - rewrite Hi, <- Wrap in Q. assert (m = length past + capacity) as -> by (apply mod_inj; [congruence|lia|lia]). rewrite Wrap, <- Hi. destruct (nth_error ring (p_index st)) as [x|] eqn:Qx; [|apply nth_error_None in Qx; lia].
      cbn [option_map]. unfold slot. destruct (Nat.ltb_spec (length past + capacity) capacity) as [Lt|Lt].
      + lia.
      + rewrite Nat.add_sub, app_nth2, Nat.sub_diag by lia. reflexivity.
    - rewrite R1. 2:{ split; [lia|]. destruct (Nat.eq_dec m (length past + capacity)) as [->|N]; [|lia]. rewrite Wrap in Q. contradiction. }
      f_equal. symmetry. apply slot_app. destruct (Nat.eq_dec m (length past + capacity)) as [->|N]; [|lia]. rewrite Wrap in Q. contradiction. }
  assert (L2 : length ring' = capacity) by (unfold ring'; rewrite update_length; exact L1). assert (Rd : (p_index st + 1) mod capacity = length (past ++ [input]) mod capacity) by (rewrite Hi, app_length, Nat.add_mod_idemp_l by lia; reflexivity).
  assert (Pl : nth_error ring' ((p_index st + 1) mod capacity) = Some (played past input)).
  { rewrite Rd, R2 by lia. f_equal. unfold slot, played, delayed, silence. rewrite app_length. cbn [length]. destruct (Nat.ltb_spec (length past + 1) capacity); destruct (Nat.ltb_spec (length past) (capacity - 1)); try lia; [reflexivity|]. f_equal. lia. }
  rewrite (index_Some _ _ _ _ Pl). cbn [bind].
  assert (Ro : ring_ok (past ++ [input]) (mk_comp ring' ((p_index st + 1) mod capacity) (last (scan step (p_prev st) fs) (p_prev st)))) by (split; [apply Forall_app; split; [exact Hf|constructor; [discriminate|constructor]]|]; split; [exact Rd|right; auto]).
  destruct (is_silent (played past input)) eqn:Qs.
  - assert (Hp : make_silent (sops_of A) size (played past input) = Some silence).
    { destruct (played past input) as [|c q] eqn:Qp; [|reflexivity]. exfalso. unfold played, delayed in Qp. destruct (length past <? capacity - 1); [discriminate Qp|]. assert (In (nth (length past - (capacity - 1)) (past ++ [input]) []) (past ++ [input])) as Hin by (apply nth_In; rewrite app_length; cbn; lia). rewrite Qp in Hin. apply in_app_or in Hin. destruct Hin as [Hin|[Hin|[]]]; [|discriminate Hin]. rewrite Forall_forall in Hf. exact (Hf _ Hin eq_refl). }
    rewrite Hp. cbn [from_option bind]. do 4 eexists. split; [reflexivity|]. auto.
  - do 4 eexists. split; [reflexivity|]. auto.
Qed.

(** all calls *)
Definition ring_run (past : list quantum) (d : V) (ls : list (params * nat * quantum)) (outs : list (quantum * bool * V)) : Prop :=
  length outs = length ls /\ forall k l, nth_error ls k = Some l -> exists r, let all := past ++ map snd ls in let src := delayed zero size (capacity - 1) all (length past + k) in
    let fs := frames_of level size (firstn k ls) in
    nth_error outs k = Some (if is_silent src then (silence, false, r) else (apply_gains A (gains_of (last (scan step d fs) d) (frames_of level size [l])) (snd (fst l)) src, true, r)).
Lemma delayed_app : forall past rest k, k < length past -> delayed zero size (capacity - 1) (past ++ rest) k = delayed zero size (capacity - 1) past k.
Proof using capacity_pos. intros past rest k H. unfold delayed. destruct (k <? capacity - 1); [reflexivity|]. apply app_nth1. lia. Qed.
Lemma ring_runs : forall ls past st, ring_ok past st -> Forall call_fine ls ->
  exists st' outs, comp_run A size capacity rate st ls = Ok (st', outs) /\ ring_run past (p_prev st) ls outs.
Proof using capacity_pos.
  induction ls as [|[[p s] input] ls IH]; intros past st Ho Hf; cbn [comp_run]; [exists st, []; split; [reflexivity|]; split; [reflexivity|]; intros [|k] l H; discriminate H|]. inversion Hf as [|? ? Hc Hf']; subst.
  destruct (quantum_step past st p s input Ho Hc) as (st1 & o & more & r & E & Ho1 & Hp & Hq). rewrite E. cbn [bind]. destruct (IH _ st1 Ho1 Hf') as (st2 & outs & E2 & L & Hr). rewrite E2. cbn [bind]. do 2 eexists. split; [reflexivity|]. split; [cbn [length]; lia|].
  intros [|k] l Hl; cbn [nth_error] in Hl |- *.
  - injection Hl as <-. exists r. cbv zeta. rewrite Nat.add_0_r. cbn [firstn map snd]. change (frames_of level size []) with (@nil (params * V)). cbn [scan last fst]. change (past ++ input :: map snd ls) with (past ++ [input] ++ map snd ls). rewrite app_assoc, delayed_app by (rewrite app_length; cbn; lia). fold (played past input).
    replace (frames_of level size [(p, s, input)]) with (map (fun j => (p, level input j)) (seq 0 size)) by (unfold frames_of; cbn [flat_map fst snd]; rewrite app_nil_r; reflexivity).
    destruct (is_silent (played past input)); destruct Hq as [-> ->]; reflexivity.
  - destruct (Hr k l Hl) as (r' & Q). exists r'. cbv zeta in *. rewrite app_length in Q. cbn [length map snd firstn] in *. rewrite <- app_assoc in Q. cbn [app] in Q. replace (length past + S k) with (length past + 1 + k) by lia. rewrite Q.
    change (frames_of level size ((p, s, input) :: firstn k ls)) with (map (fun j => (p, level input j)) (seq 0 size) ++ frames_of level size (firstn k ls)). rewrite scan_app. cbv zeta in Hp.
    replace (last (scan step (p_prev st) _ ++ _) (p_prev st)) with (last (scan step (p_prev st1) (frames_of level size (firstn k ls))) (p_prev st1)); [reflexivity|].
    rewrite <- Hp. set (sa := scan step (p_prev st) _) in *. set (sb := scan step (p_prev st1) _). destruct sb as [|b sb]; [rewrite app_nil_r; cbn [last]; exact Hp|]. rewrite last_cons_app. symmetry. apply last_mid.
Qed.
Lemma ring_start : ring_ok [] (comp_new A).
Proof using capacity_pos. split; [constructor|]. split; [cbn; rewrite Nat.mod_0_l by lia; reflexivity|]. left. split; reflexivity. Qed.
End Comp.
