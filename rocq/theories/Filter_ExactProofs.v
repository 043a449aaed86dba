(** Filters in exact arithmetic: the difference equations. *)
From Coq Require Import List Arith Bool ZArith Lia Reals Lra.
From Verif Require Import Arith_Model Arith_Real Route_Spec Route_Proofs Delay_Proofs Shape_Proofs Filter_Model Filter_Spec Filter_Proofs.
Import ListNotations.

(** ** Coefficients per frame, in any arithmetic *)
Section Coefs.
Context {T V : Type}.
Variable A : arith T V.
Variable size : nat.
Local Notation coefs_of := (Filter_Spec.coefs_of A).

Lemma coefs_at_ok : forall type_ sr (p : biquad_params) i, params_ok p ->
  coefs_at A type_ sr p i = Ok (coefs_of sr (mk_setting type_ (param_at (v_zero A) (q_frequency p) i) (param_at (v_zero A) (q_detune p) i) (param_at (v_zero A) (q_gain p) i) (param_at (v_zero A) (q_q p) i))).
Proof.
  intros type_ sr p i (H1 & H2 & H3 & H4). assert (G : forall l : list V, l <> [] -> index l (i mod length l) = Ok (param_at (v_zero A) l i)).
  { intros l Hl. unfold param_at. apply index_nth. apply Nat.mod_upper_bound. destruct l; [contradiction|discriminate]. }
  unfold coefs_at. cbv zeta. rewrite !G by assumption. reflexivity.
Qed.
Lemma coefs_list_ok : forall type_ sr (p : biquad_params), 0 < size -> params_ok p -> coefs_list A size type_ sr p = Ok (map (coefs_of sr) (settings (v_zero A) size (type_, p))).
Proof.
  intros type_ sr p Hs Hp. unfold coefs_list. rewrite coefs_at_ok by exact Hp. cbn [bind]. unfold settings. cbn [fst snd]. rewrite map_map.
  destruct ((length (q_frequency p) =? 1) && (length (q_detune p) =? 1) && (length (q_q p) =? 1) && (length (q_gain p) =? 1)) eqn:Q.
  - apply andb_prop in Q. destruct Q as [Q Q4]. apply andb_prop in Q. destruct Q as [Q Q3]. apply andb_prop in Q. destruct Q as [Q1 Q2]. apply Nat.eqb_eq in Q1, Q2, Q3, Q4. f_equal.
    set (g := fun i => coefs_of sr _). change (repeat (g 0) size = map g (seq 0 size)). assert (G : forall i, g i = g 0) by (intros i; unfold g, param_at; rewrite Q1, Q2, Q3, Q4, !Nat.mod_1_r; reflexivity).
    clear - G. generalize 0 at 2. induction size as [|n IH]; intros k; [reflexivity|]. cbn [repeat seq map]. rewrite (G k). f_equal. apply IH.
  - rewrite (map_res_ok _ _ _ (fun i => coefs_of sr (mk_setting type_ (param_at (v_zero A) (q_frequency p) i) (param_at (v_zero A) (q_detune p) i) (param_at (v_zero A) (q_gain p) i) (param_at (v_zero A) (q_q p) i)))) by (intros; apply coefs_at_ok; exact Hp).
    cbn [bind]. destruct size as [|n]; [lia|]. cbn [seq map Nat.sub]. rewrite Nat.sub_0_r. reflexivity.
Qed.
Lemma settings_length : forall p, length (settings (v_zero A) size p) = size.
Proof. intros. unfold settings. rewrite map_length, seq_length. reflexivity. Qed.
End Coefs.

(** ** Signals *)
Local Open Scope R_scope.
Lemma at_app_l : forall x y t, (t < Z.of_nat (length x))%Z -> at_time (x ++ y) t = at_time x t.
Proof. intros x y t H. unfold at_time. destruct (Z.ltb_spec t 0); [reflexivity|]. apply app_nth1. lia. Qed.
Lemma at_app_r : forall x y, at_time (x ++ [y]) (Z.of_nat (length x)) = y.
Proof. intros x y. unfold at_time. destruct (Z.ltb_spec (Z.of_nat (length x)) 0); [lia|]. rewrite Nat2Z.id, app_nth2, Nat.sub_diag by lia. reflexivity. Qed.
Lemma weighted_app : forall cs x y t, (t < Z.of_nat (length x))%Z -> weighted cs (x ++ y) t = weighted cs x t.
Proof. induction cs as [|c cs IH]; intros x y t H; [reflexivity|]. cbn [weighted]. rewrite at_app_l by exact H. rewrite IH by lia. reflexivity. Qed.
Lemma weighted_scale : forall cs k x t, weighted (map (fun c => c / k) cs) x t = weighted cs x t / k.
Proof. induction cs as [|c cs IH]; intros k x t; cbn [map weighted]; [|rewrite IH]; unfold Rdiv; ring. Qed.
Lemma weighted_zeros : forall cs n x t, weighted (cs ++ repeat 0 n) x t = weighted cs x t.
Proof. intros cs n x. induction cs as [|c cs IH]; intros t; cbn [app weighted]; [|rewrite IH; reflexivity]. revert t. induction n as [|n IH]; intros t; cbn [repeat weighted]; [reflexivity|]. rewrite IH. ring. Qed.

Lemma flush_exact : forall y, flush exact y = y.
Proof. intros y. unfold flush. cbn [exact t_normal t_of_Z]. unfold R_nonzero. destruct (Req_EM_T y 0); congruence. Qed.

(** ** Biquad *)
Section Biquad.
Variable size : nat.
Variable sr : R.
Notation hist := (history (setting R) R).
Definition numerator (g : setting R) : list R := let c := coefs_of exact sr g in [k_b0 c; k_b1 c; k_b2 c].
Definition denominator (g : setting R) : list R := let c := coefs_of exact sr g in [1; k_a1 c; k_a2 c].
Definition equation (h : hist) (t : nat) : Prop :=
  forall g, nth_error (h_env h) t = Some g -> weighted (denominator g) (h_out h) (Z.of_nat t) = weighted (numerator g) (h_in h) (Z.of_nat t).
Definition sized (h : hist) : Prop := length (h_in h) = length (h_env h) /\ length (h_out h) = length (h_env h).
Definition biquad_rel (s : xy (T := R)) (h : hist) : Prop :=
  sized h /\ (let n := Z.of_nat (length (h_env h)) in s = (at_time (h_in h) (n - 1), at_time (h_in h) (n - 2), at_time (h_out h) (n - 1), at_time (h_out h) (n - 2))) /\ forall t, equation h t.

Lemma biquad_step_rel : forall s h g x, biquad_rel s h -> let '(s', y) := biquad_step exact (coefs_of exact sr g) s x in biquad_rel s' (mk_history (h_env h ++ [g]) (h_in h ++ [x]) (h_out h ++ [y])).
Proof.
  intros s [env xs ys] g x ((L1 & L2) & -> & He). cbn [h_env h_in h_out] in *. unfold biquad_step. cbv zeta. rewrite flush_exact. cbn [exact t_of_v v_of_t t_add t_sub t_mul].
  set (c := coefs_of exact sr g). set (n := length env) in *. set (y := _ - _). split; [split; cbn [h_env h_in h_out]; rewrite !app_length; cbn [length]; lia|]. cbn [h_env h_in h_out]. split.
  - rewrite app_length. cbn [length]. fold n. replace (Z.of_nat (n + 1) - 1)%Z with (Z.of_nat n) by lia. replace (Z.of_nat (n + 1) - 2)%Z with (Z.of_nat n - 1)%Z by lia.
    rewrite (at_app_l xs [x] (Z.of_nat n - 1)), (at_app_l ys [y] (Z.of_nat n - 1)) by lia.
    replace (at_time (xs ++ [x]) (Z.of_nat n)) with x by (rewrite <- L1; symmetry; apply at_app_r). replace (at_time (ys ++ [y]) (Z.of_nat n)) with y by (rewrite <- L2; symmetry; apply at_app_r). reflexivity.
  - intros t g' Hg. cbn [h_env h_in h_out] in *. destruct (Nat.lt_ge_cases t n) as [Lt|Lt].
    + rewrite nth_error_app1 in Hg by exact Lt. rewrite !weighted_app by lia. exact (He t g' Hg).
    + assert (t = n) as ->. { assert (t < length (env ++ [g]))%nat by (apply nth_error_Some; congruence). rewrite app_length in H. cbn [length] in H. fold n in H. lia. }
      rewrite nth_error_app2 in Hg by (fold n; lia). replace (n - length env)%nat with 0%nat in Hg by (fold n; lia). injection Hg as <-.
      unfold numerator, denominator. cbv zeta. fold c. cbn [weighted]. rewrite (at_app_l xs [x] (Z.of_nat n - 1)), (at_app_l ys [y] (Z.of_nat n - 1)), (at_app_l xs [x] (Z.of_nat n - 1 - 1)), (at_app_l ys [y] (Z.of_nat n - 1 - 1)) by lia. replace (at_time (ys ++ [y]) (Z.of_nat n)) with y by (rewrite <- L2; symmetry; apply at_app_r). replace (at_time (xs ++ [x]) (Z.of_nat n)) with x by (rewrite <- L1; symmetry; apply at_app_r).
      replace (Z.of_nat n - 1 - 1)%Z with (Z.of_nat n - 2)%Z by lia. unfold y. ring.
Qed.
Lemma app_cons : forall X (l : list X) x r, l ++ x :: r = (l ++ [x]) ++ r.
Proof. intros. rewrite <- app_assoc. reflexivity. Qed.
Lemma biquad_channel_rel : forall gs xs s h, biquad_rel s h -> length xs = length gs ->
  let '(s', ys) := biquad_channel exact (map (coefs_of exact sr) gs) s xs in length ys = length xs /\ biquad_rel s' (mk_history (h_env h ++ gs) (h_in h ++ xs) (h_out h ++ ys)).
Proof.
  induction gs as [|g gs IH]; intros [|x xs] s h Hr L; try discriminate L.
  - cbn [map biquad_channel]. rewrite !app_nil_r. destruct h. auto.
  - cbn [map biquad_channel]. pose proof (biquad_step_rel s h g x Hr) as R1. destruct (biquad_step exact (coefs_of exact sr g) s x) as [s1 y]. pose proof (IH xs s1 _ R1 ltac:(cbn in L; lia)) as R2. destruct (biquad_channel exact (map (coefs_of exact sr) gs) s1 xs) as [s2 ys]. cbn [h_env h_in h_out] in R2.
    destruct R2 as [R2 R3]. split; [cbn [length]; lia|]. rewrite (app_cons _ (h_env h)), (app_cons _ (h_in h)), (app_cons _ (h_out h)). exact R3.
Qed.
Lemma rest_channel : forall cs, biquad_channel exact cs (0, 0, 0, 0) (repeat 0 (length cs)) = ((0, 0, 0, 0), repeat 0 (length cs)).
Proof.
  induction cs as [|c cs IH]; [reflexivity|]. cbn [length repeat biquad_channel]. unfold biquad_step. cbv zeta. rewrite flush_exact. cbn [exact t_of_v v_of_t t_add t_sub t_mul].
  replace (k_b0 c * 0 + k_b1 c * 0 + k_b2 c * 0 - k_a1 c * 0 - k_a2 c * 0) with 0 by ring. rewrite IH. reflexivity.
Qed.
Lemma xy_rest : forall s, xy_live exact s = false -> s = (0, 0, 0, 0).
Proof.
  intros [[[x1 x2] y1] y2] H. unfold xy_live in H. cbn [exact t_normal] in H. unfold R_nonzero in H.
  destruct (Req_EM_T x1 0), (Req_EM_T x2 0), (Req_EM_T y1 0), (Req_EM_T y2 0); try discriminate H; subst; reflexivity.
Qed.

Definition biquad_fine (l : call (V := R) (filter_type * biquad_params (V := R))) : Prop := params_ok (snd (l_settings _ l)).
Lemma biquad_rest_rel : forall s h env, xy_live exact s = false -> biquad_rel s h -> length env = size -> biquad_rel s (mk_history (h_env h ++ env) (h_in h ++ repeat 0 size) (h_out h ++ repeat 0 size)).
Proof.
  intros s h env Hl Hr Le. apply xy_rest in Hl. subst s. pose proof (biquad_channel_rel env (repeat 0 size) _ h Hr ltac:(rewrite repeat_length; lia)) as R.
  pose proof (rest_channel (map (coefs_of exact sr) env)) as E0. rewrite map_length, Le in E0. rewrite E0 in R. apply R.
Qed.

Lemma biquad_exact : forall ls, (0 < size)%nat -> Forall (call_ok (sops_of exact) size) ls -> Forall biquad_fine ls ->
  exists states outs, run_calls (biquad_call exact size sr) [] ls = Ok (states, outs) /\ length outs = length ls /\
    forall c, let h := channel_history 0 size c (settings 0 size) empty_history ls outs in sized h /\ forall t, equation h t.
Proof.
  intros ls Hsize Hok Hfi.
  assert (R0 : biquad_rel (xy_zero exact) empty_history). { split; [split; reflexivity|]. split; [reflexivity|]. intros [|t] g Hg; discriminate Hg. }
  assert (Lz : xy_live exact (xy_zero exact) = false). { cbn. unfold R_nonzero. destruct (Req_EM_T 0 0); [reflexivity|contradiction]. }
  destruct (calls_rel exact size (xy_zero exact) biquad_rel (settings 0 size) biquad_fine (biquad_call exact size sr)) with (ls := ls) (states := @nil (xy (T := R))) (h := fun _ : nat => @empty_history (setting R) R) as (sts & outs & E & L & Q); try assumption.
  - intros states h l Hn Hr [Hq Ho] Hp. unfold biquad_fine in Hp. destruct l as [[type_ p] s input output]. cbn [l_settings l_input l_output l_name fst snd] in *. unfold biquad_call. cbn [l_settings l_input l_output l_name fst snd].
    destruct (quantum_rel exact size (xy_zero exact) (xy_live exact) biquad_rel Lz R0 biquad_rest_rel (fun _ => True) (fun st i => Ok (biquad_channel exact (map (coefs_of exact sr) (settings 0 size (type_, p))) st i)) (settings 0 size (type_, p)) (settings_length exact size (type_, p))) with (states := states) (h := h) (input := input) (output := output) (s := s) as (sts & out & b & E & L & R); try assumption.
    + intros st h0 xs R1 L1 _. pose proof (biquad_channel_rel (settings 0 size (type_, p)) xs st h0 R1 ltac:(rewrite (settings_length exact); exact L1)) as R2. destruct (biquad_channel exact (map (coefs_of exact sr) (settings 0 size (type_, p))) st xs) as [s' ys]. exists s', ys. split; [reflexivity|]. split; [lia|]. apply R2.
    + rewrite Forall_forall. intros c _. rewrite Forall_forall. auto.
    + exists sts, out, b. split; [|auto]. unfold biquad_quantum. destruct (is_silent input && negb (existsb (xy_live exact) states)) eqn:Qs.
      * unfold filter_quantum in E. rewrite Qs in E. exact E.
      * rewrite coefs_list_ok by assumption. exact E.
  - cbn [length]. lia.
  - intros c. destruct c; exact R0.
  - exists sts, outs. split; [exact E|]. split; [exact L|]. intros c. destruct (Q c) as (Q1 & _ & Q3). split; assumption.
Qed.
End Biquad.

(** ** IIR *)
Lemma iir_update_ok : forall ds x y st, (length ds < length st)%nat -> exists st', iir_update exact ds x y st = Ok st' /\ length st' = length st /\
  forall i, nth i st' 0 = match nth_error ds i with Some (b, a) => b * x - a * y + nth (S i) st 0 | None => nth i st 0 end.
Proof.
  induction ds as [|[b a] ds IH]; intros x y st L; cbn [length] in L; [exists st; repeat split; intros [|i]; reflexivity|]. destruct st as [|s st]; [cbn in L; lia|]. cbn [iir_update length] in *.
  destruct st as [|s1 st]; [cbn in L; lia|]. cbn [index nth_error from_option bind]. destruct (IH x y (s1 :: st) ltac:(lia)) as (st' & E & L' & P). change (index (s1 :: st) 0) with (Ok s1). cbn [bind]. rewrite E. cbn [bind]. eexists. split; [reflexivity|]. split; [cbn [length] in *; lia|].
  intros [|i]; [reflexivity|]. cbn [nth nth_error]. rewrite P. destruct (nth_error ds i) as [[b' a']|]; reflexivity.
Qed.

Lemma skipn_cons : forall X (l : list X) i x, nth_error l i = Some x -> skipn i l = x :: skipn (S i) l.
Proof. intros X l i. revert l. induction i as [|i IH]; intros [|y l] x H; try discriminate H; [cbn in H; injection H as ->; reflexivity|]. cbn [nth_error] in H. cbn [skipn]. rewrite (IH l x H). reflexivity. Qed.
Lemma skipn_none : forall X (l : list X) i, nth_error l i = None -> skipn i l = [].
Proof. intros X l i H. apply skipn_all2. apply nth_error_None. exact H. Qed.

Lemma tail_some : forall X (f : R * R -> X) p ds i v, nth_error ds i = Some v -> skipn (S i) (map f (p :: ds)) = f v :: skipn (S (S i)) (map f (p :: ds)).
Proof. intros X f p ds i v H. cbn [map]. change (skipn (S i) (f p :: map f ds)) with (skipn i (map f ds)). change (skipn (S (S i)) (f p :: map f ds)) with (skipn (S i) (map f ds)). apply skipn_cons. rewrite nth_error_map, H. reflexivity. Qed.
Lemma tail_none : forall X (f : R * R -> X) p ds i, nth_error ds i = None -> skipn (S i) (map f (p :: ds)) = [].
Proof. intros X f p ds i H. cbn [map]. change (skipn (S i) (f p :: map f ds)) with (skipn i (map f ds)). apply skipn_none. rewrite nth_error_map, H. reflexivity. Qed.
Section Iir.
Variable size : nat.
Variable cs : list (R * R).
Hypothesis Hcs : (0 < length cs <= MAX_IIR_COEFFS_LEN)%nat.
Hypothesis Hone : snd (nth 0 cs (0, 0)) = 1.
Notation hist := (history unit R).
Notation bs := (map fst cs).
Notation as_ := (map snd cs).
Definition iir_equation (h : hist) (t : nat) : Prop := (t < length (h_in h))%nat -> weighted as_ (h_out h) (Z.of_nat t) = weighted bs (h_in h) (Z.of_nat t).
Definition iir_sized (h : hist) : Prop := length (h_in h) = length (h_env h) /\ length (h_out h) = length (h_env h).
(** what the past contributes to the output [i] frames ahead *)
Definition pending (h : hist) (i : nat) : R := let n := Z.of_nat (length (h_env h)) in weighted (skipn (S i) bs) (h_in h) (n - 1) - weighted (skipn (S i) as_) (h_out h) (n - 1).
Definition iir_rel (s : list R) (h : hist) : Prop :=
  iir_sized h /\ length s = MAX_IIR_COEFFS_LEN /\ (forall i, (i < MAX_IIR_COEFFS_LEN)%nat -> nth i s 0 = pending h i) /\ forall t, iir_equation h t.

Lemma iir_step_rel : forall s h e x, iir_rel s h -> exists s' y, iir_step exact cs s x = Ok (s', y) /\ iir_rel s' (mk_history (h_env h ++ [e]) (h_in h ++ [x]) (h_out h ++ [y])).
Proof using Hcs Hone.
  intros s [env xs ys] e x ((L1 & L2) & L3 & Hp & He). cbn [h_env h_in h_out] in *. unfold iir_step. cbn [exact t_of_v v_of_t t_fma]. destruct cs as [|[b0 a0] ds] eqn:Qc; [cbn in Hcs; lia|]. cbn [nth snd] in Hone. subst a0.
  destruct s as [|s0 s]; [discriminate L3|]. change (index ((b0, 1) :: ds) 0) with (Ok (b0, 1)). change (index (s0 :: s) 0) with (Ok s0). cbn [bind fst tl]. rewrite flush_exact. set (y := b0 * x + s0).
  destruct (iir_update_ok ds x y (s0 :: s)) as (st' & E & L' & P); [rewrite L3; cbn [length] in Hcs; lia|]. rewrite E. cbn [bind]. do 2 eexists. split; [reflexivity|].
  set (n := length env) in *. split; [split; cbn [h_env h_in h_out]; rewrite !app_length; cbn [length]; lia|]. split; [lia|]. split.
  - intros i Hi. rewrite P. unfold pending. rewrite ?Qc. cbn [h_env h_in h_out]. rewrite app_length. cbn [length]. fold n. replace (Z.of_nat (n + 1) - 1)%Z with (Z.of_nat n) by lia. cbv zeta.
    destruct (nth_error ds i) as [[b a]|] eqn:Qi.
    + rewrite (tail_some _ fst _ _ _ _ Qi), (tail_some _ snd _ _ _ _ Qi). cbn [fst snd]. unfold weighted; fold weighted.
      rewrite (weighted_app _ xs [x]) by lia. rewrite (weighted_app _ ys [y]) by lia. replace (at_time (xs ++ [x]) (Z.of_nat n)) with x by (rewrite <- L1; symmetry; apply at_app_r). replace (at_time (ys ++ [y]) (Z.of_nat n)) with y by (rewrite <- L2; symmetry; apply at_app_r).
      assert (Hi' : (S i < MAX_IIR_COEFFS_LEN)%nat) by (assert (i < length ds)%nat by (apply nth_error_Some; congruence); cbn [length] in Hcs; lia). rewrite (Hp (S i) Hi'). unfold pending. rewrite ?Qc. cbn [h_env h_in h_out]. cbv zeta. fold n. ring.
    + rewrite (tail_none _ fst _ _ _ Qi), (tail_none _ snd _ _ _ Qi). rewrite (Hp i Hi). unfold pending. rewrite ?Qc. cbn [h_env h_in h_out]. rewrite (tail_none _ fst _ _ _ Qi), (tail_none _ snd _ _ _ Qi). reflexivity.
  - intros t Ht. cbn [h_env h_in h_out] in *. rewrite app_length in Ht. cbn [length] in Ht. destruct (Nat.lt_ge_cases t n) as [Lt|Lt].
    + rewrite !weighted_app by lia. apply He. cbn [h_in]. lia.
    + assert (t = n) as -> by lia. rewrite ?Qc. cbn [map fst snd weighted]. rewrite (weighted_app _ xs [x]) by lia. rewrite (weighted_app _ ys [y]) by lia. replace (at_time (xs ++ [x]) (Z.of_nat n)) with x by (rewrite <- L1; symmetry; apply at_app_r). replace (at_time (ys ++ [y]) (Z.of_nat n)) with y by (rewrite <- L2; symmetry; apply at_app_r).
      unfold y. specialize (Hp 0%nat ltac:(unfold MAX_IIR_COEFFS_LEN; lia)). cbn [nth] in Hp. rewrite Hp. unfold pending. rewrite ?Qc. cbn [h_env h_in h_out map fst snd skipn]. fold n. cbv zeta. ring.
Qed.
Lemma iir_channel_rel : forall env xs s h, iir_rel s h -> length xs = length env ->
  exists s' ys, iir_channel exact cs s xs = Ok (s', ys) /\ length ys = length xs /\ iir_rel s' (mk_history (h_env h ++ env) (h_in h ++ xs) (h_out h ++ ys)).
Proof using Hcs Hone.
  induction env as [|e env IH]; intros [|x xs] s h Hr L; try discriminate L.
  - exists s, []. cbn [iir_channel]. rewrite !app_nil_r. destruct h. auto.
  - cbn [iir_channel]. destruct (iir_step_rel s h e x Hr) as (s1 & y & E1 & R1). rewrite E1. cbn [bind]. destruct (IH xs s1 _ R1 ltac:(cbn in L; lia)) as (s2 & ys & E2 & L2 & R2). rewrite E2. cbn [bind h_env h_in h_out] in *. do 2 eexists. split; [reflexivity|]. split; [cbn [length]; lia|].
    rewrite (app_cons _ (h_env h)), (app_cons _ (h_in h)), (app_cons _ (h_out h)). exact R2.
Qed.

(** at rest *)
Lemma iir_rest_step : forall s h e, iir_live exact cs s = false -> iir_rel s h -> iir_rel s (mk_history (h_env h ++ [e]) (h_in h ++ [0]) (h_out h ++ [0])).
Proof using Hcs Hone.
  intros s h e Hl Hr. destruct (iir_step_rel s h e 0 Hr) as (s' & y & E & R). destruct Hr as (_ & L3 & Hp & _).
  assert (Z : forall i, (i < MAX_IIR_COEFFS_LEN)%nat -> nth i s 0 = 0).
  { intros i Hi. destruct (Nat.lt_ge_cases i (length cs)) as [Lt|Ge].
    - destruct (Req_EM_T (nth i s 0) 0) as [Q|Q]; [exact Q|exfalso]. assert (iir_live exact cs s = true); [|congruence]. unfold iir_live. apply existsb_exists. exists (nth i s 0). split.
      + rewrite <- (firstn_skipn (length cs) s) at 1. rewrite app_nth1 by (rewrite firstn_length; lia). apply nth_In. rewrite firstn_length. lia.
      + cbn [exact t_normal]. unfold R_nonzero. destruct (Req_EM_T (nth i s 0) 0); [contradiction|reflexivity].
    - rewrite Hp by exact Hi. unfold pending. rewrite !skipn_all2 by (rewrite map_length; lia). cbn [weighted]. ring. }
  unfold iir_step in E. cbn [exact t_of_v v_of_t t_fma] in E. destruct cs as [|[b0 a0] ds] eqn:Qc; [cbn in Hcs; lia|]. destruct s as [|s0 s]; [discriminate L3|]. change (index ((b0, a0) :: ds) 0) with (Ok (b0, a0)) in E. change (index (s0 :: s) 0) with (Ok s0) in E. cbn [bind fst tl] in E. rewrite flush_exact in E.
  assert (Z0 : s0 = 0) by (apply (Z 0%nat); unfold MAX_IIR_COEFFS_LEN; lia). subst s0. replace (b0 * 0 + 0) with 0 in E by ring.
  destruct (iir_update_ok ds 0 0 (0 :: s)) as (st' & E' & L' & P); [rewrite L3; cbn [length] in Hcs; lia|]. rewrite E' in E. cbn [bind] in E. injection E as <- <-.
  replace (0 :: s) with st'; [exact R|]. apply nth_ext with (d := 0) (d' := 0); [exact L'|]. intros i Hi. rewrite L', L3 in Hi. rewrite P, (Z i Hi). destruct (nth_error ds i) as [[b a]|] eqn:Qi; [|reflexivity].
  rewrite Z; [ring|]. assert (i < length ds)%nat by (apply nth_error_Some; congruence). cbn [length] in Hcs. lia.
Qed.
Lemma iir_rest_rel : forall n s h env, iir_live exact cs s = false -> iir_rel s h -> length env = n -> iir_rel s (mk_history (h_env h ++ env) (h_in h ++ repeat 0 n) (h_out h ++ repeat 0 n)).
Proof using Hcs Hone.
  induction n as [|n IH]; intros s h env Hl Hr L; destruct env as [|e env]; try discriminate L; [cbn [repeat]; rewrite !app_nil_r; destruct h; exact Hr|].
  cbn [repeat]. rewrite (app_cons _ (h_env h)), (app_cons _ (h_in h)), (app_cons _ (h_out h)). pose proof (IH s _ env Hl (iir_rest_step s h e Hl Hr) ltac:(cbn in L; lia)) as R. exact R.
Qed.

Lemma iir_run_exact : forall ls, Forall (call_ok (sops_of exact) size) ls ->
  exists states outs, run_calls (iir_call exact size cs) [iir_start exact; iir_start exact] ls = Ok (states, outs) /\ length outs = length ls /\
    forall c, let h := channel_history 0 size c (fun _ => repeat tt size) empty_history ls outs in iir_sized h /\ forall t, iir_equation h t.
Proof using Hcs Hone.
  intros ls Hok.
  assert (Z : forall i, nth i (iir_start exact) 0 = 0) by (intros i; apply (nth_repeat 0 MAX_IIR_COEFFS_LEN)).
  assert (W : forall l n, weighted l [] n = 0). { induction l as [|c l IH]; intros n; [reflexivity|]. cbn [weighted]. rewrite IH. unfold at_time. destruct (n <? 0)%Z; [ring|]. destruct (Z.to_nat n); cbn [nth]; ring. }
  assert (R0 : iir_rel (iir_start exact) empty_history).
  { split; [split; reflexivity|]. split; [reflexivity|]. split; [|intros t Ht; cbn in Ht; lia]. intros i Hi. rewrite Z. unfold pending. cbn [empty_history h_in h_out h_env]. cbv zeta. rewrite !W. ring. }
  assert (Lz : iir_live exact cs (iir_start exact) = false).
  { destruct (iir_live exact cs (iir_start exact)) eqn:Q; [exfalso|reflexivity]. unfold iir_live in Q. apply existsb_exists in Q. destruct Q as (v & Hv & Q).
    assert (v = 0). { apply (repeat_spec MAX_IIR_COEFFS_LEN). rewrite <- (firstn_skipn (length cs)). apply in_or_app. left. exact Hv. } subst v. cbn in Q. unfold R_nonzero in Q. destruct (Req_EM_T 0 0); congruence. }
  destruct (calls_rel exact size (iir_start exact) iir_rel (fun _ : unit => repeat tt size) (fun _ => True) (iir_call exact size cs)) with (ls := ls) (states := [iir_start exact; iir_start exact]) (h := fun _ : nat => @empty_history unit R) as (sts & outs & E & L & Q); try assumption.
  - intros states h l Hn Hr [Hq Ho] _. destruct l as [[] s input output]. unfold iir_call, iir_quantum. cbn [l_settings l_input l_output l_name] in *.
    apply (quantum_rel exact size (iir_start exact) (iir_live exact cs) iir_rel Lz R0 (iir_rest_rel size) (fun _ => True) (iir_channel exact cs) (repeat tt size) (repeat_length tt size)); try assumption.
    + intros st h0 xs R1 L1 _. destruct (iir_channel_rel (repeat tt size) xs st h0 R1 ltac:(rewrite repeat_length; exact L1)) as (s' & ys & E1 & L2 & R2). exists s', ys. split; [exact E1|]. split; [lia|exact R2].
    + rewrite Forall_forall. intros c _. rewrite Forall_forall. auto.
  - cbn [length]. lia.
  - intros [|[|[|c]]]; exact R0.
  - rewrite Forall_forall. auto.
  - exists sts, outs. split; [exact E|]. split; [exact L|]. intros c. destruct (Q c) as (Q1 & _ & _ & Q4). split; assumption.
Qed.
End Iir.

(** the coefficients as the user gives them *)
Lemma fst_combine : forall X (l l' : list X), length l = length l' -> map fst (combine l l') = l.
Proof. intros X. induction l as [|x l IH]; intros [|y l'] L; try discriminate L; [reflexivity|]. cbn [combine map fst]. f_equal. apply IH. cbn in L. lia. Qed.
Lemma snd_combine : forall X (l l' : list X), length l = length l' -> map snd (combine l l') = l'.
Proof. intros X. induction l as [|x l IH]; intros [|y l'] L; try discriminate L; [reflexivity|]. cbn [combine map snd]. f_equal. apply IH. cbn in L. lia. Qed.
Lemma iir_new_exact : forall feedforward feedback, (0 < length feedforward <= 20)%nat -> (0 < length feedback <= 20)%nat -> Exists (fun b => b <> 0) feedforward -> nth 0 feedback 0 <> 0 ->
  exists cs, iir_new exact feedforward feedback = Ok (cs, [iir_start exact; iir_start exact]) /\ (0 < length cs <= MAX_IIR_COEFFS_LEN)%nat /\ snd (nth 0 cs (0, 0)) = 1 /\
    forall x t, weighted (map fst cs) x t = weighted feedforward x t / nth 0 feedback 0 /\ weighted (map snd cs) x t = weighted feedback x t / nth 0 feedback 0.
Proof.
  intros ff fb H1 H2 H3 H4. unfold iir_new, check_feedforward, check_feedback. unfold MAX_IIR_COEFFS_LEN in *.
  assert (C1 : negb (length ff =? 0)%nat && (length ff <=? 20)%nat = true) by (rewrite andb_true_iff, negb_true_iff, Nat.eqb_neq, Nat.leb_le; lia).
  assert (C2 : negb (length fb =? 0)%nat && (length fb <=? 20)%nat = true) by (rewrite andb_true_iff, negb_true_iff, Nat.eqb_neq, Nat.leb_le; lia).
  rewrite C1, C2. cbn [check bind]. assert (C3 : forallb (fun f : R => t_eq exact f (t_of_Z exact 0)) ff = false).
  { destruct (forallb (fun f : R => t_eq exact f (t_of_Z exact 0)) ff) eqn:Q; [exfalso|reflexivity]. rewrite forallb_forall in Q. apply Exists_exists in H3. destruct H3 as (b & Hb & Nb). specialize (Q b Hb). cbn in Q. unfold R_eq in Q. destruct (Req_EM_T b 0); congruence. }
  rewrite C3. cbn [negb check bind]. destruct fb as [|a0 fb]; [cbn in H2; lia|]. cbn [nth] in H4 |- *. change (index (a0 :: fb) 0) with (Ok a0). cbn [bind]. cbn [exact t_eq t_of_Z t_div]. assert (C4 : R_eq a0 0 = false) by (unfold R_eq; destruct (Req_EM_T a0 0); congruence). rewrite C4. cbn [negb check bind].
  set (n := Nat.max (length ff) (length (a0 :: fb))).
  assert (L1 : length (pad exact n ff) = n) by (unfold pad; rewrite app_length, repeat_length; lia). assert (L2 : length (pad exact n (a0 :: fb)) = n) by (unfold pad; rewrite app_length, repeat_length; lia).
  eexists. split; [reflexivity|]. split; [rewrite map_length, combine_length, L1, L2; lia|]. split.
  - unfold pad. destruct ff as [|b0 ff]; [cbn in H1; lia|]. cbn [app combine map nth fst snd]. field. exact H4.
  - intros x t. rewrite !map_map. cbn [fst snd]. split.
    + transitivity (weighted (map (fun c => c / a0) (map fst (combine (pad exact n ff) (pad exact n (a0 :: fb))))) x t); [rewrite map_map; reflexivity|]. rewrite weighted_scale, fst_combine by lia. unfold pad. change (t_of_Z exact 0) with 0. rewrite weighted_zeros. reflexivity.
    + transitivity (weighted (map (fun c => c / a0) (map snd (combine (pad exact n ff) (pad exact n (a0 :: fb))))) x t); [rewrite map_map; reflexivity|]. rewrite weighted_scale, snd_combine by lia. unfold pad. change (t_of_Z exact 0) with 0. rewrite weighted_zeros. reflexivity.
Qed.

(** the whole life of an IIR filter *)
Lemma iir_exact : forall size feedforward feedback, (0 < length feedforward <= 20)%nat -> (0 < length feedback <= 20)%nat -> Exists (fun b => b <> 0) feedforward -> nth 0 feedback 0 <> 0 ->
  exists cs start, iir_new exact feedforward feedback = Ok (cs, start) /\
  forall ls, Forall (call_ok (sops_of exact) size) ls ->
  exists states outs, run_calls (iir_call exact size cs) start ls = Ok (states, outs) /\ length outs = length ls /\
    forall c, let h := channel_history 0 size c (fun _ => repeat tt size) empty_history ls outs in length (h_out h) = length (h_in h) /\
      forall t, (t < length (h_in h))%nat -> weighted feedback (h_out h) (Z.of_nat t) = weighted feedforward (h_in h) (Z.of_nat t).
Proof.
  intros size ff fb H1 H2 H3 H4. destruct (iir_new_exact ff fb H1 H2 H3 H4) as (cs & E & Lc & Ho & W). exists cs, [iir_start exact; iir_start exact]. split; [exact E|]. intros ls Hok.
  destruct (iir_run_exact size cs Lc Ho ls Hok) as (states & outs & E1 & L & Q). exists states, outs. split; [exact E1|]. split; [exact L|]. intros c. destruct (Q c) as ((S1 & S2) & He). cbv zeta. split; [congruence|]. intros t Ht. specialize (He t Ht).
  rewrite (proj1 (W _ _)), (proj2 (W _ _)) in He. apply Rmult_eq_reg_r with (/ nth 0 fb 0); [exact He|apply Rinv_neq_0_compat; exact H4].
Qed.
