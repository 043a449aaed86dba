(** The compressor in exact arithmetic. *)
From Coq Require Import List Arith Bool ZArith Lia Reals Lra Psatz.
From Verif Require Import Arith_Model Arith_Real Absn_ExactProofs Route_Spec Route_Proofs Comp_Model Comp_Spec Comp_Proofs.
Import ListNotations.
Local Open Scope R_scope.

Notation rparams := (comp_params (V := R)).
Lemma ln10 : 0 < ln 10. Proof. rewrite <- ln_1. apply ln_increasing; lra. Qed.
Lemma power_gt : forall x y, 0 < Rpower x y. Proof. intros. apply exp_pos. Qed.
Lemma lin_to_db_exact : forall x, lin_to_db exact x = decibels x.
Proof. intros x. unfold lin_to_db, decibels. cbn [exact v_eq v_of_Z v_mul v_log10]. unfold R_eq, R_log10. destruct (Req_EM_T x 0); reflexivity. Qed.
Lemma compress_exact : forall rate (p : rparams) x, 0 <= m_knee p -> attenuated exact (comp_curve exact rate p) x = compress (m_threshold p) (m_knee p) (m_ratio p) x.
Proof.
  intros rate [Th W ratio at_ re] x Hk. cbn [m_knee m_threshold m_ratio] in *. unfold attenuated, comp_curve. cbn [m_knee m_threshold m_ratio m_attack m_release u_threshold u_half_knee u_ratio u_knee_partial exact v_lt v_le v_add v_sub v_mul v_div v_of_Z v_neg v_exp v_pow v_frac].
  unfold compress, R_lt, R_le. destruct (Rlt_dec 0 W) as [Hw|Hw].
  - replace (Th + W / 2 - W / 2) with Th by field. replace (Th + W / 2 + W / 2) with (Th + W) by field. destruct (Rle_dec x Th); [reflexivity|]. destruct (Rle_dec x (Th + W)).
    + replace (x - (Th + W / 2) + W / 2) with (x - Th) by field. unfold Rdiv. rewrite Rmult_1_l. ring.
    + unfold Rdiv. ring.
  - assert (W = 0) as -> by lra. replace (Th - 0 / 2) with Th by field. replace (Th + 0 / 2) with Th by field. replace (Th + 0) with Th by ring. destruct (Rle_dec x Th); [reflexivity|]. unfold Rdiv. ring.
Qed.
Lemma makeup_exact : forall rate (p : rparams), 0 <= m_knee p -> u_makeup (comp_curve exact rate p) = makeup_straight p.
Proof.
  intros rate [Th W ratio at_ re] Hk. cbn [m_knee] in Hk. unfold comp_curve. cbn [u_makeup m_knee m_threshold m_ratio]. rewrite lin_to_db_exact. unfold db_to_lin, makeup_straight. cbn [m_knee m_threshold m_ratio exact v_lt v_add v_div v_of_Z v_pow v_neg v_frac].
  replace (if R_lt 0 W then Th + W / 2 else Th) with (Th + W / 2). 2:{ unfold R_lt. destruct (Rlt_dec 0 W); [reflexivity|]. assert (W = 0) as -> by lra. field. }
  set (t := Th + W / 2). unfold decibels. destruct (Req_EM_T _ 0) as [E|_]; [exfalso; pose proof (power_gt (1 / Rpower 10 ((t + - t / ratio) / 20)) (6 / 10)); lra|].
  set (y := (t + - t / ratio) / 20). replace (1 / Rpower 10 y) with (Rpower 10 (- y)) by (rewrite Rpower_Ropp; unfold Rdiv; ring). rewrite Rpower_mult. unfold Rpower. rewrite ln_exp. pose proof ln10. unfold y, Rdiv. set (i := / ratio). field. lra.
Qed.
Lemma level_exact : forall q i, q <> [] -> level exact q i = peak q i.
Proof.
  intros q i Hq. unfold level, peak. cbn [exact v_neg v_abs v_lt v_MAX]. change (v_zero exact) with 0.
  assert (B : - (IZR (2 ^ 24 - 1) * Flocq.Core.Raux.bpow Flocq.Core.Zaux.radix2 104) <= 0) by (pose proof (Flocq.Core.Raux.bpow_ge_0 Flocq.Core.Zaux.radix2 104); assert (0 <= IZR (2 ^ 24 - 1)) by (apply IZR_le; lia); pose proof (Rmult_le_pos _ _ H0 H); lra).
  set (m := - _) in *. clearbody m.
  assert (G : forall q m0, 0 <= m0 -> fold_left (fun m c => let s := Rabs (nth i (c_val c) 0) in if R_lt m s then s else m) q m0 = Rmax m0 (fold_right Rmax 0 (map (fun c => Rabs (nth i (c_val c) 0)) q))).
  { clear. induction q as [|c q IH]; intros m0 H; cbn [fold_left map fold_right]; [rewrite Rmax_left by lra; reflexivity|]. cbv zeta. rewrite IH by (unfold R_lt; destruct (Rlt_dec _ _); [apply Rabs_pos|exact H]). rewrite Rmax_assoc. f_equal. unfold R_lt, Rmax. destruct (Rlt_dec _ _); destruct (Rle_dec _ _); lra. }
  destruct q as [|c q]; [contradiction|]. cbn [fold_left map fold_right]. cbv zeta. unfold R_lt at 2. pose proof (Rabs_pos (nth i (c_val c) 0)). destruct (Rlt_dec m _) as [_|N].
  - apply G. exact H.
  - assert (m = 0) as -> by lra. rewrite G by lra. assert (Rabs (nth i (c_val c) 0) = 0) by lra. rewrite H0. reflexivity.
Qed.
Definition target (rate : R) (f : rparams * R) (d : R) : R := follow rate (fst f) (attenuation (fst f) (snd f)) d.
Lemma step_exact : forall rate f d, 0 <= m_knee (fst f) -> step exact rate f d = target rate f d.
Proof.
  intros rate [p l] d Hk. cbn [fst] in Hk. unfold step, target, detect, follow, attenuation. cbn [fst snd]. rewrite lin_to_db_exact, compress_exact by exact Hk. cbn [exact v_lt v_sub v_add v_mul v_of_Z].
  set (a := decibels l - _). unfold R_lt. unfold comp_curve. cbn [u_attack_tau u_release_tau exact v_exp v_div v_of_Z v_mul]. assert (N : forall z, -1 / z = - / z) by (intros; unfold Rdiv; ring). destruct (Rlt_dec d a); rewrite N; reflexivity.
Qed.
Lemma gain_exact : forall rate f d, 0 <= m_knee (fst f) -> gain_of exact rate f d = of_decibels (makeup_straight (fst f) - d).
Proof. intros rate [p l] d Hk. cbn [fst] in *. unfold gain_of. cbn [fst]. rewrite makeup_exact by exact Hk. unfold db_to_lin, of_decibels. cbn [exact v_pow v_div v_of_Z v_add v_neg]. do 2 f_equal. ring. Qed.

Lemma scan_ext : forall X S (f g : X -> S -> S) l s, Forall (fun x => forall s, f x s = g x s) l -> scan f s l = scan g s l.
Proof. intros X S f g. induction l as [|x l IH]; intros s H; [reflexivity|]. inversion H as [|? ? E H']; subst. cbn [scan]. rewrite E, IH by exact H'. reflexivity. Qed.
Lemma frames_length : forall V (lev : list (chan V) -> nat -> V) size ls, length (frames_of lev size ls) = (length ls * size)%nat.
Proof. intros V lev size. induction ls as [|l ls IH]; [reflexivity|]. unfold frames_of. cbn [flat_map length Nat.mul]. rewrite app_length, map_length, seq_length. f_equal. exact IH. Qed.
Lemma frames_ext : forall (size : nat) (ls : list (rparams * nat * list (chan R))), Forall (fun l => snd l <> []) ls -> frames_of (level exact) size ls = frames_of peak size ls.
Proof. intros size. induction ls as [|l ls IH]; intros H; [reflexivity|]. inversion H as [|? ? E H']; subst. unfold frames_of in *. cbn [flat_map]. rewrite IH by exact H'. f_equal. apply map_ext. intros i. rewrite level_exact by exact E. reflexivity. Qed.

Lemma apply_sample : forall T V (A : arith T V) gains s q c t, (c < length q)%nat -> (t < length (c_val (nth c q (mk_chan 0 []))))%nat -> (t < length gains)%nat -> sample (v_zero A) (apply_gains A gains s q) c t = v_mul A (sample (v_zero A) q c t) (nth t gains (v_zero A)).
Proof.
  intros T V A gains s q. revert s. induction q as [|ch q IH]; intros s c t Hc Ht Hg; [cbn in Hc; lia|]. destruct c as [|c]; cbn [apply_gains nth] in *.
  - unfold sample. cbn [nth c_val]. set (z := v_zero A). rewrite nth_indep with (d' := (fun p => v_mul A (fst p) (snd p)) (z, z)) by (rewrite map_length, combine_length; lia). rewrite (map_nth (fun p => v_mul A (fst p) (snd p))).
    revert t Ht Hg. generalize (c_val ch). clear. intros l. revert gains. induction l as [|x l IH]; intros gains t Ht Hg; [cbn in Ht; lia|]. destruct gains as [|g gains]; [cbn in Hg; lia|]. destruct t as [|t]; [reflexivity|]. cbn [combine nth]. apply IH; cbn in *; lia.
  - unfold sample in *. cbn [nth] in *. apply IH; [cbn in Hc; lia|exact Ht|exact Hg].
Qed.
Lemma apply_names : forall T V (A : arith T V) gains q s, map c_name (apply_gains A gains s q) = seq s (length q).
Proof. intros T V A gains. induction q as [|c q IH]; intros s; [reflexivity|]. cbn [apply_gains map c_name length seq]. rewrite IH. reflexivity. Qed.
Lemma apply_absent : forall T V (A : arith T V) gains s q c t, (length q <= c)%nat -> sample (v_zero A) (apply_gains A gains s q) c t = v_zero A.
Proof.
  intros T V A gains s q c t H. unfold sample. rewrite (nth_overflow (apply_gains A gains s q)); [destruct t; reflexivity|]. revert s c H. induction q as [|ch q IH]; intros s c H; cbn [apply_gains length] in *; [apply Nat.le_0_l|]. destruct c as [|c]; [lia|]. apply le_n_S, IH. lia.
Qed.

Lemma comp_exact : forall size rate capacity ls, (0 < capacity)%nat -> Forall (call_fine size) ls -> Forall (fun l => silent_zero (sops_of exact) size (snd l)) ls -> Forall (fun l => 0 <= m_knee (fst (fst l))) ls ->
  exists st outs, comp_run exact size capacity rate (comp_new exact) ls = Ok (st, outs) /\ length outs = length ls /\
    forall k p s input, nth_error ls k = Some (p, s, input) -> let src := delayed 0 size (capacity - 1) (map snd ls) k in
      exists o r, nth_error outs k = Some (o, negb (is_silent src), r) /\
        forall c t, (t < size)%nat -> sample 0 o c t = sample 0 src c t * of_decibels (makeup_straight p - nth (k * size + t) (scan (target rate) 0 (frames_of peak size ls)) 0).
Proof.
  intros size rate capacity ls Hcap Hf Hz Hk. destruct (ring_runs exact size rate capacity Hcap ls [] (comp_new exact) (ring_start exact size capacity Hcap) Hf) as (st & outs & E & L & Q). exists st, outs. split; [exact E|]. split; [exact L|].
  intros k p s input Hn src. destruct (Q k _ Hn) as (r & Q'). cbv zeta in Q'. cbn [app length Nat.add] in Q'. change (v_zero exact) with 0 in Q'. fold src in Q'. destruct (nth_error_split ls k Hn) as (l1 & l2 & Els & L1). assert (F1 : firstn k ls = l1) by (rewrite Els, firstn_app, firstn_all2, L1, Nat.sub_diag, app_nil_r by lia; reflexivity). rewrite F1 in Q'.
  assert (Ne : Forall (fun l : rparams * nat * list (chan R) => snd l <> []) ls) by (eapply Forall_impl; [|exact Hf]; intros l [H _]; exact H).
  assert (Kl : (k < length ls)%nat) by (apply nth_error_Some; rewrite Hn; discriminate).
  assert (Src : Forall (fun c => length (c_val c) = size) src /\ silent_zero (sops_of exact) size src).
  { unfold src, delayed. destruct (Nat.ltb_spec k (capacity - 1)) as [Hlt|Hge].
    - split; [repeat constructor; cbn; apply repeat_length|repeat constructor].
    - assert (G : exists l, nth_error ls (k - (capacity - 1)) = Some l) by (destruct (nth_error ls (k - (capacity - 1))) eqn:X; [eauto|apply nth_error_None in X; lia]). destruct G as [l G]. rewrite (nth_error_nth _ _ [] (map_nth_error snd _ _ G)). rewrite Forall_forall in Hf, Hz. pose proof (nth_error_In _ _ G) as Hin. split; [apply Hf|apply Hz]; exact Hin. }
  destruct Src as [Sl Sz]. destruct (is_silent src) eqn:Qs.
  - exists (silence exact size), r. split; [exact Q'|]. intros c t Ht. pose proof (Route_Proofs.silent_sample (sops_of exact) size src c t Sz Qs) as E1. pose proof (Route_Proofs.sample_silence (sops_of exact) size c t) as E2. cbn in E1, E2. change (v_zero exact) with 0 in *. rewrite E1, Rmult_0_l. exact E2.
  - eexists. exists r. split; [exact Q'|]. intros c t Ht. destruct (Nat.lt_ge_cases c (length src)) as [Hc|Hc].
    2:{ pose proof (apply_absent _ _ exact (gains_of exact rate (last (scan (step exact rate) (p_prev (comp_new exact)) (frames_of (level exact) size l1)) (p_prev (comp_new exact))) (frames_of (level exact) size [(p, s, input)])) (snd (fst (p, s, input))) src c t Hc) as E1. change (v_zero exact) with 0 in E1. rewrite E1. unfold sample. rewrite (nth_overflow src) by exact Hc. cbn [c_val]. destruct t; rewrite Rmult_0_l; reflexivity. }
    set (d0 := last _ _). set (fs := frames_of (level exact) size [(p, s, input)]). assert (Lf : length fs = size) by (unfold fs; rewrite frames_length; cbn; lia).
    assert (Lc : length (c_val (nth c src (mk_chan 0 []))) = size) by (rewrite Forall_forall in Sl; apply Sl, nth_In; exact Hc).
    pose proof (apply_sample _ _ exact (gains_of exact rate d0 fs) (snd (fst (p, s, input))) src c t Hc ltac:(rewrite Lc; exact Ht) ltac:(unfold gains_of; rewrite map_length, combine_length, scan_length; lia)) as E1. change (v_zero exact) with 0 in E1. rewrite E1. cbn [exact v_mul]. f_equal.
    (* the gain *)
    pose (df := (p, 0) : rparams * R). unfold gains_of. rewrite nth_indep with (d' := (fun x => gain_of exact rate (fst x) (snd x)) (df, 0)) by (rewrite map_length, combine_length, scan_length; lia).
    rewrite (map_nth (fun x => gain_of exact rate (fst x) (snd x))). rewrite combine_nth by (rewrite scan_length; reflexivity). cbn [fst snd].
    assert (Fp : fst (nth t fs df) = p). { unfold fs, frames_of. cbn [flat_map fst snd]. rewrite app_nil_r. rewrite nth_indep with (d' := (fun i => (p, level exact input i)) 0%nat) by (rewrite map_length, seq_length; exact Ht). rewrite (map_nth (fun i => (p, level exact input i))). reflexivity. }
    assert (Pk : 0 <= m_knee p) by (rewrite Forall_forall in Hk; exact (Hk _ (nth_error_In _ _ Hn))).
    rewrite gain_exact by (rewrite Fp; exact Pk). rewrite Fp. do 2 f_equal.
    rewrite <- frames_ext by exact Ne. assert (Kf : Forall (fun f => forall d, step exact rate f d = target rate f d) (frames_of (level exact) size ls)).
    { rewrite Forall_forall. intros f Hfin d. apply step_exact. unfold frames_of in Hfin. apply in_flat_map in Hfin. destruct Hfin as (l & Hl & Hf2). apply in_map_iff in Hf2. destruct Hf2 as (i & <- & _). cbn [fst]. rewrite Forall_forall in Hk. apply Hk. exact Hl. }
    rewrite <- (scan_ext _ _ _ _ _ 0 Kf). rewrite Els.
    assert (Fa : frames_of (level exact) size (l1 ++ (p, s, input) :: l2) = frames_of (level exact) size l1 ++ fs ++ frames_of (level exact) size l2) by (unfold fs, frames_of; rewrite flat_map_app; cbn [flat_map]; rewrite app_nil_r; reflexivity).
    rewrite Fa, scan_app, app_nth2 by (rewrite scan_length, frames_length; nia). rewrite scan_length, frames_length, L1. replace (k * size + t - k * size)%nat with t by lia. rewrite scan_app, app_nth1 by (rewrite scan_length; lia). reflexivity.
Qed.
