(** The compressor in floating point: an infinite sample spoils the detector for good. *)
From Coq Require Import List Arith Bool ZArith Lia.
From Flocq Require Import Core BinarySingleNaN.
From Verif Require Import Float_Model Arith_Model Route_Spec Comp_Model Comp_Spec Comp_Proofs Comp_CurveProofs Comp_ExactProofs.
Import ListNotations.

Lemma firstn_nth_error : forall X (l : list X) k i, i < k -> nth_error (firstn k l) i = nth_error l i.
Proof. intros X. induction l as [|x l IH]; intros [|k] [|i] H; try lia; try reflexivity. cbn. apply IH. lia. Qed.
Definition inf32 : f32 := B754_infinity false.
Lemma mul_nan_r : forall x : f32, f32_mul x B754_nan = B754_nan. Proof. destruct x; reflexivity. Qed.
Lemma add_nan_r : forall x : f32, f32_add x B754_nan = B754_nan. Proof. destruct x; reflexivity. Qed.
Lemma lt_nan_r : forall x : f32, f32_lt x B754_nan = false. Proof. destruct x; reflexivity. Qed.
Lemma nan_eq : forall x : f32, is_nan x = true -> x = B754_nan. Proof. destruct x; intros H; try discriminate H; reflexivity. Qed.

(** default values *)
Definition defaults : comp_params (V := f32) := mk_comp_params (f32_of_Z (-24)) (f32_of_Z 30) (f32_of_Z 12) (f32_frac 3 1000) (f32_frac 1 4).
Section Poison.
Variable M : libm.
Notation A := (ieee M).
Hypothesis log_inf : m32_log10 M inf32 = inf32.
Hypothesis pow_nan : forall x, m32_pow M x B754_nan = B754_nan.
Variable rate : f32.
Lemma detect_inf : forall prev, detect A (comp_curve A rate defaults) prev inf32 = B754_nan.
Proof using log_inf.
  intros prev. unfold detect. assert (L : lin_to_db A inf32 = inf32). { unfold lin_to_db. cbn [ieee v_eq v_of_Z v_mul v_log10]. change (f32_eq inf32 (f32_of_Z 0)) with false. cbv iota. rewrite log_inf. vm_compute. reflexivity. }
  rewrite L. cbv zeta. assert (E : v_sub A inf32 (attenuated A (comp_curve A rate defaults) inf32) = B754_nan).
  { unfold attenuated, comp_curve. cbn [u_threshold u_half_knee u_ratio u_knee_partial defaults m_threshold m_knee m_ratio ieee v_lt v_le v_add v_sub v_mul v_div v_of_Z]. vm_compute. reflexivity. }
  rewrite E. cbn [ieee v_lt v_add v_mul v_sub v_of_Z]. rewrite lt_nan_r. rewrite mul_nan_r. apply add_nan_r.
Qed.
Lemma detect_nan : forall u level, detect A u B754_nan level = B754_nan.
Proof using Type. intros u level. unfold detect. cbv zeta. cbn [ieee v_lt v_add v_mul v_sub v_of_Z]. match goal with |- (if ?b then _ else _) = _ => change b with false end. cbv iota. rewrite mul_nan_r. reflexivity. Qed.
Lemma gain_nan : forall f, gain_of A rate f B754_nan = B754_nan.
Proof using pow_nan. intros f. unfold gain_of, db_to_lin. cbn [ieee v_pow v_div v_of_Z v_add v_neg]. apply pow_nan. Qed.
Lemma nan_for_ever : forall fs, Forall (fun d => d = B754_nan) (scan (step A rate) B754_nan fs).
Proof using Type. intros fs. apply (scan_Forall _ _ _ (fun d : f32 => d = B754_nan) (fun _ => True)); [|apply Forall_forall; auto|reflexivity]. intros x s _ ->. apply detect_nan. Qed.
Lemma gains_nan : forall fs, Forall (fun d => d = B754_nan) (gains_of A rate B754_nan fs).
Proof using pow_nan.
  intros fs. unfold gains_of. rewrite Forall_map, Forall_forall. intros [f d] Hin. cbn [fst snd]. apply in_combine_r in Hin. pose proof (nan_for_ever fs) as N. rewrite Forall_forall in N. rewrite (N d Hin). apply gain_nan.
Qed.

(** the level of a frame with an infinite sample *)
Lemma level_keeps : forall q i, fold_left (fun m c => let s := f32_abs (nth i (c_val c) f32_zero) in if f32_lt m s then s else m) q inf32 = inf32.
Proof using Type. induction q as [|c q IH]; intros i; [reflexivity|]. cbn [fold_left]. cbv zeta. replace (f32_lt inf32 _) with false by (destruct (f32_abs (nth i (c_val c) f32_zero)) as [[]|[]| |[] ? ? ?]; reflexivity). apply IH. Qed.
Lemma level_inf_from : forall q i m, f32_lt m inf32 = true \/ m = inf32 -> Exists (fun c => f32_abs (nth i (c_val c) f32_zero) = inf32) q ->
  fold_left (fun m c => let s := f32_abs (nth i (c_val c) f32_zero) in if f32_lt m s then s else m) q m = inf32.
Proof using Type.
  induction q as [|c q IH]; intros i m Hm Hx; [inversion Hx|]. cbn [fold_left]. cbv zeta. inversion Hx as [? ? E|? ? E]; subst.
  - rewrite E. destruct (f32_lt m inf32) eqn:Q; [|destruct Hm as [Hm|Hm]; [discriminate Hm|subst m]]; apply level_keeps.
  - apply IH; [|exact E]. destruct (f32_lt m (f32_abs (nth i (c_val c) f32_zero))) eqn:Q; [|exact Hm]. set (v := f32_abs _) in *. destruct v as [[]|[]| |[] ? ? ?]; try (left; reflexivity); try (right; reflexivity); destruct m as [[]|[]| |[] ? ? ?]; discriminate Q.
Qed.
Lemma level_inf : forall q i, Exists (fun c => f32_abs (nth i (c_val c) f32_zero) = inf32) q -> level A q i = inf32.
Proof using Type. intros q i H. apply level_inf_from; [left; reflexivity|exact H]. Qed.

Lemma poison : forall size capacity ls k0 s0 q0 i k p s q, 0 < capacity -> Forall (call_fine size) ls -> nth_error ls k0 = Some (defaults, s0, q0) -> i < size -> Exists (fun c => f32_abs (nth i (c_val c) f32_zero) = inf32) q0 ->
  k0 < k -> nth_error ls k = Some (p, s, q) -> let src := delayed f32_zero size (capacity - 1) (map snd ls) k in is_silent src = false ->
  exists st outs o more r, comp_run A size capacity rate (comp_new A) ls = Ok (st, outs) /\ nth_error outs k = Some (o, more, r) /\ forall c t, c < length src -> t < size -> sample f32_zero o c t = B754_nan.
Proof using log_inf pow_nan.
  intros size capacity ls k0 s0 q0 i k p s q Hcap Hf H0 Hi Hx Hk Hn src Hs. destruct (ring_runs A size rate capacity Hcap ls [] (comp_new A) (ring_start A size capacity Hcap) Hf) as (st & outs & E & L & Q). destruct (Q k _ Hn) as (r & Q'). cbv zeta in Q'. cbn [app length Nat.add] in Q'. change (v_zero A) with f32_zero in Q'. fold src in Q'. rewrite Hs in Q'.
  exists st, outs. do 3 eexists. split; [exact E|]. split; [exact Q'|]. intros c t Hc Ht.
  assert (N : last (scan (step A rate) (p_prev (comp_new A)) (frames_of (level A) size (firstn k ls))) (p_prev (comp_new A)) = B754_nan).
  { destruct (nth_error_split (firstn k ls) k0 (a := (defaults, s0, q0))) as (l1 & l2 & E1 & _). { rewrite firstn_nth_error by exact Hk. exact H0. }
    rewrite E1. unfold frames_of. rewrite flat_map_app. cbn [flat_map fst snd].
    assert (Es : seq 0 size = seq 0 i ++ i :: seq (S i) (size - S i)). { replace size with (i + S (size - S i)) at 1 by lia. rewrite seq_app. reflexivity. }
    rewrite Es, map_app. cbn [map]. rewrite level_inf by exact Hx. rewrite <- !app_assoc. cbn [app]. rewrite !app_assoc. set (fa := _ ++ map _ (seq 0 i)). set (fb := _ ++ flat_map _ l2). clearbody fa fb. rewrite <- ?app_assoc. 
    rewrite scan_app. cbn [scan]. set (d1 := last (scan (step A rate) (p_prev (comp_new A)) fa) (p_prev (comp_new A))). assert (Ed : step A rate (defaults, inf32) d1 = B754_nan) by apply detect_inf. rewrite Ed, last_mid. pose proof (nan_for_ever fb) as F.
    set (sc := scan (step A rate) B754_nan fb) in *. clearbody sc. clear - F. induction sc as [|x xs _] using rev_ind; [reflexivity|]. rewrite last_last. rewrite Forall_app in F. destruct F as [_ F]. inversion F; subst. reflexivity. }
  rewrite N. set (fs := frames_of (level A) size [(p, s, q)]). assert (Lf : length fs = size) by (unfold fs; rewrite frames_length; cbn; lia).
  assert (Lc : length (c_val (nth c src (mk_chan 0 []))) = size).
  { clear - Hf Hn Hc Ht. unfold src, delayed in *. destruct (Nat.ltb_spec k (capacity - 1)) as [Hlt|Hge].
    - destruct c as [|c]; [cbn; apply repeat_length|cbn in Hc; lia].
    - assert (Kl : k < length ls) by (apply nth_error_Some; rewrite Hn; discriminate). assert (G : exists l, nth_error ls (k - (capacity - 1)) = Some l) by (destruct (nth_error ls (k - (capacity - 1))) eqn:X; [eauto|apply nth_error_None in X; lia]). destruct G as [l G]. rewrite (nth_error_nth _ _ [] (map_nth_error snd _ _ G)) in *. rewrite Forall_forall in Hf. destruct (Hf _ (nth_error_In _ _ G)) as [_ F]. rewrite Forall_forall in F. apply F, nth_In. exact Hc. }
  pose proof (apply_sample _ _ A (gains_of A rate B754_nan fs) (snd (fst (p, s, q))) src c t Hc ltac:(rewrite Lc; exact Ht) ltac:(unfold gains_of; rewrite map_length, combine_length, scan_length; lia)) as E1. change (v_zero A) with f32_zero in E1. rewrite E1.
  pose proof (gains_nan fs) as F. rewrite Forall_forall in F. rewrite (F (nth t (gains_of A rate B754_nan fs) f32_zero)); [apply mul_nan_r|]. apply nth_In. unfold gains_of. rewrite map_length, combine_length, scan_length. lia.
Qed.
End Poison.
