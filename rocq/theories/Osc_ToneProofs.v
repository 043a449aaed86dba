(** Constant tones, the sine table, and the settings that the calls make. *)
From Coq Require Import List Arith Bool ZArith Reals Lra Lia.
From Coquelicot Require Import Coquelicot.
From Flocq Require Import Core.
From Verif Require Import Common_Model Arith_Model Arith_Real Source_Model Source_Spec Source_Proofs Osc_Proofs Osc_ExactProofs Sched_Model Sched_Spec Sched_Proofs Sched_NodeProofs Osc_SoundSpec Osc_SoundProofs.
Import ListNotations.
Local Open Scope R_scope.

(** ** A constant tone *)
Section Tone.
Variable sr : R.
Hypothesis Hsr : 0 < sr.
Variable plan : list setting.
Lemma none_before : forall n, (forall m, (m < n)%nat -> sounding sr plan m = false) -> accumulated sr plan n = None.
Proof. induction n as [|n IH]; intros H; [reflexivity|]. cbn [accumulated]. rewrite H by lia. apply IH. intros m Hm. apply H. lia. Qed.
Lemma constant_phase : forall n0 k f, (forall m, (m < n0)%nat -> sounding sr plan m = false) -> (forall m, (n0 <= m <= n0 + k)%nat -> sounding sr plan m = true /\ tone plan m = f) ->
  phase_at sr plan (n0 + k) = f * (INR (n0 + k) / sr - Rmax (match g_start (setting_at plan n0) with Some t => t | None => 0 end) (INR (128 * (n0 / 128)) / sr)).
Proof.
  intros n0 k f H0 H1. assert (F : first_phase sr plan n0 = f * (INR n0 / sr - Rmax (match g_start (setting_at plan n0) with Some t => t | None => 0 end) (INR (128 * (n0 / 128)) / sr))).
  { unfold first_phase. rewrite (proj2 (H1 n0 ltac:(lia))). reflexivity. }
  set (t0 := Rmax _ _) in *. clearbody t0. induction k as [|k IH].
  - rewrite Nat.add_0_r. unfold phase_at. rewrite none_before by exact H0. exact F.
  - rewrite Nat.add_succ_r. unfold phase_at. cbn [accumulated]. destruct (H1 (n0 + k)%nat ltac:(lia)) as [-> ->]. fold (phase_at sr plan (n0 + k)). rewrite IH by (intros m Hm; apply H1; lia). rewrite S_INR. field. lra.
Qed.
End Tone.

(** ** Linear interpolation of the sine *)
Lemma cos_lipschitz : forall a b, Rabs (cos b - cos a) <= Rabs (b - a).
Proof.
  assert (W : forall a b, a < b -> Rabs (cos b - cos a) <= Rabs (b - a)).
  { intros a b L. destruct (MVT_cor2 cos (fun x => - sin x) a b L (fun c _ => derivable_pt_lim_cos c)) as (c & E & _). rewrite E, Rabs_mult. rewrite <- (Rmult_1_l (Rabs (b - a))) at 2. apply Rmult_le_compat_r; [apply Rabs_pos|].
    rewrite Rabs_Ropp. apply Rabs_le. pose proof (SIN_bound c). lra. }
  intros a b. destruct (Rtotal_order a b) as [L|[->|L]]; [apply W; exact L|rewrite !Rminus_eq_0; lra|]. rewrite (Rabs_minus_sym (cos b)), (Rabs_minus_sym b). apply W. exact L.
Qed.
Lemma sin_taylor : forall x b, Rabs (sin b - sin x - cos x * (b - x)) <= (b - x)² / 2.
Proof.
  intros x b.
  assert (D : forall s c, derivable_pt_lim (fun u => (u - x)² / 2 - s * (sin u - sin x - cos x * (u - x))) c ((c - x) - s * (cos c - cos x))).
  { intros s c. apply is_derive_Reals. unfold Rsqr. auto_derive; [auto|field]. }
  assert (P : forall s, s = 1 \/ s = -1 -> 0 <= (b - x)² / 2 - s * (sin b - sin x - cos x * (b - x))).
  { intros s Hs. set (g := fun u => (u - x)² / 2 - s * (sin u - sin x - cos x * (u - x))). assert (G0 : g x = 0) by (unfold g, Rsqr; field).
    assert (B : forall c, Rabs (s * (cos c - cos x)) <= Rabs (c - x)). { intros c. rewrite Rabs_mult. replace (Rabs s) with 1; [rewrite Rmult_1_l; apply cos_lipschitz|]. destruct Hs as [->| ->]; [rewrite Rabs_R1; reflexivity|rewrite Rabs_left by lra; lra]. }
    change (0 <= g b). destruct (Rtotal_order x b) as [L|[<-|L]]; [|lra|].
    - destruct (MVT_cor2 g _ x b L (fun c _ => D s c)) as (c & E & Hc). specialize (B c). rewrite (Rabs_pos_eq (c - x)) in B by lra. apply Rabs_le_inv in B. assert (0 <= (c - x - s * (cos c - cos x)) * (b - x)) by (apply Rmult_le_pos; lra). lra.
    - destruct (MVT_cor2 g _ b x L (fun c _ => D s c)) as (c & E & Hc). specialize (B c). rewrite (Rabs_left1 (c - x)) in B by lra. apply Rabs_le_inv in B.
      assert (0 <= - (c - x - s * (cos c - cos x)) * (x - b)) by (apply Rmult_le_pos; lra). lra. }
  pose proof (P 1 (or_introl eq_refl)). pose proof (P (-1) (or_intror eq_refl)). apply Rabs_le. lra.
Qed.
Lemma chord_sin : forall a h u, 0 <= u <= 1 -> Rabs (sin a + u * (sin (a + h) - sin a) - sin (a + u * h)) <= h² / 8.
Proof.
  intros a h u Hu. set (x := a + u * h). pose proof (sin_taylor x a) as T1. pose proof (sin_taylor x (a + h)) as T2. apply Rabs_le_inv in T1, T2.
  replace (a - x) with (- (u * h)) in T1 by (unfold x; ring). replace (a + h - x) with ((1 - u) * h) in T2 by (unfold x; ring). unfold Rsqr in *.
  assert (U : u * (1 - u) <= / 4) by (pose proof (Rle_0_sqr (u - / 2)) as U0; unfold Rsqr in U0; lra). assert (Q : u * (1 - u) * (h * h) <= / 4 * (h * h)) by (apply Rmult_le_compat_r; [apply (Rle_0_sqr h)|exact U]).
  set (A := sin a - sin x - cos x * - (u * h)) in *. set (C := sin (a + h) - sin x - cos x * ((1 - u) * h)) in *.
  assert (E : sin a + u * (sin (a + h) - sin a) - sin x = (1 - u) * A + u * C) by (unfold A, C; ring). rewrite E.
  assert (Z : (1 - u) * (- (u * h) * - (u * h) / 2) + u * ((1 - u) * h * ((1 - u) * h) / 2) = u * (1 - u) * (h * h) / 2) by field.
  apply Rabs_le. split; [|].
  - assert ((1 - u) * - (- (u * h) * - (u * h) / 2) <= (1 - u) * A) by (apply Rmult_le_compat_l; lra). assert (u * - ((1 - u) * h * ((1 - u) * h) / 2) <= u * C) by (apply Rmult_le_compat_l; lra). lra.
  - assert ((1 - u) * A <= (1 - u) * (- (u * h) * - (u * h) / 2)) by (apply Rmult_le_compat_l; lra). assert (u * C <= u * ((1 - u) * h * ((1 - u) * h) / 2)) by (apply Rmult_le_compat_l; lra). lra.
Qed.

Lemma sin_turns : forall x (k : Z), sin (x + 2 * PI * IZR k) = sin x.
Proof.
  intros x k. destruct (Z_le_dec 0 k) as [H|H].
  - rewrite <- (Z2Nat.id k) by exact H. rewrite <- INR_IZR_INZ. replace (x + 2 * PI * INR (Z.to_nat k)) with (x + 2 * INR (Z.to_nat k) * PI) by ring. apply sin_period.
  - rewrite <- (sin_period (x + 2 * PI * IZR k) (Z.to_nat (- k))). f_equal. rewrite INR_IZR_INZ, Z2Nat.id by lia. rewrite opp_IZR. ring.
Qed.
Lemma sin_frac : forall p, sin (2 * PI * frac p) = sin (2 * PI * p).
Proof. intros p. unfold frac. replace (2 * PI * (p - IZR (Zfloor p))) with (2 * PI * p + 2 * PI * IZR (- Zfloor p)) by (rewrite opp_IZR; ring). apply sin_turns. Qed.

Lemma interp_sine : forall table e p, table <> [] -> (forall k, (k < length table)%nat -> Rabs (nth k table 0 - sin (2 * PI * INR k / INR (length table))) <= e) -> 0 <= p < 1 ->
  Rabs (interp table p - sin (2 * PI * p)) <= (2 * PI / INR (length table))² / 8 + e.
Proof.
  intros table e p Ht He Hp. unfold interp. set (n := length table) in *. assert (Hn : (0 < n)%nat) by (unfold n; destruct table; [contradiction|cbn; lia]). assert (Hr : 0 < INR n) by (apply lt_0_INR; exact Hn).
  set (x := p * INR n). assert (Hx : 0 <= x < INR n) by (unfold x; split; nra). pose proof (Zfloor_lb x) as F1. pose proof (Zfloor_ub x) as F2.
  assert (Z0 : (0 <= Zfloor x)%Z) by (apply Zfloor_lub; lra). set (k := Z.to_nat (Zfloor x)). assert (Ek : INR k = IZR (Zfloor x)) by (unfold k; rewrite INR_IZR_INZ, Z2Nat.id by exact Z0; reflexivity). rewrite <- Ek in F1, F2.
  assert (Lk : (k < n)%nat) by (apply INR_lt; lra). set (j := ((k + 1) mod n)%nat). assert (Lj : (j < n)%nat) by (apply Nat.mod_upper_bound; lia).
  pose proof (He k Lk) as E1. pose proof (He j Lj) as E2. set (a := 2 * PI * INR k / INR n) in *. set (h := 2 * PI / INR n). set (u := x - INR k). assert (Hu : 0 <= u <= 1) by (unfold u; lra).
  assert (Sj : sin (2 * PI * INR j / INR n) = sin (a + h)).
  { unfold j. destruct (Nat.eq_dec (k + 1) n) as [E|E].
    - rewrite E, Nat.mod_same by lia. replace (a + h) with (0 + 2 * PI * IZR 1). + rewrite sin_turns. f_equal. cbn [INR]. field. lra. + unfold a, h. rewrite <- E, plus_INR. cbn [INR]. field. pose proof (pos_INR k). lra.
    - rewrite Nat.mod_small by lia. f_equal. unfold a, h. rewrite plus_INR. cbn [INR]. field. lra. }
  rewrite Sj in E2. pose proof (chord_sin a h u Hu) as C. replace (a + u * h) with (2 * PI * p) in C by (unfold a, h, u, x; field; lra).
  apply Rabs_le_inv in E1, E2, C. set (va := nth k table 0) in *. set (vb := nth j table 0) in *.
  replace (va + u * (vb - va) - sin (2 * PI * p)) with ((sin a + u * (sin (a + h) - sin a) - sin (2 * PI * p)) + ((1 - u) * (va - sin a) + u * (vb - sin (a + h)))) by ring.
  assert (L1 : (1 - u) * - e <= (1 - u) * (va - sin a) <= (1 - u) * e) by (split; apply Rmult_le_compat_l; lra). assert (L2 : u * - e <= u * (vb - sin (a + h)) <= u * e) by (split; apply Rmult_le_compat_l; lra).
  apply Rabs_le. lra.
Qed.

(** ** The settings of a history of calls *)
Section History.
Variable ty : wave_type.
Variable custom : option (list R).
Notation oev := (event (@osc_call R R) (list R * list R)).
Notation valid := Osc_SoundSpec.valid_time.
Notation begins := (osc_begin valid).
Notation ends := (osc_end valid).
Notation msgs := (messages (osc_do exact) (@osc_render R R)).
Lemma valid_eq : Sched_Proofs.valid exact = valid.
Proof. reflexivity. Qed.

Lemma started_snoc : forall (l : list oev) e, started begins (l ++ [e]) = match started begins l with Some t => Some t | None => match e with Call c => begins c | Render _ => None end end.
Proof. induction l as [|a l IH]; intros e; [destruct e as [c|q]; cbn; [destruct (begins c)|]; reflexivity|]. destruct a as [c|q]; cbn [app started]; [destruct (begins c); [reflexivity|apply IH]|apply IH]. Qed.
Lemma latest_snoc : forall (l : list oev) e, latest_stop ends (l ++ [e]) = match e with Call c => match ends c with Some t => Some t | None => latest_stop ends l end | Render _ => latest_stop ends l end.
Proof.
  induction l as [|a l IH]; intros e; [destruct e as [c|q]; cbn; [destruct (ends c)|]; reflexivity|]. destruct a as [c|q]; cbn [app latest_stop]; rewrite IH; destruct e as [c'|q']; try destruct (ends c'); reflexivity.
Qed.
Lemma stopped_none : forall l : list oev, started begins l = None -> stopped begins ends l = None.
Proof. induction l as [|a l IH]; intros H; [reflexivity|]. destruct a as [c|q]; cbn [started stopped] in *; [destruct (begins c); [discriminate|auto]|auto]. Qed.
Lemma stopped_snoc : forall (l : list oev) e, stopped begins ends (l ++ [e]) =
  match started begins l with Some _ => match e with Call c => match ends c with Some t => Some t | None => stopped begins ends l end | Render _ => stopped begins ends l end | None => None end.
Proof.
  induction l as [|a l IH]; intros e; [destruct e as [c|q]; cbn; [destruct (begins c)|]; reflexivity|]. destruct a as [c|q]; cbn [app started stopped]; [|apply IH]. destruct (begins c); [apply latest_snoc|apply IH].
Qed.
Lemma custom_type : forall l : list oev, chosen_type Custom l = Custom.
Proof. induction l as [|a l IH]; [reflexivity|]. destruct a as [[c|ty'|w]|q]; cbn [chosen_type]; auto. Qed.
Lemma type_app : forall (l1 l2 : list oev) t, chosen_type t (l1 ++ l2) = chosen_type (chosen_type t l1) l2.
Proof. induction l1 as [|a l IH]; intros l2 t; [reflexivity|]. destruct a as [[c|ty'|w]|q]; cbn [app chosen_type]; auto. symmetry. apply custom_type. Qed.
Lemma wave_app : forall (l1 l2 : list oev) w, chosen_wave w (l1 ++ l2) = chosen_wave (chosen_wave w l1) l2.
Proof. induction l1 as [|a l IH]; intros l2 t; [reflexivity|]. destruct a as [[c|ty'|w]|q]; cbn [app chosen_wave]; auto. Qed.

Let first := match custom with Some _ => Custom | None => ty end.
Lemma settings_called : forall l past, settings (started begins past) (stopped begins ends past) (chosen_type first past) (chosen_wave custom past)
    (msgs (mk_osc_handle (chosen_type first past) (some (started begins past))) l) = called ty custom past l.
Proof.
  induction l as [|e l IH]; intros past; [reflexivity|]. specialize (IH (past ++ [e])). rewrite started_snoc, stopped_snoc, type_app, wave_app in IH.
  unfold messages in *. cbn [session called]. destruct e as [c|[freq detune]].
  - rewrite (osc_do_spec exact). rewrite valid_eq. cbn [oh_start oh_type]. destruct (begins c) as [t|] eqn:B.
    + destruct c as [c|ty'|w]; try discriminate. cbn [chosen_type chosen_wave] in IH. destruct (started begins past) as [t0|] eqn:S; cbn [some] in *.
      * assert (N : @osc_end R R valid (O_sched c) = None) by (destruct c; try discriminate; reflexivity). rewrite N in IH. destruct (session _ _ _ l) as [[h' rs] ms]. exact IH.
      * rewrite (stopped_none _ S). destruct (session _ _ _ l) as [[h' rs] ms]. exact IH.
    + destruct (ends c) as [t|] eqn:N.
      * destruct c as [c|ty'|w]; try discriminate. cbn [chosen_type chosen_wave] in IH. destruct (started begins past) as [t0|] eqn:S; cbn [some] in *.
        -- destruct (session _ _ _ l) as [[h' rs] ms]. exact IH.
        -- rewrite (stopped_none _ S). destruct (session _ _ _ l) as [[h' rs] ms]. exact IH.
      * assert (K : match started begins past with Some t => Some t | None => None end = started begins past) by (destruct (started begins past); reflexivity). rewrite K in IH.
        assert (K' : match started begins past with Some _ => stopped begins ends past | None => None end = stopped begins ends past) by (destruct (started begins past) eqn:S; [reflexivity|rewrite stopped_none by exact S; reflexivity]). rewrite K' in IH. clear K K'.
        destruct c as [c|ty'|w]; cbn [chosen_type chosen_wave] in IH.
        -- destruct (session _ _ _ l) as [[h' rs] ms]. exact IH.
        -- destruct (chosen_type first past), ty'; destruct (session _ _ _ l) as [[h' rs] ms]; exact IH.
        -- destruct (session _ _ _ l) as [[h' rs] ms]. exact IH.
  - assert (K : match started begins past with Some t => Some t | None => None end = started begins past) by (destruct (started begins past); reflexivity). rewrite K in IH.
    assert (K' : match started begins past with Some _ => stopped begins ends past | None => None end = stopped begins ends past) by (destruct (started begins past) eqn:S; [reflexivity|rewrite stopped_none by exact S; reflexivity]). rewrite K' in IH. clear K K'.
    cbn [chosen_type chosen_wave] in IH. destruct (session _ _ _ l) as [[h' rs] ms]. cbn [snd settings osc_render fst]. f_equal. exact IH.
Qed.
Lemma settings_session : forall l, settings None None ty None (snd (osc_session exact ty custom l)) = called ty custom [] l.
Proof.
  intros l. pose proof (settings_called l []) as X. cbn [started stopped chosen_type chosen_wave some] in X. unfold osc_session. unfold first, messages in X. destruct custom as [w|]; cbn [osc_create osc_set_wave oh_start]; destruct (session _ _ _ l) as [[h' rs] ms]; exact X.
Qed.
End History.
