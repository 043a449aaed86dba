(** Delay: complete runs in exact arithmetic. *)
From Coq Require Import List Arith Bool ZArith Reals Lra Lia.
From Flocq Require Import Core.
From Verif Require Import Common_Model Arith_Model Arith_Real Source_Model Absn_Spec Delay_Model Delay_Spec Delay_Proofs Delay_ExactProofs.
Import ListNotations.
Local Open Scope R_scope.

Lemma firstn_S_last : forall X (l : list X) k x, nth_error l k = Some x -> firstn (S k) l = firstn k l ++ [x].
Proof. intros X l. induction l as [|y l IH]; intros [|k] x E; try discriminate; [injection E as ->; reflexivity|]. cbn [nth_error] in E. specialize (IH k x E). change (y :: firstn (S k) l = y :: (firstn k l ++ [x])). f_equal. exact IH. Qed.
Lemma nth_firstn_lt : forall X (l : list X) n k d, (k < n)%nat -> nth k (firstn n l) d = nth k l d.
Proof. intros X l. induction l as [|y l IH]; intros [|n] [|k] d H; cbn [firstn nth]; try reflexivity; try lia. apply IH. lia. Qed.
Lemma Forall_firstn : forall X (P : X -> Prop) l n, Forall P l -> Forall P (firstn n l).
Proof. intros X P l. induction l as [|y l IH]; intros [|n] H; cbn [firstn]; auto. apply Forall_cons_iff in H. destruct H. apply Forall_cons; auto. Qed.

(** ** The ring is long enough *)
Lemma ring_size_exact : forall sr max, 0 < sr -> 0 < max -> (2 <= ring_size exact sr max)%nat /\ max * sr <= IZR (128 * (Z.of_nat (ring_size exact sr max) - 1)).
Proof.
  intros sr max Hs Hm. unfold ring_size. cbn [exact t_to_Z t_ceil t_div t_mul t_of_v t_of_Z]. change (IZR (Z.of_nat RQ)) with 128.
  assert (P : 0 < max * sr / 128) by (apply Rdiv_lt_0_compat; [apply Rmult_lt_0_compat; assumption|lra]). set (x := max * sr / 128) in *.
  assert (C1 : (0 < Zceil x)%Z) by (apply lt_IZR; pose proof (Zceil_ub x); lra). unfold R_to_Z. rewrite Ztrunc_IZR, Z.max_r by lia. split; [lia|].
  rewrite Nat2Z.inj_add, Z2Nat.id by lia. replace (128 * (Zceil x + Z.of_nat 1 - 1))%Z with (128 * Zceil x)%Z by lia. rewrite mult_IZR. pose proof (Zceil_ub x). unfold x in *. lra.
Qed.

Section Append.
Context {T V : Type}.
Variable A : arith T V.
Variable sr : V.
Variable remix : nat -> list (list V) -> list (list V).
Definition quanta_of (l : list (@delay_action V)) : nat := length (filter (fun a => match a with D_drop => false | _ => true end) l).
Lemma delay_run_app : forall l1 l2 s f, delay_run A sr remix s f (l1 ++ l2) =
  bind (delay_run A sr remix s f l1) (fun r => bind (delay_run A sr remix (fst r) (f + 128 * Z.of_nat (quanta_of l1)) l2) (fun r' => Ok (fst r', snd r ++ snd r'))).
Proof.
  induction l1 as [|a l1 IH]; intros l2 s f.
  - cbn [app delay_run bind fst snd quanta_of filter length]. rewrite Z.mul_0_r, Z.add_0_r. destruct (delay_run A sr remix s f l2) as [[? ?]| |]; reflexivity.
  - cbn [app delay_run]. destruct (delay_step A sr remix s f a) as [[s1 o1]| |]; cbn [bind fst snd]; try reflexivity. rewrite IH.
    match goal with |- bind (bind ?x _) _ = _ => destruct x as [[s2 o2]| |] end; cbn [bind fst snd]; try reflexivity.
    assert (E : ((match a with D_drop => f | _ => f + Z.of_nat RQ end) + 128 * Z.of_nat (quanta_of l1) = f + 128 * Z.of_nat (quanta_of (a :: l1)))%Z).
    { unfold quanta_of. cbn [filter]. change (Z.of_nat RQ) with 128%Z. destruct a; cbn [length]; lia. }
    rewrite E. match goal with |- bind (bind ?x _) _ = _ => destruct x as [[s3 o3]| |] end; cbn [bind fst snd]; try reflexivity. rewrite app_assoc. reflexivity.
Qed.
End Append.

Section Runs.
Notation A := exact.
Variable sr : R.
Hypothesis Hsr : 0 < sr.
Variable remix : nat -> list (list R) -> list (list R).
Hypothesis remix_good : forall C n b, good C b -> (0 < n)%nat -> good n (remix n b).
Hypothesis remix_zeros : forall C n b, good C b -> zeros A b -> (0 < n)%nat -> zeros A (remix n b).
Variable max : R.
Hypothesis Hmax : 0 < max.
Notation N := (ring_size A sr max).
Notation inputs l := (map (fun x => fst (fst x)) l).
Notation cycles l := (existsb (fun x => snd (fst x)) l).

Lemma quanta_both : forall l, quanta_of (map both l) = length l.
Proof. induction l as [|x l IH]; [reflexivity|]. unfold quanta_of in *. cbn [map filter both length]. rewrite IH. reflexivity. Qed.
Lemma fold_record_length : forall is h, length (fold_left (record remix) is h) = (length h + length is)%nat.
Proof using. clear. induction is as [|x is IH]; intros h; cbn [fold_left length]; [lia|]. rewrite IH, record_length. lia. Qed.

Lemma run_from_new : forall l, Forall (quantum_ok max) l ->
  exists s' os, delay_run A sr remix (delay_new N) 0 (map both l) = Ok (s', os) /\ sync N s' (recorded remix (inputs l)) (cycles l) /\ length os = length l /\
    forall k x o, nth_error l k = Some x -> nth_error os k = Some o -> snd o = true /\
      let h := recorded remix (inputs (firstn (if snd (fst x) : bool then k else S k) l)) in
      forall c i, (c < channels h)%nat -> (i < 128)%nat ->
        sample_at 0 (fst o) c i = lerp (signal 0 h c) (IZR (128 * Z.of_nat k + Z.of_nat i) - frames sr (delay_at (snd x) i) (cycles (firstn (S k) l))).
Proof.
  intros l Hl. destruct (ring_size_exact sr max Hsr Hmax) as [HN HM]. exact (run_exact sr Hsr remix remix_good remix_zeros max N HN HM l (delay_new N) [] false (sync_new N HN) Hl).
Qed.

Lemma run_drop : forall l m, Forall (quantum_ok max) l -> (length m <= N)%nat -> Forall (delays_ok max) m ->
  let hist := recorded remix (inputs l) in
  exists s' os, delay_run A sr remix (delay_new N) 0 (map both l ++ D_drop :: map D_reader m) = Ok (s', os) /\ length os = (length l + length m)%nat /\
    forall k delays o, nth_error m k = Some delays -> nth_error os (length l + k) = Some o -> snd o = negb (k =? N - 1)%nat /\
      forall c i, (c < channels hist)%nat -> (i < 128)%nat -> sample_at 0 (fst o) c i = lerp (ghost 0 N hist c) (IZR (128 * Z.of_nat (length l + k) + Z.of_nat i) - frames sr (delay_at delays i) true).
Proof.
  intros l m Hl Hm Hd hist. destruct (ring_size_exact sr max Hsr Hmax) as [HN HM]. destruct (run_from_new l Hl) as (s1 & o1 & E1 & Y & L1 & _). fold hist in Y.
  pose proof (drop_tail N HN _ _ _ Y) as Tt. assert (Lh : length hist = length l) by (unfold hist, recorded; rewrite fold_record_length, map_length; reflexivity).
  destruct (tail_run sr Hsr remix max N HN HM m _ hist 0 Tt Hm Hd) as (s2 & o2 & E2 & L2 & P2).
  exists s2, (o1 ++ o2). split; [|split; [rewrite app_length; lia|]].
  - rewrite delay_run_app, E1. cbn [bind fst snd delay_run delay_step]. rewrite quanta_both. rewrite Nat.add_0_r, Lh in E2. rewrite Z.add_0_l. setoid_rewrite E2. cbn [bind fst snd app]. reflexivity.
  - intros k delays o Ek Eo. rewrite nth_error_app2 in Eo by lia. replace (length l + k - length o1)%nat with k in Eo by lia. destruct (P2 k delays o Ek Eo) as [Pa Pb]. rewrite Nat.add_0_l in *. split; [exact Pa|]. intros c i Hc Hi. rewrite (Pb c i Hc Hi). rewrite Lh. reflexivity.
Qed.

Lemma recorded_same : forall C is h, (0 < C)%nat -> Forall (good C) is -> channels h = C \/ h = [] -> fold_left (record remix) is h = h ++ is.
Proof using.
  clear. intros C is. induction is as [|x is IH]; intros h HC Hi Hh; [rewrite app_nil_r; reflexivity|]. apply Forall_cons_iff in Hi. destruct Hi as [[Hx _] Hi]. cbn [fold_left].
  assert (E : record remix h x = h ++ [x]). { unfold record. destruct Hh as [Hh| ->]; [rewrite Hh, Hx, Nat.eqb_refl; reflexivity|]. cbn [map app]. destruct (_ =? _)%nat; reflexivity. }
  rewrite E, IH; [rewrite <- app_assoc; reflexivity|exact HC|exact Hi|left; unfold channels; rewrite last_last; exact Hx].
Qed.
Lemma lerp_int : forall x n, lerp x (IZR n) = x n.
Proof using. clear. intros x n. unfold lerp. rewrite Zfloor_IZR. cbv zeta. ring. Qed.

Lemma whole_frames_run : forall n C (is : list (list (list R))), (0 <= n)%Z -> IZR n / sr <= max -> (0 < C)%nat -> Forall (good C) is ->
  exists s os, delay_run A sr remix (delay_new N) 0 (map (fun x => D_both x false [IZR n / sr]) is) = Ok (s, os) /\ length os = length is /\
    forall k o, nth_error os k = Some o -> snd o = true /\
      forall c i, (c < C)%nat -> (i < 128)%nat -> sample_at 0 (fst o) c i = signal 0 is c (128 * Z.of_nat k + Z.of_nat i - n).
Proof.
  intros n C is Hn Hd HC Hi. set (l := map (fun x : list (list R) => (x, false, [IZR n / sr])) is).
  assert (Hl : Forall (quantum_ok max) l).
  { unfold l. apply Forall_map. eapply Forall_impl; [|exact Hi]. intros x [G1 G2]. split; [split; [cbn [fst]; lia|exact G2]|]. split; [left; reflexivity|]. cbn [snd]. apply Forall_cons; [|apply Forall_nil]. split; [|exact Hd]. unfold Rdiv. apply Rmult_le_pos; [apply (IZR_le 0); exact Hn|left; apply Rinv_0_lt_compat, Hsr]. }
  destruct (run_from_new l Hl) as (s & os & E & _ & L & P). unfold l in E, L. rewrite map_map in E. rewrite map_length in L. exists s, os. split; [exact E|]. split; [exact L|].
  intros k o Eo. assert (Hk : (k < length is)%nat) by (rewrite <- L; apply nth_error_Some; congruence). destruct (nth_error is k) as [x|] eqn:Ex; [|apply nth_error_None in Ex; lia].
  assert (El : nth_error l k = Some (x, false, [IZR n / sr])) by (unfold l; rewrite nth_error_map, Ex; reflexivity). destruct (P k _ o El Eo) as [Pa Pb]. split; [exact Pa|]. intros c i Hc Hi'.
  cbn [fst snd] in Pb. cbv zeta in Pb.
  assert (Ein : map (fun x : list (list R) * bool * list R => fst (fst x)) (firstn (S k) l) = firstn (S k) is) by (unfold l; rewrite <- firstn_map, map_map; cbn [fst]; rewrite map_id; reflexivity).
  assert (Ecy : existsb (fun x : list (list R) * bool * list R => snd (fst x)) (firstn (S k) l) = false).
  { unfold l. rewrite firstn_map. clear. generalize (firstn (S k) is). intros q. induction q as [|y q IH]; [reflexivity|exact IH]. }
  rewrite Ein in Pb. unfold recorded in Pb. rewrite (recorded_same C) in Pb; [|exact HC|apply Forall_firstn; exact Hi|right; reflexivity]. cbn [app] in Pb.
  assert (Ech : channels (firstn (S k) is) = C). { unfold channels. rewrite (firstn_S_last _ is k x Ex), last_last. rewrite Forall_forall in Hi. exact (proj1 (Hi x (nth_error_In _ _ Ex))). }
  rewrite (Pb c i) by (rewrite ?Ech; assumption). rewrite Ecy. unfold frames, delay_at. cbn [snd]. replace (IZR n / sr * sr) with (IZR n) by (field; lra). rewrite <- minus_IZR, lerp_int.
  unfold signal. set (t := (128 * Z.of_nat k + Z.of_nat i - n)%Z). destruct (Z.ltb_spec t 0); [reflexivity|]. assert (t / 128 < Z.of_nat (S k))%Z by (apply Z.div_lt_upper_bound; lia). assert (0 <= t / 128)%Z by (apply Z.div_pos; lia).
  rewrite nth_firstn_lt by lia. reflexivity.
Qed.
End Runs.

Lemma whole_frames : forall sr remix max, 0 < sr -> 0 < max ->
  (forall C n b, good C b -> (0 < n)%nat -> good n (remix n b)) -> (forall C n b, good C b -> zeros exact b -> (0 < n)%nat -> zeros exact (remix n b)) ->
  forall n C (inputs : list (list (list R))), (0 <= n)%Z -> IZR n / sr <= max -> (0 < C)%nat -> Forall (good C) inputs ->
  exists s os, delay_run exact sr remix (delay_new (ring_size exact sr max)) 0 (map (fun x => D_both x false [IZR n / sr]) inputs) = Ok (s, os) /\ length os = length inputs /\
    forall k o, nth_error os k = Some o -> snd o = true /\
      forall c i, (c < C)%nat -> (i < 128)%nat -> sample_at 0 (fst o) c i = signal 0 inputs c (128 * Z.of_nat k + Z.of_nat i - n).
Proof. intros sr remix max Hs Hm Hg Hz. exact (whole_frames_run sr Hs remix Hg Hz max Hm). Qed.

Lemma silent_end : forall N (hist : list (list (list R))) c p,
  (forall t, (128 * (Z.of_nat (length hist) - Z.of_nat N) <= t)%Z -> signal 0 hist c t = 0) -> IZR (128 * (Z.of_nat (length hist) - Z.of_nat N)) <= p ->
  lerp (ghost 0 N hist c) p = 0.
Proof.
  intros N hist c p H Hp. assert (Z0 : forall t, (128 * (Z.of_nat (length hist) - Z.of_nat N) <= t)%Z -> ghost 0 N hist c t = 0).
  { intros t Ht. unfold ghost. destruct (Z.ltb_spec (t / 128) (Z.of_nat (length hist))); apply H; [exact Ht|]. pose proof (Z.div_mod t 128 ltac:(lia)). pose proof (Z.mod_pos_bound t 128 ltac:(lia)). lia. }
  assert (Hf : (128 * (Z.of_nat (length hist) - Z.of_nat N) <= Zfloor p)%Z) by (apply Zfloor_lub; exact Hp). unfold lerp. cbv zeta. rewrite !Z0 by lia. ring.
Qed.
