(** Oversampled wave shaping: proofs. *)
From Coq Require Import List Arith Bool Lia.
From Verif Require Import Arith_Model Route_Spec Quantum_Model Over_Model Over_Spec.
Import ListNotations.

Section Proofs.
Context {T V RS : Type}.
Variable A : arith T V.
Variable size : nat.
Variable new : nat -> nat -> RS.
Variable step : RS -> list V -> RS * list V.
Variable ok : nat -> nat -> RS -> Prop.
Hypothesis OK : resampler_ok size new step ok.
Notation quantum := (list (chan V)).
Notation stream := (stream step).
Notation oversampled := (oversampled new step).

Definition after (r : RS) (blocks : list (list V)) : RS := fold_left (fun r b => fst (step r b)) blocks r.
Lemma stream_snoc blocks b : forall r, stream r (blocks ++ [b]) = stream r blocks ++ [snd (step (after r blocks) b)].
Proof. induction blocks as [|c blocks IH]; intros r; [reflexivity|]. cbn [app Over_Spec.stream after fold_left]. rewrite IH. reflexivity. Qed.
Lemma after_snoc blocks b r : after r (blocks ++ [b]) = fst (step (after r blocks) b).
Proof. unfold after. rewrite fold_left_app. reflexivity. Qed.

Lemma blocks_of (q : quantum) : map c_val q = map (fun c => block c q) (seq 0 (length q)).
Proof.
  unfold block. induction q as [|x q IH]; [reflexivity|]. cbn [map length seq nth]. f_equal. rewrite <- seq_shift, map_map. exact IH.
Qed.
Lemma resample_map (g : nat -> RS) (b : nat -> list V) : forall n a, resample step (map g (seq a n)) (map b (seq a n)) =
  Ok (map (fun c => fst (step (g c) (b c))) (seq a n), map (fun c => snd (step (g c) (b c))) (seq a n)).
Proof.
  induction n as [|n IH]; intros a; [reflexivity|]. cbn [seq map resample]. destruct (step (g a) (b a)) as [r o] eqn:E. rewrite IH. cbn [bind fst snd]. reflexivity.
Qed.
Lemma map_res_ok {X Y} (f : X -> res Y) (g : X -> Y) l : (forall x, f x = Ok (g x)) -> map_res f l = Ok (map g l).
Proof. intros H. induction l as [|x l IH]; [reflexivity|]. cbn [map_res map]. rewrite H, IH. reflexivity. Qed.
Lemma copy_ok : forall (q : quantum) s (b : nat -> list V) a, Forall (fun c => length (c_val c) = size) q -> (forall c, length (b c) = size) ->
  exists out, copy_all s q (map b (seq a (length q))) = Ok out /\ map c_val out = map b (seq a (length q)).
Proof.
  induction q as [|c q IH]; intros s b a F L; [exists []; auto|]. cbn [length seq map copy_all]. inversion F as [|? ? F1 F2]; subst.
  rewrite (L a), Nat.eqb_refl. cbn [check bind]. destruct (IH (S s) b (S a) F2 L) as (out & -> & E). cbn [bind]. eexists. split; [reflexivity|]. cbn [map c_val]. rewrite E. reflexivity.
Qed.

(** the resamplers of mode [k] after the quanta [h] *)
Definition channels (h : list quantum) : nat := match h with [] => 1 | q :: _ => length q end.
Definition ups_after (k c : nat) (h : list quantum) : RS := after (new 1 k) (map (block c) h).
Definition downs_after (f : V -> V) (k c : nat) (h : list quantum) : RS := after (new k 1) (map (map f) (stream (new 1 k) (map (block c) h))).
Definition hist (h : list quantum) : Prop := Forall (fun q => length q = channels h /\ Forall (fun c => length (c_val c) = size) q) h.
Definition follows (f : V -> V) (k : nat) (p : pair_of (RS := RS)) (h : list quantum) : Prop :=
  hist h /\ p = mk_pair (channels h) (map (fun c => ups_after k c h) (seq 0 (channels h))) (map (fun c => downs_after f k c h) (seq 0 (channels h))).
Lemma follows_new f k : follows f k (mk_pair 1 (ups new k 1) (downs new k 1)) [].
Proof. split; [constructor|]. reflexivity. Qed.

Lemma map_const {X} (x : X) n : forall a, map (fun _ : nat => x) (seq a n) = repeat x n.
Proof. induction n as [|n IH]; intros a; [reflexivity|]. cbn [seq map repeat]. rewrite IH. reflexivity. Qed.

(** in a resampler, lengths are right *)
Lemma after_ok i o blocks : forall r, ok i o r -> Forall (fun b => length b = i * size) blocks -> ok i o (after r blocks) /\ Forall (fun b => length b = o * size) (stream r blocks).
Proof.
  induction blocks as [|b blocks IH]; intros r H F; [split; [exact H|constructor]|]. inversion F as [|? ? F1 F2]; subst.
  destruct (OK i o) as [_ S]. destruct (S r b H F1) as [S1 S2]. destruct (IH _ S1 F2) as [I1 I2]. split; [exact I1|]. constructor; assumption.
Qed.
Lemma block_length c (q : quantum) : (c < length q) -> Forall (fun c => length (c_val c) = size) q -> length (block c q) = size.
Proof. intros Hc F. unfold block. rewrite Forall_forall in F. apply F. apply nth_In. exact Hc. Qed.

Lemma over_ok (f : V -> V) curve k p h s (input : quantum) : (forall x, apply_curve A curve x = Ok (f x)) -> follows f k p h ->
  input <> [] -> Forall (fun c => length (c_val c) = size) input ->
  exists p' out, shape_over A new step k p curve s input = Ok (p', out) /\ follows f k p' (continue h input) /\
    map c_val out = map (shaped_last new step f k (continue h input)) (seq 0 (length input)).
Proof.
  intros Hf [Hh ->] Ni Fi. unfold shape_over. cbn [r_channels].
  assert (G : exists h0, continue h input = h0 ++ [input] /\ hist (h0 ++ [input]) /\ channels (h0 ++ [input]) = length input /\
    (if length input =? channels h then mk_pair (channels h) (map (fun c => ups_after k c h) (seq 0 (channels h))) (map (fun c => downs_after f k c h) (seq 0 (channels h)))
     else mk_pair (length input) (ups new k (length input)) (downs new k (length input))) =
    mk_pair (length input) (map (fun c => ups_after k c h0) (seq 0 (length input))) (map (fun c => downs_after f k c h0) (seq 0 (length input)))).
  { assert (One : hist [input]) by (constructor; [split; [reflexivity|exact Fi]|constructor]).
    unfold continue. destruct h as [|q h].
    - exists []. split; [reflexivity|]. split; [exact One|]. split; [reflexivity|]. cbn [channels].
      destruct (length input =? 1) eqn:E; [apply Nat.eqb_eq in E; rewrite E; reflexivity|]. unfold ups, downs, ups_after, downs_after. cbn [map after fold_left Over_Spec.stream]. rewrite !map_const. reflexivity.
    - cbn [channels]. rewrite (Nat.eqb_sym (length input)). destruct (length q =? length input) eqn:E.
      + apply Nat.eqb_eq in E. exists (q :: h). split; [reflexivity|]. split; [|split; [exact E|rewrite E; reflexivity]].
        unfold hist in *. cbn [app channels] in *. change (q :: h ++ [input]) with ((q :: h) ++ [input]). apply Forall_app. split; [exact Hh|]. constructor; [split; [symmetry; exact E|exact Fi]|constructor].
      + exists []. split; [reflexivity|]. split; [exact One|]. split; [reflexivity|]. unfold ups, downs, ups_after, downs_after. cbn [map after fold_left Over_Spec.stream]. rewrite !map_const. reflexivity. }
  destruct G as (h0 & -> & HH & HC & ->). cbn [r_up r_down r_channels].
  rewrite (blocks_of input), resample_map. cbn [bind].
  rewrite (map_res_ok (map_res (apply_curve A curve)) (map f)) by (intros x; apply map_res_ok; exact Hf). cbn [bind]. rewrite map_map, resample_map. cbn [bind].
  set (o := fun c => snd (step (downs_after f k c h0) (map f (snd (step (ups_after k c h0) (block c input)))))).
  (* the lengths *)
  assert (Lo : forall c, c < length input -> length (o c) = size).
  { intros c Hc. unfold hist in HH. apply Forall_app in HH. destruct HH as [HH _]. rewrite HC in HH.
    assert (F : Forall (fun b => length b = 1 * size) (map (block c) h0)).
    { apply Forall_map. apply Forall_forall. intros q Hq. rewrite Forall_forall in HH. destruct (HH q Hq) as [L F]. rewrite Nat.mul_1_l. apply block_length; [lia|exact F]. }
    destruct (OK 1 k) as [N1 S1]. destruct (after_ok 1 k _ _ N1 F) as [O1 L1]. destruct (OK k 1) as [N2 S2].
    assert (F2 : Forall (fun b => length b = k * size) (map (map f) (stream (new 1 k) (map (block c) h0)))).
    { apply Forall_map. eapply Forall_impl; [|exact L1]. intros b Hb. rewrite map_length. exact Hb. }
    destruct (after_ok k 1 _ _ N2 F2) as [O2 _]. unfold o, downs_after, ups_after. destruct (S1 _ (block c input) O1) as [_ L2]; [rewrite Nat.mul_1_l; apply block_length; assumption|].
    destruct (S2 _ (map f (snd (step (after (new 1 k) (map (block c) h0)) (block c input)))) O2) as [_ L3]; [rewrite map_length; exact L2|]. rewrite L3. lia. }
  set (o' := fun c => if c <? length input then o c else repeat (v_zero A) size).
  assert (Eo : map o (seq 0 (length input)) = map o' (seq 0 (length input))).
  { apply map_ext_in. intros c Hc. apply in_seq in Hc. unfold o'. replace (c <? length input) with true by (symmetry; apply Nat.ltb_lt; lia). reflexivity. }
  destruct (copy_ok input s o' 0 Fi) as (out & Ec & Ev). { intros c. unfold o'. destruct (c <? length input) eqn:E; [apply Lo; apply Nat.ltb_lt; exact E|apply repeat_length]. }
  fold o. rewrite Eo, Ec. cbn [bind]. eexists _, out. split; [reflexivity|]. split.
  - split; [exact HH|]. rewrite HC. f_equal; apply map_ext; intros c; unfold ups_after, downs_after; rewrite map_app; cbn [map]; [rewrite after_snoc; reflexivity|].
    rewrite stream_snoc, map_app. cbn [map]. rewrite after_snoc. reflexivity.
  - rewrite Ev, <- Eo. apply map_ext. intros c. unfold o, shaped_last, Over_Spec.oversampled. rewrite map_app. cbn [map]. rewrite stream_snoc, map_app. cbn [map]. rewrite stream_snoc, last_last. reflexivity.
Qed.

Lemma shape_blocks (f : V -> V) curve : (forall x, apply_curve A curve x = Ok (f x)) -> forall (q : quantum) s, exists out, shape_channels A curve s q = Ok out /\ map c_val out = map (map f) (map c_val q).
Proof.
  intros Hf. induction q as [|c q IH]; intros s; [exists []; auto|]. cbn [shape_channels]. rewrite (map_res_ok _ f) by exact Hf. cbn [bind]. destruct (IH (S s)) as (out & -> & E). cbn [bind].
  eexists. split; [reflexivity|]. cbn [map c_val]. rewrite E. reflexivity.
Qed.

(** the node and the ideal node *)
Definition simulates (f : V -> V) (st : oshaper (V := V) (RS := RS)) (h : heard (V := V)) : Prop :=
  o_mode st = h_mode h /\ follows f 2 (o_x2 st) (h_x2 h) /\ follows f 4 (o_x4 st) (h_x4 h).
Lemma quantum_ok f curve skip st h s input output : (forall x, apply_curve A curve x = Ok (f x)) -> o_shaper st = mk_shaper (Some curve) skip -> simulates f st h ->
  input <> [] -> Forall (fun c => length (c_val c) = size) input -> output <> [] ->
  exists st' out, over_quantum A size new step st s input output = Ok (st', out) /\ o_shaper st' = o_shaper st /\
    simulates f st' (fst (ideal_quantum new step skip f h input)) /\ plays size (v_zero A) (input, snd (ideal_quantum new step skip f h input)) out.
Proof.
  intros Hf Hs (Sm & S2 & S4) Ni Fi No. unfold over_quantum, ideal_quantum. rewrite Hs. cbn [sh_silence sh_curve]. destruct (is_silent input && skip) eqn:E.
  - destruct output as [|o os]; [congruence|]. cbn [make_silent from_option bind]. eexists _, _. split; [reflexivity|]. split; [exact Hs|]. split; [split; [exact Sm|split; assumption]|]. reflexivity.
  - rewrite Sm. destruct (h_mode h) eqn:M.
    + destruct (shape_blocks f curve Hf input s) as (out & -> & Ev). cbn [bind]. eexists _, _. split; [reflexivity|]. split; [exact Hs|]. split; [split; [rewrite Sm; symmetry; exact M|split; assumption]|].
      unfold plays. cbn [snd fst]. rewrite Ev, blocks_of, map_map. reflexivity.
    + destruct (over_ok f curve 2 (o_x2 st) (h_x2 h) s input Hf S2 Ni Fi) as (p & out & -> & F & Ev). cbn [bind]. eexists _, _. split; [reflexivity|]. split; [reflexivity|]. cbn [fst snd]. split; [|exact Ev].
      split; [reflexivity|]. split; [exact F|exact S4].
    + destruct (over_ok f curve 4 (o_x4 st) (h_x4 h) s input Hf S4 Ni Fi) as (p & out & -> & F & Ev). cbn [bind]. eexists _, _. split; [reflexivity|]. split; [reflexivity|]. cbn [fst snd]. split; [|exact Ev].
      split; [reflexivity|]. split; [exact S2|exact F].
Qed.
Lemma run_ok f curve skip : (forall x, apply_curve A curve x = Ok (f x)) -> forall ops st h, o_shaper st = mk_shaper (Some curve) skip -> simulates f st h -> Forall (good_op size) ops ->
  exists st' outs, over_run A size new step st ops = Ok (st', outs) /\ Forall2 (plays size (v_zero A)) (ideal_run new step skip f h ops) outs.
Proof.
  intros Hf. induction ops as [|o ops IH]; intros st h Hs S F; [exists st, []; split; [reflexivity|constructor]|]. pose proof (Forall_inv F) as F1. pose proof (Forall_inv_tail F) as F2. destruct o as [s input output|c|m]; cbn [good_op] in F1; [|contradiction|].
  - destruct F1 as (Ni & Fi & No). destruct (quantum_ok f curve skip st h s input output Hf Hs S Ni Fi No) as (st' & out & E & Hs' & S' & P).
    cbn [over_run over_step ideal_run]. rewrite E. cbn [bind]. destruct (ideal_quantum new step skip f h input) as [h' o] eqn:Q. cbn [fst snd] in *.
    destruct (IH st' h' ltac:(congruence) S' F2) as (st2 & outs & -> & R). cbn [bind]. eexists _, _. split; [reflexivity|]. constructor; [exact P|exact R].
  - cbn [over_run over_step ideal_run bind]. destruct (IH (mk_oshaper m (o_shaper st) (o_x2 st) (o_x4 st)) (mk_heard m (h_x2 h) (h_x4 h)) Hs) as (st2 & outs & -> & R); [|exact F2|].
    { destruct S as (_ & S2 & S4). split; [reflexivity|split; assumption]. }
    cbn [bind]. eexists _, _. split; [reflexivity|exact R].
Qed.

(** from the constructor: the curve is set, then anything happens *)
Lemma history m curve (f : V -> V) skip ops : (forall x, apply_curve A curve x = Ok (f x)) -> set_curve A curve = Ok (mk_shaper (Some curve) skip) -> Forall (good_op size) ops ->
  exists st outs, over_run A size new step (oshaper_new new m) (OCurve curve :: ops) = Ok (st, outs) /\ Forall2 (plays size (v_zero A)) (ideal_run new step skip f (mk_heard m [] []) ops) outs.
Proof.
  intros Hf Hc F. cbn [over_run over_step]. rewrite Hc. cbn [bind oshaper_new o_mode o_x2 o_x4].
  destruct (run_ok f curve skip Hf ops (mk_oshaper m (mk_shaper (Some curve) skip) (mk_pair 1 (ups new 2 1) (downs new 2 1)) (mk_pair 1 (ups new 4 1) (downs new 4 1))) (mk_heard m [] [])) as (st & outs & E & R); [reflexivity| |exact F|].
  - split; [reflexivity|]. split; apply follows_new.
  - unfold oshaper_new. cbn [o_mode o_shaper o_x2 o_x4]. rewrite E. cbn [bind]. exists st, outs. split; [reflexivity|exact R].
Qed.

(** a stream without skipped quanta *)
Definition factor (m : oversample) : nat := match m with NoOver => 1 | X2 => 2 | X4 => 4 end.
Lemma ideal_stream (f : V -> V) skip m n : m = X2 \/ m = X4 -> forall (qs : list (nat * quantum * quantum)) (before : list quantum) other2 other4,
  Forall (fun q => let '(_, input, _) := q in length input = n /\ (is_silent input && skip = false)) qs -> Forall (fun q : quantum => length q = n) before ->
  (m = X2 -> other2 = before) -> (m = X4 -> other4 = before) ->
  ideal_run new step skip f (mk_heard m other2 other4) (map (fun q => let '(s, i, o) := q in OQuantum s i o) qs) =
  map (fun j => (snd (fst (nth j qs (0, [], []))), Some (shaped_last new step f (factor m) (before ++ map (fun q => snd (fst q)) (firstn (S j) qs))))) (seq 0 (length qs)).
Proof.
  intros Hm. induction qs as [|[[s i] o] qs IH]; intros before other2 other4 F B E2 E4; [reflexivity|]. inversion F as [|? ? F1 F2]; subst. destruct F1 as [Ln Sk].
  assert (C : continue before i = before ++ [i]). { unfold continue. destruct before as [|q b]; [reflexivity|]. inversion B as [|? ? B1 _]; subst. replace (length q =? length i) with true by (symmetry; apply Nat.eqb_eq; congruence). reflexivity. }
  assert (B' : Forall (fun q : quantum => length q = n) (before ++ [i])) by (apply Forall_app; split; [exact B|repeat constructor; exact Ln]).
  cbn [map ideal_run length seq]. unfold ideal_quantum. rewrite Sk. cbn [h_mode h_x2 h_x4].
  destruct Hm as [-> | ->].
  - rewrite (E2 eq_refl), C. f_equal. rewrite (IH (before ++ [i]) _ _ F2 B') by (intros; congruence). rewrite <- seq_shift, map_map. apply map_ext. intros j. cbn [nth firstn map factor]. rewrite <- app_assoc. reflexivity.
  - rewrite (E4 eq_refl), C. f_equal. rewrite (IH (before ++ [i]) _ _ F2 B') by (intros; congruence). rewrite <- seq_shift, map_map. apply map_ext. intros j. cbn [nth firstn map factor]. rewrite <- app_assoc. reflexivity.
Qed.
Lemma stream_length blocks : forall r, length (stream r blocks) = length blocks.
Proof. induction blocks as [|b blocks IH]; intros r; [reflexivity|]. cbn [Over_Spec.stream length]. rewrite IH. reflexivity. Qed.
Lemma stream_firstn blocks : forall n r, stream r (firstn n blocks) = firstn n (stream r blocks).
Proof. induction blocks as [|b blocks IH]; intros [|n] r; try reflexivity. cbn [firstn Over_Spec.stream]. rewrite IH. reflexivity. Qed.
Lemma last_firstn {X} (d : X) l : forall j, j < length l -> last (firstn (S j) l) d = nth j l d.
Proof.
  induction l as [|x l IH]; intros j H; [cbn in H; lia|]. destruct j as [|j]; [destruct l; reflexivity|]. cbn [nth]. rewrite <- IH by (cbn in H; lia). cbn [firstn]. destruct l as [|y l]; [cbn in H; lia|]. reflexivity.
Qed.
Lemma shaped_last_at (f : V -> V) k c (h : list quantum) j : j < length h -> shaped_last new step f k (firstn (S j) h) c = nth j (oversampled f k (map (block c) h)) [].
Proof.
  intros H. unfold shaped_last, Over_Spec.oversampled. rewrite <- firstn_map, stream_firstn, <- firstn_map, stream_firstn. apply last_firstn. rewrite stream_length, map_length, stream_length, map_length. exact H.
Qed.

Lemma Forall2_length {X Y} (P : X -> Y -> Prop) l l' : Forall2 P l l' -> length l = length l'.
Proof. induction 1; cbn; congruence. Qed.
Lemma whole_stream m curve (f : V -> V) skip n (qs : list (nat * quantum * quantum)) : m = X2 \/ m = X4 ->
  (forall x, apply_curve A curve x = Ok (f x)) -> set_curve A curve = Ok (mk_shaper (Some curve) skip) -> 0 < n ->
  Forall (fun q => let '(_, input, output) := q in length input = n /\ Forall (fun c => length (c_val c) = size) input /\ output <> [] /\ (skip = false \/ is_silent input = false)) qs ->
  exists st outs, over_run A size new step (oshaper_new new m) (OCurve curve :: map (fun q => let '(s, i, o) := q in OQuantum s i o) qs) = Ok (st, outs) /\ length outs = length qs /\
    (forall j, j < length qs -> length (nth j outs []) = n) /\
    forall c, c < n -> map (block c) outs = oversampled f (factor m) (map (fun q => block c (snd (fst q))) qs).
Proof.
  intros Hm Hf Hc Hn F.
  destruct (history m curve f skip (map (fun q => let '(s, i, o) := q in OQuantum s i o) qs) Hf Hc) as (st & outs & E & R).
  { apply Forall_map. eapply Forall_impl; [|exact F]. intros [[s i] o] (L & S & O & _). cbn [good_op]. split; [intros ->; cbn in L; lia|]. split; assumption. }
  rewrite (ideal_stream f skip m n Hm qs [] [] []) in R; [|eapply Forall_impl; [|exact F]; intros [[s i] o] (L & _ & _ & [-> | ->]); split; auto using andb_false_r|constructor|auto|auto].
  assert (Len : length outs = length qs) by (rewrite <- (Forall2_length _ _ _ R), map_length, seq_length; reflexivity).
  assert (P : forall j, j < length qs -> map c_val (nth j outs []) = map (shaped_last new step f (factor m) (map (fun q => snd (fst q)) (firstn (S j) qs))) (seq 0 n)).
  { intros j Hj. set (g := fun j => (snd (fst (nth j qs (0, [], []))), Some (shaped_last new step f (factor m) ([] ++ map (fun q => snd (fst q)) (firstn (S j) qs))))) in R.
    assert (G : forall (l : list nat) o, Forall2 (plays size (v_zero A)) (map g l) o -> forall j, j < length l -> plays size (v_zero A) (g (nth j l 0)) (nth j o [])).
    { induction l as [|x l IHl]; intros o Ho j' Hj'; [cbn in Hj'; lia|]. inversion Ho as [|? ? ? ? H1 H2]; subst. destruct j' as [|j']; [exact H1|]. cbn [nth]. apply IHl; [exact H2|cbn in Hj'; lia]. }
    specialize (G _ _ R j ltac:(rewrite seq_length; exact Hj)). rewrite seq_nth in G by exact Hj. cbn [Nat.add] in G. unfold g, plays in G. cbn [snd fst app] in G. rewrite G. f_equal. f_equal.
    rewrite Forall_forall in F. specialize (F _ (nth_In qs (0, [], []) Hj)). destruct (nth j qs (0, [], [])) as [[s i] o]. cbn [fst snd]. apply F. }
  exists st, outs. split; [exact E|]. split; [exact Len|]. split.
  - intros j Hj. rewrite <- (map_length c_val), (P j Hj), map_length, seq_length. reflexivity.
  - intros c Hc'. apply nth_ext with (d := block c []) (d' := []).
    + rewrite map_length, Len. unfold Over_Spec.oversampled. rewrite stream_length, map_length, stream_length, map_length. reflexivity.
    + intros j Hj. rewrite map_length, Len in Hj. rewrite map_nth. pose proof (P j Hj) as Q.
      assert (Q2 : nth c (map c_val (nth j outs [])) (c_val (mk_chan 0 (@nil V))) = nth c (map (shaped_last new step f (factor m) (map (fun q => snd (fst q)) (firstn (S j) qs))) (seq 0 n)) []) by (rewrite Q; reflexivity).
      rewrite map_nth in Q2. unfold block. rewrite Q2.
      rewrite nth_indep with (d' := shaped_last new step f (factor m) (map (fun q => snd (fst q)) (firstn (S j) qs)) 0) by (rewrite map_length, seq_length; exact Hc').
      rewrite map_nth, seq_nth by exact Hc'. cbn [Nat.add]. rewrite <- firstn_map, shaped_last_at by (rewrite map_length; exact Hj). rewrite map_map. reflexivity.
Qed.
End Proofs.
