(** Delay: the ring buffer holds the last quanta of the history (any arithmetic). *)
From Coq Require Import List Arith Bool ZArith Lia.
From Verif Require Import Common_Model Arith_Model Source_Model Delay_Model Delay_Spec.
Import ListNotations.

Lemma index_Some : forall X (l : list X) i x, nth_error l i = Some x -> index l i = Ok x.
Proof. intros X l i x H. unfold index. rewrite H. reflexivity. Qed.
Lemma map_res_ok : forall X Y (f : X -> res Y) (g : X -> Y) l, (forall x, In x l -> f x = Ok (g x)) -> map_res f l = Ok (map g l).
Proof. intros X Y f g l. induction l as [|x l IH]; intros H; [reflexivity|]. cbn [map_res map]. rewrite H by (left; reflexivity). cbn [bind]. rewrite IH by (intros y Hy; apply H; right; exact Hy). reflexivity. Qed.
Lemma map_res_nth : forall X Y (f : X -> res Y) l (d : X) (g : nat -> Y), (forall i, i < length l -> f (nth i l d) = Ok (g i)) -> map_res f l = Ok (map g (seq 0 (length l))).
Proof.
  intros X Y f l d. induction l as [|x l IH]; intros g H; [reflexivity|]. cbn [map_res length seq map]. assert (E0 : f x = Ok (g 0)) by (apply (H 0); cbn [length]; lia). rewrite E0. cbn [bind]. rewrite (IH (fun i => g (S i))) by (intros i Hi; apply (H (S i)); cbn [length]; lia).
  cbn [bind]. rewrite <- seq_shift, map_map. reflexivity.
Qed.
Lemma update_length : forall X (f : X -> X) l i, length (update i f l) = length l.
Proof. intros X f l. induction l as [|x l IH]; intros [|i]; cbn [update length]; try reflexivity. rewrite IH. reflexivity. Qed.
Lemma update_nth : forall X (f : X -> X) l i j, nth_error (update i f l) j = if i =? j then option_map f (nth_error l j) else nth_error l j.
Proof.
  intros X f l. induction l as [|x l IH]; intros [|i] [|j]; cbn [update nth_error Nat.eqb]; try reflexivity; try apply IH.
  destruct (i =? j); reflexivity.
Qed.
Lemma update_Forall : forall X (P : X -> Prop) f l i, Forall P l -> (forall x, P x -> P (f x)) -> Forall P (update i f l).
Proof. intros X P f l. induction l as [|x l IH]; intros [|i] H Hf; cbn [update]; auto; apply Forall_cons_iff in H; destruct H; apply Forall_cons; auto. Qed.

Section Ring.
Context {T V : Type}.
Variable A : arith T V.
Variable sr : V.
Variable remix : nat -> list (list V) -> list (list V).
Notation zero := (v_zero A).

(** [C] channels of 128 samples *)
Definition good (C : nat) (b : list (list V)) : Prop := length b = C /\ Forall (fun ch => length ch = 128) b.
Definition zeros (b : list (list V)) : Prop := Forall (Forall (eq zero)) b.
Hypothesis remix_good : forall C n b, good C b -> 0 < n -> good n (remix n b).
Hypothesis remix_zeros : forall C n b, good C b -> zeros b -> 0 < n -> zeros (remix n b).

Variable N : nat.
Hypothesis HN : 0 < N.

Definition slot (hist : list (list (list V))) (j : Z) (b : list (list V)) : Prop := if (j <? 0)%Z then zeros b else nth_error hist (Z.to_nat j) = Some b.
Record inv (s : @delay V) (hist : list (list (list V))) : Prop := {
  i_cap : d_capacity s = N;
  i_len : length (d_ring s) <= N;
  i_chan : 0 < channels hist;
  i_ring : Forall (good (channels hist)) (fill_ring A s);
  i_hist : Forall (good (channels hist)) hist;
  i_windex : d_windex s = length hist mod N;
  i_slot : forall j, (Z.of_nat (length hist) - Z.of_nat N <= j < Z.of_nat (length hist))%Z -> exists b, nth_error (fill_ring A s) (Z.to_nat (j mod Z.of_nat N)) = Some b /\ slot hist j b
}.

Lemma fill_length : forall s hist, inv s hist -> length (fill_ring A s) = N.
Proof. intros s hist H. unfold fill_ring. rewrite (i_cap _ _ H). pose proof (i_len _ _ H). destruct (Nat.ltb_spec (length (d_ring s)) N); [|lia]. rewrite app_length, repeat_length. lia. Qed.
Lemma fill_full : forall s, d_capacity s = N -> length (d_ring s) = N -> fill_ring A s = d_ring s.
Proof. intros s H1 H2. unfold fill_ring. rewrite H1, H2, Nat.ltb_irrefl. reflexivity. Qed.

Lemma inv_new : inv (delay_new N) [].
Proof.
  assert (F : fill_ring A (delay_new N) = repeat (silent_block A) N). { unfold fill_ring. cbn [delay_new d_ring d_capacity length app]. destruct (Nat.ltb_spec 0 N); [|lia]. rewrite Nat.sub_0_r. reflexivity. }
  split; cbn [delay_new d_capacity d_ring d_windex length]; try lia.
  - change (channels []) with 1. lia.
  - rewrite F. change (channels []) with 1. apply Forall_forall. intros b Hb. apply repeat_spec in Hb. subst b. split; [reflexivity|]. apply Forall_cons; [apply repeat_length|apply Forall_nil].
  - apply Forall_nil.
  - symmetry. apply Nat.mod_0_l. lia.
  - intros j Hj. rewrite F. exists (silent_block A). assert (0 <= j mod Z.of_nat N < Z.of_nat N)%Z by (apply Z.mod_pos_bound; lia). split.
    + rewrite (nth_error_nth' _ (silent_block A)) by (rewrite repeat_length; lia). f_equal. apply (repeat_spec N). apply nth_In. rewrite repeat_length. lia.
    + unfold slot. replace (j <? 0)%Z with true by (symmetry; apply Z.ltb_lt; lia). apply Forall_cons; [|apply Forall_nil]. apply Forall_forall. intros x Hx. apply repeat_spec in Hx. congruence.
Qed.

Lemma last_app : forall X (l : list X) x d, last (l ++ [x]) d = x.
Proof. intros. apply last_last. Qed.
Lemma record_channels : forall hist input, channels (record remix hist input) = length input.
Proof. intros hist input. unfold channels at 1, record. rewrite last_last. reflexivity. Qed.
Lemma record_length : forall hist input, length (record remix hist input) = S (length hist).
Proof using. clear remix_good remix_zeros HN. intros hist input. unfold record. rewrite app_length. cbn [length]. destruct (_ =? _); rewrite ?map_length; lia. Qed.

Lemma mod_S : forall q, (q + 1) mod N = (q mod N + 1) mod N.
Proof using HN. clear remix_good remix_zeros. intros q. rewrite Nat.add_mod_idemp_l by lia. reflexivity. Qed.
Lemma to_nat_mod : forall q, Z.to_nat (Z.of_nat q mod Z.of_nat N) = q mod N.
Proof using HN. clear remix_good remix_zeros. intros q. rewrite <- Nat2Z.inj_mod, Nat2Z.id. reflexivity. Qed.

Lemma writer_inv : forall s hist input frame, inv s hist -> 0 < length input -> Forall (fun ch => length ch = 128) input ->
  exists s', writer A remix s input frame = Ok s' /\ inv s' (record remix hist input) /\ d_latest s' = Some frame /\ d_rindex s' = d_rindex s /\ d_in_cycle s' = d_in_cycle s /\ d_last s' = d_last s /\ d_checked s' = d_checked s.
Proof.
  intros s hist input frame I Hn Hi. pose proof (fill_length s hist I) as HL. unfold writer.
  assert (F0 : exists b0, nth_error (fill_ring A s) 0 = Some b0 /\ good (channels hist) b0).
  { destruct (nth_error (fill_ring A s) 0) as [b0|] eqn:E; [|apply nth_error_None in E; lia]. exists b0. split; [reflexivity|]. pose proof (i_ring _ _ I) as F. rewrite Forall_forall in F. apply F. apply nth_error_In in E. exact E. }
  destruct F0 as (b0 & E0 & G0). rewrite (index_Some _ _ _ _ E0). cbn [bind]. destruct G0 as [G0 _]. rewrite G0.
  set (ring := if channels hist =? length input then fill_ring A s else map (remix (length input)) (fill_ring A s)).
  set (h := if channels hist =? length input then hist else map (remix (length input)) hist).
  assert (Lr : length ring = N) by (unfold ring; destruct (_ =? _); rewrite ?map_length; exact HL).
  assert (Lh : length h = length hist) by (unfold h; destruct (_ =? _); rewrite ?map_length; reflexivity).
  assert (Gr : Forall (good (length input)) ring). { unfold ring. destruct (Nat.eqb_spec (channels hist) (length input)) as [E|E]; [rewrite <- E; exact (i_ring _ _ I)|]. apply Forall_map. eapply Forall_impl; [|exact (i_ring _ _ I)]. intros b Hb. eapply remix_good; [exact Hb|exact Hn]. }
  assert (Gh : Forall (good (length input)) h). { unfold h. destruct (Nat.eqb_spec (channels hist) (length input)) as [E|E]; [rewrite <- E; exact (i_hist _ _ I)|]. apply Forall_map. eapply Forall_impl; [|exact (i_hist _ _ I)]. intros b Hb. eapply remix_good; [exact Hb|exact Hn]. }
  assert (Sl : forall j, (Z.of_nat (length hist) - Z.of_nat N <= j < Z.of_nat (length hist))%Z -> exists b, nth_error ring (Z.to_nat (j mod Z.of_nat N)) = Some b /\ slot h j b).
  { intros j Hj. destruct (i_slot _ _ I j Hj) as (b & E & S). unfold ring, h. destruct (_ =? _); [exists b; auto|]. exists (remix (length input) b). split; [apply map_nth_error; exact E|].
    unfold slot in *. destruct (j <? 0)%Z; [|apply map_nth_error; exact S]. eapply remix_zeros; [|exact S|exact Hn]. pose proof (i_ring _ _ I) as F. rewrite Forall_forall in F. apply F. eapply nth_error_In. exact E. }
  unfold store. rewrite Lr. pose proof (i_windex _ _ I) as W. assert (Hw : d_windex s < N) by (rewrite W; apply Nat.mod_upper_bound; lia). destruct (Nat.ltb_spec (d_windex s) N); [|lia]. cbn [bind].
  rewrite (i_cap _ _ I). unfold check. destruct (Nat.ltb_spec 0 N); [|lia]. cbn [bind]. eexists. split; [reflexivity|]. split; [|cbn [d_latest d_rindex d_in_cycle d_last d_checked]; auto].
  assert (Er : record remix hist input = h ++ [input]) by reflexivity.
  match goal with |- inv ?s' _ => set (s2 := s') end. assert (F2 : fill_ring A s2 = update (d_windex s) (fun _ => input) ring). { apply fill_full; [reflexivity|]. cbn [s2 d_ring]. rewrite update_length. exact Lr. }
  split; rewrite ?record_channels, ?record_length; try assumption.
  - reflexivity.
  - cbn [s2 d_ring]. rewrite update_length. lia.
  - rewrite F2. apply update_Forall; [exact Gr|]. intros _ _. split; [reflexivity|exact Hi].
  - rewrite Er. apply Forall_app. split; [exact Gh|]. apply Forall_cons; [|apply Forall_nil]. split; [reflexivity|exact Hi].
  - cbn [s2 d_windex]. rewrite W. replace (S (length hist)) with (length hist + 1) by lia. symmetry. apply mod_S.
  - intros j Hj. rewrite F2, update_nth. destruct (Z.eq_dec j (Z.of_nat (length hist))) as [->|Ne].
    + rewrite to_nat_mod, W, Nat.eqb_refl. destruct (nth_error ring (length hist mod N)) eqn:E; [|apply nth_error_None in E; rewrite <- W in E; lia]. exists input. split; [exact (f_equal (option_map (fun _ => input)) E)|].
      unfold slot. destruct (Z.ltb_spec (Z.of_nat (length hist)) 0); [lia|]. rewrite Er, nth_error_app2 by (rewrite Nat2Z.id, Lh; lia). rewrite Nat2Z.id, Lh, Nat.sub_diag. reflexivity.
    + destruct (Sl j ltac:(lia)) as (b & E & S). exists b.
      assert (Hd : d_windex s <> Z.to_nat (j mod Z.of_nat N)).
      { rewrite W, <- to_nat_mod. intros E2. apply Z2Nat.inj in E2; [|apply Z.mod_pos_bound; lia|apply Z.mod_pos_bound; lia].
        assert (Hm : ((Z.of_nat (length hist) - j) mod Z.of_nat N = 0)%Z) by (rewrite Zminus_mod, E2, Z.sub_diag; reflexivity). rewrite Z.mod_small in Hm by lia. lia. }
      apply Nat.eqb_neq in Hd. rewrite Hd. split; [exact E|]. unfold slot in *. destruct (Z.ltb_spec j 0); [exact S|]. rewrite Er, nth_error_app1 by (rewrite Lh; lia). exact S.
Qed.

(** ** Reading *)

(** What is in the ring at a frame: after the last quantum written, the ring repeats. *)
Definition seen (hist : list (list (list V))) (c : nat) (t : Z) : V :=
  signal zero hist c (if (t / 128 <? Z.of_nat (length hist))%Z then t else t - 128 * Z.of_nat N)%Z.

Lemma slot_sample : forall hist j b c i, slot hist j b -> good (channels hist) b -> c < channels hist -> (0 <= i < 128)%Z ->
  exists ch, nth_error b c = Some ch /\ index_i32 ch i = Ok (signal zero hist c (128 * j + i)).
Proof.
  intros hist j b c i S [G1 G2] Hc Hi. destruct (nth_error b c) as [ch|] eqn:E; [|apply nth_error_None in E; lia]. exists ch. split; [reflexivity|]. rewrite Forall_forall in G2. pose proof (G2 ch (nth_error_In _ _ E)) as L.
  unfold index_i32. rewrite L. destruct (Z.leb_spec 0 i); [|lia]. destruct (Z.ltb_spec i (Z.of_nat 128)); [|lia]. cbn [andb]. unfold index, signal, slot in *.
  rewrite (nth_error_nth' ch zero) by lia. cbn [from_option]. f_equal. destruct (Z.ltb_spec j 0).
  - destruct (Z.ltb_spec (128 * j + i) 0); [|lia]. unfold zeros in S. rewrite Forall_forall in S. specialize (S ch (nth_error_In _ _ E)). rewrite Forall_forall in S. symmetry. apply S. apply nth_In. lia.
  - destruct (Z.ltb_spec (128 * j + i) 0); [lia|]. replace (128 * j + i)%Z with (i + j * 128)%Z by lia. rewrite Z.mod_add, Z.div_add by lia. rewrite (Z.div_small i), (Z.mod_small i) by lia. rewrite Z.add_0_l. rewrite (nth_error_nth _ _ [] S), (nth_error_nth _ _ [] E). reflexivity.
Qed.

Lemma sample_seen : forall s hist c t, inv s hist -> c < channels hist -> (Z.of_nat (length hist) - Z.of_nat N <= t / 128 < Z.of_nat (length hist) + Z.of_nat N)%Z ->
  ring_sample (fill_ring A s) ((t / 128) mod Z.of_nat N) (t mod 128) c = Ok (seen hist c t).
Proof.
  intros s hist c t I Hc Ht. unfold ring_sample, seen. pose proof (fill_length s hist I) as HL. set (j := (t / 128)%Z) in *. assert (Hm : (0 <= t mod 128 < 128)%Z) by (apply Z.mod_pos_bound; lia).
  assert (Et : t = (128 * j + t mod 128)%Z) by (apply Z.div_mod; lia). assert (Hj : (0 <= j mod Z.of_nat N < Z.of_nat N)%Z) by (apply Z.mod_pos_bound; lia).
  set (v := if (j <? Z.of_nat (length hist))%Z then j else (j - Z.of_nat N)%Z). assert (Ev : (j mod Z.of_nat N = v mod Z.of_nat N)%Z). { unfold v. destruct (_ <? _)%Z; [reflexivity|]. replace (j - Z.of_nat N)%Z with (j + (-1) * Z.of_nat N)%Z by lia. rewrite Z.mod_add by lia. reflexivity. }
  assert (Hv : (Z.of_nat (length hist) - Z.of_nat N <= v < Z.of_nat (length hist))%Z) by (unfold v; destruct (Z.ltb_spec j (Z.of_nat (length hist))); lia).
  destruct (i_slot _ _ I v Hv) as (b & E & S). rewrite <- Ev in E. unfold index_i32 at 1. rewrite HL. destruct (Z.leb_spec 0 (j mod Z.of_nat N)); [|lia]. destruct (Z.ltb_spec (j mod Z.of_nat N) (Z.of_nat N)); [|lia]. cbn [andb]. rewrite (index_Some _ _ _ _ E). cbn [bind].
  pose proof (i_ring _ _ I) as F. rewrite Forall_forall in F. destruct (slot_sample hist v b c (t mod 128) S (F b (nth_error_In _ _ E)) Hc Hm) as (ch & E2 & E3). rewrite (index_Some _ _ _ _ E2). cbn [bind]. rewrite E3. f_equal. f_equal. unfold v. destruct (_ <? _)%Z; lia.
Qed.

Definition address (t : Z) : Z * Z := (((t / 128) mod Z.of_nat N)%Z, (t mod 128)%Z).
Lemma next_address_ok : forall t, next_address (Z.of_nat N) (fst (address t)) (snd (address t)) = address (t + 1).
Proof using HN.
  clear remix_good remix_zeros. intros t. unfold next_address, address. cbn [fst snd]. assert (Et : t = (128 * (t / 128) + t mod 128)%Z) by (apply Z.div_mod; lia). assert (Hm : (0 <= t mod 128 < 128)%Z) by (apply Z.mod_pos_bound; lia). set (j := (t / 128)%Z) in *. set (m := (t mod 128)%Z) in *.
  rewrite Et. destruct (Z.leb_spec 128 (m + 1)).
  - replace (128 * j + m + 1)%Z with (0 + (j + 1) * 128)%Z by lia. rewrite Z.mod_add, Z.div_add by lia. change (0 / 128)%Z with 0%Z. change (0 mod 128)%Z with 0%Z. rewrite Z.add_0_l, Zplus_mod_idemp_l. reflexivity.
  - replace (128 * j + m + 1)%Z with (m + 1 + j * 128)%Z by lia. rewrite Z.mod_add, Z.div_add by lia. rewrite (Z.div_small (m + 1)), (Z.mod_small (m + 1)) by lia. reflexivity.
Qed.

(** The value at frame [t] with factor [k] *)
Definition value (hist : list (list (list V))) (c : nat) (t : Z) (k : V) : V := v_fma A (v_sub A (v_one A) k) (seen hist c t) (v_mul A k (seen hist c (t + 1))).
Lemma read_seen : forall s hist c t k, inv s hist -> c < channels hist ->
  (Z.of_nat (length hist) - Z.of_nat N <= t / 128)%Z -> ((t + 1) / 128 < Z.of_nat (length hist) + Z.of_nat N)%Z ->
  read_sample A (fill_ring A s) c (address t, k) = Ok (value hist c t k).
Proof.
  intros s hist c t k I Hc H1 H2. unfold read_sample. pose proof (next_address_ok t) as E. unfold address in *. cbn [fst snd] in E. rewrite (fill_length s hist I), E.
  assert (t / 128 <= (t + 1) / 128)%Z by (apply Z.div_le_mono; lia). rewrite !(sample_seen s hist) by (try assumption; lia). reflexivity.
Qed.

Lemma constant_infos_nth : forall n t k i, i < n -> nth_error (constant_infos (Z.of_nat N) n (address t, k)) i = Some (address (t + Z.of_nat i), k : V).
Proof using HN.
  clear remix_good remix_zeros. induction n as [|n IH]; intros t k i Hi; [lia|]. cbn [constant_infos]. pose proof (next_address_ok t) as E. unfold address in *. cbn [fst snd] in *. rewrite E. cbn [fst snd]. destruct i as [|i].
  - cbn [nth_error]. rewrite Z.add_0_r. reflexivity.
  - cbn [nth_error]. rewrite IH by lia. replace (t + Z.of_nat (S i))%Z with (t + 1 + Z.of_nat i)%Z by lia. reflexivity.
Qed.
Lemma constant_infos_length : forall n (i : Z * Z * V), length (constant_infos (Z.of_nat N) n i) = n.
Proof. induction n as [|n IH]; intros [[b f] k]; [reflexivity|]. cbn [constant_infos length]. rewrite IH. reflexivity. Qed.

(** The address computed from the floored position, relative to the reader's index *)
Lemma address_of : forall Q P, (- 128 * Z.of_nat N < 128 * (P / 128) + 128)%Z -> (P < 128)%Z ->
  let b := (Z.of_nat (Q mod N) + P / 128)%Z in
  let o := Z.rem P 128 in let o := if (o =? 0)%Z then (-128)%Z else o in
  ((if (b <? 0)%Z then (b + Z.of_nat N)%Z else b), (if (o <=? 0)%Z then (128 + o)%Z else o)) = address (128 * Z.of_nat Q + P).
Proof using HN.
  clear remix_good remix_zeros. intros Q P H1 H2 b o o'. unfold address. f_equal.
  - replace (128 * Z.of_nat Q + P)%Z with (P + Z.of_nat Q * 128)%Z by lia. rewrite Z.div_add by lia. assert (Hq : (0 <= Z.of_nat (Q mod N) < Z.of_nat N)%Z) by (pose proof (Nat.mod_upper_bound Q N ltac:(lia)); lia).
    assert (Hp : (P / 128 <= 0)%Z) by (apply Z.lt_succ_r, Z.div_lt_upper_bound; lia). assert (Hp2 : (- Z.of_nat N <= P / 128)%Z) by lia.
    rewrite (Z.add_comm (P / 128)). rewrite <- Zplus_mod_idemp_l, <- Nat2Z.inj_mod. fold b. destruct (Z.ltb_spec b 0).
    + rewrite <- (Z.mod_small (b + Z.of_nat N) (Z.of_nat N)) by (unfold b in *; lia). replace (b + Z.of_nat N)%Z with (b + 1 * Z.of_nat N)%Z by lia. rewrite Z.mod_add by lia. reflexivity.
    + symmetry. apply Z.mod_small. unfold b in *. lia.
  - replace (128 * Z.of_nat Q + P)%Z with (P + Z.of_nat Q * 128)%Z by lia. rewrite Z.mod_add by lia. unfold o', o. destruct (Z.lt_ge_cases P 0) as [Neg|Pos].
    + assert (Er : Z.rem P 128 = (- ((- P) mod 128))%Z). { replace P with (- - P)%Z at 1 by lia. rewrite Z.rem_opp_l by lia. rewrite Z.rem_mod_nonneg by lia. reflexivity. }
      rewrite Er. assert (Hm : (0 <= (- P) mod 128 < 128)%Z) by (apply Z.mod_pos_bound; lia). destruct (Z.eq_dec ((- P) mod 128) 0) as [E|E].
      * rewrite E. change (- 0 =? 0)%Z with true. cbv iota. change (-128 <=? 0)%Z with true. cbv iota. replace P with (- - P)%Z by lia. rewrite Z_mod_zero_opp_full by exact E. reflexivity.
      * destruct (Z.eqb_spec (- ((- P) mod 128)) 0); [lia|]. destruct (Z.leb_spec (- ((- P) mod 128)) 0); [|lia]. replace P with (- - P)%Z at 2 by lia. rewrite (Z_mod_nz_opp_full (- P)) by exact E. lia.
    + rewrite Z.rem_mod_nonneg by lia. rewrite Z.mod_small by lia. destruct (Z.eqb_spec P 0) as [->|]; [reflexivity|]. destruct (Z.leb_spec P 0); [lia|]. reflexivity.
Qed.

(** The reader's quantum: [pos i] is the frame read for sample [i] and its factor *)
Lemma reader_seen : forall s hist delays frame (pos : nat -> Z * V), inv s hist ->
  let in_cycle := d_in_cycle s || negb (match d_latest s with Some f => (f =? frame)%Z | None => false end) in
  length (all_infos A sr delays in_cycle (Z.of_nat N) (Z.of_nat (d_rindex s))) = 128 ->
  (forall i, i < 128 -> nth_error (all_infos A sr delays in_cycle (Z.of_nat N) (Z.of_nat (d_rindex s))) i = Some (address (fst (pos i)), snd (pos i)) /\
     (Z.of_nat (length hist) - Z.of_nat N <= fst (pos i) / 128)%Z /\ ((fst (pos i) + 1) / 128 < Z.of_nat (length hist) + Z.of_nat N)%Z) ->
  let chs := map (fun c => map (fun i => value hist c (fst (pos i)) (snd (pos i))) (seq 0 128)) (seq 0 (channels hist)) in
  let out := if existsb (existsb (v_normal A)) chs then chs else silent_block A in
  let finished := match d_checked s with Some i => i =? d_rindex s | None => false end in
  exists s', reader A sr s delays frame = Ok (s', (out, negb finished)) /\ inv s' hist /\ d_latest s' = d_latest s /\ d_rindex s' = (if finished then d_rindex s else (d_rindex s + 1) mod N) /\ d_in_cycle s' = in_cycle /\
    d_last s' = d_last s /\ d_checked s' = match d_checked s with Some i => Some i | None => d_last s end.
Proof.
  intros s hist delays frame pos I in_cycle Hlen Hpos chs out finished. pose proof (fill_length s hist I) as HL. unfold reader. fold in_cycle. rewrite HL.
  assert (F0 : exists b0, nth_error (fill_ring A s) 0 = Some b0 /\ good (channels hist) b0).
  { destruct (nth_error (fill_ring A s) 0) as [b0|] eqn:E; [|apply nth_error_None in E; lia]. exists b0. split; [reflexivity|]. pose proof (i_ring _ _ I) as F. rewrite Forall_forall in F. apply F. apply nth_error_In in E. exact E. }
  destruct F0 as (b0 & E0 & [G0 _]). rewrite (index_Some _ _ _ _ E0). cbn [bind]. rewrite G0.
  assert (Ec : map_res (fun c => map_res (read_sample A (fill_ring A s) c) (all_infos A sr delays in_cycle (Z.of_nat N) (Z.of_nat (d_rindex s)))) (seq 0 (channels hist)) = Ok chs).
  { apply map_res_ok. intros c Hc. apply in_seq in Hc. rewrite <- Hlen. apply (map_res_nth _ _ _ _ (0%Z, 0%Z, v_zero A)). intros i Hi. rewrite Hlen in Hi. destruct (Hpos i Hi) as (E & H1 & H2). rewrite (nth_error_nth _ _ _ E). apply read_seen; try assumption; lia. }
  rewrite Ec. cbn [bind]. fold out.
  assert (In' : forall ri ic lw ck, inv (mk_delay (fill_ring A s) (d_capacity s) (d_windex s) (d_latest s) ri ic lw ck) hist).
  { intros ri ic lw ck. match goal with |- inv ?x _ => assert (F : fill_ring A x = fill_ring A s) by (apply fill_full; [exact (i_cap _ _ I)|exact HL]) end. split; cbn [d_capacity d_ring d_windex]; rewrite ?F; try apply I. rewrite HL. lia. }
  change (match d_checked s with Some i => i =? d_rindex s | None => false end) with finished. destruct finished eqn:Ef.
  - eexists. split; [reflexivity|]. split; [apply In'|]. cbn [d_latest d_rindex d_in_cycle d_last d_checked]. repeat split; auto. destruct (d_checked s); [reflexivity|]. unfold finished in Ef. discriminate.
  - rewrite (i_cap _ _ I). unfold check. destruct (Nat.ltb_spec 0 N); [|lia]. cbn [bind]. eexists. split; [reflexivity|]. rewrite <- (i_cap _ _ I) at 1. split; [apply In'|]. cbn [d_latest d_rindex d_in_cycle d_last d_checked]. repeat split; auto.
Qed.
End Ring.
