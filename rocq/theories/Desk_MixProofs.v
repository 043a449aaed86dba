From Coq Require Import List Arith Bool ZArith Lia.
From Verif Require Import Common_Model Arith_Model Quantum_Model Route_Model Route_Spec Source_Model Graph_Model Graph_Spec Desk_Model Desk_Spec.
From Verif Require Param_Model.
Import ListNotations.

Section Mix.
Context {T V : Type}.
Variable A : arith T V.
Variable PO : @Param_Model.param_ops T V.
Variable sr : V.
Notation E := (desk_env A PO sr).
Notation O := (sops_of A).
Notation sil := (silence_chan O RQ).
Notation sum2 := (sum2 (v_add A)).
Notation sum := (sum (v_add A)).

(** a channel, a signal with one channel *)
Definition holds_chan (c : chan V) (x : option (list V)) : Prop :=
  match x with None => c = sil | Some v => c_name c <> 0 /\ c_val c = v /\ length v = RQ end.
Definition holds (q : signal V) (x : option (list V)) : Prop := exists c, q_chans q = [c] /\ holds_chan c x.

Lemma apart_chan k c x : holds_chan c x -> exists c', apart k [c] = [c'] /\ holds_chan c' x.
Proof.
  intros H. unfold apart. cbn [map]. eexists. split; [reflexivity|]. destruct (Nat.eqb_spec (c_name c) 0) as [X|X]; [exact H|].
  destruct x as [v|]; [|unfold holds_chan in H; subst c; cbn in X; congruence]. destruct H as (H1 & H2 & H3). cbn. repeat split; [lia|exact H2|exact H3].
Qed.

Lemma zip_combine (f : V -> V -> V) : forall a b, length a = length b -> zip_mut f a b = map (fun p => f (fst p) (snd p)) (combine a b).
Proof. induction a as [|x a IH]; intros [|y b] H; try discriminate; [reflexivity|]. cbn. f_equal. apply IH. cbn in H. lia. Qed.

Lemma chan_add_holds s a b x y : s <> 0 -> holds_chan a x -> holds_chan b y -> exists s' c, chan_add O s a b = (s', c) /\ s' <> 0 /\ holds_chan c (sum2 x y).
Proof.
  intros Hs Ha Hb. unfold chan_add, chan_is_silent. destruct x as [v|].
  - destruct Ha as (A1 & A2 & A3). destruct (Nat.eqb_spec (c_name a) 0); [contradiction|]. destruct y as [w|].
    + destruct Hb as (B1 & B2 & B3). destruct (Nat.eqb_spec (c_name b) 0); [contradiction|]. cbn [negb]. unfold cwrite. eexists _, _. split; [reflexivity|]. split; [lia|].
      cbn. split; [exact Hs|]. split; [rewrite A2, B2; apply zip_combine; congruence|]. rewrite map_length, combine_length. lia.
    + cbn in Hb. subst b. cbn. exists s, a. split; [reflexivity|]. split; [exact Hs|]. cbn. auto.
  - cbn in Ha. subst a. cbn. exists s, b. split; [reflexivity|]. split; [exact Hs|]. destruct y; exact Hb.
Qed.

(** the input of a gain node *)
Lemma mono_input q x : holds q x -> exists q', mixed E node_config [q] = q' /\ holds q' x /\ q_single q' = false.
Proof.
  intros (c & Hc & H). cbn [mixed fold_left]. eexists. split; [reflexivity|]. cbn [silence qadd desk_env]. unfold signal_add. rewrite Hc. cbn [silent_signal q_chans].
  change (max_name [sil]) with 0.
  destruct (apart_chan 0 c x H) as (c' & -> & H'). unfold add. cbn [node_config cc_interp cc_mode new_channels length Nat.max all_channels_identical forallb].
  destruct (chan_add_holds (S (0 + max_name [c'])) sil c' None x ltac:(lia) eq_refl H') as (s' & c2 & -> & _ & H2). unfold mix. cbn [length Nat.eqb].
  split; [|reflexivity]. exists c2. split; [reflexivity|]. destruct x; exact H2.
Qed.
Lemma no_input cfg : mixed E cfg [] = silent_signal A.
Proof. reflexivity. Qed.

(** ** The destination *)
Definition spread (n : nat) (c : chan V) : list (chan V) := map (fun k => if speaker n k then c else sil) (seq 0 n).
Lemma mix_mono s c n : 0 < n <= max_channels -> mix O RQ s [c] n Speakers = Some (s, spread n c).
Proof.
  intros H. assert (H' : n <= 32) by (unfold max_channels in H; lia). clear - H H'. destruct H as [H _].
  do 33 (destruct n as [|n]; [try lia; reflexivity|]). lia.
Qed.

Definition spread_ok (n : nat) (acc : list (chan V)) (x : option (list V)) : Prop :=
  length acc = n /\ forall k c, nth_error acc k = Some c -> holds_chan c (if speaker n k then x else None).
Lemma spread_spread n c x : holds_chan c x -> spread_ok n (spread n c) x.
Proof.
  intros H. split; [unfold spread; rewrite map_length, seq_length; reflexivity|]. intros k c' Hk. unfold spread in Hk.
  assert (Hn : k < n) by (assert (nth_error (map (fun k => if speaker n k then c else sil) (seq 0 n)) k <> None) as X by congruence; apply nth_error_Some in X; rewrite map_length, seq_length in X; exact X).
  rewrite nth_error_map in Hk. rewrite (nth_error_nth' _ 0) in Hk by (rewrite seq_length; exact Hn). rewrite seq_nth in Hk by exact Hn. cbn in Hk. injection Hk as <-.
  destruct (speaker n k); [exact H|reflexivity].
Qed.

Lemma add_zip_spread n x y : forall acc bs s off, s <> 0 -> length acc = length bs ->
  (forall k c, nth_error acc k = Some c -> holds_chan c (if speaker n (off + k) then x else None)) ->
  (forall k c, nth_error bs k = Some c -> holds_chan c (if speaker n (off + k) then y else None)) ->
  exists s' cs, add_zip O s acc bs = (s', cs) /\ length cs = length acc /\
    forall k c, nth_error cs k = Some c -> holds_chan c (if speaker n (off + k) then sum2 x y else None).
Proof.
  induction acc as [|a acc IH]; intros [|b bs] s off Hs Hl Ha Hb; try discriminate.
  - exists s, []. split; [reflexivity|]. split; [reflexivity|]. intros [|k] c Hc; discriminate.
  - cbn [add_zip].
    destruct (chan_add_holds s a b _ _ Hs (Ha 0 a eq_refl) (Hb 0 b eq_refl)) as (s1 & c1 & -> & Hs1 & H1).
    destruct (IH bs s1 (S off) Hs1) as (s2 & cs & -> & L2 & H2).
    + cbn in Hl. lia.
    + intros k c Hk. replace (S off + k) with (off + S k) by lia. apply (Ha (S k)). exact Hk.
    + intros k c Hk. replace (S off + k) with (off + S k) by lia. apply (Hb (S k)). exact Hk.
    + exists s2, (c1 :: cs). split; [reflexivity|]. split; [cbn; lia|]. intros [|k] c Hk.
      * cbn in Hk. injection Hk as <-. destruct (speaker n (off + 0)); [exact H1|exact H1].
      * replace (off + S k) with (S off + k) by lia. apply H2. exact Hk.
Qed.

Definition dest_ok (n : nat) (acc : list (chan V)) (x : option (list V)) : Prop := spread_ok n acc x \/ (acc = [sil] /\ x = None).

Lemma dest_add n acc q x y : 0 < n <= max_channels -> dest_ok n (q_chans acc) x -> holds q y -> dest_ok n (q_chans (signal_add A acc q (destination_config n))) (sum2 x y).
Proof.
  intros Hn Hacc (c0 & Hc0 & Hy). unfold signal_add. rewrite Hc0. set (k := max_name (q_chans acc)).
  destruct (apart_chan k c0 y Hy) as (c & -> & Hc). set (s := S (k + max_name [c])). assert (Hs : s <> 0) by (subst s; lia). clearbody s. clear k c0 Hc0 Hy.
  left. unfold add. cbn [destination_config cc_interp cc_mode cc_count new_channels].
  assert (Id1 : all_channels_identical [c] = Some true) by reflexivity.
  destruct Hacc as [[Hl Ha]|[-> ->]].
  - destruct (q_chans acc) as [|a rest] eqn:Eacc; [cbn in Hl; lia|]. unfold all_channels_identical at 1.
    destruct (forallb (fun c => Nat.eqb (c_name a) (c_name c)) rest) eqn:Ef.
    + rewrite Id1. assert (Hax : holds_chan a x).
      { destruct x as [v|].
        - (* all buffers are the same: all are speakers *)
          assert (Ns : exists k, k < n /\ speaker n k = true) by (clear - Hn; unfold speaker; destruct n as [|[|[|[|[|[|[|]]]]]]]; try lia; (exists 0; split; [lia|reflexivity]) || (exists 2; split; [lia|reflexivity])).
          destruct Ns as (k & Hk & Hsp). destruct k as [|k]; [specialize (Ha 0 a eq_refl); rewrite Hsp in Ha; exact Ha|].
          assert (exists d, nth_error rest k = Some d) as [d Hd] by (destruct (nth_error rest k) as [d|] eqn:X; [eauto|apply nth_error_None in X; cbn in Hl; lia]).
          rewrite forallb_forall in Ef. pose proof (Ef d (nth_error_In _ _ Hd)) as Y. apply Nat.eqb_eq in Y.
          pose proof (Ha (S k) d Hd) as Hd'. rewrite Hsp in Hd'. destruct Hd' as (D1 & _).
          specialize (Ha 0 a eq_refl). destruct (speaker n 0); [exact Ha|]. cbn in Ha. subst a. cbn in Y. congruence.
        - specialize (Ha 0 a eq_refl). destruct (speaker n 0); exact Ha. }
      destruct (chan_add_holds s a c x y Hs Hax Hc) as (s' & c2 & -> & _ & H2). rewrite mix_mono by exact Hn. cbn [q_chans]. apply spread_spread. exact H2.
    + unfold add_plain. unfold mix at 1. rewrite Hl, Nat.eqb_refl. rewrite mix_mono by exact Hn.
      destruct (add_zip_spread n x y (a :: rest) (spread n c) s 0 Hs) as (s2 & cs & X & L2 & H2).
      * rewrite Hl. unfold spread. rewrite map_length, seq_length. reflexivity.
      * exact Ha.
      * exact (proj2 (spread_spread n c y Hc)).
      * rewrite X. cbn [q_chans]. split; [congruence|exact H2].
  - change (all_channels_identical [sil]) with (Some true). rewrite Id1.
    destruct (chan_add_holds s sil c None y Hs eq_refl Hc) as (s' & c2 & -> & _ & H2). rewrite mix_mono by exact Hn. cbn [q_chans]. apply spread_spread. exact H2.
Qed.

Lemma dest_mixed n : 0 < n <= max_channels -> forall qs xs, Forall2 holds qs xs -> dest_ok n (q_chans (mixed E (destination_config n) qs)) (sum xs).
Proof.
  intros Hn qs xs H. unfold mixed, Desk_Spec.sum. cbn [silence qadd desk_env].
  assert (X : dest_ok n (q_chans (silent_signal A)) None) by (right; split; reflexivity). revert X.
  generalize (silent_signal A) as acc, (@None (list V)) as x0. induction H as [|q x qs xs H1 H2 IH]; intros acc x0 X; cbn [fold_left]; [exact X|].
  apply IH. apply dest_add; assumption.
Qed.

(** the samples of a channel *)
Definition silent_samples : list V := repeat (v_zero A) RQ.
Lemma dest_samples n q x k : dest_ok n (q_chans q) x -> k < n ->
  match nth_error (samples A q) k with Some ch => ch | None => silent_samples end =
  if speaker n k then match x with Some v => v | None => silent_samples end else silent_samples.
Proof.
  intros H Hk.
  assert (NE : q_chans q <> []) by (destruct H as [[L _]|[E _]]; [intros E; rewrite E in L; cbn in L; lia|rewrite E; discriminate]).
  assert (SM : samples A q = map (fun c => firstn RQ (c_val c ++ repeat (v_zero A) (RQ - length (c_val c)))) (q_chans q)) by (unfold samples; destruct (q_chans q); [congruence|reflexivity]).
  rewrite SM, nth_error_map. clear SM NE.
  assert (Y : forall c y, holds_chan c y -> firstn RQ (c_val c ++ repeat (v_zero A) (RQ - length (c_val c))) = match y with Some v => v | None => silent_samples end).
  { intros c [v|] Hc.
    - destruct Hc as (_ & -> & L). rewrite L, Nat.sub_diag. cbn [repeat]. rewrite app_nil_r. rewrite <- L. apply firstn_all.
    - cbn in Hc. subst c. reflexivity. }
  destruct H as [[Hl H]|[-> ->]].
  - destruct (nth_error (q_chans q) k) as [c|] eqn:Ek; [|apply nth_error_None in Ek; lia]. cbn [option_map]. rewrite (Y c _ (H k c Ek)). destruct (speaker n k); reflexivity.
  - destruct k as [|[|k]]; cbn [nth_error option_map].
    + rewrite (Y sil None eq_refl). destruct (speaker n 0); reflexivity.
    + destruct (speaker n 1); reflexivity.
    + destruct (speaker n (S (S k))); reflexivity.
Qed.
End Mix.
