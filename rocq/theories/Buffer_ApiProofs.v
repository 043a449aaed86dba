(** Reading and writing buffers of a running program, sample by sample. *)
From Coq Require Import List Arith Bool ZArith Lia.
From Verif Require Import Float_Model Buffer_Model Buffer_Spec Buffer_Proofs.
Import ListNotations.

Lemma reached : forall os w outs, brun no_buffers os = Ok (w, outs) -> addrs_ok w /\ values_ok (all_contents w).
Proof.
  intros os w outs H. assert (A : addrs_ok no_buffers) by apply Forall_nil. assert (V : values_ok (all_contents no_buffers)) by apply Forall_nil.
  pose proof (brun_agree os no_buffers A V) as G. destruct (vrun (all_contents no_buffers) os) as [[vs o]|]; [|congruence].
  destruct G as (w' & E & C & O & V'). rewrite H in E. inversion E; subst. auto.
Qed.

Lemma read_ok : forall os w outs i c k data destination offset,
  brun no_buffers os = Ok (w, outs) -> value (all_contents w) i = Some c -> nth_error (c_channels c) k = Some data ->
  exists out, bstep w (B_copy_from i destination k offset) = Ok (w, out) /\ length out = length destination /\
    forall j, j < length destination ->
      nth j out f32_zero = if j <? Nat.min (length data - offset) (length destination) then nth (offset + j) data f32_zero else nth j destination f32_zero.
Proof.
  intros os w outs i c k data destination offset H Hc Hk. destruct (reached _ _ _ H) as [A V]. pose proof (bstep_agree w (B_copy_from i destination k offset) A V) as G.
  unfold agree in G. cbn [vstep] in G. rewrite Hc, Hk in G. destruct G as (w' & E & _ & C & _). exists (read_into destination data offset).
  assert (W : w' = w). { cbn [bstep] in E. destruct (handle w i); try discriminate. cbn [bind] in E. destruct (copy_from _ _ _ _); try discriminate. cbn [bind] in E. inversion E. reflexivity. }
  subst w'. split; [exact E|]. unfold read_into. rewrite map_length, seq_length. split; [reflexivity|]. intros j Hj.
  rewrite (nth_indep _ f32_zero ((fun j => if offset + j <? length data then nth (offset + j) data f32_zero else nth j destination f32_zero) 0)) by (rewrite map_length, seq_length; exact Hj).
  rewrite (map_nth (fun j => if offset + j <? length data then nth (offset + j) data f32_zero else nth j destination f32_zero)), seq_nth by exact Hj. cbn [Nat.add].
  destruct (Nat.ltb_spec (offset + j) (length data)), (Nat.ltb_spec j (Nat.min (length data - offset) (length destination))); try lia; reflexivity.
Qed.

Lemma value_replace : forall vs i v, i < length vs -> value (replace i v vs) i = v.
Proof. intros. unfold value. rewrite replace_nth by assumption. destruct v; reflexivity. Qed.

Lemma write_ok : forall os w outs i c k data source offset,
  brun no_buffers os = Ok (w, outs) -> value (all_contents w) i = Some c -> nth_error (c_channels c) k = Some data ->
  exists w' c' data', bstep w (B_copy_to i source k offset) = Ok (w', []) /\
    (forall i', i' <> i -> value (all_contents w') i' = value (all_contents w) i') /\
    value (all_contents w') i = Some c' /\ c_rate c' = c_rate c /\ length (c_channels c') = length (c_channels c) /\
    (forall k', k' <> k -> nth_error (c_channels c') k' = nth_error (c_channels c) k') /\
    nth_error (c_channels c') k = Some data' /\ length data' = length data /\
    forall j, j < length data ->
      nth j data' f32_zero = if (offset <=? j) && (j <? offset + Nat.min (length data - offset) (length source)) then nth (j - offset) source f32_zero else nth j data f32_zero.
Proof.
  intros os w outs i c k data source offset H Hc Hk. destruct (reached _ _ _ H) as [A V]. pose proof (bstep_agree w (B_copy_to i source k offset) A V) as G.
  unfold agree in G. cbn [vstep] in G. rewrite Hc, Hk in G. destruct G as (w' & E & _ & C & _).
  assert (Hi : i < length (all_contents w)). { unfold value in Hc. apply nth_error_Some. destruct (nth_error (all_contents w) i); congruence. }
  assert (Hk' : k < length (c_channels c)) by (apply nth_error_Some; congruence).
  exists w', (with_channel c k (overwritten data source offset)), (overwritten data source offset). split; [exact E|]. rewrite C. split; [|split; [apply value_replace, Hi|]].
  - intros i' N. unfold value. rewrite replace_other by auto. reflexivity.
  - split; [reflexivity|]. unfold with_channel. cbn [c_channels]. split; [apply replace_length, Hk'|]. split; [intros k' N; apply replace_other; auto|]. split; [apply replace_nth, Hk'|].
    unfold overwritten. rewrite map_length, seq_length. split; [reflexivity|]. intros j Hj.
    set (g := fun j => if (offset <=? j) && (j <? offset + length source) then nth (j - offset) source f32_zero else nth j data f32_zero).
    rewrite (nth_indep _ f32_zero (g 0)) by (rewrite map_length, seq_length; exact Hj). rewrite (map_nth g), seq_nth by exact Hj. cbn [Nat.add]. unfold g.
    destruct (Nat.leb_spec offset j), (Nat.ltb_spec j (offset + length source)), (Nat.ltb_spec j (offset + Nat.min (length data - offset) (length source))); cbn [andb]; try lia; reflexivity.
Qed.

Lemma value_semantics : forall os,
  match vrun [] os with
  | Some (vs, outs) => exists w, brun no_buffers os = Ok (w, outs) /\ all_contents w = vs
  | None => brun no_buffers os = Panic
  end.
Proof.
  intros os. assert (A : addrs_ok no_buffers) by apply Forall_nil. assert (V : values_ok (all_contents no_buffers)) by apply Forall_nil.
  pose proof (brun_agree os no_buffers A V) as G. change (all_contents no_buffers) with (@nil (option content)) in G. destruct (vrun [] os) as [[vs o]|]; [|exact G].
  destruct G as (w' & E & C & _). exists w'. auto.
Qed.
