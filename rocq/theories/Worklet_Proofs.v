(** Proofs about the AudioWorkletNode. *)
From Coq Require Import List Arith Bool Lia.
From Verif Require Import Worklet_Model Worklet_Spec.
Import ListNotations.

Section Proofs.
Context {V U O : Type}.
Notation quantum := (list (chan V)).
Notation ports := (list (list (list V))).

Lemma chop_concat {X} : forall gs : list (list X), chop (concat gs) (map (@length X) gs) = Ok gs.
Proof.
  induction gs as [|g gs IH]; [reflexivity|]. cbn [concat map chop]. unfold split_at.
  replace (length g <=? length (g ++ concat gs)) with true by (symmetry; apply Nat.leb_le; rewrite app_length; lia).
  cbn [bind fst snd]. rewrite skipn_app, Nat.sub_diag, skipn_all, firstn_app, Nat.sub_diag, firstn_all. cbn [firstn skipn].
  rewrite app_nil_r, app_nil_l. rewrite IH. reflexivity.
Qed.

Lemma samples_length : forall qs : list quantum, map (@length _) (samples qs) = map (@length _) qs.
Proof. intros qs. unfold samples. rewrite map_map. apply map_ext. intros q. apply map_length. Qed.

Lemma shape_lengths {X} : forall a b : list (list (list X)), shape a = shape b -> map (@length _) a = map (@length _) b.
Proof.
  unfold shape. induction a as [|x a IH]; intros [|y b] E; cbn in E; try discriminate; [reflexivity|]. injection E as E1 E2. cbn. f_equal; [|apply IH; exact E2].
  apply (f_equal (@length _)) in E1. rewrite !map_length in E1. exact E1.
Qed.

Lemma write_channels_ok : forall (q : quantum) s (g rest : list (list V)), length g = length q ->
  exists s' q', write_channels s q (g ++ rest) = (s', q', rest) /\ map c_val q' = g /\ length q' = length q.
Proof.
  induction q as [|c q IH]; intros s [|v g] rest E; cbn in E; try discriminate.
  - exists s, []. cbn. destruct rest; repeat split.
  - injection E as E. destruct (IH (S s) g rest E) as (s' & q' & H & K & L). cbn [write_channels app]. rewrite H. exists s', (mk_chan s v :: q'). cbn. rewrite K, L. repeat split.
Qed.
Lemma write_outputs_ok : forall (outputs : list quantum) s (gs : ports), map (@length _) gs = map (@length _) outputs ->
  samples (write_outputs s outputs (concat gs)) = gs.
Proof.
  induction outputs as [|o outputs IH]; intros s [|g gs] E; cbn in E; try discriminate; [reflexivity|]. injection E as E1 E2.
  cbn [concat write_outputs]. destruct (write_channels_ok o s g (concat gs) E1) as (s' & o' & H & K & _). rewrite H.
  unfold samples in *. cbn [map]. rewrite K, (IH s' gs E2). reflexivity.
Qed.

Definition width_ok (c : nat) : Prop := 0 < c <= max_channels.

Lemma channels_ok : forall (q : quantum) n, 0 < length q -> width_ok n ->
  exists q', set_number_of_channels q n = Some q' /\ map c_val q' = resized n (map c_val q) /\ length q' = n.
Proof.
  intros [|c q] n L [A B]; [cbn in L; lia|]. unfold set_number_of_channels.
  replace (Nat.ltb 0 n) with true by (symmetry; apply Nat.ltb_lt; exact A).
  replace (Nat.leb n max_channels) with true by (symmetry; apply Nat.leb_le; exact B). cbn [andb].
  exists (firstn n ((c :: q) ++ repeat c (n - length (c :: q)))). split; [reflexivity|]. split.
  - unfold resized. cbn [map]. change (c_val c :: map c_val q) with (map c_val (c :: q)). rewrite map_length, <- firstn_map, map_app. f_equal. f_equal.
    generalize (n - length (c :: q)). induction n0 as [|k IH]; [reflexivity|]. cbn. rewrite IH. reflexivity.
  - rewrite firstn_length, app_length, repeat_length. lia.
Qed.

Lemma set_counts_ok : forall (outputs : list quantum) w, length w = length outputs -> Forall width_ok w -> Forall (fun q : quantum => 0 < length q) outputs ->
  exists outs', set_counts outputs w = Ok outs' /\ samples outs' = resize w (samples outputs) /\ map (@length _) outs' = w.
Proof.
  induction outputs as [|o outputs IH]; intros [|c w] E F G; cbn in E; try discriminate.
  - exists []. repeat split.
  - injection E as E. inversion F; subst. inversion G; subst. destruct (channels_ok o c) as (q' & A & B & C); auto.
    destruct (IH w E) as (r & A' & B' & C'); auto. cbn [set_counts]. rewrite A. cbn [from_option bind]. rewrite A'. cbn [bind].
    exists (q' :: r). unfold samples in *. cbn [map resize]. rewrite B, B', C, C'. repeat split.
Qed.

Section Run.
Variables (ni no : nat) (counts stored : list nat).
Hypothesis accepted : worklet_counts ni no counts = Ok stored.

Lemma stored_cases : (counts = [] /\ stored = [] /\ ni = 1 /\ no = 1) \/
  (counts = [] /\ (ni =? 1) && (no =? 1) = false /\ stored = repeat 1 no) \/
  (counts <> [] /\ stored = counts /\ Forall width_ok counts /\ length counts = no).
Proof.
  unfold worklet_counts in accepted. destruct (negb (ni =? 0) || negb (no =? 0)); [|discriminate]. cbn [check bind] in accepted.
  destruct counts as [|c cs].
  - destruct ((ni =? 1) && (no =? 1)) eqn:E; injection accepted as <-.
    + left. apply andb_prop in E. destruct E as [E1 E2]. apply Nat.eqb_eq in E1, E2. auto.
    + right. left. auto.
  - destruct (forallb _ (c :: cs)) eqn:E; [|discriminate]. cbn [check bind] in accepted. destruct (length (c :: cs) =? no) eqn:L; [|discriminate].
    cbn [check bind] in accepted. injection accepted as <-. right. right. split; [discriminate|]. split; [reflexivity|]. split; [|apply Nat.eqb_eq; exact L].
    apply Forall_forall. intros x Hx. rewrite forallb_forall in E. specialize (E x Hx). apply andb_prop in E. destruct E as [E1 E2].
    apply Nat.ltb_lt in E1. apply Nat.leb_le in E2. split; assumption.
Qed.

Lemma wanted_ok : forall q : list quantum, ports_ok ni q -> length (wanted ni no counts q) = no /\ Forall width_ok (wanted ni no counts q).
Proof.
  intros q [L F]. destruct stored_cases as [(E & _ & Ei & Eo)|[(E & N & _)|(N & _ & W & Lc)]].
  - rewrite E. cbn [wanted]. rewrite Ei, Eo in *. cbn [andb Nat.eqb]. rewrite map_length. split; [exact L|]. apply Forall_map. eapply Forall_impl; [|exact F]. intros a Ha; exact Ha.
  - rewrite E. cbn [wanted]. rewrite N, repeat_length. split; [reflexivity|]. apply Forall_forall. intros x Hx. apply repeat_spec in Hx. subst x. unfold width_ok, max_channels. lia.
  - unfold wanted. destruct counts; [congruence|]. split; assumption.
Qed.

Lemma prepare_ok : forall q outputs : list quantum, ports_ok ni q -> ports_ok no outputs ->
  exists outs', prepare stored q outputs = Ok outs' /\ samples outs' = resize (wanted ni no counts q) (samples outputs) /\
    map (@length _) outs' = wanted ni no counts q /\ (outs' <> [] -> effective_counts stored q = wanted ni no counts q).
Proof.
  intros q outputs Hq Ho. pose proof (wanted_ok q Hq) as [Wl Wf]. destruct Hq as [L F]. destruct Ho as [Lo Fo].
  assert (Fo' : Forall (fun o : quantum => 0 < length o) outputs) by (eapply Forall_impl; [|exact Fo]; cbn; intros; lia).
  destruct stored_cases as [(E & Es & Ei & Eo)|[(E & N & Es)|(N & Es & W & Lc)]].
  - rewrite E, Es in *. unfold wanted in *. rewrite Ei, Eo in *. cbn [Nat.eqb andb] in *.
    destruct q as [|i [|]]; cbn in L; try discriminate. destruct outputs as [|o [|]]; cbn in Lo; try discriminate.
    inversion F; subst. inversion Fo'; subst. destruct (channels_ok o (length i)) as (o' & A & B & C); auto.
    unfold prepare. cbn [index nth_error from_option bind]. rewrite A. cbn [from_option bind]. exists [o']. unfold samples. cbn. rewrite B, C. repeat split.
  - assert (Ew : wanted ni no counts q = repeat 1 no) by (rewrite E; cbn [wanted]; rewrite N; reflexivity). rewrite Ew in *.
    destruct (set_counts_ok outputs (repeat 1 no)) as (r & A & B & C); auto; [lia|]. exists r. rewrite Es.
    assert (Ep : prepare (repeat 1 no) q outputs = set_counts outputs (repeat 1 no)).
    { unfold prepare. destruct outputs; [reflexivity|]. destruct no; [discriminate|]. reflexivity. }
    rewrite Ep. split; [exact A|]. split; [exact B|]. split; [exact C|]. intros Hr. destruct no; [|reflexivity]. destruct r; [congruence|discriminate].
  - assert (Ew : wanted ni no counts q = counts) by (unfold wanted; destruct counts; congruence). rewrite Ew in *.
    destruct (set_counts_ok outputs counts) as (r & A & B & C); auto; [lia|]. exists r. rewrite Es.
    assert (Ep : prepare counts q outputs = set_counts outputs counts) by (unfold prepare; destruct outputs; [reflexivity|]; destruct counts; [congruence|reflexivity]).
    rewrite Ep. split; [exact A|]. split; [exact B|]. split; [exact C|]. intros _. unfold effective_counts. destruct counts; congruence.
Qed.

Variable P : program V U O.
Hypothesis keeps : keeps_shape P.

(** one quantum: the processor is called with the samples of the inputs and with the resized buffers of the quantum before *)
Lemma process_ok : forall p u s (q outputs : list quantum), load P p = Ok u -> ports_ok ni q -> ports_ok no outputs ->
  match p_process P u (samples q) (resize (wanted ni no counts q) (samples outputs)) with
  | Some (u', o, b) => exists outs', worklet_process P stored p s q outputs = Ok (Init u', outs', b) /\ samples outs' = o /\
      map (@length _) outs' = wanted ni no counts q /\ ports_ok no outs'
  | None => worklet_process P stored p s q outputs = Panic
  end.
Proof.
  intros p u s q outputs Hl Hq Ho. destruct (prepare_ok q outputs Hq Ho) as (w & A & B & C & D). pose proof (wanted_ok q Hq) as [Wl Wf].
  unfold worklet_process. rewrite Hl. cbn [bind]. cbv zeta. rewrite <- (samples_length q). rewrite (chop_concat (map (map c_val) q) : chop _ (map _ (samples q)) = _).
  cbn [bind]. rewrite A. cbn [bind].
  assert (Eg : match w with [] => Ok [] | _ :: _ => chop (concat (map (map c_val) w)) (effective_counts stored q) end = Ok (samples w)).
  { destruct w as [|x w']; [reflexivity|]. rewrite D by discriminate. rewrite <- C. rewrite <- samples_length. apply chop_concat. }
  rewrite Eg. cbn [bind]. change (map (map c_val) q) with (samples q). rewrite B.
  destruct (p_process P u (samples q) _) as [[[u' o] b]|] eqn:E; [|reflexivity]. cbn [from_option bind].
  apply keeps in E. apply shape_lengths in E. rewrite <- B, samples_length in E.
  pose proof (write_outputs_ok w s o E) as S. eexists. split; [reflexivity|]. split; [exact S|].
  assert (M : map (@length _) (write_outputs s w (concat o)) = wanted ni no counts q).
  { rewrite <- (samples_length (write_outputs s w (concat o))), S, E. exact C. }
  split; [exact M|]. split.
  - rewrite <- Wl, <- M, map_length. reflexivity.
  - rewrite <- M in Wf. rewrite Forall_map in Wf. exact Wf.
Qed.

Definition fine (e : event V) : Prop := match e with Quantum _ q => ports_ok ni q | Message _ => True end.
Definition quanta (es : list (event V)) : list (list quantum) := flat_map (fun e => match e with Quantum _ q => [q] | Message _ => [] end) es.

Lemma run_ok : forall es p u (outputs : list quantum) first before, load P p = Ok u -> ports_ok no outputs -> Forall fine es ->
  samples outputs = match before with o :: _ => o | [] => first end ->
  match ideal P ni no counts u (old_fill first) before es with
  | Some (u', os) => exists p' outs, worklet_run P stored p outputs es = Ok (p', outs) /\ load P p' = Ok u' /\ map samples outs = os /\
      map (map (@length _)) outs = map (wanted ni no counts) (quanta es)
  | None => worklet_run P stored p outputs es = Panic
  end.
Proof.
  induction es as [|e es IH]; intros p u outputs first before Hl Ho F Eb.
  - exists p, []. repeat split; auto.
  - inversion F as [|? ? Fe Fs]; subst. destruct e as [s q|m]; cbn [ideal worklet_run].
    + pose proof (process_ok p u s q outputs Hl Fe Ho) as H. unfold old_fill at 1. rewrite <- Eb.
      destruct (p_process P u (samples q) _) as [[[u' o] b]|]; [|rewrite H; reflexivity].
      destruct H as (outs' & H & S & L & K). rewrite H. cbn [bind fst snd].
      pose proof (IH (Init u') u' outs' first (o :: before) eq_refl K Fs S) as R.
      destruct (ideal P ni no counts u' (old_fill first) (o :: before) es) as [[u'' os]|]; [|rewrite R; reflexivity].
      destruct R as (p' & outs & R & A & B & C). rewrite R. cbn [bind fst snd]. exists p', (outs' :: outs). split; [reflexivity|]. split; [exact A|].
      cbn [map quanta flat_map app]. rewrite S, B, L. split; [reflexivity|]. f_equal. exact C.
    + unfold worklet_message. rewrite Hl. cbn [bind]. destruct (p_onmessage P u m) as [u'|]; [|reflexivity]. cbn [from_option bind].
      apply (IH (Init u') u' outputs first before eq_refl Ho Fs Eb).
Qed.

(** a processor which writes every sample *)
Definition overwrites : Prop := forall u i o o', shape o = shape o' -> p_process P u i o = p_process P u i o'.

Variables (zero : V) (size : nat).
Definition sized (o : ports) : Prop := Forall (Forall (fun v : list V => length v = size)) o.

Lemma shape_sized : forall a b : ports, sized a -> sized b -> map (@length _) a = map (@length _) b -> shape a = shape b.
Proof.
  induction a as [|x a IH]; intros [|y b] A B E; cbn in E; try discriminate; [reflexivity|]. injection E as E1 E2.
  inversion A; subst. inversion B; subst. unfold shape in *. cbn [map]. f_equal; [|apply IH; assumption].
  clear - E1 H1 H3. revert y E1 H3. induction x as [|v x IH]; intros [|v' y] E F; cbn in E; try discriminate; [reflexivity|].
  injection E as E. inversion H1; subst. inversion F; subst. cbn. f_equal; [congruence|]. apply IH; assumption.
Qed.
Lemma sized_shape : forall a b : ports, shape a = shape b -> sized b -> sized a.
Proof.
  unfold shape, sized. induction a as [|x a IH]; intros [|y b] E B; cbn in E; try discriminate; [constructor|]. injection E as E1 E2. inversion B; subst.
  constructor; [|eapply IH; eassumption]. clear - E1 H1. revert y E1 H1. induction x as [|v x IH]; intros [|v' y] E F; cbn in E; try discriminate; [constructor|].
  injection E as E1 E2. inversion F; subst. constructor; [congruence|]. eapply IH; eassumption.
Qed.

Lemma resized_ok : forall c (o : list (list V)), 0 < length o -> Forall (fun v => length v = size) o -> length (resized c o) = c /\ Forall (fun v => length v = size) (resized c o).
Proof.
  intros c [|x o] L F; [cbn in L; lia|]. unfold resized. split.
  - rewrite firstn_length, app_length, repeat_length. lia.
  - inversion F; subst. apply Forall_forall. intros v Hv. assert (Hv' : In v ((x :: o) ++ repeat x (c - length (x :: o)))).
    { rewrite <- (firstn_skipn c). apply in_or_app. left. exact Hv. }
    apply in_app_or in Hv'. rewrite Forall_forall in F. destruct Hv' as [K|K]; [apply F; exact K|]. apply repeat_spec in K. subst v. reflexivity.
Qed.
Lemma resize_ok : forall w (o : ports), length w = length o -> Forall (fun x : list (list V) => 0 < length x) o -> sized o -> map (@length _) (resize w o) = w /\ sized (resize w o).
Proof.
  induction w as [|c w IH]; intros [|x o] E F S; cbn in E; try discriminate; [split; [reflexivity|constructor]|]. injection E as E.
  inversion F; subst. inversion S; subst. destruct (resized_ok c x) as [A B]; auto. destruct (IH o E) as [A' B']; auto. cbn [resize map]. rewrite A, A'. split; [reflexivity|]. constructor; assumption.
Qed.
Lemma zero_ok : forall w before, map (@length _) (zero_fill zero size w before) = w /\ sized (zero_fill zero size w before).
Proof.
  intros w before. unfold zero_fill. split.
  - rewrite map_map. rewrite <- (map_id w) at 2. apply map_ext. intros c. apply repeat_length.
  - apply Forall_map. apply Forall_forall. intros c _. apply Forall_forall. intros v Hv. apply repeat_spec in Hv. subst v. apply repeat_length.
Qed.

Lemma fills_agree : overwrites -> forall es u first before before',
  let o := match before with o :: _ => o | [] => first end in
  length o = no -> Forall (fun x : list (list V) => 0 < length x) o -> sized o -> Forall fine es ->
  ideal P ni no counts u (old_fill first) before es = ideal P ni no counts u (zero_fill zero size) before' es.
Proof.
  intros OW. induction es as [|e es IH]; intros u first before before' o L F S Fe; [reflexivity|]. pose proof (Forall_inv Fe) as Fq. pose proof (Forall_inv_tail Fe) as Fs.
  destruct e as [s q|m]; cbn [ideal].
  - pose proof (wanted_ok q Fq) as [Wl Wf]. unfold old_fill at 1. fold o. destruct (resize_ok (wanted ni no counts q) o) as [A B]; auto; [lia|].
    destruct (zero_ok (wanted ni no counts q) before') as [A' B'].
    assert (Sh : shape (resize (wanted ni no counts q) o) = shape (zero_fill zero size (wanted ni no counts q) before')) by (apply shape_sized; auto; congruence).
    rewrite (OW u (samples q) _ _ Sh). destruct (p_process P u (samples q) (zero_fill _ _ _ _)) as [[[u' w] b]|] eqn:E; [|reflexivity].
    apply keeps in E. rewrite (IH u' first (w :: before) (w :: before')); [reflexivity| | | |exact Fs].
    + apply shape_lengths in E. apply (f_equal (@length _)) in E. rewrite !map_length in E. rewrite E. unfold zero_fill. rewrite map_length. exact Wl.
    + apply shape_lengths in E. rewrite A' in E. rewrite <- E in Wf. rewrite Forall_map in Wf. eapply Forall_impl; [|exact Wf]. cbn. intros a [Ha _]. exact Ha.
    + eapply sized_shape; eassumption.
  - destruct (p_onmessage P u m) as [u'|]; [|reflexivity]. apply IH; assumption.
Qed.
End Run.
End Proofs.
