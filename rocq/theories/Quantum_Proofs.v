From Coq Require Import List Arith Bool Reals Lra Lia.
From Verif Require Import Quantum_Model Quantum_Spec.
Import ListNotations.

Open Scope R_scope.
Open Scope nat_scope.

Lemma zip_mut_length {A B} (f : A -> B -> A) xs ys : length (zip_mut f xs ys) = length xs.
Proof. revert ys; induction xs as [|x xs IH]; intros [|y ys]; simpl; try reflexivity. now rewrite IH. Qed.

Lemma zip_mut_nth {A B} (f : A -> B -> A) xs ys t a b :
  t < length xs -> t < length ys -> nth t (zip_mut f xs ys) a = f (nth t xs a) (nth t ys b).
Proof.
  revert ys t; induction xs as [|x xs IH]; intros [|y ys] [|t] H1 H2; simpl in *; try lia; try reflexivity.
  apply IH; lia.
Qed.

Lemma combine_nth_lt {A B} (xs : list A) (ys : list B) t a b :
  t < length xs -> t < length ys -> nth t (combine xs ys) (a, b) = (nth t xs a, nth t ys b).
Proof.
  revert ys t; induction xs as [|x xs IH]; intros [|y ys] [|t] H1 H2; simpl in *; try lia; try reflexivity.
  apply IH; lia.
Qed.

Section Proofs.
Context (size : nat).
Notation silence_chan := (silence_chan Rsops size).
Notation mix := (mix Rsops size).
Notation mix_inner := (mix_inner Rsops size).
Notation add := (add Rsops size).
Notation add_all := (add_all Rsops size).
Notation quantum := (list (chan R)).
Implicit Types q : quantum.
Implicit Types c : chan R.
Implicit Types val : nat -> list R.

Definition goodc (s : nat) val c : Prop :=
  c_val c = val (c_name c) /\ length (c_val c) = size /\ c_name c < s.
Definition names (s : nat) val : Prop := val 0 = repeat 0%R size /\ 0 < s.
Definition ext (s s' : nat) val val' : Prop := s <= s' /\ forall n, n < s -> val' n = val n.

Lemma good_split s val q :
  good_quantum size s val q <-> (1 <= length q <= 32) /\ names s val /\ Forall (goodc s val) q.
Proof.
  unfold good_quantum, names, goodc. rewrite Forall_forall. tauto.
Qed.

Lemma ext_refl s val : ext s s val val.
Proof. split; [lia|reflexivity]. Qed.

Lemma ext_trans s1 s2 s3 v1 v2 v3 : ext s1 s2 v1 v2 -> ext s2 s3 v2 v3 -> ext s1 s3 v1 v3.
Proof. intros [A B] [C D]. split; [lia|]. intros n H. rewrite D by lia. now apply B. Qed.

Lemma goodc_ext s s' v v' c : ext s s' v v' -> goodc s v c -> goodc s' v' c.
Proof. intros [A B] (C & D & E). split; [|split; [assumption|lia]]. now rewrite B. Qed.

Lemma names_ext s s' v v' : ext s s' v v' -> names s v -> names s' v'.
Proof. intros [A B] (C & D). split; [|lia]. now rewrite B. Qed.

Lemma Forall_ext s s' v v' q : ext s s' v v' -> Forall (goodc s v) q -> Forall (goodc s' v') q.
Proof. intros E. apply Forall_impl. intros c. now apply goodc_ext. Qed.

Lemma good_ext s s' v v' q : ext s s' v v' -> good_quantum size s v q -> good_quantum size s' v' q.
Proof.
  intros E. rewrite !good_split. intros (A & B & C). split; [assumption|]. split.
  - now apply (names_ext s s' v v'). - now apply (Forall_ext s s' v v').
Qed.

Lemma goodc_silence s val : names s val -> goodc s val silence_chan.
Proof. intros (A & B). repeat split; simpl; [now symmetry|apply repeat_length|assumption]. Qed.

Lemma cwrite_good s val c f s' c' :
  names s val -> goodc s val c -> (forall v, length (f v) = length v) ->
  cwrite s c f = (s', c') ->
  c_val c' = f (c_val c) /\ s' = S s /\
  exists val', ext s s' val val' /\ goodc s' val' c'.
Proof.
  unfold cwrite. intros (N0 & N) (A & B & C) F E. injection E as <- <-. simpl.
  split; [reflexivity|]. split; [reflexivity|].
  exists (fun n => if Nat.eqb n s then f (c_val c) else val n). split.
  - split; [lia|]. intros n H. destruct (Nat.eqb_spec n s); [lia|reflexivity].
  - repeat split; simpl; [now rewrite Nat.eqb_refl| now rewrite F | lia].
Qed.

Lemma frame_length q t : length (frame q t) = length q.
Proof. apply map_length. Qed.

Lemma frame_app q1 q2 t : frame (q1 ++ q2) t = frame q1 t ++ frame q2 t.
Proof. apply map_app. Qed.

Lemma firstn_map' {A B} (f : A -> B) n l : firstn n (map f l) = map f (firstn n l).
Proof. revert l; induction n; intros [|x l]; simpl; try reflexivity. now rewrite IHn. Qed.

Lemma nth_repeat0 n t : nth t (repeat 0%R n) 0%R = 0%R.
Proof. revert t; induction n; intros [|t]; simpl; auto. Qed.

Lemma frame_fill q m t : frame (fill Rsops size q m) t = discrete_frame m (frame q t).
Proof.
  unfold fill, discrete_frame. unfold frame at 1. rewrite <- firstn_map', map_app. f_equal.
  f_equal. rewrite frame_length. induction (m - length q) as [|k IH]; simpl; [reflexivity|].
  rewrite IH. f_equal. apply nth_repeat0.
Qed.

Lemma fill_length q m : length (fill Rsops size q m) = m.
Proof. unfold fill. rewrite firstn_length, app_length, repeat_length. lia. Qed.

Lemma Forall_firstn' {A} (P : A -> Prop) n l : Forall P l -> Forall P (firstn n l).
Proof. intros H. revert n; induction H; intros [|n]; simpl; constructor; auto. Qed.

Lemma Forall_fill s val q m : names s val -> Forall (goodc s val) q ->
  Forall (goodc s val) (fill Rsops size q m).
Proof.
  intros N F. unfold fill. apply Forall_firstn'. apply Forall_app. split; [assumption|].
  apply Forall_forall. intros c H. apply repeat_spec in H. subst. now apply goodc_silence.
Qed.

Lemma nth_zip (f : R -> R -> R) (a b : chan R) t :
  t < length (c_val a) -> t < length (c_val b) ->
  nth t (zip_mut f (c_val a) (c_val b)) 0%R = f (nth t (c_val a) 0%R) (nth t (c_val b) 0%R).
Proof. intros. now apply zip_mut_nth. Qed.

Definition mix_result (s : nat) val q (m : nat) (i : interpretation) (r : option (nat * quantum)) : Prop :=
  exists s' q' val', r = Some (s', q') /\ ext s s' val val' /\
    length q' = m /\ Forall (goodc s' val') q' /\
    (~ (i = Speakers /\ length q = 4 /\ m = 5) ->
     forall t, t < size -> frame q' t = mix_frame i m (frame q t)).

Lemma mix_fill s val q m i :
  names s val -> Forall (goodc s val) q ->
  length q <> m ->
  (i = Discrete \/ (speaker_matrix (length q) m = None /\ True)) ->
  mix_result s val q m i (Some (s, fill Rsops size q m)).
Proof.
  intros N F L D. exists s, (fill Rsops size q m), val.
  split; [reflexivity|]. split; [apply ext_refl|]. split; [apply fill_length|].
  split; [now apply Forall_fill|]. intros _ t T. rewrite frame_fill.
  unfold mix_frame. rewrite frame_length. apply Nat.eqb_neq in L. rewrite L.
  destruct i; [|reflexivity]. destruct D as [D|[D _]]; [discriminate|]. now rewrite D.
Qed.

Lemma cwrite_eq s c (f : list R -> list R) : cwrite s c f = (S s, mk_chan s (f (c_val c))).
Proof. reflexivity. Qed.

(** the channels of a quantum that is written at most twice *)
Lemma mix_write1 s val q m i (a : chan R) (f : list R -> list R) rest :
  names s val -> Forall (goodc s val) q -> In a q -> (forall c, In c rest -> In c q) ->
  (forall v, length (f v) = length v) -> m = S (length rest) ->
  (forall t, t < size -> nth t (f (c_val a)) 0%R :: frame rest t = mix_frame i m (frame q t)) ->
  mix_result s val q m i (Some (S s, mk_chan s (f (c_val a)) :: rest)).
Proof.
  intros N F Ia Ir Hf -> H. rewrite Forall_forall in F.
  destruct (cwrite_good s val a f (S s) (mk_chan s (f (c_val a))) N (F a Ia) Hf eq_refl)
    as (_ & _ & val' & E & G).
  exists (S s), (mk_chan s (f (c_val a)) :: rest), val'.
  split; [reflexivity|]. split; [assumption|]. split; [reflexivity|]. split.
  - constructor; [assumption|]. apply Forall_forall. intros c C. apply (goodc_ext s _ val); auto.
  - intros _ t T. simpl. now apply H.
Qed.

Lemma mix_write2 s val q m i (a b : chan R) (f g : list R -> list R) rest :
  names s val -> Forall (goodc s val) q -> In a q -> In b q -> (forall c, In c rest -> In c q) ->
  (forall v, length (f v) = length v) -> (forall v, length (g v) = length v) -> m = S (S (length rest)) ->
  (forall t, t < size -> nth t (f (c_val a)) 0%R :: nth t (g (c_val b)) 0%R :: frame rest t = mix_frame i m (frame q t)) ->
  mix_result s val q m i (Some (S (S s), mk_chan s (f (c_val a)) :: mk_chan (S s) (g (c_val b)) :: rest)).
Proof.
  intros N F Ia Ib Ir Hf Hg -> H. rewrite Forall_forall in F.
  destruct (cwrite_good s val a f (S s) (mk_chan s (f (c_val a))) N (F a Ia) Hf eq_refl)
    as (_ & _ & val1 & E1 & G1).
  destruct (cwrite_good (S s) val1 b g (S (S s)) (mk_chan (S s) (g (c_val b)))
     (names_ext _ _ _ _ E1 N) (goodc_ext _ _ _ _ _ E1 (F b Ib)) Hg eq_refl)
    as (_ & _ & val' & E2 & G2).
  exists (S (S s)), (mk_chan s (f (c_val a)) :: mk_chan (S s) (g (c_val b)) :: rest), val'.
  split; [reflexivity|]. split; [exact (ext_trans _ _ _ _ _ _ E1 E2)|]. split; [reflexivity|]. split.
  - constructor; [exact (goodc_ext _ _ _ _ _ E2 G1)|]. constructor; [assumption|].
    apply Forall_forall. intros c C. apply (goodc_ext s _ val); auto. exact (ext_trans _ _ _ _ _ _ E1 E2).
  - intros _ t T. simpl. now apply H.
Qed.

Lemma mix_copy s val q m i q' :
  names s val -> Forall (goodc s val) q -> (forall c, In c q' -> c = silence_chan \/ In c q) ->
  length q' = m ->
  (~ (i = Speakers /\ length q = 4 /\ m = 5) -> forall t, t < size -> frame q' t = mix_frame i m (frame q t)) ->
  mix_result s val q m i (Some (s, q')).
Proof.
  intros N F I L H. exists s, q', val. split; [reflexivity|]. split; [apply ext_refl|].
  split; [assumption|]. split; [|assumption].
  apply Forall_forall. intros c C. destruct (I c C) as [->|X]; [now apply goodc_silence|].
  rewrite Forall_forall in F. auto.
Qed.

Ltac in_tac := intros; simpl in *; intuition.

Lemma len_zip (f : R -> R -> R) (b : list R) v : length (zip_mut f v b) = length v.
Proof. apply zip_mut_length. Qed.

Ltac forall_tac F :=
  repeat match goal with
  | H : Forall _ (_ :: _) |- _ => let X := fresh "X" in let Y := fresh "Y" in
       pose proof (Forall_inv H) as X; pose proof (Forall_inv_tail H) as Y; clear H;
       destruct X as (? & ? & ?)
  end.

Ltac mix_case :=
  intros; rewrite ?(zip_mut_nth _ _ _ _ _ 0%R) by (rewrite ?combine_length; lia);
  simpl; unfold mix_frame; simpl; try reflexivity.

Ltac frame_tac := intros; unfold mix_frame; simpl; rewrite ?nth_repeat0;
  repeat (apply f_equal2; [lra|]); reflexivity.

Lemma mix_ok s val q m i :
  names s val -> Forall (goodc s val) q -> 1 <= length q <= 32 -> 1 <= m <= 32 ->
  mix_result s val q m i (mix s q m i).
Proof.
  intros N F L M. unfold mix.
  destruct (Nat.eqb_spec (length q) m) as [E|E].
  { exists s, q, val. split; [reflexivity|]. split; [apply ext_refl|]. split; [assumption|].
    split; [assumption|]. intros _ t T. unfold mix_frame. rewrite frame_length.
    apply Nat.eqb_eq in E. now rewrite E. }
  unfold mix_inner.
  replace (Nat.ltb 0 m && Nat.leb m max_channels) with true.
  2: { symmetry. apply andb_true_intro. split; [apply Nat.ltb_lt; lia|apply Nat.leb_le; unfold max_channels; lia]. }
  cbn [negb].
  destruct q as [|a q]; [simpl in L; lia|].
  destruct i; [|now apply mix_fill; auto].
  destruct (Nat.ltb_spec 6 (length (a :: q))) as [G|G].
  { apply mix_fill; auto. right; split; [|exact I].
    do 6 (destruct q as [|? q]; [simpl in G; lia|]). reflexivity. }
  destruct (Nat.ltb_spec 6 m) as [G'|G'].
  { cbn [orb]. apply mix_fill; auto. right; split; [|exact I].
    do 7 (destruct m as [|m]; [lia|]). do 7 (destruct q as [|? q]; [reflexivity|]). reflexivity. }
  cbn [orb].
  assert (M6 : m = 1 \/ m = 2 \/ m = 3 \/ m = 4 \/ m = 5 \/ m = 6) by lia. clear M G'.
  destruct q as [|b [|c [|d [|e [|f [|g q]]]]]]; try (simpl in G; lia);
    destruct M6 as [->|[->|[->|[->|[->| ->]]]]]; cbv zeta; try (exfalso; apply E; reflexivity);
    try (apply mix_fill; [assumption|assumption|assumption|right; split; [reflexivity|exact I]]);
    try (apply mix_copy; [assumption|assumption|in_tac|reflexivity|intros _; frame_tac]).
  all: unfold cwrite; cbv beta iota zeta.
  all: try match goal with
  | |- mix_result _ _ _ _ _ (Some (S ?s, mk_chan _ (zip_mut ?F (c_val ?a) ?L) :: ?r)) =>
      apply (mix_write1 s val _ _ _ a (fun v => zip_mut F v L) r);
        [assumption|assumption|in_tac|in_tac|intros; apply zip_mut_length|reflexivity|]
  | |- mix_result _ _ _ _ _ (Some (S (S ?s), mk_chan _ (zip_mut ?F (c_val ?a) ?L) ::
                                  mk_chan _ (zip_mut ?F2 (c_val ?b) ?L2) :: ?r)) =>
      apply (mix_write2 s val _ _ _ a b (fun v => zip_mut F v L) (fun v => zip_mut F2 v L2) r);
        [assumption|assumption|in_tac|in_tac|in_tac|intros; apply zip_mut_length|intros; apply zip_mut_length|reflexivity|]
  end.
  4: { apply mix_copy; [assumption|assumption|in_tac|reflexivity|].
       intros X; exfalso; apply X; repeat split. }
  all: repeat match goal with
  | H : Forall _ (_ :: _) |- _ => let X := fresh "X" in let Y := fresh "Y" in
       pose proof (Forall_inv H) as X; apply Forall_inv_tail in H; destruct X as (_ & X & _)
  end.
  all: intros t T.
  - rewrite nth_zip by lia. unfold mix_frame; simpl. f_equal. lra.
  - rewrite (zip_mut_nth _ _ _ _ _ ((0,0),0)%R) by (rewrite ?combine_length; lia).
    rewrite !combine_nth_lt by (rewrite ?combine_length; lia).
    unfold mix_frame; simpl. f_equal. lra.
  - rewrite !nth_zip by lia. unfold mix_frame; simpl. repeat (apply f_equal2; [lra|]). reflexivity.
  - rewrite (zip_mut_nth _ _ _ _ _ (((0,0),0),0)%R) by (rewrite ?combine_length; lia).
    rewrite !combine_nth_lt by (rewrite ?combine_length; lia).
    unfold mix_frame; simpl. f_equal. lra.
  - rewrite !(zip_mut_nth _ _ _ _ _ (0,0)%R) by (rewrite ?combine_length; lia).
    rewrite !combine_nth_lt by (rewrite ?combine_length; lia).
    unfold mix_frame; simpl. repeat (apply f_equal2; [lra|]). reflexivity.
  - rewrite !nth_zip by lia. unfold mix_frame; simpl. repeat (apply f_equal2; [lra|]). reflexivity.
Qed.


(** ** Sums *)

Lemma sum_frames_length a b : length a = length b -> length (sum_frames a b) = length a.
Proof.
  revert b; induction a as [|x a IH]; intros [|y b] H; simpl in *; try lia. now rewrite IH by lia.
Qed.

Lemma sum_frames_nth a b t : length a = length b ->
  nth t (sum_frames a b) 0%R = (nth t a 0 + nth t b 0)%R.
Proof.
  revert b t; induction a as [|x a IH]; intros [|y b] [|t] H; simpl in *; try lia; try lra.
  apply IH. lia.
Qed.

Lemma list_ext (a b : list R) : length a = length b ->
  (forall t, t < length a -> nth t a 0%R = nth t b 0%R) -> a = b.
Proof. intros L H. now apply (nth_ext a b 0%R 0%R). Qed.

Lemma discrete_frame_length m f : length (discrete_frame m f) = m.
Proof. unfold discrete_frame. rewrite firstn_length, app_length, repeat_length. lia. Qed.

Lemma firstn_nth (l : list R) m t : nth t (firstn m l) 0%R = if Nat.ltb t m then nth t l 0%R else 0%R.
Proof.
  revert m t; induction l as [|x l IH]; intros [|m] [|t]; try reflexivity.
  - simpl. destruct (S t <? S m); reflexivity.
  - simpl. rewrite IH. reflexivity.
Qed.

Lemma discrete_frame_nth m f t :
  nth t (discrete_frame m f) 0%R = if Nat.ltb t m then nth t f 0%R else 0%R.
Proof.
  unfold discrete_frame. rewrite firstn_nth. destruct (Nat.ltb t m); [|reflexivity].
  destruct (Nat.lt_ge_cases t (length f)).
  - now rewrite app_nth1.
  - rewrite app_nth2, nth_repeat0 by assumption. now rewrite nth_overflow.
Qed.

Lemma mix_frame_discrete m f : mix_frame Discrete m f = discrete_frame m f.
Proof.
  unfold mix_frame. destruct (Nat.eqb_spec (length f) m) as [<-|]; [|reflexivity].
  apply list_ext; [now rewrite discrete_frame_length|]. intros t T.
  rewrite discrete_frame_nth. destruct (Nat.ltb_spec t (length f)); [reflexivity|lia].
Qed.

Lemma speaker_matrix_rows n m M : speaker_matrix n m = Some M -> length M = m.
Proof.
  unfold speaker_matrix.
  do 7 (destruct n as [|n]; [do 7 (destruct m as [|m]; [try discriminate; try (intros H; injection H as <-; reflexivity)|]); discriminate|]).
  discriminate.
Qed.

Lemma mix_frame_length i m f : length (mix_frame i m f) = m.
Proof.
  destruct i; [|rewrite mix_frame_discrete; apply discrete_frame_length].
  unfold mix_frame. destruct (Nat.eqb_spec (length f) m); [assumption|].
  destruct (speaker_matrix (length f) m) eqn:E; [|apply discrete_frame_length].
  rewrite map_length. eapply speaker_matrix_rows; eassumption.
Qed.

Lemma dot_sum r a b : length a = length b -> dot r (sum_frames a b) = (dot r a + dot r b)%R.
Proof.
  revert a b; induction r as [|x r IH]; intros [|y a] [|z b] H; simpl in *; try lia; try lra.
  rewrite IH by lia. lra.
Qed.

Lemma discrete_sum m a b : length a = length b ->
  discrete_frame m (sum_frames a b) = sum_frames (discrete_frame m a) (discrete_frame m b).
Proof.
  intros H. apply list_ext.
  - rewrite sum_frames_length; rewrite !discrete_frame_length; reflexivity.
  - intros t _. rewrite sum_frames_nth by now rewrite !discrete_frame_length.
    rewrite !discrete_frame_nth. destruct (Nat.ltb t m); [|lra]. now apply sum_frames_nth.
Qed.

Lemma map_dot_sum M a b : length a = length b ->
  map (fun r => dot r (sum_frames a b)) M = sum_frames (map (fun r => dot r a) M) (map (fun r => dot r b) M).
Proof.
  intros H. induction M as [|r M IH]; simpl; [reflexivity|]. now rewrite IH, dot_sum.
Qed.

Lemma mix_frame_sum i m a b : length a = length b ->
  mix_frame i m (sum_frames a b) = sum_frames (mix_frame i m a) (mix_frame i m b).
Proof.
  intros H. destruct i; [|rewrite !mix_frame_discrete; now apply discrete_sum].
  unfold mix_frame. rewrite sum_frames_length, <- H by assumption.
  destruct (Nat.eqb (length a) m); [reflexivity|].
  destruct (speaker_matrix (length a) m); [now apply map_dot_sum|now apply discrete_sum].
Qed.

Lemma chan_add_ok s val a b s' c :
  names s val -> goodc s val a -> goodc s val b -> chan_add Rsops s a b = (s', c) ->
  exists val', ext s s' val val' /\ goodc s' val' c /\
   forall t, t < size -> nth t (c_val c) 0%R = (nth t (c_val a) 0 + nth t (c_val b) 0)%R.
Proof.
  intros N Ga Gb. unfold chan_add, chan_is_silent.
  destruct (Nat.eqb_spec (c_name a) 0) as [Za|Za].
  - intros E; injection E as <- <-. exists val. split; [apply ext_refl|]. split; [assumption|].
    intros t T. destruct Ga as (Va & _), N as (N & _). rewrite Va, Za, N, nth_repeat0. lra.
  - destruct (Nat.eqb_spec (c_name b) 0) as [Zb|Zb]; cbn [negb].
    + intros E; injection E as <- <-. exists val. split; [apply ext_refl|]. split; [assumption|].
      intros t T. destruct Gb as (Vb & _), N as (N & _). rewrite Vb, Zb, N, nth_repeat0. lra.
    + intros E.
      destruct (cwrite_good s val a (fun v => zip_mut (s_add Rsops) v (c_val b)) s' c N Ga) as (V & -> & val' & X & G).
      * intros; apply zip_mut_length.
      * assumption.
      * exists val'. split; [assumption|]. split; [assumption|]. intros t T. rewrite V.
        destruct Ga as (_ & La & _), Gb as (_ & Lb & _).
        rewrite (zip_mut_nth _ _ _ _ _ 0%R) by lia. reflexivity.
Qed.

Lemma add_zip_ok : forall q1 q2 s val s' q,
  length q1 = length q2 -> names s val -> Forall (goodc s val) q1 -> Forall (goodc s val) q2 ->
  add_zip Rsops s q1 q2 = (s', q) ->
  exists val', ext s s' val val' /\ Forall (goodc s' val') q /\ length q = length q1 /\
   forall t, t < size -> frame q t = sum_frames (frame q1 t) (frame q2 t).
Proof.
  induction q1 as [|a q1 IH]; intros [|b q2] s val s' q L N F1 F2 E; simpl in L; try lia.
  - simpl in E. injection E as <- <-. exists val. split; [apply ext_refl|]. repeat split; constructor.
  - cbn [add_zip] in E. destruct (chan_add Rsops s a b) as [s1 c] eqn:EA.
    destruct (add_zip Rsops s1 q1 q2) as [s2 q'] eqn:EZ. injection E as <- <-.
    inversion F1 as [|? ? Ga F1']; subst. inversion F2 as [|? ? Gb F2']; subst.
    destruct (chan_add_ok s val a b s1 c N Ga Gb EA) as (val1 & X1 & G1 & V1).
    destruct (IH q2 s1 val1 s2 q') as (val2 & X2 & G2 & L2 & V2); try assumption; try lia.
    + now apply (names_ext s s1 val).
    + now apply (Forall_ext s s1 val).
    + now apply (Forall_ext s s1 val).
    + exists val2. split; [exact (ext_trans _ _ _ _ _ _ X1 X2)|]. split; [|split].
      * constructor; [exact (goodc_ext _ _ _ _ _ X2 G1)|assumption].
      * simpl. lia.
      * intros t T. simpl. rewrite V1, V2 by assumption. reflexivity.
Qed.

(** conversions other than from four to five channels *)
Definition not_4_5 (i : interpretation) (n m : nat) : Prop := ~ (i = Speakers /\ n = 4 /\ m = 5).

Definition add_result s val q1 q2 n i (r : option (nat * quantum)) : Prop :=
  exists s' q val', r = Some (s', q) /\ ext s s' val val' /\ length q = n /\
   Forall (goodc s' val') q /\
   (not_4_5 i (length q1) n -> not_4_5 i (length q2) n -> forall t, t < size ->
      frame q t = sum_frames (mix_frame i n (frame q1 t)) (mix_frame i n (frame q2 t))).

Lemma add_plain_ok s val q1 q2 n i :
  names s val -> Forall (goodc s val) q1 -> Forall (goodc s val) q2 ->
  1 <= length q1 <= 32 -> 1 <= length q2 <= 32 -> 1 <= n <= 32 ->
  add_result s val q1 q2 n i (add_plain Rsops size s q1 q2 n i).
Proof.
  intros N F1 F2 L1 L2 Ln. unfold add_plain.
  destruct (mix_ok s val q1 n i N F1 L1 Ln) as (s1 & q1' & val1 & -> & X1 & M1 & G1 & V1).
  pose proof (names_ext _ _ _ _ X1 N) as N1.
  destruct (mix_ok s1 val1 q2 n i N1 (Forall_ext _ _ _ _ _ X1 F2) L2 Ln)
    as (s2 & q2' & val2 & -> & X2 & M2 & G2 & V2).
  pose proof (names_ext _ _ _ _ X2 N1) as N2.
  destruct (add_zip Rsops s2 q1' q2') as [s3 q] eqn:EZ.
  destruct (add_zip_ok q1' q2' s2 val2 s3 q) as (val3 & X3 & G3 & M3 & V3); try assumption; try lia.
  { now apply (Forall_ext s1 s2 val1). }
  exists s3, q, val3. split; [reflexivity|].
  split; [exact (ext_trans _ _ _ _ _ _ X1 (ext_trans _ _ _ _ _ _ X2 X3))|].
  split; [lia|]. split; [assumption|]. intros A1 A2 t T.
  rewrite V3, V1, V2 by assumption. reflexivity.
Qed.

Lemma identical_shared q : q <> [] -> (all_channels_identical q = Some true <-> shared q).
Proof.
  destruct q as [|a q]; [contradiction|]. intros _. unfold shared. simpl. split.
  - intros H. injection H as H. rewrite forallb_forall in H.
    assert (G : forall c, a = c \/ In c q -> c_name c = c_name a).
    { intros c [<-|C]; [reflexivity|]. symmetry. apply Nat.eqb_eq. now apply H. }
    intros c d C D. now rewrite (G c C), (G d D).
  - intros H. f_equal. apply forallb_forall. intros c C. apply Nat.eqb_eq. apply H; auto.
Qed.

Lemma identical_not_shared q : q <> [] -> ~ shared q -> all_channels_identical q = Some false.
Proof.
  intros NE H. destruct (all_channels_identical q) as [[|]|] eqn:E.
  - exfalso. apply H. now apply identical_shared. - reflexivity.
  - destruct q; [contradiction|discriminate].
Qed.

Lemma identical_vals s val a q t :
  Forall (goodc s val) (a :: q) -> all_channels_identical (a :: q) = Some true ->
  frame (a :: q) t = repeat (nth t (c_val a) 0%R) (S (length q)).
Proof.
  intros F E. simpl in E. injection E as E. inversion F as [|? ? Ga F']; subst.
  simpl. f_equal. clear F. induction q as [|b q IH]; simpl in *; [reflexivity|].
  apply andb_prop in E. destruct E as [E1 E2]. apply Nat.eqb_eq in E1.
  inversion F' as [|? ? Gb F'']; subst. rewrite IH by assumption. f_equal.
  destruct Ga as (Va & _), Gb as (Vb & _). now rewrite Va, Vb, E1.
Qed.

Lemma mix_frame_zeros i n k : mix_frame i n (repeat 0%R k) = repeat 0%R n.
Proof.
  assert (D : discrete_frame n (repeat 0%R k) = repeat 0%R n).
  { apply list_ext; [now rewrite discrete_frame_length, repeat_length|].
    intros t _. rewrite discrete_frame_nth, !nth_repeat0. destruct (Nat.ltb t n); reflexivity. }
  destruct i; [|now rewrite mix_frame_discrete].
  unfold mix_frame. rewrite repeat_length. destruct (Nat.eqb_spec k n) as [->|]; [reflexivity|].
  destruct (speaker_matrix k n) as [M|] eqn:E; [|assumption].
  rewrite <- (speaker_matrix_rows _ _ _ E). clear E D.
  assert (Dz : forall r j, dot r (repeat 0%R j) = 0%R).
  { induction r as [|x r IH]; intros [|j]; simpl; try reflexivity. rewrite IH. lra. }
  induction M as [|r M IH]; simpl; [reflexivity|]. now rewrite Dz, IH.
Qed.

Lemma silent_vals s val a q : names s val -> Forall (goodc s val) (a :: q) ->
  (forall c, In c (a :: q) -> c_name c = 0) -> forall t, nth t (c_val a) 0%R = 0%R.
Proof.
  intros (N & _) F S t. pose proof (S a (or_introl eq_refl)) as Ea. inversion F as [|? ? (Va & _) _]; subst.
  rewrite Va, Ea, N. apply nth_repeat0.
Qed.

Lemma mono_like_frame s val n a q t :
  names s val -> Forall (goodc s val) (a :: q) -> all_channels_identical (a :: q) = Some true ->
  mono_like n (a :: q) ->
  mix_frame Speakers n (frame (a :: q) t) = mix_frame Speakers n [nth t (c_val a) 0%R].
Proof.
  intros N F E M. rewrite (identical_vals s val a q t F E).
  destruct M as [M|[[M M']|M]].
  - simpl in M. destruct q; [reflexivity|simpl in M; lia].
  - simpl in M. destruct q as [|b [|c q]]; simpl in M; try lia. unfold mix_frame. simpl.
    destruct M' as [->|[->| ->]]; simpl; repeat (apply f_equal2; [lra|]); reflexivity.
  - rewrite (silent_vals s val a q N F M t).
    change [0%R] with (repeat 0%R 1). now rewrite !mix_frame_zeros.
Qed.

Lemma add_ok s val q1 q2 cfg :
  names s val -> Forall (goodc s val) q1 -> Forall (goodc s val) q2 ->
  1 <= length q1 <= 32 -> 1 <= length q2 <= 32 -> 1 <= cc_count cfg <= 32 ->
  let n := new_channels cfg (length q1) (length q2) in
  exists s' q val', add s q1 q2 cfg = Some (s', q) /\ ext s s' val val' /\ length q = n /\
    1 <= n <= 32 /\ Forall (goodc s' val') q /\
   (not_4_5 (cc_interp cfg) (length q1) n -> not_4_5 (cc_interp cfg) (length q2) n ->
    (cc_interp cfg = Speakers -> all_channels_identical q1 = Some true ->
       all_channels_identical q2 = Some true -> mono_like n q1 /\ mono_like n q2) ->
    forall t, t < size ->
      frame q t = sum_frames (mix_frame (cc_interp cfg) n (frame q1 t)) (mix_frame (cc_interp cfg) n (frame q2 t))).
Proof.
  intros N F1 F2 L1 L2 Lc n.
  assert (Ln : 1 <= n <= 32).
  { unfold n, new_channels. destruct (cc_mode cfg); lia. }
  assert (Plain : forall i, cc_interp cfg = i -> forall r, r = add_plain Rsops size s q1 q2 n i ->
   exists s' q val', r = Some (s', q) /\ ext s s' val val' /\ length q = n /\
    1 <= n <= 32 /\ Forall (goodc s' val') q /\
   (not_4_5 (cc_interp cfg) (length q1) n -> not_4_5 (cc_interp cfg) (length q2) n ->
    (cc_interp cfg = Speakers -> all_channels_identical q1 = Some true ->
       all_channels_identical q2 = Some true -> mono_like n q1 /\ mono_like n q2) ->
    forall t, t < size ->
      frame q t = sum_frames (mix_frame (cc_interp cfg) n (frame q1 t)) (mix_frame (cc_interp cfg) n (frame q2 t)))).
  { intros i -> r ->.
    destruct (add_plain_ok s val q1 q2 n i N F1 F2 L1 L2 Ln) as (s' & q & val' & E & X & L & G & V).
    exists s', q, val'. split; [assumption|]. split; [assumption|]. split; [assumption|].
    split; [assumption|]. split; [assumption|]. intros A B _. now apply V. }
  unfold add. fold n.
  destruct q1 as [|a q1]; [simpl in L1; lia|]. destruct q2 as [|b q2]; [simpl in L2; lia|].
  destruct (cc_interp cfg) eqn:Ei; [|now apply (Plain Discrete)].
  destruct (all_channels_identical (a :: q1)) as [[|]|] eqn:I1; [|now apply (Plain Speakers)|discriminate].
  destruct (all_channels_identical (b :: q2)) as [[|]|] eqn:I2; [|now apply (Plain Speakers)|discriminate].
  clear Plain.
  destruct (chan_add Rsops s a b) as [s1 c] eqn:EA.
  destruct (chan_add_ok s val a b s1 c N (Forall_inv F1) (Forall_inv F2) EA) as (val1 & X1 & G1 & V1).
  assert (Fc : Forall (goodc s1 val1) [c]) by (constructor; [assumption|constructor]).
  destruct (mix_ok s1 val1 [c] n Speakers (names_ext _ _ _ _ X1 N) Fc) as (s2 & q & val2 & -> & X2 & M2 & G2 & V2).
  { simpl; lia. } { assumption. }
  exists s2, q, val2. split; [reflexivity|]. split; [exact (ext_trans _ _ _ _ _ _ X1 X2)|].
  split; [assumption|]. split; [assumption|]. split; [assumption|].
  intros _ _ ML t T. destruct (ML eq_refl eq_refl eq_refl) as [ML1 ML2].
  rewrite V2; [|simpl; intros (_ & X & _); lia|assumption].
  rewrite (mono_like_frame s val n a q1 t N F1 I1 ML1).
  rewrite (mono_like_frame s val n b q2 t N F2 I2 ML2).
  rewrite <- mix_frame_sum by reflexivity. simpl. now rewrite V1.
Qed.

(** ** All connections of an input *)

Lemma discrete_twice m n f : Nat.min (length f) n <= m ->
  discrete_frame n (discrete_frame m f) = discrete_frame n f.
Proof.
  intros H. apply list_ext; [now rewrite !discrete_frame_length|]. intros t _.
  rewrite !discrete_frame_nth. destruct (Nat.ltb_spec t n); [|reflexivity].
  destruct (Nat.ltb_spec t m); [reflexivity|]. symmetry. apply nth_overflow. lia.
Qed.

Lemma mix_frame_same i f : mix_frame i (length f) f = f.
Proof. unfold mix_frame. now rewrite Nat.eqb_refl. Qed.

Lemma mono_like_small n q : 1 <= length q <= 2 -> (n = 1 \/ n = 2) -> mono_like n q.
Proof.
  intros L H. unfold mono_like. destruct (Nat.eq_dec (length q) 1); [now left|].
  right; left. split; [lia|tauto].
Qed.

Definition step_channels cfg n k := new_channels cfg n k.

Fixpoint final_channels cfg n (ks : list nat) : nat :=
  match ks with [] => n | k :: ks' => final_channels cfg (new_channels cfg n k) ks' end.

Lemma final_ge cfg : forall ks n, 1 <= cc_count cfg ->
  match cc_mode cfg with
  | Max => n <= final_channels cfg n ks
  | ClampedMax => Nat.min n (cc_count cfg) <= final_channels cfg n ks
  | Explicit => n = cc_count cfg -> final_channels cfg n ks = n
  end.
Proof.
  induction ks as [|k ks IH]; intros n C; simpl.
  - destruct (cc_mode cfg); try lia.
  - specialize (IH (new_channels cfg n k) C). unfold new_channels in *.
    destruct (cc_mode cfg); try lia.
Qed.

Lemma final_le cfg : forall ks n, cc_mode cfg <> Max -> n <= cc_count cfg ->
  final_channels cfg n ks <= cc_count cfg.
Proof.
  induction ks as [|k ks IH]; intros n M C; simpl; [assumption|].
  apply IH; [assumption|]. unfold new_channels. destruct (cc_mode cfg); try contradiction; lia.
Qed.

Lemma final_max cfg : forall ks n, cc_mode cfg = Max -> n <= 2 -> (forall k, In k ks -> k <= 2) ->
  final_channels cfg n ks <= 2.
Proof.
  induction ks as [|k ks IH]; intros n M C H; simpl; [assumption|].
  apply IH; [assumption| |intros j J; apply H; now right].
  unfold new_channels. rewrite M. specialize (H k (or_introl eq_refl)). lia.
Qed.

(** mixing in two steps is the same as mixing at once *)
Lemma mix_twice cfg n k ks f :
  1 <= cc_count cfg <= 32 ->
  (length f = n \/ length f = k) -> 1 <= n ->
  (cc_interp cfg = Discrete \/ (cc_mode cfg = Max /\ 1 <= length f /\ n <= 2 /\ k <= 2 /\ forall j, In j ks -> j <= 2)
     \/ (cc_mode cfg <> Max /\ cc_count cfg <= 2)) ->
  1 <= k ->
  let m := new_channels cfg n k in let e := final_channels cfg m ks in
  mix_frame (cc_interp cfg) e (mix_frame (cc_interp cfg) m f) = mix_frame (cc_interp cfg) e f.
Proof.
  intros C L N H K m e.
  assert (E : (cc_mode cfg = Explicit -> e = m)).
  { intros X. pose proof (final_ge cfg ks m (proj1 C)) as G. rewrite X in G. apply G.
    unfold m, new_channels. now rewrite X. }
  destruct H as [H|[(H & Hf & H1 & H2 & H3)|[H H2]]].
  - rewrite H, !mix_frame_discrete. apply discrete_twice.
    pose proof (final_ge cfg ks m (proj1 C)) as G.
    unfold m, new_channels in *. destruct (cc_mode cfg) eqn:M.
    + lia.
    + assert (e <= cc_count cfg).
      { apply final_le; [rewrite M; discriminate|]. lia. }
      lia.
    + rewrite E by reflexivity. lia.
  - assert (m <= e). { pose proof (final_ge cfg ks m (proj1 C)) as G. rewrite H in G. exact G. }
    assert (e <= 2). { apply final_max; try assumption. unfold m, new_channels. rewrite H. lia. }
    assert (Hm : m = Nat.max n k) by (unfold m, new_channels; now rewrite H).
    destruct (Nat.eq_dec (length f) m) as [Q|Q].
    + rewrite <- Q, mix_frame_same. reflexivity.
    + assert (m = 2) by lia. assert (e = 2) by lia.
      replace e with m by lia. rewrite <- (mix_frame_length (cc_interp cfg) m f) at 1.
      apply mix_frame_same.
  - assert (Hme : m = e \/ length f = m).
    { destruct (cc_mode cfg) eqn:M; [contradiction| |].
      - assert (e <= cc_count cfg).
        { apply final_le; [rewrite M; discriminate|]. unfold m, new_channels. rewrite M. lia. }
        pose proof (final_ge cfg ks m (proj1 C)) as G. rewrite M in G. fold e in G.
        assert (Hm : m = Nat.min (Nat.max n k) (cc_count cfg)) by (unfold m, new_channels; now rewrite M).
        lia.
      - left. symmetry. now apply E. }
    destruct Hme as [Q|Q].
    + rewrite <- Q. rewrite <- (mix_frame_length (cc_interp cfg) m f) at 1. apply mix_frame_same.
    + rewrite <- Q, mix_frame_same. reflexivity.
Qed.

Lemma add_all_ok : forall qs s val acc cfg,
  names s val -> Forall (goodc s val) acc -> (forall q, In q qs -> Forall (goodc s val) q /\ 1 <= length q <= 32) ->
  1 <= length acc <= 32 -> 1 <= cc_count cfg <= 32 ->
  simple_inputs cfg qs ->
  (cc_interp cfg = Discrete \/ (length acc <= 2)) ->
  let n := final_channels cfg (length acc) (map (@length _) qs) in
  exists s' q val', add_all s acc qs cfg = Some (s', q) /\ ext s s' val val' /\
    length q = n /\ Forall (goodc s' val') q /\
    forall t, t < size ->
      frame q t = fold_left sum_frames (map (fun q => mix_frame (cc_interp cfg) n (frame q t)) qs)
                    (mix_frame (cc_interp cfg) n (frame acc t)).
Proof.
  induction qs as [|q1 qs IH]; intros s val acc cfg N Fa Fq La Lc SI SA n.
  - simpl. exists s, acc, val. split; [reflexivity|]. split; [apply ext_refl|].
    split; [reflexivity|]. split; [assumption|]. intros t T. unfold n; simpl.
    rewrite <- (frame_length acc t), mix_frame_same. reflexivity.
  - destruct (Fq q1 (or_introl eq_refl)) as [F1 L1].
    destruct (add_ok s val acc q1 cfg N Fa F1 La L1 Lc) as (s1 & q & val1 & E1 & X1 & Lq & Ln & G1 & V1).
    cbn [add_all]. rewrite E1.
    assert (SI' : simple_inputs cfg qs).
    { destruct SI as [SI|SI]; [now left|right]. destruct (cc_mode cfg).
      - intros x X; apply SI; now right.
      - destruct SI as [A B]. split; [assumption|]. intros x X; apply B; now right.
      - destruct SI as [A B]. split; [assumption|]. intros x X; apply B; now right. }
    assert (Sq : cc_interp cfg = Discrete \/ (length q <= 2)).
    { destruct SI as [SI|SI]; [now left|]. destruct SA as [SA|SA]; [now left|]. right. rewrite Lq.
      unfold new_channels. destruct (cc_mode cfg).
      - specialize (SI q1 (or_introl eq_refl)). lia. - lia. - lia. }
    assert (V1' : forall t, t < size -> frame q t =
        sum_frames (mix_frame (cc_interp cfg) (length q) (frame acc t)) (mix_frame (cc_interp cfg) (length q) (frame q1 t))).
    { intros t T. rewrite Lq. apply V1; [| | |assumption].
      - intros (A & B & B'). destruct SA as [SA|SA]; [congruence|lia].
      - intros (A & B & B'). destruct SI as [SI|SI]; [congruence|]. destruct Sq as [Sq|Sq]; [congruence|]. lia.
      - intros A I1 I2. destruct SA as [SA|SA]; [congruence|]. destruct Sq as [Sq|Sq]; [congruence|].
        split.
        + apply mono_like_small; lia.
        + apply mono_like_small; [|lia]. destruct SI as [SI|SI]; [congruence|].
          destruct (cc_mode cfg).
          * specialize (SI q1 (or_introl eq_refl)). lia.
          * destruct SI as [_ SI]. destruct (SI q1 (or_introl eq_refl)) as [X|X]; [lia|]; exfalso; apply X; apply identical_shared; [destruct q1; [simpl in L1; lia|discriminate]|assumption].
          * destruct SI as [_ SI]. destruct (SI q1 (or_introl eq_refl)) as [X|X]; [lia|]; exfalso; apply X; apply identical_shared; [destruct q1; [simpl in L1; lia|discriminate]|assumption]. }
    destruct (IH s1 val1 q cfg) as (s2 & q' & val2 & E2 & X2 & L2 & G2 & V2); try assumption.
    + now apply (names_ext s s1 val).
    + intros x X. destruct (Fq x (or_intror X)). split; [|assumption]. now apply (Forall_ext s s1 val).
    + lia.
    + assert (Hn : n = final_channels cfg (length q) (map (@length _) qs)).
      { unfold n. simpl. now rewrite Lq. }
      exists s2, q', val2. split; [assumption|]. split; [exact (ext_trans _ _ _ _ _ _ X1 X2)|].
      split; [congruence|]. split; [assumption|]. intros t T. rewrite V2, <- Hn by assumption.
      simpl. f_equal. rewrite V1' by assumption.
      rewrite mix_frame_sum by now rewrite !mix_frame_length.
      assert (Hcase : forall f, length f = length acc \/ length f = length q1 ->
         mix_frame (cc_interp cfg) n (mix_frame (cc_interp cfg) (length q) f) = mix_frame (cc_interp cfg) n f).
      { intros f Hf. rewrite Hn, Lq. apply mix_twice; try assumption; try lia.
        destruct SI as [SI|SI]; [now left|]. destruct SA as [SA|SA]; [now left|]. right.
        destruct (cc_mode cfg).
        - left. split; [reflexivity|]. split; [lia|]. split; [assumption|].
          split; [apply SI; now left|]. intros j J. apply in_map_iff in J. destruct J as (x & <- & J).
          apply SI; now right.
        - right. split; [discriminate|tauto].
        - right. split; [discriminate|tauto]. }
      rewrite !Hcase; [reflexivity|right; apply frame_length|left; apply frame_length].
Qed.

Lemma final_computed cfg ks : 1 <= cc_count cfg -> ks <> [] -> (forall k, In k ks -> 1 <= k) ->
  final_channels cfg 1 ks = computed_channels cfg ks.
Proof.
  intros C NE P. unfold computed_channels. destruct (cc_mode cfg) eqn:M.
  - clear NE P. assert (G : forall ks n, final_channels cfg n ks = Nat.max n (fold_right Nat.max 1 ks) \/ n = 0).
    { clear ks. induction ks as [|k ks IH]; intros n; simpl; [lia|].
      destruct (IH (new_channels cfg n k)) as [H|H]; unfold new_channels in *; rewrite M in *; lia. }
    assert (1 <= fold_right Nat.max 1 ks) by (clear G; induction ks; simpl; lia). destruct (G ks 1); lia.
  - assert (G : forall ks n, n <= cc_count cfg -> final_channels cfg n ks = Nat.min (Nat.max n (fold_right Nat.max 0 ks)) (cc_count cfg)).
    { clear ks NE P. induction ks as [|k ks IH]; intros n Hn; simpl; [lia|].
      rewrite IH by (unfold new_channels; rewrite M; lia). unfold new_channels. rewrite M. lia. }
    rewrite G by lia. f_equal. clear G NE P. induction ks as [|k ks IH]; cbn [fold_right]; lia.
  - destruct ks as [|k ks]; [contradiction|]. simpl.
    pose proof (final_ge cfg ks (new_channels cfg 1 k) C) as G. rewrite M in G.
    unfold new_channels in *. rewrite M in *. now apply G.
Qed.

Lemma fold_sum_zero n fs : (forall f, In f fs -> length f = n) -> length (total_frame n fs) = n.
Proof.
  unfold total_frame. assert (G : forall fs a, length a = n -> (forall f, In f fs -> length f = n) ->
    length (fold_left sum_frames fs a) = n).
  { clear fs. induction fs as [|f fs IH]; intros a La H; simpl; [assumption|].
    apply IH; [|intros g G; apply H; now right]. rewrite sum_frames_length; [assumption|].
    rewrite La. symmetry. apply H. now left. }
  intros H. apply G; [apply repeat_length|assumption].
Qed.

(** ** Main lemmas, in terms of [good_quantum] *)

Lemma main_mix s val q m i :
  good_quantum size s val q -> 1 <= m <= 32 ->
  exists s' q' val', mix s q m i = Some (s', q') /\ good_quantum size s' val' q' /\ length q' = m /\
    (~ (i = Speakers /\ length q = 4 /\ m = 5) ->
     forall t, t < size -> frame q' t = mix_frame i m (frame q t)).
Proof.
  rewrite good_split. intros (L & N & F) M.
  destruct (mix_ok s val q m i N F L M) as (s' & q' & val' & E & X & L' & G & V).
  exists s', q', val'. split; [assumption|]. split; [|split; assumption].
  apply good_split. split; [lia|]. split; [now apply (names_ext s s' val)|assumption].
Qed.

Lemma new_computed cfg n1 n2 : 1 <= n1 -> 1 <= n2 -> new_channels cfg n1 n2 = computed_channels cfg [n1; n2].
Proof. intros. unfold new_channels, computed_channels. destruct (cc_mode cfg); cbn [fold_right]; lia. Qed.

Lemma main_add s val q1 q2 cfg :
  good_quantum size s val q1 -> good_quantum size s val q2 -> 1 <= cc_count cfg <= 32 ->
  let n := computed_channels cfg [length q1; length q2] in
  exists s' q val', add s q1 q2 cfg = Some (s', q) /\ good_quantum size s' val' q /\ length q = n /\
   (not_4_5 (cc_interp cfg) (length q1) n -> not_4_5 (cc_interp cfg) (length q2) n ->
    (cc_interp cfg = Speakers -> shared q1 -> shared q2 -> mono_like n q1 /\ mono_like n q2) ->
    forall t, t < size ->
      frame q t = sum_frames (mix_frame (cc_interp cfg) n (frame q1 t)) (mix_frame (cc_interp cfg) n (frame q2 t))).
Proof.
  rewrite !good_split. intros (L1 & N & F1) (L2 & _ & F2) C. rewrite <- new_computed by lia. intros n.
  destruct (add_ok s val q1 q2 cfg N F1 F2 L1 L2 C) as (s' & q & val' & E & X & L & Ln & G & V).
  exists s', q, val'. split; [assumption|]. split; [|split; [assumption|]].
  - apply good_split. split; [lia|]. split; [now apply (names_ext s s' val)|assumption].
  - intros A B ML. apply V; try assumption. intros I I1 I2. apply ML; [assumption| |];
    apply identical_shared; try assumption; intros ->; simpl in *; lia.
Qed.

Lemma main_add_all qs s val cfg :
  (forall q, In q qs -> good_quantum size s val q) -> qs <> [] ->
  1 <= cc_count cfg <= 32 -> simple_inputs cfg qs ->
  let n := computed_channels cfg (map (@length _) qs) in
  exists s' q, add_all s [silence_chan] qs cfg = Some (s', q) /\ length q = n /\
    forall t, t < size ->
      frame q t = total_frame n (map (fun q => mix_frame (cc_interp cfg) n (frame q t)) qs).
Proof.
  intros H NE C SI n.
  assert (N : names s val).
  { destruct qs as [|q0 qs0]; [contradiction|]. specialize (H q0 (or_introl eq_refl)).
    apply good_split in H. tauto. }
  destruct (add_all_ok qs s val [silence_chan] cfg) as (s' & q & val' & E & X & L & G & V); try assumption.
  - constructor; [now apply goodc_silence|constructor].
  - intros q Q. apply H in Q. rewrite good_split in Q. tauto.
  - simpl; lia.
  - right; simpl; lia.
  - exists s', q. split; [assumption|].
    assert (Hn : final_channels cfg (length [silence_chan]) (map (@length _) qs) = n).
    { apply final_computed; [lia| |].
      - destruct qs; [contradiction|discriminate].
      - intros k K. apply in_map_iff in K. destruct K as (x & <- & Q). apply H in Q.
        destruct Q as (Q & _). lia. }
    rewrite Hn in L, V. split; [assumption|]. intros t T. rewrite V by assumption.
    unfold total_frame. f_equal. simpl. rewrite nth_repeat0.
    apply (mix_frame_zeros (cc_interp cfg) n 1).
Qed.

Lemma main_is_silent s val q t :
  good_quantum size s val q -> is_silent q = true -> frame q t = repeat 0%R (length q).
Proof.
  intros (_ & Z & _ & G) S. unfold is_silent in S. apply negb_true_iff in S.
  induction q as [|c q IH]; simpl in *; [reflexivity|].
  apply orb_false_iff in S. destruct S as [S1 S2]. rewrite IH; auto. f_equal.
  destruct (G c (or_introl eq_refl)) as (V & _). apply negb_false_iff in S1.
  unfold chan_is_silent in S1. apply Nat.eqb_eq in S1. rewrite V, S1, Z. apply nth_repeat0.
Qed.

Lemma main_mix_panics s q m i :
  q <> [] -> (mix s q m i = None <-> length q <> m /\ (m = 0 \/ 32 < m)).
Proof.
  intros NE. unfold Quantum_Model.mix. destruct (Nat.eqb_spec (length q) m) as [E|E].
  { split; [discriminate|tauto]. }
  unfold Quantum_Model.mix_inner.
  destruct (Nat.ltb_spec 0 m) as [A|A]; [destruct (Nat.leb_spec m max_channels) as [B|B]|];
    unfold max_channels in *; cbn [andb negb].
  - destruct q as [|a q]; [contradiction|]. split; [|lia].
    destruct i; [|discriminate]. destruct (_ || _); [discriminate|].
    destruct q as [|b [|c [|d [|e [|f [|g q]]]]]];
      destruct m as [|[|[|[|[|[|[|m]]]]]]]; cbv zeta; discriminate.
  - split; [intros _; lia|reflexivity].
  - split; [intros _; lia|reflexivity].
Qed.

Lemma round_trip_frame n m f :
  length f = n -> In (n, m) [(1, 2); (1, 6); (2, 6); (4, 6)] ->
  mix_frame Speakers n (mix_frame Speakers m f) = f.
Proof.
  intros L H. simpl in H. destruct H as [H|[H|[H|[H|[]]]]]; injection H as <- <-;
  destruct f as [|a [|b [|c [|d [|e f]]]]]; simpl in L; try lia;
  unfold mix_frame; simpl; repeat (apply f_equal2; [lra|]); reflexivity.
Qed.

Lemma main_round_trip s val q m i :
  good_quantum size s val q -> 1 <= m <= 32 ->
  (i = Speakers /\ In (length q, m) [(1, 2); (1, 6); (2, 6); (4, 6)]) \/ (i = Discrete /\ length q <= m) ->
  exists s' q' s'' q'', mix s q m i = Some (s', q') /\ mix s' q' (length q) i = Some (s'', q'') /\
    forall t, t < size -> frame q'' t = frame q t.
Proof.
  intros G M H. destruct (main_mix s val q m i G M) as (s' & q' & val' & E & G' & L & V).
  destruct (main_mix s' val' q' (length q) i G') as (s'' & q'' & val'' & E' & G'' & L' & V').
  { destruct G as (G & _). exact G. }
  exists s', q', s'', q''. split; [assumption|]. split; [assumption|]. intros t T.
  destruct H as [[-> H]|[-> H]].
  - rewrite V', V; try assumption.
    + apply round_trip_frame; [apply frame_length|assumption].
    + intros (_ & A & B). simpl in H. intuition congruence.
    + intros (_ & A & B). simpl in H. intuition congruence.
  - rewrite V', V; try assumption; try (intros (X & _); discriminate).
    rewrite !mix_frame_discrete, discrete_twice by (rewrite frame_length; lia).
    rewrite <- mix_frame_discrete. rewrite <- (frame_length q t) at 1. apply mix_frame_same.
Qed.

End Proofs.
