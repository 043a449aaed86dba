(** The script processor: proofs about blocks and answers. *)
From Coq Require Import List Arith Bool ZArith Lia.
From Verif Require Import Arith_Model Script_Model Script_Spec.
From Verif Require Buffer_Proofs.
Import ListNotations.
Local Open Scope nat_scope.

Lemma valid_channels_iff n : valid_channels n = true <-> 1 <= n <= 32.
Proof. unfold valid_channels. rewrite andb_true_iff, Nat.ltb_lt, Nat.leb_le. lia. Qed.

Lemma skipn_add {X} a : forall b (l : list X), skipn a (skipn b l) = skipn (b + a) l.
Proof. induction b as [|b IH]; intros l; [reflexivity|]. destruct l as [|x l]; [cbn [skipn Nat.add]; apply skipn_nil|]. cbn [skipn Nat.add]. apply IH. Qed.

Section Script.
Context {T V : Type}.
Variable A : arith T V.
Variable size : nat.
Hypothesis size_pos : 0 < size.
Notation zeros := (repeat (v_zero A) size).
Notation width qs := (fold_right max 0 (map (@length (list V)) qs)).

(** ** The input *)
Lemma copy_ok (l src : list V) a : length src = size -> a + size <= length l ->
  copy_to_slice l a (a + size) src = Ok (firstn a l ++ src ++ skipn (a + size) l).
Proof.
  intros L H. unfold copy_to_slice. rewrite (proj2 (Nat.leb_le a (a + size))), (proj2 (Nat.leb_le _ _) H), (proj2 (Nat.eqb_eq _ _)) by lia. reflexivity.
Qed.
(** channel [c] of the samples once the quanta [done] have been copied, [m] still to come *)
Definition partly (done : list (list (list V))) (m c : nat) : list V := flat_map (fun q => nth c q zeros) done ++ repeat (v_zero A) (m * size).
Lemma flat_length (qs : list (list (list V))) c : Forall (fun q => Forall (fun ch => length ch = size) q) qs ->
  length (flat_map (fun q => nth c q zeros) qs) = length qs * size.
Proof.
  induction qs as [|q qs IH]; intros H; [reflexivity|]. inversion H as [|? ? H1 H2]; subst.
  cbn [flat_map length]. rewrite app_length, (IH H2). 
  destruct (le_lt_dec (length q) c) as [L|L]; [rewrite nth_overflow, repeat_length by exact L; reflexivity|].
  rewrite Forall_forall in H1. rewrite (H1 (nth c q zeros)) by (apply nth_In; exact L). reflexivity.
Qed.
Lemma partly_step done q m c : Forall (fun q => Forall (fun ch => length ch = size) q) done -> Forall (fun ch => length ch = size) q -> c < length q ->
  copy_to_slice (partly done (S m) c) (size * length done) (size * length done + size) (nth c q zeros) = Ok (partly (done ++ [q]) m c).
Proof.
  intros Hd Hq Hc. 
  assert (Lq : length (nth c q zeros) = size). { rewrite Forall_forall in Hq. apply Hq. apply nth_In. exact Hc. }
  pose proof (flat_length done c Hd) as Ld.
  assert (Lp : length (partly done (S m) c) = (length done + S m) * size). { unfold partly. rewrite app_length, Ld, repeat_length. lia. }
  rewrite copy_ok by (try rewrite Lp; lia). f_equal. unfold partly.
  rewrite firstn_app, Ld, skipn_app, Ld.
  rewrite firstn_all2 by lia. rewrite (Nat.mul_comm size), Nat.sub_diag. cbn [firstn]. rewrite app_nil_r.
  rewrite flat_map_app. cbn [flat_map]. rewrite app_nil_r, <- app_assoc. f_equal. f_equal.
  rewrite skipn_all2 by lia. cbn [app]. replace (length done * size + size - length done * size) with size by lia.
  change (S m * size) with (size + m * size). rewrite repeat_app, skipn_app, repeat_length, Nat.sub_diag, skipn_all2 by (rewrite repeat_length; lia). reflexivity.
Qed.
Lemma partly_skip done q m c : Forall (fun q => Forall (fun ch => length ch = size) q) done -> length q <= c ->
  partly (done ++ [q]) m c = partly done (S m) c.
Proof.
  intros Hd Hc. unfold partly. rewrite flat_map_app. cbn [flat_map]. rewrite app_nil_r, nth_overflow by exact Hc.
  rewrite <- app_assoc. f_equal. change (S m * size) with (size + m * size). rewrite repeat_app. reflexivity.
Qed.
Lemma copy_channels_ok done q m : Forall (fun q => Forall (fun ch => length ch = size) q) done -> Forall (fun ch => length ch = size) q ->
  forall n c0 b, b = skipn c0 q ->
  copy_channels size (size * length done) b (map (partly done (S m)) (seq c0 n)) = Ok (map (partly (done ++ [q]) m) (seq c0 n)).
Proof.
  intros Hd Hq. induction n as [|n IH]; intros c0 b Eb; [destruct b; reflexivity|].
  cbn [seq map]. destruct b as [|ch b].
  - cbn [copy_channels]. f_equal. 
    assert (L : length q <= c0). { destruct (le_lt_dec (length q) c0) as [L|L]; [exact L|]. exfalso. apply (f_equal (@length _)) in Eb. rewrite skipn_length in Eb. cbn in Eb. lia. }
    rewrite partly_skip by assumption. f_equal. apply map_ext_in. intros c Hc. apply in_seq in Hc. symmetry. apply partly_skip; [assumption|lia].
  - assert (L : c0 < length q). { apply (f_equal (@length _)) in Eb. rewrite skipn_length in Eb. cbn in Eb. lia. }
    assert (E : ch = nth c0 q zeros). { rewrite <- (firstn_skipn c0 q), <- Eb, app_nth2; rewrite firstn_length_le by lia; [|lia]. rewrite Nat.sub_diag. reflexivity. }
    cbn [copy_channels]. rewrite E, partly_step by assumption. cbn [bind].
    rewrite (IH (S c0) b); [reflexivity|]. 
    change b with (skipn 1 (ch :: b)). rewrite Eb, skipn_add, Nat.add_1_r. reflexivity.
Qed.
Lemma fill_ok n : forall qs done, Forall (fun q => Forall (fun ch => length ch = size) q) done -> Forall (fun q => Forall (fun ch => length ch = size) q) qs ->
  fill_samples size (length done) qs (map (partly done (length qs)) (seq 0 n)) = Ok (map (partly (done ++ qs) 0) (seq 0 n)).
Proof.
  induction qs as [|q qs IH]; intros done Hd Hq; [rewrite app_nil_r; reflexivity|].
  inversion Hq as [|? ? H1 H2]; subst. cbn [fill_samples length].
  rewrite (copy_channels_ok done q (length qs) Hd H1 n 0 q eq_refl). cbn [bind].
  replace (S (length done)) with (length (done ++ [q])) by (rewrite app_length; cbn; lia).
  rewrite IH; [|apply Forall_app; split; [assumption|constructor; [assumption|constructor]]|assumption].
  rewrite <- app_assoc. reflexivity.
Qed.
Lemma fill_joined qs : Forall (fun q => Forall (fun ch => length ch = size) q) qs ->
  fill_samples size 0 qs (repeat (repeat (v_zero A) (length qs * size)) (width qs)) = Ok (joined (v_zero A) size qs).
Proof.
  intros H. pose proof (fill_ok (width qs) qs [] (Forall_nil _) H) as E. cbn [length app] in E.
  replace (repeat (repeat (v_zero A) (length qs * size)) (width qs)) with (map (partly [] (length qs)) (seq 0 (width qs))).
  - rewrite E. unfold joined. f_equal. apply map_ext. intros c. unfold partly. cbn. apply app_nil_r.
  - unfold partly. cbn [flat_map app]. generalize (width qs). intros n. generalize 0. induction n as [|n IH]; intros s; [reflexivity|]. cbn [seq map repeat]. rewrite IH. reflexivity.
Qed.
Lemma joined_length qs : length (joined (v_zero A) size qs) = width qs.
Proof. unfold joined. rewrite map_length, seq_length. reflexivity. Qed.
Lemma width_range (qs : list (list (list V))) : qs <> [] -> Forall (proper size) qs -> 1 <= width qs <= 32.
Proof.
  destruct qs as [|q qs]; [congruence|]. intros _ H. cbn [map fold_right].
  inversion H as [|? ? [P1 _] P2]; subst. clear H.
  enough (fold_right max 0 (map (@length (list V)) qs) <= 32) by lia.
  induction P2 as [|q' qs' [P3 _] _ IH]; cbn [map fold_right]; lia.
Qed.
Lemma joined_ok qs : qs <> [] -> Forall (proper size) qs -> buffer_from (joined (v_zero A) size qs) = Ok (joined (v_zero A) size qs).
Proof.
  intros Hn H. unfold buffer_from. rewrite joined_length.
  rewrite (proj2 (valid_channels_iff _) (width_range qs Hn H)). cbn [check bind].
  assert (F : Forall (fun c => length c = length qs * size) (joined (v_zero A) size qs)).
  { unfold joined. apply Forall_map, Forall_forall. intros c _. apply flat_length. eapply Forall_impl; [|exact H]. intros q [_ P]; exact P. }
  assert (E : forallb (fun c => length c =? length (hd [] (joined (v_zero A) size qs))) (joined (v_zero A) size qs) = true).
  { apply forallb_forall. intros c Hc. rewrite Nat.eqb_eq. rewrite Forall_forall in F. rewrite (F c Hc). symmetry. apply F.
    destruct (joined (v_zero A) size qs); [contradiction|left; reflexivity]. }
  rewrite E. reflexivity.
Qed.
Lemma output_ok n m : 1 <= n <= 32 -> buffer_from (repeat (repeat (v_zero A) m) n) = Ok (repeat (repeat (v_zero A) m) n).
Proof.
  intros H. unfold buffer_from. rewrite repeat_length, (proj2 (valid_channels_iff _) H). cbn [check bind].
  assert (E : forallb (fun c => length c =? length (hd [] (repeat (repeat (v_zero A) m) n))) (repeat (repeat (v_zero A) m) n) = true).
  { apply forallb_forall. intros c Hc. apply repeat_spec in Hc. subst c. destruct n; [lia|]. cbn [repeat hd]. apply Nat.eqb_refl. }
  rewrite E. reflexivity.
Qed.

(** ** The answers *)
Definition cuts (N : nat) (a : list (list V)) : list (list (list V)) := map (fun j => cut size j a) (seq 0 N).
(** [o] with its channel [i] replaced *)
Definition put (i : nat) (ch : list V) (o : list (list V)) : list (list V) := update i (fun _ => ch) o.
Fixpoint puts (i : nat) (c : list V) (next : list (list (list V))) : list (list (list V)) :=
  match next with
  | [] => []
  | o :: next' => put i (firstn size c) o :: puts i (skipn size c) next'
  end.
Lemma write_next_ok i : forall next c, length c = length next * size -> Forall (fun o => i < length o /\ Forall (fun ch => length ch = size) o) next ->
  write_next size i c next = Ok (puts i c next).
Proof.
  induction next as [|o next IH]; intros c L H; [destruct c; reflexivity|].
  inversion H as [|? ? [H1 H1'] H2]; subst. cbn [length] in L.
  destruct c as [|v c]; [cbn in L; lia|]. cbn [write_next puts].
  unfold index. destruct (nth_error o i) as [ch|] eqn:E; [|apply nth_error_None in E; lia]. cbn [from_option bind].
  assert (Lc : length ch = size). { rewrite Forall_forall in H1'. apply H1'. eapply nth_error_In. exact E. }
  rewrite Lc. set (c' := v :: c) in *.
  pose proof (copy_ok ch (firstn size c') 0) as K. cbn [Nat.add] in K. rewrite K by (try rewrite firstn_length_le; lia). clear K.
  cbn [bind firstn app]. rewrite skipn_all2, app_nil_r by lia.
  unfold store. rewrite (proj2 (Nat.ltb_lt _ _) H1). cbn [bind].
  rewrite IH; [reflexivity| |exact H2]. rewrite skipn_length. lia.
Qed.
Lemma puts_length i : forall next c, length (puts i c next) = length next.
Proof. induction next as [|o next IH]; intros c; cbn; [reflexivity|rewrite IH; reflexivity]. Qed.
Lemma put_app (l r : list (list V)) x y : put (length l) y (l ++ x :: r) = (l ++ [y]) ++ r.
Proof. unfold put. induction l as [|z l IH]; cbn; [reflexivity|]. rewrite IH. reflexivity. Qed.
(** [n] quanta from [j] on: [done] channels written, the others as in [old] *)
Definition mid (done : list (list V)) (j n : nat) (old : list (list (list V))) : list (list (list V)) :=
  map (fun p => cut size (fst p) done ++ skipn (length done) (snd p)) (combine (seq j n) old).
Lemma puts_mid done c : forall old j, Forall (fun o => length done < length o) old ->
  puts (length done) (skipn (j * size) c) (mid done j (length old) old) = mid (done ++ [c]) j (length old) old.
Proof.
  induction old as [|o old IH]; intros j H; [reflexivity|]. inversion H as [|? ? H1 H2]; subst.
  unfold mid. cbn [length seq combine map puts fst snd]. f_equal.
  - destruct (skipn (length done) o) as [|x r] eqn:E; [apply (f_equal (@length _)) in E; rewrite skipn_length in E; cbn in E; lia|].
    replace (length done) with (length (cut size j done)) at 1 by apply map_length. rewrite put_app.
    unfold cut. rewrite map_app. cbn [map]. f_equal. rewrite app_length. cbn [length].
    replace r with (skipn 1 (x :: r)) by reflexivity. rewrite <- E.
    rewrite skipn_add. reflexivity.
  - rewrite skipn_add. replace (j * size + size) with (S j * size) by lia. apply IH; exact H2.
Qed.
Lemma mid_length done old j : length (mid done j (length old) old) = length old.
Proof. unfold mid. rewrite map_length, combine_length, seq_length. lia. Qed.
Lemma mid_shape done N old j outs : length old + j <= N -> Forall (fun c => length c = N * size) done -> length done <= outs ->
  Forall (fun o => length o = outs /\ Forall (fun ch => length ch = size) o) old ->
  Forall (fun o => length o = outs /\ Forall (fun ch => length ch = size) o) (mid done j (length old) old).
Proof.
  revert j. induction old as [|o old IH]; intros j L Hd Lo H; [constructor|]. inversion H as [|? ? [H1 H1'] H2]; subst.
  unfold mid. cbn [length seq combine map fst snd]. cbn [length] in L. constructor; [|apply IH; try assumption; lia].
  unfold cut. rewrite app_length, map_length, skipn_length. split; [lia|].
  apply Forall_app. split.
  - apply Forall_map. eapply Forall_impl; [|exact Hd]. intros c Hc. cbn beta. rewrite firstn_length_le; [reflexivity|]. rewrite skipn_length, Hc. nia.
  - rewrite <- (firstn_skipn (length done) o) in H1'. apply Forall_app in H1'. apply H1'.
Qed.
Lemma write_channels_ok N outs old : length old = N -> Forall (fun o => length o = outs /\ Forall (fun ch => length ch = size) o) old ->
  forall cs done, Forall (fun c => length c = N * size) done -> Forall (fun c => length c = N * size) cs -> length done + length cs <= outs ->
  write_channels size (length done) cs (mid done 0 N old) = Ok (mid (done ++ cs) 0 N old).
Proof.
  intros LN Ho. subst N. induction cs as [|c cs IH]; intros done Hd Hc L; [rewrite app_nil_r; reflexivity|].
  inversion Hc as [|? ? H1 H2]; subst. cbn [write_channels length] in *.
  rewrite write_next_ok.
  - cbn [bind]. pose proof (puts_mid done c old 0) as P. cbn [Nat.mul skipn] in P. rewrite P.
    + replace (S (length done)) with (length (done ++ [c])) by (rewrite app_length; cbn; lia). rewrite IH.
      * rewrite <- app_assoc. reflexivity.
      * apply Forall_app. split; [assumption|constructor; [assumption|constructor]].
      * assumption.
      * rewrite app_length. cbn [length]. lia.
    + eapply Forall_impl; [|exact Ho]. intros o [E _]. cbn beta. lia.
  - rewrite mid_length. exact H1.
  - eapply Forall_impl; [|apply (mid_shape done (length old) old 0 outs); [lia|assumption|lia|assumption]]. intros o [E F]. split; [lia|exact F].
Qed.
Lemma mid_nil N old : length old = N -> mid [] 0 N old = old.
Proof.
  intros <-. unfold mid. generalize 0. induction old as [|o old IH]; intros j; [reflexivity|]. cbn [length seq combine map fst snd cut app skipn]. rewrite IH. reflexivity.
Qed.
Lemma mid_all N outs old a : length old = N -> length a = outs -> Forall (fun o => length o = outs /\ Forall (fun ch => length ch = size) o) old -> mid a 0 N old = cuts N a.
Proof.
  intros LN La H. subst N. unfold cuts, mid. generalize 0. induction H as [|o old [H1 _] _ IH]; intros j; [reflexivity|].
  cbn [length seq combine map fst snd]. rewrite IH, skipn_all2, app_nil_r by lia. reflexivity.
Qed.
Lemma message_ok N outs x a : length (x_next x) = N -> Forall (fun o => length o = outs /\ Forall (fun ch => length ch = size) o) (x_next x) -> fits size N outs a ->
  script_message size x a = Ok (mk_script (x_input x) (x_output x) (cuts N a)).
Proof.
  intros L H [La Fa]. unfold script_message.
  pose proof (write_channels_ok N outs (x_next x) L H a [] (Forall_nil _) Fa) as W. cbn [length app Nat.add] in W.
  rewrite mid_nil in W by exact L. rewrite W by lia. cbn [bind]. rewrite (mid_all N outs) by assumption. reflexivity.
Qed.
Lemma cuts_shape N outs a : fits size N outs a -> length (cuts N a) = N /\ Forall (fun o => length o = outs /\ Forall (fun ch => length ch = size) o) (cuts N a).
Proof.
  intros [La Fa]. unfold cuts. split; [rewrite map_length, seq_length; reflexivity|].
  apply Forall_map, Forall_forall. intros j Hj. apply in_seq in Hj. unfold cut. split; [rewrite map_length; exact La|].
  apply Forall_map. eapply Forall_impl; [|exact Fa]. intros c Hc. cbn beta. rewrite firstn_length_le; [reflexivity|]. rewrite skipn_length, Hc. nia.
Qed.

(** ** Blocks *)
Variable k : script_config.
Notation N := (k_quanta k).
Notation outs := (k_outputs k).
Hypothesis N_pos : 0 < N.
Hypothesis whole : k_buffer_size k = N * size.
Hypothesis outs_ok : 1 <= outs <= 32.
Definition good (next : list (list (list V))) : Prop := length next = N /\ Forall (fun o => length o = outs /\ Forall (fun ch => length ch = size) o) next.
(** what will be played after the answers [answers], with silence before them *)
Definition queue (answers : list (list (list V))) : list (list (list V)) :=
  match rev answers with [] => repeat (repeat zeros outs) N | a :: _ => cuts N a end.
Lemma silent_good : good (repeat (repeat zeros outs) N).
Proof.
  split; [apply repeat_length|]. apply Forall_forall. intros o Ho. apply repeat_spec in Ho. subst o. split; [apply repeat_length|].
  apply Forall_forall. intros c Hc. apply repeat_spec in Hc. subst c. apply repeat_length.
Qed.
Lemma queue_good answers : Forall (fits size N outs) answers -> good (queue answers).
Proof.
  intros H. unfold queue. destruct (rev answers) as [|a r] eqn:E; [apply silent_good|]. apply cuts_shape.
  rewrite Forall_forall in H. apply H. apply in_rev. rewrite E. left. reflexivity.
Qed.
Lemma messages_ok answers : forall x old, Forall (fits size N outs) old -> Forall (fits size N outs) answers -> x_next x = queue old ->
  fold_res (script_message size) x answers = Ok (mk_script (x_input x) (x_output x) (queue (old ++ answers))).
Proof.
  induction answers as [|a answers IH]; intros x old Ho Ha E.
  - rewrite app_nil_r. cbn [fold_res]. rewrite <- E. destruct x; reflexivity.
  - inversion Ha as [|? ? H1 H2]; subst. cbn [fold_res]. destruct (queue_good old Ho) as [G1 G2].
    rewrite (message_ok N outs) by (try rewrite E; assumption). cbn [bind].
    rewrite (IH _ (old ++ [a])); cbn [x_input x_output x_next].
    + rewrite <- app_assoc. reflexivity.
    + apply Forall_app. split; [assumption|constructor; [assumption|constructor]].
    + assumption.
    + unfold queue. rewrite rev_app_distr. reflexivity.
Qed.
Lemma messages_ignored answers : forall x : script (V := V), x_next x = [] -> fold_res (script_message size) x answers = Ok x.
Proof.
  induction answers as [|a answers IH]; intros x E; [reflexivity|]. cbn [fold_res]. unfold script_message. rewrite E.
  assert (W : forall cs i, write_channels size i cs (@nil (list (list V))) = Ok []). { induction cs as [|c cs IHc]; intros i; [reflexivity|]. cbn [write_channels write_next bind]. apply IHc. }
  rewrite W. cbn [bind]. rewrite IH; [|reflexivity]. destruct x; cbn in *; subst; reflexivity.
Qed.

(** the state before quantum [j] of block [b]: [given] the inputs so far, [old] the answers in the block before, [new] in this one *)
Definition state_at (b j : nat) (given : list (list (list V))) (old new : list (list (list V))) : script (V := V) :=
  mk_script given (if b <? 2 then [] else skipn j (queue old)) (if b =? 0 then [] else queue new).
Definition emitted (b j : nat) (old : list (list (list V))) : list (list V) :=
  if b <? 2 then [zeros] else nth j (queue old) [].
Lemma skipn_nth {X} (d : X) : forall (l : list X) j, j < length l -> skipn j l = nth j l d :: skipn (S j) l.
Proof. induction l as [|x l IH]; intros j H; [cbn in H; lia|]. destruct j as [|j]; [reflexivity|]. cbn [skipn nth]. rewrite IH by (cbn in H; lia). reflexivity. Qed.
Lemma step_ok (now rate : T) b j given old new answers input :
  j < N -> length given = j -> Forall (proper size) given -> proper size input ->
  Forall (fits size N outs) old -> Forall (fits size N outs) new -> Forall (fits size N outs) answers -> 
  (do x <- fold_res (script_message size) (state_at b j given old new) answers; script_quantum A size k now rate x input) =
  Ok (if S j =? N then state_at (S b) 0 [] (new ++ answers) [] else state_at b (S j) (given ++ [input]) old (new ++ answers),
      emitted b j old,
      if S j =? N then Some (joined (v_zero A) size (given ++ [input]), t_add A now (t_div A (t_of_Z A (Z.of_nat (k_buffer_size k))) rate)) else None).
Proof.
  intros Hj Lg Pg Pi Ho Hn Ha.
  assert (E : fold_res (script_message size) (state_at b j given old new) answers = Ok (state_at b j given old (new ++ answers))).
  { unfold state_at. destruct (b =? 0) eqn:Eb.
    - rewrite messages_ignored by reflexivity. reflexivity.
    - rewrite (messages_ok answers _ new) by (try assumption; reflexivity). reflexivity. }
  rewrite E. cbn [bind]. clear E. unfold script_quantum, state_at, emitted. cbn [x_output x_input x_next].
  destruct (queue_good old Ho) as [Lq _].
  assert (O : match (if b <? 2 then [] else skipn j (queue old)) with [] => ([silent_channel A size], []) | q :: l => (q, l) end
     = (if b <? 2 then [zeros] else nth j (queue old) [], if b <? 2 then [] else skipn (S j) (queue old))).
  { destruct (b <? 2); [reflexivity|]. rewrite (skipn_nth []) by lia. reflexivity. }
  unfold block in *. rewrite O. rewrite app_length. cbn [length]. replace (length given + 1) with (S j) by lia.
  destruct (S j =? N) eqn:EN.
  - apply Nat.eqb_eq in EN. 
    assert (Lb : length (given ++ [input]) = N) by (rewrite app_length; cbn; lia).
    assert (Pb : Forall (proper size) (given ++ [input])) by (apply Forall_app; split; [assumption|constructor; [assumption|constructor]]).
    rewrite whole. rewrite <- Lb at 1. rewrite fill_joined by (eapply Forall_impl; [|exact Pb]; intros q [_ P]; exact P). cbn [bind].
    rewrite joined_ok by (try assumption; destruct given; discriminate). cbn [bind]. rewrite output_ok by exact outs_ok. cbn [bind].
    rewrite (proj2 (valid_channels_iff _) outs_ok). cbn [check bind]. repeat f_equal.
    destruct b as [|b]; [reflexivity|]. cbn [Nat.eqb]. replace (S (S b) <? 2) with false by (symmetry; apply Nat.ltb_ge; lia). reflexivity.
  - reflexivity.
Qed.

(** ** Runs *)
Definition call : Type := list (list (list V)) * T * list (list V).
Definition answers_of (c : call) := fst (fst c).
Definition time_of (c : call) := snd (fst c).
Definition input_of (c : call) := snd c.
Definition call_ok (c : call) : Prop := Forall (fits size N outs) (answers_of c) /\ proper size (input_of c).
Definition state_of (past : list call) : script (V := V) :=
  let b := length past / N in
  state_at b (length past mod N) (map input_of (skipn (b * N) past)) (concat (map answers_of (part N (b - 1) past))) (concat (map answers_of (skipn (b * N) past))).
Definition shown (rate : T) (calls : list call) (d : T) (i : nat) : list (list V) * option (script_event (T := T) (V := V)) :=
  (heard (v_zero A) size N outs (map answers_of calls) i,
   option_map (fun b => (b, t_add A (nth i (map time_of calls) d) (t_div A (t_of_Z A (Z.of_nat (k_buffer_size k))) rate))) (handed (v_zero A) size N (map input_of calls) i)).
Lemma part_map {X Y} (f : X -> Y) b l : part N b (map f l) = map f (part N b l).
Proof. unfold part. rewrite skipn_map, firstn_map. reflexivity. Qed.
Lemma part_app {X} b (l r : list X) : (b + 1) * N <= length l -> part N b (l ++ r) = part N b l.
Proof.
  intros H. unfold part. rewrite skipn_app, firstn_app, skipn_length. replace (N - (length l - b * N)) with 0 by lia. cbn [firstn]. apply app_nil_r.
Qed.
Lemma Forall_part {X} (P : X -> Prop) b l : Forall P l -> Forall P (part N b l).
Proof. intros H. unfold part. rewrite <- (firstn_skipn (b * N) l) in H. apply Forall_app in H. destruct H as [_ H]. rewrite <- (firstn_skipn N (skipn (b * N) l)) in H. apply Forall_app in H. apply H. Qed.
Lemma Forall_skipn {X} (P : X -> Prop) n (l : list X) : Forall P l -> Forall P (skipn n l).
Proof. intros H. rewrite <- (firstn_skipn n l) in H. apply Forall_app in H. apply H. Qed.
Lemma answers_fit (l : list call) : Forall call_ok l -> Forall (fits size N outs) (concat (map answers_of l)).
Proof. induction 1 as [|c l [H _] _ IH]; cbn [map concat]; [constructor|]. apply Forall_app. split; assumption. Qed.
Lemma state_at_old b j given old old' new : b < 2 -> state_at b j given old new = state_at b j given old' new.
Proof. intros H. unfold state_at. rewrite (proj2 (Nat.ltb_lt _ _) H). reflexivity. Qed.
Lemma run_ok rate d : forall calls past, Forall call_ok past -> Forall call_ok calls ->
  exists x, script_run A size k rate (state_of past) calls = Ok (x, map (shown rate (past ++ calls) d) (seq (length past) (length calls))).
Proof.
  induction calls as [|c calls IH]; intros past Hp Hc; [eexists; reflexivity|].
  inversion Hc as [|? ? [C1 C2] C3]; subst. destruct c as [[answers now] input]. unfold answers_of, input_of in C1, C2. cbn [fst snd] in C1, C2.
  set (b := length past / N). set (j := length past mod N).
  assert (Lp : length past = N * b + j) by (apply Nat.div_mod_eq).
  assert (Hj : j < N) by (apply Nat.mod_upper_bound; lia).
  assert (Ls : length (skipn (b * N) past) = j) by (rewrite skipn_length; lia).
  pose proof (step_ok now rate b j (map input_of (skipn (b * N) past)) (concat (map answers_of (part N (b - 1) past))) (concat (map answers_of (skipn (b * N) past))) answers input Hj) as St.
  specialize (St ltac:(rewrite map_length; exact Ls)).
  specialize (St ltac:(apply Forall_map; eapply Forall_impl; [|apply Forall_skipn; exact Hp]; intros c [_ H]; exact H) C2).
  specialize (St ltac:(apply answers_fit, Forall_part; exact Hp) ltac:(apply answers_fit, Forall_skipn; exact Hp) C1).
  destruct (IH (past ++ [(answers, now, input)])) as [x' R].
  { apply Forall_app. split; [assumption|]. constructor; [split; assumption|constructor]. }
  { assumption. }
  cbn [script_run]. exists x'.
  assert (Es : state_of past = state_at b j (map input_of (skipn (b * N) past)) (concat (map answers_of (part N (b - 1) past))) (concat (map answers_of (skipn (b * N) past)))) by reflexivity.
  rewrite Es. clear Es.
  assert (SK : skipn (b * N) (past ++ [(answers, now, input)]) = skipn (b * N) past ++ [(answers, now, input)]).
  { rewrite skipn_app. replace (b * N - length past) with 0 by lia. reflexivity. }
  assert (Next : state_of (past ++ [(answers, now, input)]) =
    if S j =? N then state_at (S b) 0 [] (concat (map answers_of (skipn (b * N) past)) ++ answers) []
    else state_at b (S j) (map input_of (skipn (b * N) past) ++ [input]) (concat (map answers_of (part N (b - 1) past))) (concat (map answers_of (skipn (b * N) past)) ++ answers)).
  { unfold state_of. rewrite app_length. cbn [length]. replace (length past + 1) with (S j + b * N) by lia.
    destruct (S j =? N) eqn:EN.
    - apply Nat.eqb_eq in EN. rewrite EN. replace (N + b * N) with (S b * N) by lia.
      rewrite Nat.div_mul, Nat.mod_mul by lia. 
      rewrite skipn_all2 by (rewrite app_length; cbn [length]; lia). cbn [map concat]. f_equal. cbn [Nat.sub]. rewrite Nat.sub_0_r.
      unfold part. rewrite SK, firstn_all2 by (rewrite app_length, Ls; cbn [length]; lia).
      rewrite map_app, concat_app. cbn [map concat]. rewrite app_nil_r. reflexivity.
    - apply Nat.eqb_neq in EN. rewrite Nat.div_add, Nat.mod_add, Nat.div_small, Nat.mod_small by lia. cbn [Nat.add].
      rewrite SK, !map_app, concat_app. cbn [map concat]. rewrite app_nil_r.
      destruct (le_lt_dec 1 b) as [B|B].
      + rewrite part_app; [reflexivity|]. replace (b - 1 + 1) with b by lia. lia.
      + apply state_at_old. lia. }
  destruct (fold_res (script_message size) _ answers) as [x1| |]; cbn [bind] in St |- *; [|discriminate St|discriminate St].
  unfold block in *. rewrite St. cbn [bind]. rewrite <- Next. rewrite R. cbn [bind]. rewrite app_length. cbn [length]. rewrite <- app_assoc. cbn [app].
  rewrite Nat.add_1_r. cbn [seq map]. do 3 f_equal. unfold shown. f_equal.
  - unfold heard, emitted. fold b j. destruct (b <? 2) eqn:B2; [reflexivity|]. apply Nat.ltb_ge in B2.
    rewrite part_map, part_app by lia.
    unfold queue. destruct (rev (concat (map answers_of (part N (b - 1) past)))) as [|a r].
    + rewrite nth_indep with (d' := repeat zeros outs) by (rewrite repeat_length; lia). apply nth_repeat.
    + unfold cuts. rewrite Buffer_Proofs.nth_map_seq by lia. reflexivity.
  - unfold handed. fold b j. replace (j =? N - 1) with (S j =? N) by (destruct (S j =? N) eqn:E1; symmetry; [apply Nat.eqb_eq in E1; apply Nat.eqb_eq; lia|apply Nat.eqb_neq in E1; apply Nat.eqb_neq; lia]).
    destruct (S j =? N) eqn:EN; [|reflexivity]. apply Nat.eqb_eq in EN. cbn [option_map]. do 2 f_equal.
    + rewrite part_map. f_equal. unfold part. rewrite skipn_app. replace (b * N - length past) with 0 by lia. cbn [skipn].
      rewrite firstn_app, Ls, firstn_all2 by lia. replace (N - j) with 1 by lia. cbn [firstn]. rewrite map_app. reflexivity.
    + rewrite map_app, app_nth2 by (rewrite map_length; lia). rewrite map_length, Nat.sub_diag. reflexivity.
Qed.
Lemma run_new rate d calls : Forall call_ok calls ->
  exists x, script_run A size k rate script_new calls = Ok (x, map (shown rate calls d) (seq 0 (length calls))).
Proof.
  intros H. destruct (run_ok rate d calls [] (Forall_nil _) H) as [x E]. exists x. cbn [app length] in E. rewrite <- E. f_equal.
  unfold state_of, state_at. cbn [length]. rewrite Nat.div_0_l by lia. cbn [Nat.mul skipn map concat]. reflexivity.
Qed.

Lemma events_in_order rate d calls : forall n,
  flat_map (fun p => match snd p with Some e => [fst e] | None => [] end) (map (shown rate calls d) (seq 0 n)) =
  map (fun b => joined (v_zero A) size (part N b (map input_of calls))) (seq 0 (n / N)).
Proof.
  induction n as [|n IH]; [rewrite Nat.div_0_l by lia; reflexivity|].
  rewrite seq_S, map_app, flat_map_app. etransitivity; [apply f_equal2; [exact IH|reflexivity]|]. cbn [map flat_map Nat.add]. rewrite app_nil_r. cbn [shown snd]. unfold handed.
  pose proof (Nat.div_mod_eq n N) as D. pose proof (Nat.mod_upper_bound n N ltac:(lia)) as M.
  destruct (n mod N =? N - 1) eqn:E; cbn [option_map].
  - apply Nat.eqb_eq in E. replace (S n) with (S (n / N) * N) by lia. rewrite Nat.div_mul by lia. rewrite seq_S, map_app. reflexivity.
  - apply Nat.eqb_neq in E. rewrite app_nil_r. f_equal. f_equal. apply (Nat.div_unique _ _ _ (S (n mod N))); lia.
Qed.
End Script.
