(** * Property C83, synchronous interface: [suspend_sync] and [start_rendering_sync] *)
From Coq Require Import List Arith Bool Lia Sorting.Sorted.
From Verif Require Import Thread_Model Thread_Spec Thread_Props Offline_Model Offline_Spec Offline_Props OfflineSync_Model OfflineSync_Spec OfflineSync_Proofs.
Import ListNotations.

(** The synchronous rendering goes through the same life as the asynchronous one and its buffer is that of the sequential rendering: the changes made before the
    start come first, those of a callback just before the quantum it was scheduled for, those of the event handlers after the quantum they follow.  It panics
    only when the sequential rendering does, i.e. when a message or a processor panics. *)
Theorem C83_sync : forall G M V (GO : @graph_ops G M V) zero RQ channels len g evs ms cs s, 0 < RQ -> 0 < len ->
  sync_calls (new_context channels g, []) cs = Some s ->
  exists cbs, StronglySorted lt (map fst cbs) /\ (forall q m, In (q, m) cbs <-> In (Suspend_sync q m) cs) /\
  let w := start_rendering_sync GO zero RQ len evs ms s in
  match render_audiobuffer GO zero RQ channels len new_thread (StartupMsg g :: map GraphMsg (initial cs))
          (map (fun c => (fst c, map GraphMsg (snd c))) cbs)
          (map (fun k => map GraphMsg (answers (quanta cs) evs ms k)) (seq 0 (div_ceil len RQ))) with
  | None => w_task w = T_panicked
  | Some (_, b, _) => w_task w = T_done b /\ marks (w_log w) = life (div_ceil len RQ) (quanta cs)
  end.
Proof.
  intros G M V GO zero RQ channels len g evs ms cs [w cbs] HR HL H. exists cbs.
  destruct (start_spec GO zero RQ channels len g evs ms HR HL cs w cbs H) as (O & I & E). split; [exact O|]. split; [exact I|exact E].
Qed.
Print Assumptions C83_sync.

(** The call returns when no message and no processor panics. *)
Theorem C83_sync_returns : forall G M V (GO : @graph_ops G M V) zero RQ channels len g evs ms cs s, 0 < RQ -> 0 < len -> 0 < channels -> never_panics GO ->
  sync_calls (new_context channels g, []) cs = Some s ->
  exists b, w_task (start_rendering_sync GO zero RQ len evs ms s) = T_done b.
Proof.
  intros G M V GO zero RQ channels len g evs ms cs [w cbs] HR HL HC HG H.
  destruct (start_spec GO zero RQ channels len g evs ms HR HL cs w cbs H) as (O & I & E). cbv zeta in E.
  assert (N : render_audiobuffer GO zero RQ channels len new_thread (StartupMsg g :: map GraphMsg (initial cs)) (map (fun c => (fst c, map GraphMsg (snd c))) cbs)
    (map (fun k => map GraphMsg (answers (quanta cs) evs ms k)) (seq 0 (div_ceil len RQ))) <> None) by (apply buffer_some; assumption).
  destruct (render_audiobuffer _ _ _ _ _ _ _ _ _) as [[[t b] r]|]; [|congruence]. exists b. exact (proj1 E).
Qed.
Print Assumptions C83_sync_returns.

Lemma life_set : forall n a b, (forall q : nat, In q a <-> In q b) -> life n a = life n b.
Proof.
  intros n a b H. unfold life. do 2 f_equal. apply flat_map_ext. intros k. unfold quantum_life.
  assert (X : existsb (Nat.eqb k) a = existsb (Nat.eqb k) b).
  { apply eq_true_iff_eq. rewrite !existsb_exists. split; intros (x & I & E); exists x; (split; [apply H; exact I|exact E]). }
  rewrite X. reflexivity.
Qed.
Lemma sorted_unique : forall a b, StronglySorted lt a -> StronglySorted lt b -> (forall q, In q a <-> In q b) -> a = b.
Proof.
  induction a as [|x a IH]; intros b A B H.
  - destruct b as [|y b]; [reflexivity|]. destruct (proj2 (H y) (or_introl eq_refl)).
  - destruct b as [|y b]; [destruct (proj1 (H x) (or_introl eq_refl))|].
    apply StronglySorted_inv in A, B. destruct A as [A1 A2], B as [B1 B2]. rewrite Forall_forall in A2, B2.
    assert (E : x = y).
    { destruct (proj1 (H x) (or_introl eq_refl)) as [E|E]; [congruence|]. destruct (proj2 (H y) (or_introl eq_refl)) as [E'|E']; [congruence|].
      apply B2 in E. apply A2 in E'. lia. }
    subst y. f_equal. apply IH; auto. intros q. split; intros I.
    + destruct (proj1 (H q) (or_intror I)) as [<-|X]; [|exact X]. apply A2 in I. lia.
    + destruct (proj2 (H q) (or_intror I)) as [<-|X]; [|exact X]. apply B2 in I. lia.
Qed.

(** The two interfaces agree: an asynchronous program that waits for the suspensions and a synchronous one with the same suspensions have the same life; with the
    same changes before the start, in each suspension and in the handlers, they render the same buffer. *)
Theorem C83_sync_same : forall G M V (GO : @graph_ops G M V) zero RQ channels len g evs ms cs s ls w b b', 0 < RQ -> 0 < len ->
  sync_calls (new_context channels g, []) cs = Some s -> w_task (start_rendering_sync GO zero RQ len evs ms s) = T_done b ->
  polite GO zero RQ channels len g ls -> run GO zero RQ len (new_context channels g) ls = Some w -> w_task w = T_done b' ->
  (forall q, In q (scheduled ls) <-> exists m, In (Suspend_sync q m) cs) ->
  marks (w_log w) = marks (w_log (start_rendering_sync GO zero RQ len evs ms s)) /\
  (hd [] (segments ls) = initial cs ->
   (forall cbs, StronglySorted lt (map fst cbs) -> (forall q m, In (q, m) cbs <-> In (Suspend_sync q m) cs) -> combine (map fst cbs) (tl (segments ls)) = cbs) ->
   handled ls = map (answers (quanta cs) evs ms) (seq 0 (div_ceil len RQ)) -> b' = b).
Proof.
  intros G M V GO zero RQ channels len g evs ms cs s ls w b b' HR HL H T P R T' Sc.
  destruct (C83_sync G M V GO zero RQ channels len g evs ms cs s HR HL H) as (cbs & O & I & E). cbv zeta in E.
  destruct (C83_life G M V GO zero RQ channels len g ls w HR HL P R) as [_ L]. specialize (L b' T').
  destruct (C83_sound G M V GO zero RQ channels len g ls w b' P R T') as (qs & Q1 & Q2 & t' & ran & Q3).
  destruct (render_audiobuffer GO zero RQ channels len new_thread (StartupMsg g :: map GraphMsg (initial cs)) (map (fun c => (fst c, map GraphMsg (snd c))) cbs) (map (fun k => map GraphMsg (answers (quanta cs) evs ms k)) (seq 0 (div_ceil len RQ)))) as [[[t2 b2] ran2]|] eqn:Er; [|congruence].
  destruct E as [E1 E2]. assert (b2 = b) by congruence. subst b2.
  assert (Sq : forall q, In q (scheduled ls) <-> In q (quanta cs)).
  { intros q. rewrite Sc. unfold quanta. rewrite in_flat_map. split.
    - intros (m & X). exists (Suspend_sync q m). split; [exact X|left; reflexivity].
    - intros ([q' m|m] & X & Y); [|destruct Y]. destruct Y as [<-|[]]. eauto. }
  split; [rewrite L, E2; apply life_set; exact Sq|]. intros H1 H2 H3. specialize (H2 cbs O I).
  assert (Eq : qs = map fst cbs).
  { apply sorted_unique; auto. intros q. rewrite Q2, Sc, in_map_iff. split.
    - intros (m & X). exists (q, m). split; [reflexivity|apply I; exact X].
    - intros ((q' & m) & <- & X). exists m. apply I. exact X. }
  assert (Ec : combine qs (map (map GraphMsg) (tl (segments ls))) = map (fun c => (fst c, map (@GraphMsg G M) (snd c))) cbs).
  { rewrite Eq. transitivity (map (fun c => (fst c, map (@GraphMsg G M) (snd c))) (combine (map fst cbs) (tl (segments ls)))); [|rewrite H2; reflexivity]. generalize (map fst cbs) (tl (segments ls)). intros x. induction x as [|y x IH]; intros [|z l]; try reflexivity. cbn [map combine fst snd]. f_equal. apply IH. }
  rewrite H1, Ec, H3, map_map in Q3. rewrite Er in Q3. congruence.
Qed.
Print Assumptions C83_sync_same.

(** A second suspension for the same quantum is refused; the callbacks are left as they are. *)
Theorem C83_sync_twice : forall G M V (g : G) channels (cs : list (@call M)) s q m, sync_calls (V := V) (new_context channels g, []) cs = Some s ->
  (sync_call s (Suspend_sync q m) = None <-> In q (quanta cs)).
Proof.
  intros G M V g channels cs [w cbs] q m H.
  destruct (calls_spec channels g cs _ [] [] eq_refl (SSorted_nil _) ltac:(intros; cbn; tauto) w cbs H) as (-> & O & I). cbn [app] in I.
  destruct (Thread_OfflineProofs.insert_spec q m cbs O) as [I1 _].
  assert (E : sync_call (V := V) (with_chan (new_context channels g) (StartupMsg g :: map GraphMsg (initial ([] ++ cs))), cbs) (Suspend_sync q m) = None <-> insert_suspension q m cbs = None).
  { cbn. destruct (insert_suspension q m cbs); split; congruence. }
  rewrite E, I1. rewrite <- (quanta_in cs cbs I). rewrite in_map_iff. split.
  - intros (a & X). exists (q, a). split; [reflexivity|exact X].
  - intros ((q' & a) & <- & X). exists a. exact X.
Qed.
Print Assumptions C83_sync_twice.

(** The program of [C83_case], synchronously *)
Definition C83_calls : list (@call nat) := [Suspend_sync 2 [3; 4]; Change [1]; Suspend_sync 0 [5]].
Definition C83_nodes (q : nat) : list nat := if Nat.eqb q 0 then [7] else [].
Definition C83_answers (q : nat) : list nat := match q with 0 => [2] | 1 => [9] | _ => [] end.
Example C83_sync_case : exists s, sync_calls (new_context 1 0, []) C83_calls = Some s /\
  let w := start_rendering_sync counter 0 4 10 C83_nodes C83_answers s in
  w_task w = T_done [[600; 601; 602; 603; 900; 901; 902; 903; 1700; 1701]] /\ marks (w_log w) = life 3 [2; 0] /\
  (forall q, In q (scheduled C83_program) <-> exists m, In (Suspend_sync q m) C83_calls) /\
  hd [] (segments C83_program) = initial C83_calls /\ handled C83_program = map (answers (quanta C83_calls) C83_nodes C83_answers) (seq 0 3) /\
  combine [0; 2] (tl (segments C83_program)) = [(0, [5]); (2, [3; 4])].
Proof.
  eexists. split; [reflexivity|]. cbv zeta. split; [vm_compute; reflexivity|]. split; [vm_compute; reflexivity|]. split.
  - intros q. cbn. split; [intros [<-|[<-|[]]]; eauto|]. intros (m & [E|[E|[E|[]]]]); [injection E as <- _|discriminate|injection E as <- _]; auto.
  - repeat split; reflexivity.
Qed.
