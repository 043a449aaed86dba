(** The event loop: theorems.

    C38 Each event is passed to the handler in place for its type, once and in order; one-shot handlers run at most
    once; clearing or replacing a handler takes effect for all later events. *)
From Coq Require Import List Arith Bool Lia.
From Verif Require Import Event_Model Event_Spec Event_Proofs.
Import ListNotations.

(** In every run, the events passed to handlers so far, followed by those that wait, are the emitted events in
    the order of emission, each at most once (some may have had no handler, or have been dropped). *)
Theorem C38_in_order : forall capacity thread ls s, run capacity thread new_loop ls = Some s -> subsequence (map snd (calls s) ++ queue s) (emitted ls).
Proof. exact order. Qed.
Print Assumptions C38_in_order.

(** A one-shot handler is called at most as often as it was installed. *)
Theorem C38_once : forall capacity thread ls s h, run capacity thread new_loop ls = Some s -> calls_of (Once h) (calls s) <= installations (Once h) ls.
Proof. intros capacity thread ls s h R. pose proof (once_inv capacity thread h ls new_loop s 0 R ltac:(cbn; lia)). lia. Qed.
Print Assumptions C38_once.

(** A handler is called with events of a type for which it was installed only. *)
Theorem C38_right_handler : forall capacity thread ls s h e, run capacity thread new_loop ls = Some s -> In (h, e) (calls s) -> In (Set_handler (e_key e) h) ls.
Proof.
  intros capacity thread ls s h e R I. destruct (entitled_run capacity thread (fun k h => In (Set_handler k h) ls) ls new_loop s R) as (_ & _ & H).
  - split; [intros ? ? []|]. split; [discriminate|intros ? ? []].
  - auto.
  - exact (H h e I).
Qed.
Print Assumptions C38_right_handler.

(** Runs in which no handler is changed while a repeating callback for the same type is running (and no event is
    dropped, and no callback panics): the calls are the ideal ones. *)
Theorem C38_ideal_partial : forall capacity thread ls s, run capacity thread new_loop ls = Some s -> calm capacity thread new_loop ls = true ->
  calls s = i_calls (ideal_run ls) /\ queue s = i_queue (ideal_run ls).
Proof. intros capacity thread ls s R C. destruct (calm_run capacity thread ls new_loop s ideal_new R C agree_new) as [Q K _]. split; symmetry; assumption. Qed.
Print Assumptions C38_ideal_partial.
(** What the ideal is, in terms of the history: after clearing, no calls until the next installation; a
    repeating handler gets all events of its type from its installation until it is cleared or replaced. *)
Theorem C38_ideal_cleared : forall before k ls, (forall h, ~ In (Set_handler k h) ls) ->
  filter (fun c => e_key (snd c) =? k) (i_calls (ideal_run (before ++ Clear_handler k :: ls))) = filter (fun c => e_key (snd c) =? k) (i_calls (ideal_run before)).
Proof.
  intros before k ls N. unfold ideal_run. rewrite fold_left_app. cbn [fold_left]. destruct (ideal_cleared k ls (ideal_step (fold_left ideal_step before ideal_new) (Clear_handler k))) as [_ H]; [cbn; unfold put; rewrite Nat.eqb_refl; reflexivity|exact N|].
  exact H.
Qed.
Print Assumptions C38_ideal_cleared.
Theorem C38_ideal_kept : forall before k h ls, (forall l, In l ls -> match l with Set_handler j _ | Clear_handler j => j <> k | _ => True end) ->
  exists taken, i_queue (ideal_run before) ++ emitted ls = taken ++ i_queue (ideal_run (before ++ Set_handler k (Multiple h) :: ls)) /\
    filter (fun c => e_key (snd c) =? k) (i_calls (ideal_run (before ++ Set_handler k (Multiple h) :: ls))) =
    filter (fun c => e_key (snd c) =? k) (i_calls (ideal_run before)) ++ map (fun e => (Multiple h, e)) (filter (fun e => e_key e =? k) taken).
Proof.
  intros before k h ls N. unfold ideal_run. rewrite fold_left_app. cbn [fold_left]. destruct (ideal_kept k h ls (ideal_step (fold_left ideal_step before ideal_new) (Set_handler k (Multiple h)))) as [_ (taken & T1 & T2)]; [cbn; unfold put; rewrite Nat.eqb_refl; reflexivity|exact N|].
  exists taken. split; assumption.
Qed.
Print Assumptions C38_ideal_kept.
(** A run with two types, a one-shot handler that installs itself again, and a handler replaced between events. *)
Definition ev (k i : nat) : event := mk_event k false i.
Definition a_run : list label :=
  [Set_handler 1 (Multiple 7); Set_handler 2 (Once 8); Send (ev 1 0); Try_send (ev 2 1); Take; Return; Take; Set_handler 2 (Once 8); Return; Set_handler 1 (Multiple 9); Send (ev 1 2); Send (ev 2 3); Take; Return; Take; Return].
Example C38_ideal_case : calm 256 true new_loop a_run = true /\ match run 256 true new_loop a_run with Some s => calls s = [(Multiple 7, ev 1 0); (Once 8, ev 2 1); (Multiple 9, ev 1 2); (Once 8, ev 2 3)] | None => False end.
Proof. vm_compute. repeat split. Qed.

(** No event waits for ever: an idle loop can always take the next event, and a callback can always return. *)
Theorem C38_progress : forall capacity thread s, stopped s = false -> queue s <> [] \/ running s <> None -> exists l, (l = Take \/ l = Return) /\ step capacity thread s l <> None.
Proof.
  intros capacity thread s S H. destruct (running s) as [[e [h|h]]|] eqn:R; [exists Return|exists Return|exists Take]; (split; [tauto|]); unfold step; rewrite R; try discriminate.
  rewrite S. destruct (queue s); [destruct H; congruence|]. destruct (lookup _ _); discriminate.
Qed.
Print Assumptions C38_progress.
(** The event thread makes no call after the one for the closed event. *)
Theorem C38_closed : forall capacity ls1 ls2 s1 s2 s3 e q, run capacity true new_loop ls1 = Some s1 -> queue s1 = e :: q -> e_closed e = true ->
  step capacity true s1 Take = Some s2 -> run capacity true s2 ls2 = Some s3 -> calls s3 = calls s2.
Proof.
  intros capacity ls1 ls2 s1 s2 s3 e q _ Q C E R. apply (stopped_run capacity true ls2 s2 s3); [|exact R]. unfold step in E. destruct (running s1); [discriminate|]. destruct (stopped s1); [discriminate|]. rewrite Q, C in E.
  destruct (lookup _ _); injection E as <-; reflexivity.
Qed.
Print Assumptions C38_closed.

(** Full statement (refuted): clearing takes effect.  A repeating handler that clears its own type (or whose type is
    cleared by another thread while it runs) is put back when it returns. *)
Theorem C38_clear_refuted : let ls := [Set_handler 1 (Multiple 7); Send (ev 1 0); Send (ev 1 1); Take; Clear_handler 1; Return; Take] in
  match run 256 true new_loop ls with
  | Some s => calls s = [(Multiple 7, ev 1 0); (Multiple 7, ev 1 1)] /\ i_calls (ideal_run ls) = [(Multiple 7, ev 1 0)]
  | None => False
  end.
Proof. vm_compute. repeat split. Qed.
Print Assumptions C38_clear_refuted.
(** Full statement (refuted): replacing takes effect.  The new handler is overwritten when the old one returns. *)
Theorem C38_replace_refuted : let ls := [Set_handler 1 (Multiple 7); Send (ev 1 0); Send (ev 1 1); Take; Set_handler 1 (Multiple 8); Return; Take] in
  match run 256 true new_loop ls with
  | Some s => calls s = [(Multiple 7, ev 1 0); (Multiple 7, ev 1 1)] /\ i_calls (ideal_run ls) = [(Multiple 7, ev 1 0); (Multiple 8, ev 1 1)]
  | None => False
  end.
Proof. vm_compute. repeat split. Qed.
Print Assumptions C38_replace_refuted.
(** Full statement (refuted): each emitted event is passed on.  The render thread drops events when 256 wait. *)
Theorem C38_dropped_refuted : let ls := Set_handler 1 (Multiple 7) :: map (fun i => Try_send (ev 1 i)) (seq 0 257) ++ concat (repeat [Take; Return] 256) in
  match run 256 true new_loop ls with
  | Some s => queue s = [] /\ length (calls s) = 256 /\ length (emitted ls) = 257
  | None => False
  end.
Proof. vm_compute. repeat split. Qed.
Print Assumptions C38_dropped_refuted.
(** Full statement (refuted): a callback that panics ends the event thread; later events of all types are lost. *)
Theorem C38_panic_refuted : forall capacity thread ls s, let before := [Set_handler 1 (Multiple 7); Set_handler 2 (Multiple 8); Send (ev 1 0); Take; Unwind] in
  2 <= capacity -> run capacity thread new_loop (before ++ ls) = Some s -> calls s = [(Multiple 7, ev 1 0)].
Proof.
  intros capacity thread ls s before H R. rewrite run_app in R. assert (E : run capacity thread new_loop before = Some (mk_loop [(2, Multiple 8)] [] None true [(Multiple 7, ev 1 0)])).
  { unfold before. cbn [run step queue new_loop length]. destruct (Nat.ltb_spec 0 capacity); [|lia]. cbn. reflexivity. }
  rewrite E in R. apply stopped_run in R; [|reflexivity]. apply R.
Qed.
Print Assumptions C38_panic_refuted.
