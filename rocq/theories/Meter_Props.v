(** C94: starting and stopping the collection of render capacity. *)
From Coq Require Import List Arith Bool Lia.
From Verif Require Import Meter_Model Meter_Spec Meter_Proofs.
Import ListNotations.

(** Once a call of [stop] has returned no collection runs and no update is sent any more, whatever the threads do, until
    [start] is called again. *)
Theorem C94_stop_is_final (capacity c : nat) (l1 l2 l3 : list action) (s s' : state) :
  one_at_a_time capacity start (l1 ++ Call_stop c :: l2) -> Forall (fun a => ~ is_call a) l2 ->
  acts capacity start (l1 ++ Call_stop c :: l2) = Some s -> clients s c = Idle ->
  Forall (fun a => ~ is_call a) l3 -> acts capacity s l3 = Some s' ->
  (forall i, ~ running s i) /\ updates s' = updates s.
Proof. exact (stop_is_final capacity c l1 l2 l3 s s'). Qed.
Print Assumptions C94_stop_is_final.

(** There is never more than one collection, however often [start] is called. *)
Theorem C94_one_collection (capacity : nat) (l : list action) (s : state) (i j : nat) :
  one_at_a_time capacity start l -> acts capacity start l = Some s -> running s i -> running s j -> i = j.
Proof. exact (one_collection capacity l s i j). Qed.
Print Assumptions C94_one_collection.

(** A collection never sends more updates than intervals have passed. *)
Theorem C94_pace (capacity : nat) (l : list action) (s : state) (i : nat) :
  one_at_a_time capacity start l -> acts capacity start l = Some s -> how_often i (updates s) <= how_often i (waits s).
Proof. exact (pace capacity l s i). Qed.
Print Assumptions C94_pace.

(** A call that waits for a collection to end can always be answered, if it is not made by a callback. *)
Theorem C94_calls_return (capacity : nat) (l : list action) (s : state) (c i : nat) (b : bool) :
  capacity <> 0 -> one_at_a_time capacity start l -> acts capacity start l = Some s -> c <> 0 -> clients s c = Sending i b ->
  exists l' s', acts capacity s l' = Some s' /\ clients s' c = (if b then To_store else Idle) /\ ~ running s' i.
Proof. exact (can_return capacity l s c i b). Qed.
Print Assumptions C94_calls_return.

(** a collection is started, sends an update, is replaced by another one, which sends two and is stopped while its third
    waits in [recv_timeout] *)
Definition a_session : list action :=
  [Call_start 1; Lock 1; Store 1; Spawn 1; Time_out 0; Prepare 0; Update 0; Take;
   Call_start 2; Lock 2; Time_out 0; Skip 0; Meet 2; Store 2; Spawn 2; Time_out 1; Prepare 1; Update 1; Time_out 1; Prepare 1; Update 1].
Example C94_case :
  one_at_a_time 256 start (a_session ++ Call_stop 1 :: [Lock 1; Meet 1]) /\
  exists s, acts 256 start (a_session ++ Call_stop 1 :: [Lock 1; Meet 1]) = Some s /\ clients s 1 = Idle /\ updates s = [0; 1; 1] /\ waits s = [0; 0; 1; 1] /\ length (workers s) = 2.
Proof.
  split; [|eexists; split; [vm_compute; reflexivity|repeat split; vm_compute; reflexivity]].
  unfold a_session. cbn [app].
  repeat (split; [intros X; first [solve [destruct X]|intros c; cbn; unfold set_client; cbn; destruct c as [|[|[|c]]]; reflexivity]|split; [discriminate|intros s' E; cbn in E; injection E as <-]]).
  exact I.
Qed.
(** and a state in which a call waits *)
Example C94_waiting_case : exists s, acts 256 start [Call_start 1; Lock 1; Store 1; Spawn 1; Time_out 0; Call_stop 2; Lock 2] = Some s /\ clients s 2 = Sending 0 false /\ running s 0.
Proof. eexists. split; [vm_compute; reflexivity|]. split; [vm_compute; reflexivity|]. exists (mk_worker Awake true). split; [vm_compute; reflexivity|]. right. left. reflexivity. Qed.

(** When two threads call [start] at the same time (the AudioRenderCapacity can be cloned), both find nothing to stop; the
    second one overwrites the sender of the first one (capacity.rs 99-100: the mutex is released after 97).  Two collections run,
    and [stop] ends one of them only: updates go on after it has returned, when all calls have been completed. *)
Theorem C94_concurrent_start_refuted :
  ~ forall (capacity c : nat) (l1 l2 l3 : list action) (s0 s s' : state), ~ In Drop_handles (l1 ++ l2 ++ l3) ->
      acts capacity start l1 = Some s0 -> (forall d, clients s0 d = Idle) -> Forall (fun a => ~ is_call a) (l2 ++ l3) ->
      acts capacity s0 (Call_stop c :: l2) = Some s -> clients s c = Idle -> acts capacity s l3 = Some s' -> updates s' = updates s.
Proof.
  intros H.
  assert (E : exists s0 s s', acts 256 start [Call_start 1; Call_start 2; Lock 1; Lock 2; Store 1; Store 2; Spawn 1; Spawn 2] = Some s0 /\ (forall d, clients s0 d = Idle) /\
    acts 256 s0 [Call_stop 1; Lock 1; Meet 1] = Some s /\ clients s 1 = Idle /\ acts 256 s [Disconnected 0; Prepare 0; Update 0] = Some s' /\ updates s = [] /\ updates s' = [0]).
  { do 3 eexists. split; [cbn; reflexivity|]. split; [intros d; unfold set_client; cbn; destruct d as [|[|[|d]]]; reflexivity|]. split; [cbn; reflexivity|]. split; [reflexivity|]. split; [vm_compute; reflexivity|]. split; vm_compute; reflexivity. }
  destruct E as (s0 & s & s' & E1 & E2 & E3 & E4 & E5 & E6 & E7).
  assert (X : updates s' = updates s).
  { refine (H 256 1 _ [Lock 1; Meet 1] _ s0 s s' _ E1 E2 _ E3 E4 E5); [cbn [In app]; intuition discriminate|repeat constructor; intros []]. }
  rewrite E6, E7 in X. discriminate X.
Qed.
Print Assumptions C94_concurrent_start_refuted.

(** When the context and the AudioRenderCapacity are dropped during a collection, which leaves the context playing
    (online.rs 165-172), the sender of the stop channel is dropped with them; [recv_timeout] then fails at once, which capacity.rs 110
    takes for a time-out.  The thread spins, and sends updates as fast as there are callbacks, without waiting for its interval. *)
Theorem C94_dropped_handle_refuted :
  ~ forall (capacity : nat) (l : list action) (s : state) (i : nat), (forall a, In a l -> is_call a -> a = Call_start 1) ->
      acts capacity start l = Some s -> how_often i (updates s) <= how_often i (waits s).
Proof.
  intros H.
  assert (E : exists s, acts 256 start [Call_start 1; Lock 1; Store 1; Spawn 1; Drop_handles; Disconnected 0; Prepare 0; Update 0; Disconnected 0; Prepare 0; Update 0] = Some s /\
    how_often 0 (updates s) = 2 /\ how_often 0 (waits s) = 0) by (eexists; split; [vm_compute; reflexivity|split; vm_compute; reflexivity]).
  destruct E as (s & E1 & E2 & E3). assert (X : how_often 0 (updates s) <= how_often 0 (waits s)).
  { refine (H 256 _ s 0 _ E1). intros a Ia C. cbn [In] in Ia. repeat (destruct Ia as [Ia|Ia]; [subst a; first [reflexivity|solve [destruct C]]|]). destruct Ia. }
  rewrite E2, E3 in X. lia.
Qed.
Print Assumptions C94_dropped_handle_refuted.

(** A callback that stops the collection (or closes the context, which does that first) hangs for ever if the event queue is
    full and the collection waits to put an update there: the collection waits for the event thread, which waits in
    the callback for the collection.  Nothing that any other thread does resolves this. *)
Theorem C94_stop_in_callback_refuted (capacity : nat) : capacity <> 0 ->
  exists l s, one_at_a_time capacity start l /\ acts capacity start l = Some s /\ clients s 0 = Sending 0 false /\
    forall l' s', acts capacity s l' = Some s' -> clients s' 0 = Sending 0 false.
Proof. exact (callback_deadlock capacity). Qed.
Print Assumptions C94_stop_in_callback_refuted.
