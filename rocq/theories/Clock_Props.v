(** C99: the clock of a context. *)
From Coq Require Import List Arith Bool ZArith Lia Reals Lra.
From Flocq Require Import Core BinarySingleNaN.
From Verif Require Import Float_Model Float_Proofs Float_BoundProofs Clock_Model Clock_Spec Clock_Proofs.
Import ListNotations.
Local Open Scope R_scope.

(** In every run, whatever the schedule of the render thread, of the readers and of changes of the output device: the times one thread reads
    are finite and never go back, and go forward when the thread sees that another block was begun. *)
Theorem C99_never_back : forall sr l s, usable_rate sr -> acts (start sr) l = Some s -> in_range (quanta s) ->
  forall i j a b, (i < j)%nat -> nth_error (readings s) i = Some a -> nth_error (readings s) j = Some b -> who a = who b ->
  is_finite (shown a) = true /\ is_finite (shown b) = true /\ B2R (shown a) <= B2R (shown b) /\ ((known a < known b)%nat -> B2R (shown a) < B2R (shown b)).
Proof. exact never_back. Qed.

(** The time read is the length of the blocks counted, but for one rounding.  At most one of these blocks is not yet rendered (see
    C99_ahead_refuted for the full statement: none of them). *)
Theorem C99_accuracy_partial : forall sr l s, usable_rate sr -> acts (start sr) l = Some s -> in_range (quanta s) ->
  forall r, In r (readings s) -> Rabs (B2R (shown r) - seconds sr (known r)) <= bpow radix2 (-53) * seconds sr (known r) /\ (known r <= complete r + 1)%nat.
Proof. exact accuracy. Qed.

(** While the render thread has the rate of the context: the time read after [k] blocks is, bit for bit, the time given to the processors
    for the next block, so a start or an automation at the time read falls on the first frame of that block; and the times of blocks increase.
    Missing: a render thread with another rate, see C99_other_rate_refuted. *)
Theorem C99_same_clock_partial : forall sr l s, usable_rate sr -> acts (start sr) l = Some s -> in_range (quanta s) ->
  Forall (fun a => forall r, a = New_stream r -> r = sr) l ->
  (forall r t, In r (readings s) -> nth_error (stamps s) (known r) = Some t -> t = shown r) /\
  (forall j k t u, (j < k)%nat -> nth_error (stamps s) j = Some t -> nth_error (stamps s) k = Some u -> B2R t < B2R u).
Proof. exact same_clock. Qed.

Definition k48 : f32 := f32_of_Z 48000.
Definition k44 : f32 := f32_of_Z 44100.
Lemma k48_usable : usable_rate k48.
Proof. destruct (of_Z_exact 24 128 f32_prec f32_emax 48000) as [E F]; [lia|]. split; [exact F|]. unfold k48, f32_of_Z. cbv zeta in E. rewrite E. lra. Qed.
Lemma by_run (P : clock -> bool) l : match acts (start k48) l with Some s => P s | None => false end = true -> exists s, acts (start k48) l = Some s /\ P s = true.
Proof. intros H. destruct (acts (start k48) l) as [s|]; [|discriminate]. exists s. split; [reflexivity|exact H]. Qed.

(** The documentation of current_time promises the time of the frame that follows the last block processed.  The counter is advanced before
    a block is rendered: a control thread that reads the clock in the meantime gets the end of a block whose rendering has only begun.  In
    the run a block has begun, none is complete, and the clock shows one block. *)
Theorem C99_ahead_refuted : exists l s r, acts (start k48) l = Some s /\ In r (readings s) /\ complete r = 0%nat /\ f64_eq (shown r) (time k48 0) = false.
Proof.
  exists [Begin; Read 0 1].
  destruct (by_run (fun s => existsb (fun r => (Nat.eqb (complete r) 0 && negb (f64_eq (shown r) (time k48 0)))%bool) (readings s)) [Begin; Read 0 1]) as (s & E & H); [vm_compute; reflexivity|].
  apply existsb_exists in H. destruct H as (r & I & H). apply andb_true_iff in H. destruct H as [H1 H2]. apply Nat.eqb_eq in H1. apply negb_true_iff in H2.
  exists s, r. split; [exact E|]. split; [exact I|]. split; [exact H1|exact H2].
Qed.

(** set_sink_id can give the render thread another rate than the context has (C76_rate_refuted).  From then on there are two clocks: a reading
    of current_time is no longer the time the processors are given for the same frame.  In the run the time read after two blocks differs from
    the time processors get for the third block. *)
Theorem C99_other_rate_refuted : exists l s r t, acts (start k48) l = Some s /\ In r (readings s) /\ nth_error (stamps s) (known r) = Some t /\ f64_eq t (shown r) = false.
Proof.
  exists [Begin; End; New_stream k44; Begin; End; Read 0 2; Begin; End].
  destruct (by_run (fun s => existsb (fun r => match nth_error (stamps s) (known r) with Some t => negb (f64_eq t (shown r)) | None => false end) (readings s))
    [Begin; End; New_stream k44; Begin; End; Read 0 2; Begin; End]) as (s & E & H); [vm_compute; reflexivity|].
  apply existsb_exists in H. destruct H as (r & I & H). destruct (nth_error (stamps s) (known r)) as [t|] eqn:N; [|discriminate]. apply negb_true_iff in H.
  exists s, r, t. split; [exact E|]. split; [exact I|]. split; [exact N|exact H].
Qed.

(** two threads read while blocks are rendered, one of them an old value *)
Definition case_run : list action := [Begin; Read 0 1; End; Begin; End; Read 1 1; Read 0 2; New_stream k48; Begin; Read 1 3].
Example clock_case : exists s, acts (start k48) case_run = Some s /\
  usable_rate k48 /\ in_range (quanta s) /\ map (fun r => (who r, known r, complete r)) (readings s) = [(0, 1, 0); (1, 1, 2); (0, 2, 2); (1, 3, 2)]%nat /\ length (stamps s) = 3%nat.
Proof.
  destruct (by_run (fun s => if list_eq_dec (list_eq_dec Nat.eq_dec) ([quanta s; length (stamps s)] :: map (fun r => [who r; known r; complete r]) (readings s))
    [[3; 3]; [0; 1; 0]; [1; 1; 2]; [0; 2; 2]; [1; 3; 2]]%nat then true else false) case_run) as (s & E & H); [vm_compute; reflexivity|].
  exists s. split; [exact E|]. split; [exact k48_usable|]. destruct list_eq_dec as [e|]; [|discriminate]. cbn [map] in e. injection e as E1 E2 E3. rewrite E1.
  split; [unfold in_range; lia|]. split; [|exact E2].
  destruct (readings s) as [|r1 [|r2 [|r3 [|r4 [|r5 rs]]]]]; try discriminate. cbn [map] in *. injection E3 as -> -> -> -> -> -> -> -> -> -> -> ->. reflexivity.
Qed.
Example clock_case_same : Forall (fun a => forall r, a = New_stream r -> r = k48) case_run.
Proof. unfold case_run. repeat (apply Forall_cons; [intros r H; first [discriminate H|injection H as H; symmetry; exact H]|]). apply Forall_nil. Qed.
(** a thread cannot see less than it saw before, nor more than there is *)
Example clock_reads : acts (start k48) [Begin; Read 0 1; Read 0 0] = None /\ acts (start k48) [Begin; Read 0 2] = None.
Proof. split; vm_compute; reflexivity. Qed.
Print Assumptions C99_never_back.
Print Assumptions C99_accuracy_partial.
Print Assumptions C99_same_clock_partial.
Print Assumptions C99_ahead_refuted.
Print Assumptions C99_other_rate_refuted.
