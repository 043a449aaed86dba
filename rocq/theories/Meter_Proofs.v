(** Collection of render capacity: proofs. *)
From Coq Require Import List Arith Bool Lia.
From Verif Require Import Meter_Model Meter_Spec.
Import ListNotations.

Lemma nth_set i w w' (l : list worker) j : nth_error l i = Some w' -> nth_error (set_worker i w l) j = if j =? i then Some w else nth_error l j.
Proof.
  unfold set_worker. revert i j. induction l as [|x l IH]; intros [|i] j E; try discriminate.
  - destruct j; reflexivity.
  - destruct j as [|j]; [reflexivity|]. exact (IH i j E).
Qed.
Lemma set_length i w w' (l : list worker) : nth_error l i = Some w' -> length (set_worker i w l) = length l.
Proof.
  unfold set_worker. revert i. induction l as [|x l IH]; intros [|i] E; try discriminate; [reflexivity|]. cbn [firstn app length]. f_equal. exact (IH i E).
Qed.

Definition all_idle_but (s : state) (c : nat) : Prop := forall d, d <> c -> clients s d = Idle.
Definition ended_but (s : state) (i : nat) : Prop := forall j w, nth_error (workers s) j = Some w -> j <> i -> w_phase w = Ended.
Definition all_ended (s : state) : Prop := forall j w, nth_error (workers s) j = Some w -> w_phase w = Ended.
Definition up (s : state) (i : nat) : Prop := exists w, nth_error (workers s) i = Some w /\ w_phase w <> Preparing /\ (w_phase w = Ended \/ w_sender w = true).

(** what the cell and the threads look like between two calls *)
Inductive rest (s : state) : Prop :=
  | R_none : cell s = None -> all_ended s -> rest s
  | R_some i : cell s = Some i -> up s i -> ended_but s i -> rest s.
Inductive mode (s : state) : Prop :=
  | M_idle : (forall c, clients s c = Idle) -> locked s = false -> rest s -> mode s
  | M_want c b : clients s c = Want_stop b -> all_idle_but s c -> locked s = false -> rest s -> mode s
  | M_sending c i b : clients s c = Sending i b -> all_idle_but s c -> locked s = true -> cell s = None -> up s i -> ended_but s i -> mode s
  | M_store c : clients s c = To_store -> all_idle_but s c -> locked s = false -> cell s = None -> all_ended s -> mode s
  | M_spawn c i : clients s c = To_spawn i -> all_idle_but s c -> locked s = false -> cell s = Some i -> nth_error (workers s) i = Some (mk_worker Preparing true) -> ended_but s i -> mode s.

Lemma set_same s c p : set_client s c p c = p. Proof. unfold set_client. rewrite Nat.eqb_refl. reflexivity. Qed.
Lemma set_other s c p d : d <> c -> set_client s c p d = clients s d. Proof. intros N. unfold set_client. destruct (Nat.eqb_spec d c); [contradiction|reflexivity]. Qed.
Lemma idle_unless s c d : all_idle_but s c -> clients s d <> Idle -> d = c.
Proof. intros A N. destruct (Nat.eq_dec d c) as [E|E]; [exact E|]. destruct (N (A d E)). Qed.

(** a step of the thread of a collection that leaves it running *)
Definition live (p : wphase) : Prop := match p with Waiting | Awake | Posting => True | _ => False end.
Lemma rest_step s s' i w p : rest s -> cell s' = cell s -> nth_error (workers s) i = Some w -> live (w_phase w) -> live p ->
  workers s' = set_worker i (mk_worker p (w_sender w)) (workers s) -> rest s'.
Proof.
  intros R C N L Lp W. destruct R as [C0 A|k C0 (u & U1 & U2 & U3) A].
  - rewrite (A i w N) in L. destruct L.
  - assert (i = k) as -> by (destruct (Nat.eq_dec i k) as [e|e]; [exact e|]; rewrite (A i w N e) in L; destruct L).
    rewrite N in U1. injection U1 as <-. apply R_some with k; [congruence| |].
    + exists (mk_worker p (w_sender w)). rewrite W, (nth_set _ _ _ _ k N), Nat.eqb_refl. split; [reflexivity|]. cbn [w_phase w_sender]. split; [destruct p; try destruct Lp; discriminate|].
      right. destruct U3 as [U3|U3]; [rewrite U3 in L; destruct L|exact U3].
    + intros j v E Nj. rewrite W, (nth_set _ _ _ _ j N) in E. destruct (Nat.eqb_spec j k); [contradiction|]. exact (A j v E Nj).
Qed.
Lemma mode_step s s' i w p : mode s -> clients s' = clients s -> cell s' = cell s -> locked s' = locked s -> nth_error (workers s) i = Some w -> live (w_phase w) -> live p ->
  workers s' = set_worker i (mk_worker p (w_sender w)) (workers s) -> mode s'.
Proof.
  intros M Cl Ce Lo N L Lp W. destruct M as [A K R|c b A B K R|c k b A B K C U E|c A B K C E|c k A B K C P E].
  - apply M_idle; [intros c; rewrite Cl; apply A|congruence|exact (rest_step s s' i w p R Ce N L Lp W)].
  - apply M_want with c b; [congruence|intros d Nd; rewrite Cl; exact (B d Nd)|congruence|exact (rest_step s s' i w p R Ce N L Lp W)].
  - assert (X : rest (mk_state (clients s) (Some k) (locked s) (workers s) (pending s) (updates s) (waits s))) by (apply R_some with k; [reflexivity|exact U|exact E]).
    pose proof (rest_step _ (mk_state (clients s) (Some k) (locked s) (workers s') (pending s) (updates s) (waits s)) i w p X eq_refl N L Lp W) as Y.
    destruct Y as [Y _|k' Y U' E']; [discriminate Y|]. cbn [cell] in Y. injection Y as <-.
    apply M_sending with c k b; [congruence|intros d Nd; rewrite Cl; exact (B d Nd)|congruence|congruence|exact U'|exact E'].
  - rewrite (E i w N) in L. destruct L.
  - destruct (Nat.eq_dec i k) as [->|e]; [rewrite P in N; injection N as <-; destruct L|]. rewrite (E i w N e) in L. destruct L.
Qed.
Lemma mode_other s s' : mode s -> clients s' = clients s -> cell s' = cell s -> locked s' = locked s -> workers s' = workers s -> mode s'.
Proof.
  intros M Cl Ce Lo W. destruct s as [a b c d e f g], s' as [a' b' c' d' e' f' g']. cbn in *. subst.
  destruct M as [A K R|x y A B K R|x k y A B K C U E|x A B K C E|x k A B K C P E].
  - apply M_idle; auto. destruct R as [R1 R2|i R1 R2 R3]; [apply R_none; assumption|apply R_some with i; assumption].
  - apply M_want with x y; auto. destruct R as [R1 R2|i R1 R2 R3]; [apply R_none; assumption|apply R_some with i; assumption].
  - apply M_sending with x k y; auto.
  - apply M_store with x; auto.
  - apply M_spawn with x k; auto.
Qed.

Section Keep.
Variable capacity : nat.
Lemma mode_act s a s' : mode s -> (is_call a -> forall c, clients s c = Idle) -> a <> Drop_handles -> act capacity s a = Some s' -> mode s'.
Proof.
  intros M Q D S. destruct a as [c|c|c|c|c|c|i|i|i|i|i| | |]; cbn [act] in S; try contradiction.
  - specialize (Q I). rewrite (Q c) in S. injection S as <-. assert (X : rest s /\ locked s = false).
    { destruct M as [A K R|x y A B K R|x k y A B K C U E|x A B K C E|x k A B K C P E]; try (rewrite Q in A; discriminate A). auto. }
    destruct X as [X K]. apply M_want with c true; [apply set_same|intros d Nd; cbn [clients]; rewrite set_other by exact Nd; apply Q|exact K|].
    destruct X as [X1 X2|i X1 X2 X3]; [apply R_none; assumption|apply R_some with i; assumption].
  - specialize (Q I). rewrite (Q c) in S. injection S as <-. assert (X : rest s /\ locked s = false).
    { destruct M as [A K R|x y A B K R|x k y A B K C U E|x A B K C E|x k A B K C P E]; try (rewrite Q in A; discriminate A). auto. }
    destruct X as [X K]. apply M_want with c false; [apply set_same|intros d Nd; cbn [clients]; rewrite set_other by exact Nd; apply Q|exact K|].
    destruct X as [X1 X2|i X1 X2 X3]; [apply R_none; assumption|apply R_some with i; assumption].
  - destruct (clients s c) as [|b|? ?| |?] eqn:Cc; try discriminate. destruct (locked s) eqn:L; [discriminate|].
    destruct M as [A K R|x y A B K R|x k y A B K C U E|x A B K C E|x k A B K C P E]; try congruence.
    + assert (c = x) as -> by (apply (idle_unless s x c B); congruence). rewrite A in Cc. injection Cc as ->.
      assert (B' : forall p d, d <> x -> set_client s x p d = Idle) by (intros p d Nd; rewrite set_other by exact Nd; exact (B d Nd)).
      destruct R as [R1 R2|i R1 R2 R3]; rewrite R1 in S; injection S as <-.
      * destruct b; cbn [after_stop].
        -- apply M_store with x; [apply set_same|intros d Nd; apply B', Nd|reflexivity|reflexivity|exact R2].
        -- apply M_idle; [intros d; destruct (Nat.eq_dec d x) as [->|Nd]; [apply set_same|apply B', Nd]|reflexivity|apply R_none; [reflexivity|exact R2]].
      * apply M_sending with x i b; [apply set_same|intros d Nd; apply B', Nd|reflexivity|reflexivity|exact R2|exact R3].
    + assert (c = x) as -> by (apply (idle_unless s x c B); congruence). congruence.
    + assert (c = x) as -> by (apply (idle_unless s x c B); congruence). congruence.
  - destruct (clients s c) as [|?|i b| |?] eqn:Cc; try discriminate.
    destruct M as [A K R|x y A B K R|x k y A B K C U E|x A B K C E|x k A B K C P E]; try congruence;
      try (assert (c = x) by (apply (idle_unless s x c B); congruence); subst x; congruence).
    assert (c = x) as -> by (apply (idle_unless s x c B); congruence). rewrite A in Cc. injection Cc as -> ->.
    destruct (nth_error (workers s) i) as [w|] eqn:N; [|discriminate].
    assert (S' : Some (mk_state (set_client s x (after_stop b)) (cell s) false (set_worker i (mk_worker Ended false) (workers s)) (pending s) (updates s) (waits s)) = Some s') by (destruct (w_phase w); try discriminate S; exact S).
    clear S. injection S' as <-.
    assert (AE : forall j v, nth_error (set_worker i (mk_worker Ended false) (workers s)) j = Some v -> w_phase v = Ended).
    { intros j v F. rewrite (nth_set _ _ _ _ j N) in F. destruct (Nat.eqb_spec j i) as [->|Nj]; [injection F as <-; reflexivity|exact (E j v F Nj)]. }
    destruct b; cbn [after_stop].
    + apply M_store with x; [apply set_same|intros d Nd; cbn [clients]; rewrite set_other by exact Nd; exact (B d Nd)|reflexivity|exact C|exact AE].
    + apply M_idle; [intros d; cbn [clients]; destruct (Nat.eq_dec d x) as [->|Nd]; [apply set_same|rewrite set_other by exact Nd; exact (B d Nd)]|reflexivity|apply R_none; [exact C|exact AE]].
  - destruct (clients s c) as [|?|? ?| |?] eqn:Cc; try discriminate. destruct (locked s) eqn:L; [discriminate|].
    destruct M as [A K R|x y A B K R|x k y A B K C U E|x A B K C E|x k A B K C P E]; try congruence;
      try (assert (c = x) by (apply (idle_unless s x c B); congruence); subst x; congruence).
    assert (c = x) as -> by (apply (idle_unless s x c B); congruence). unfold drop_sender in S. rewrite C in S. injection S as <-.
    apply M_spawn with x (length (workers s)); [apply set_same|intros d Nd; cbn [clients]; rewrite set_other by exact Nd; exact (B d Nd)|reflexivity|reflexivity| |].
    + cbn [workers]. rewrite nth_error_app2, Nat.sub_diag by lia. reflexivity.
    + intros j w F Nj. cbn [workers] in F. destruct (Nat.lt_ge_cases j (length (workers s))) as [Lj|Lj]; [rewrite nth_error_app1 in F by exact Lj; exact (E j w F)|].
      rewrite nth_error_app2 in F by exact Lj. destruct (j - length (workers s)) as [|[|z]] eqn:Dj; cbn in F; try discriminate F. lia.
  - destruct (clients s c) as [|?|? ?| |i] eqn:Cc; try discriminate.
    destruct M as [A K R|x y A B K R|x k y A B K C U E|x A B K C E|x k A B K C P E]; try congruence;
      try (assert (c = x) by (apply (idle_unless s x c B); congruence); subst x; congruence).
    assert (c = x) as -> by (apply (idle_unless s x c B); congruence). rewrite A in Cc. injection Cc as ->. rewrite P in S. injection S as <-.
    apply M_idle; [intros d; cbn [clients]; destruct (Nat.eq_dec d x) as [->|Nd]; [apply set_same|rewrite set_other by exact Nd; exact (B d Nd)]|exact K|].
    apply R_some with i; [exact C| |].
    + exists (mk_worker Waiting true). cbn [workers w_sender]. rewrite (nth_set _ _ _ _ i P), Nat.eqb_refl. split; [reflexivity|]. split; [discriminate|right; reflexivity].
    + intros j w F Nj. cbn [workers] in F. rewrite (nth_set _ _ _ _ j P) in F. destruct (Nat.eqb_spec j i); [contradiction|exact (E j w F Nj)].
  - destruct (nth_error (workers s) i) as [[[] b]|] eqn:N; try discriminate. injection S as <-. apply (mode_step s _ i (mk_worker Waiting b) Awake M); solve [reflexivity|exact N|exact I].
  - destruct (nth_error (workers s) i) as [[[] []]|] eqn:N; try discriminate. injection S as <-. apply (mode_step s _ i (mk_worker Waiting false) Awake M); solve [reflexivity|exact N|exact I].
  - destruct (nth_error (workers s) i) as [[[] b]|] eqn:N; try discriminate. injection S as <-. apply (mode_step s _ i (mk_worker Awake b) Waiting M); solve [reflexivity|exact N|exact I].
  - destruct (nth_error (workers s) i) as [[[] b]|] eqn:N; try discriminate. injection S as <-. apply (mode_step s _ i (mk_worker Awake b) Posting M); solve [reflexivity|exact N|exact I].
  - destruct (nth_error (workers s) i) as [[[] b]|] eqn:N; try discriminate. destruct (pending s <? capacity); [|discriminate]. injection S as <-. apply (mode_step s _ i (mk_worker Posting b) Waiting M); solve [reflexivity|exact N|exact I].
  - destruct (pending s <? capacity); [|discriminate]. injection S as <-. apply (mode_other s _ M); reflexivity.
  - destruct (clients s 0); try discriminate. destruct (pending s); [discriminate|]. injection S as <-. apply (mode_other s _ M); reflexivity.
Qed.
Lemma mode_start : mode start.
Proof. apply M_idle; [reflexivity|reflexivity|]. apply R_none; [reflexivity|]. intros j w E. destruct j; discriminate. Qed.
Lemma mode_acts l : forall s s', mode s -> one_at_a_time capacity s l -> acts capacity s l = Some s' -> mode s'.
Proof.
  induction l as [|a l IH]; intros s s' M O S; cbn [acts] in S; [injection S as <-; exact M|].
  destruct (act capacity s a) as [s1|] eqn:A; [|discriminate]. destruct O as (O1 & O2 & O3). exact (IH s1 s' (mode_act s a s1 M O1 O2 A) (O3 s1 A) S).
Qed.

(** at most one collection *)
Lemma mode_one s i j : mode s -> running s i -> running s j -> i = j.
Proof.
  intros M (w & Wi & Ri) (v & Vj & Rj).
  assert (X : forall k u, nth_error (workers s) k = Some u -> (w_phase u = Waiting \/ w_phase u = Awake \/ w_phase u = Posting) -> w_phase u <> Ended /\ w_phase u <> Preparing) by (intros k u _ [->|[->| ->]]; split; discriminate).
  destruct (X i w Wi Ri) as [X1 X2]. destruct (X j v Vj Rj) as [Y1 Y2].
  assert (Z : forall k, ended_but s k -> i = j).
  { intros k E. destruct (Nat.eq_dec i k) as [->|Ni]; [|destruct (X1 (E i w Wi Ni))]. destruct (Nat.eq_dec j k) as [->|Nj]; [reflexivity|destruct (Y1 (E j v Vj Nj))]. }
  destruct M as [A K R|x y A B K R|x k y A B K C U E|x A B K C E|x k A B K C P E].
  - destruct R as [R1 R2|k R1 R2 R3]; [destruct (X1 (R2 i w Wi))|exact (Z k R3)].
  - destruct R as [R1 R2|k R1 R2 R3]; [destruct (X1 (R2 i w Wi))|exact (Z k R3)].
  - exact (Z k E).
  - destruct (X1 (E i w Wi)).
  - exact (Z k E).
Qed.
Lemma one_collection l s i j : one_at_a_time capacity start l -> acts capacity start l = Some s -> running s i -> running s j -> i = j.
Proof. intros O S. apply mode_one. exact (mode_acts l _ _ mode_start O S). Qed.

(** a stop: what it has done when it returns *)
Record done (s : state) : Prop := { d_idle : forall d, clients s d = Idle; d_cell : cell s = None; d_ended : all_ended s }.
Lemma done_act s a s' : done s -> ~ is_call a -> act capacity s a = Some s' -> done s' /\ updates s' = updates s.
Proof.
  intros [A C E] Q S. destruct a as [d|d|d|d|d|d|j|j|j|j|j| | |]; cbn [act is_call] in *; try (exfalso; apply Q; exact I); try (rewrite A in S; discriminate S).
  - destruct (nth_error (workers s) j) as [[[] b]|] eqn:N; try discriminate. discriminate (E j _ N).
  - destruct (nth_error (workers s) j) as [[[] []]|] eqn:N; try discriminate. discriminate (E j _ N).
  - destruct (nth_error (workers s) j) as [[[] b]|] eqn:N; try discriminate. discriminate (E j _ N).
  - destruct (nth_error (workers s) j) as [[[] b]|] eqn:N; try discriminate. discriminate (E j _ N).
  - destruct (nth_error (workers s) j) as [[[] b]|] eqn:N; try discriminate. discriminate (E j _ N).
  - destruct (pending s <? capacity); [|discriminate]. injection S as <-. split; [split; assumption|reflexivity].
  - rewrite A in S. destruct (pending s); [discriminate|]. injection S as <-. split; [split; assumption|reflexivity].
  - unfold drop_sender in S. rewrite C in S. injection S as <-. split; [split; [assumption|reflexivity|assumption]|reflexivity].
Qed.
Lemma done_acts l : forall s s', done s -> Forall (fun a => ~ is_call a) l -> acts capacity s l = Some s' -> done s' /\ updates s' = updates s.
Proof.
  induction l as [|a l IH]; intros s s' D Q S; cbn [acts] in S; [injection S as <-; auto|].
  destruct (act capacity s a) as [s1|] eqn:A; [|discriminate]. destruct (done_act s a s1 D (Forall_inv Q) A) as [D1 U1].
  destruct (IH s1 s' D1 (Forall_inv_tail Q) S) as [D2 U2]. split; [exact D2|congruence].
Qed.
Inductive stopping (c : nat) (s : state) : Prop :=
  | S_want : clients s c = Want_stop false -> stopping c s
  | S_sending i : clients s c = Sending i false -> stopping c s
  | S_done : done s -> stopping c s.
Lemma stopping_act c s a s' : mode s -> stopping c s -> ~ is_call a -> a <> Drop_handles -> act capacity s a = Some s' -> stopping c s'.
Proof.
  intros M T Q D S.
  assert (K : clients s' c = clients s c /\ (clients s c = Want_stop false \/ (exists i, clients s c = Sending i false)) -> stopping c s').
  { intros [E [W|[i W]]]; [apply S_want; congruence|apply S_sending with i; congruence]. }
  destruct T as [T|i T|T].
  - assert (X : all_idle_but s c /\ rest s).
    { destruct M as [A K1 R|x y A B K1 R|x k y A B K1 C U E|x A B K1 C E|x k A B K1 C P E]; try congruence; assert (c = x) as -> by (apply (idle_unless s x c B); congruence); try congruence. auto. }
    destruct X as [B R].
    destruct a as [d|d|d|d|d|d|j|j|j|j|j| | |]; cbn [act is_call] in *; try (exfalso; apply Q; exact I); try contradiction;
      try (destruct (Nat.eq_dec d c) as [->|Nd]; [|rewrite (B d Nd) in S; discriminate]; rewrite T in S; try discriminate S).
    + destruct (locked s); [discriminate|]. destruct R as [R1 R2|i R1 R2 R3]; rewrite R1 in S; injection S as <-; [|apply S_sending with i; apply set_same].
      apply S_done. split; [|reflexivity|exact R2]. intros d. destruct (Nat.eq_dec d c) as [->|Nd]; [apply set_same|cbn [clients]; rewrite set_other by exact Nd; exact (B d Nd)].
    + destruct (nth_error (workers s) j) as [[[] b]|]; try discriminate. injection S as <-. apply K. split; [reflexivity|auto].
    + destruct (nth_error (workers s) j) as [[[] []]|]; try discriminate. injection S as <-. apply K. split; [reflexivity|auto].
    + destruct (nth_error (workers s) j) as [[[] b]|]; try discriminate. injection S as <-. apply K. split; [reflexivity|auto].
    + destruct (nth_error (workers s) j) as [[[] b]|]; try discriminate. injection S as <-. apply K. split; [reflexivity|auto].
    + destruct (nth_error (workers s) j) as [[[] b]|]; try discriminate. destruct (pending s <? capacity); [|discriminate]. injection S as <-. apply K. split; [reflexivity|auto].
    + destruct (pending s <? capacity); [|discriminate]. injection S as <-. apply K. split; [reflexivity|auto].
    + destruct (clients s 0); try discriminate. destruct (pending s); [discriminate|]. injection S as <-. apply K. split; [reflexivity|auto].
  - assert (X : all_idle_but s c /\ cell s = None /\ ended_but s i).
    { destruct M as [A K1 R|x y A B K1 R|x k y A B K1 C U E|x A B K1 C E|x k A B K1 C P E]; try congruence; assert (c = x) as -> by (apply (idle_unless s x c B); congruence); try congruence.
      rewrite A in T. injection T as -> ->. auto. }
    destruct X as (B & Ce & E).
    destruct a as [d|d|d|d|d|d|j|j|j|j|j| | |]; cbn [act is_call] in *; try (exfalso; apply Q; exact I); try contradiction;
      try (destruct (Nat.eq_dec d c) as [->|Nd]; [|rewrite (B d Nd) in S; discriminate]; rewrite T in S; try discriminate S).
    + destruct (nth_error (workers s) i) as [w|] eqn:N; [|discriminate].
      assert (S' : Some (mk_state (set_client s c (after_stop false)) (cell s) false (set_worker i (mk_worker Ended false) (workers s)) (pending s) (updates s) (waits s)) = Some s') by (destruct (w_phase w); try discriminate S; exact S).
      clear S. injection S' as <-. apply S_done. split; [|exact Ce|].
      * intros d. destruct (Nat.eq_dec d c) as [->|Nd]; [apply set_same|cbn [clients]; rewrite set_other by exact Nd; exact (B d Nd)].
      * intros j v F. cbn [workers] in F. rewrite (nth_set _ _ _ _ j N) in F. destruct (Nat.eqb_spec j i) as [->|Nj]; [injection F as <-; reflexivity|exact (E j v F Nj)].
    + destruct (nth_error (workers s) j) as [[[] b]|]; try discriminate. injection S as <-. apply K. split; [reflexivity|eauto].
    + destruct (nth_error (workers s) j) as [[[] []]|]; try discriminate. injection S as <-. apply K. split; [reflexivity|eauto].
    + destruct (nth_error (workers s) j) as [[[] b]|]; try discriminate. injection S as <-. apply K. split; [reflexivity|eauto].
    + destruct (nth_error (workers s) j) as [[[] b]|]; try discriminate. injection S as <-. apply K. split; [reflexivity|eauto].
    + destruct (nth_error (workers s) j) as [[[] b]|]; try discriminate. destruct (pending s <? capacity); [|discriminate]. injection S as <-. apply K. split; [reflexivity|eauto].
    + destruct (pending s <? capacity); [|discriminate]. injection S as <-. apply K. split; [reflexivity|eauto].
    + destruct (clients s 0); try discriminate. destruct (pending s); [discriminate|]. injection S as <-. apply K. split; [reflexivity|eauto].
  - apply S_done. exact (proj1 (done_act s a s' T Q S)).
Qed.
Lemma stopping_acts c l : forall s s', mode s -> stopping c s -> Forall (fun a => ~ is_call a) l -> one_at_a_time capacity s l -> acts capacity s l = Some s' -> mode s' /\ stopping c s'.
Proof.
  induction l as [|a l IH]; intros s s' M T Q O S; cbn [acts] in S; [injection S as <-; auto|].
  destruct (act capacity s a) as [s1|] eqn:A; [|discriminate]. destruct O as (O1 & O2 & O3).
  exact (IH s1 s' (mode_act s a s1 M O1 O2 A) (stopping_act c s a s1 M T (Forall_inv Q) O2 A) (Forall_inv_tail Q) (O3 s1 A) S).
Qed.
Lemma acts_app l1 : forall l2 s s', acts capacity s (l1 ++ l2) = Some s' -> exists s1, acts capacity s l1 = Some s1 /\ acts capacity s1 l2 = Some s'.
Proof.
  induction l1 as [|a l IH]; intros l2 s s' S; [exists s; split; [reflexivity|exact S]|]. cbn [app acts] in *. destruct (act capacity s a) as [s1|]; [exact (IH l2 s1 s' S)|discriminate].
Qed.
Lemma one_app l1 : forall l2 s, one_at_a_time capacity s (l1 ++ l2) -> one_at_a_time capacity s l1 /\ forall s1, acts capacity s l1 = Some s1 -> one_at_a_time capacity s1 l2.
Proof.
  induction l1 as [|a l IH]; intros l2 s O; [split; [exact I|]; intros s1 E; injection E as <-; exact O|]. destruct O as (O1 & O2 & O3). split.
  - split; [exact O1|]. split; [exact O2|]. intros s' A. exact (proj1 (IH l2 s' (O3 s' A))).
  - intros s1 E. cbn [acts] in E. destruct (act capacity s a) as [s2|] eqn:A; [|discriminate]. exact (proj2 (IH l2 s2 (O3 s2 eq_refl)) s1 E).
Qed.
Lemma stop_is_final c l1 l2 l3 s s' :
  one_at_a_time capacity start (l1 ++ Call_stop c :: l2) -> Forall (fun a => ~ is_call a) l2 -> acts capacity start (l1 ++ Call_stop c :: l2) = Some s -> clients s c = Idle ->
  Forall (fun a => ~ is_call a) l3 -> acts capacity s l3 = Some s' -> (forall i, ~ running s i) /\ updates s' = updates s.
Proof.
  intros O Q S Id Q3 S3. destruct (acts_app l1 _ _ _ S) as (s1 & S1 & S2). destruct (one_app l1 _ _ O) as [O1 O2]. specialize (O2 s1 S1).
  pose proof (mode_acts l1 _ _ mode_start O1 S1) as M1. cbn [acts] in S2. destruct (act capacity s1 (Call_stop c)) as [s2|] eqn:A; [|discriminate].
  destruct O2 as (P1 & P2 & P3). pose proof (mode_act s1 _ s2 M1 P1 P2 A) as M2.
  assert (T : stopping c s2). { cbn [act] in A. destruct (clients s1 c); try discriminate. injection A as <-. apply S_want. apply set_same. }
  destruct (stopping_acts c l2 s2 s M2 T Q (P3 s2 A) S2) as [M3 T3].
  destruct T3 as [T3|i T3|T3]; try congruence. split; [|exact (proj2 (done_acts l3 s s' T3 Q3 S3))].
  intros i (w & W & R). rewrite (d_ended _ T3 i w W) in R. destruct R as [R|[R|R]]; discriminate R.
Qed.

(** pace *)
Definition awake (p : wphase) : nat := match p with Awake | Posting => 1 | _ => 0 end.
Definition paced (s : state) : Prop :=
  (forall i w, nth_error (workers s) i = Some w -> how_often i (updates s) + awake (w_phase w) <= how_often i (waits s)) /\
  (forall i, length (workers s) <= i -> how_often i (updates s) = 0).
Lemma often_app i l j : how_often i (l ++ [j]) = how_often i l + (if Nat.eq_dec j i then 1 else 0).
Proof. unfold how_often. rewrite count_occ_app. cbn [count_occ]. destruct (Nat.eq_dec j i); reflexivity. Qed.
Lemma paced_set s i w p b cl ce lo pe :
  paced s -> nth_error (workers s) i = Some w -> awake p <= awake (w_phase w) -> paced (mk_state cl ce lo (set_worker i (mk_worker p b) (workers s)) pe (updates s) (waits s)).
Proof.
  intros [P N] E L. split; cbn [workers updates waits].
  - intros j v F. rewrite (nth_set _ _ _ _ j E) in F. destruct (Nat.eqb_spec j i) as [->|Nj]; [injection F as <-; cbn [w_phase]; pose proof (P i w E); lia|exact (P j v F)].
  - intros j Lj. apply N. rewrite (set_length _ _ _ _ E) in Lj. exact Lj.
Qed.
Lemma paced_act s a s' : mode s -> paced s -> a <> Drop_handles -> act capacity s a = Some s' -> paced s'.
Proof.
  intros M P D S. destruct a as [d|d|d|d|d|d|j|j|j|j|j| | |]; cbn [act] in S; try contradiction.
  - destruct (clients s d); try discriminate. injection S as <-. exact P.
  - destruct (clients s d); try discriminate. injection S as <-. exact P.
  - destruct (clients s d); try discriminate. destruct (locked s); [discriminate|]. destruct (cell s); injection S as <-; exact P.
  - destruct (clients s d) as [|?|i b| |?]; try discriminate. destruct (nth_error (workers s) i) as [w|] eqn:N; [|discriminate].
    assert (S' : Some (mk_state (set_client s d (after_stop b)) (cell s) false (set_worker i (mk_worker Ended false) (workers s)) (pending s) (updates s) (waits s)) = Some s') by (destruct (w_phase w); try discriminate S; exact S).
    clear S. injection S' as <-. apply (paced_set s i w); [exact P|exact N|cbn [awake]; lia].
  - destruct (clients s d) as [|?|? ?| |?] eqn:Cd; try discriminate. destruct (locked s) eqn:L; [discriminate|]. 
    assert (Ce : cell s = None) by (destruct M as [A K R|x y A B K R|x k y A B K C U E|x A B K C E|x k A B K C Pr E]; try congruence; assert (d = x) by (apply (idle_unless s x d B); congruence); subst x; congruence).
    unfold drop_sender in S. rewrite Ce in S. injection S as <-. destruct P as [P N]. split; cbn [workers updates waits].
    + intros i w F. destruct (Nat.lt_ge_cases i (length (workers s))) as [Li|Li]; [rewrite nth_error_app1 in F by exact Li; exact (P i w F)|].
      rewrite (N i Li). rewrite nth_error_app2 in F by exact Li. destruct (i - length (workers s)) as [|[|z]]; cbn in F; try discriminate F. injection F as <-. cbn [w_phase awake]. lia.
    + intros i Li. apply N. rewrite app_length in Li. lia.
  - destruct (clients s d) as [|?|? ?| |i]; try discriminate. destruct (nth_error (workers s) i) as [w|] eqn:N; [|discriminate]. injection S as <-. apply (paced_set s i w); [exact P|exact N|cbn [awake]; lia].
  - destruct (nth_error (workers s) j) as [[[] b]|] eqn:N; try discriminate. injection S as <-. destruct P as [P Z]. split; cbn [workers updates waits].
    + intros i w F. rewrite often_app. rewrite (nth_set _ _ _ _ i N) in F. destruct (Nat.eqb_spec i j) as [->|Ni].
      * injection F as <-. cbn [w_phase awake]. pose proof (P j _ N) as X. cbn [w_phase awake] in X. destruct (Nat.eq_dec j j); [lia|congruence].
      * pose proof (P i w F). lia.
    + intros i Li. apply Z. rewrite (set_length _ _ _ _ N) in Li. exact Li.
  - destruct (nth_error (workers s) j) as [[[] []]|] eqn:N; try discriminate. exfalso.
    (* a running collection has its sender *)
    assert (Z : forall k, up s k -> ended_but s k -> False).
    { intros k (u & U1 & U2 & U3) E. destruct (Nat.eq_dec j k) as [->|Nj]; [rewrite N in U1; injection U1 as <-; destruct U3 as [U3|U3]; discriminate U3|]. discriminate (E j _ N Nj). }
    destruct M as [A K R|x y A B K R|x k y A B K C U E|x A B K C E|x k A B K C Pr E].
    + destruct R as [R1 R2|k R1 R2 R3]; [discriminate (R2 j _ N)|exact (Z k R2 R3)].
    + destruct R as [R1 R2|k R1 R2 R3]; [discriminate (R2 j _ N)|exact (Z k R2 R3)].
    + exact (Z k U E).
    + discriminate (E j _ N).
    + destruct (Nat.eq_dec j k) as [->|Nj]; [congruence|discriminate (E j _ N Nj)].
  - destruct (nth_error (workers s) j) as [[[] b]|] eqn:N; try discriminate. injection S as <-. apply (paced_set s j _ _ _ _ _ _ _ P N). cbn [awake w_phase]. lia.
  - destruct (nth_error (workers s) j) as [[[] b]|] eqn:N; try discriminate. injection S as <-. apply (paced_set s j _ _ _ _ _ _ _ P N). cbn [awake w_phase]. lia.
  - destruct (nth_error (workers s) j) as [[[] b]|] eqn:N; try discriminate. destruct (pending s <? capacity); [|discriminate]. injection S as <-. destruct P as [P Z]. split; cbn [workers updates waits].
    + intros i w F. rewrite often_app. rewrite (nth_set _ _ _ _ i N) in F. destruct (Nat.eqb_spec i j) as [->|Ni].
      * injection F as <-. cbn [w_phase awake]. pose proof (P j _ N) as X. cbn [w_phase awake] in X. destruct (Nat.eq_dec j j); [lia|congruence].
      * pose proof (P i w F). destruct (Nat.eq_dec j i); [congruence|lia].
    + intros i Li. rewrite (set_length _ _ _ _ N) in Li. rewrite often_app, (Z i Li). destruct (Nat.eq_dec j i) as [->|]; [|reflexivity].
      assert (i < length (workers s)) by (apply nth_error_Some; congruence). lia.
  - destruct (pending s <? capacity); [|discriminate]. injection S as <-. exact P.
  - destruct (clients s 0); try discriminate. destruct (pending s); [discriminate|]. injection S as <-. exact P.
Qed.
Lemma paced_acts l : forall s s', mode s -> paced s -> one_at_a_time capacity s l -> acts capacity s l = Some s' -> paced s'.
Proof.
  induction l as [|a l IH]; intros s s' M P O S; cbn [acts] in S; [injection S as <-; exact P|].
  destruct (act capacity s a) as [s1|] eqn:A; [|discriminate]. destruct O as (O1 & O2 & O3).
  exact (IH s1 s' (mode_act s a s1 M O1 O2 A) (paced_act s a s1 M P O2 A) (O3 s1 A) S).
Qed.
Lemma pace l s i : one_at_a_time capacity start l -> acts capacity start l = Some s -> how_often i (updates s) <= how_often i (waits s).
Proof.
  intros O S. assert (P0 : paced start) by (split; [intros j w E; destruct j; discriminate|reflexivity]).
  destruct (paced_acts l _ _ mode_start P0 O S) as [P N]. destruct (nth_error (workers s) i) as [w|] eqn:E; [pose proof (P i w E); lia|].
  rewrite (N i); [lia|]. apply nth_error_None. exact E.
Qed.

(** a stop that is not called by a callback can always return *)
Lemma can_return l s c i b : capacity <> 0 -> one_at_a_time capacity start l -> acts capacity start l = Some s -> c <> 0 -> clients s c = Sending i b ->
  exists l' s', acts capacity s l' = Some s' /\ clients s' c = after_stop b /\ ~ running s' i.
Proof.
  intros Cap O S Nc Cc. pose proof (mode_acts l _ _ mode_start O S) as M.
  destruct M as [A K R|x y A B K R|x k y A B K C U E|x A B K C E|x k A B K C P E]; try congruence;
    assert (c = x) as -> by (apply (idle_unless s x c B); congruence); try congruence.
  rewrite A in Cc. injection Cc as -> ->. destruct U as (w & W & Np & _). assert (I0 : clients s 0 = Idle) by (apply B; congruence).
  assert (Meets : forall t v, clients t x = Sending i b -> nth_error (workers t) i = Some v -> (w_phase v = Waiting \/ w_phase v = Ended) ->
    exists t', act capacity t (Meet x) = Some t' /\ clients t' x = after_stop b /\ ~ running t' i).
  { intros t v F1 F2 F3. cbn [act]. rewrite F1, F2. eexists. split; [destruct F3 as [-> | ->]; reflexivity|]. split; [apply set_same|].
    intros (u & U1 & U2). cbn [workers] in U1. rewrite (nth_set _ _ _ _ i F2), Nat.eqb_refl in U1. injection U1 as <-. destruct U2 as [U2|[U2|U2]]; discriminate U2. }
  destruct w as [p f]. destruct p; cbn [w_phase] in Np; [congruence| | | |].
  - destruct (Meets s _ A W (or_introl eq_refl)) as (t & T1 & T2 & T3). exists [Meet x], t. cbn [acts]. rewrite T1. auto.
  - set (t0 := mk_state (clients s) (cell s) (locked s) (set_worker i (mk_worker Waiting f) (workers s)) (pending s) (updates s) (waits s)).
    destruct (Meets t0 (mk_worker Waiting f) A) as (t & T1 & T2 & T3); [cbn [t0 workers]; rewrite (nth_set _ _ _ _ i W), Nat.eqb_refl; reflexivity|left; reflexivity|].
    exists [Skip i; Meet x], t. cbn [acts]. assert (X : act capacity s (Skip i) = Some t0) by (cbn [act]; rewrite W; reflexivity). rewrite X, T1. auto.
  - (* room in the queue, perhaps after the event thread has taken an event *)
    assert (Post : forall t, clients t = clients s -> workers t = workers s -> pending t < capacity -> exists l' s', acts capacity t l' = Some s' /\ clients s' x = after_stop b /\ ~ running s' i).
    { intros t F1 F2 F3. rewrite <- F2 in W.
      set (t0 := mk_state (clients t) (cell t) (locked t) (set_worker i (mk_worker Waiting f) (workers t)) (pending t + 1) (updates t ++ [i]) (waits t)).
      destruct (Meets t0 (mk_worker Waiting f)) as (t1 & T1 & T2 & T3); [cbn [t0 clients]; congruence|cbn [t0 workers]; rewrite (nth_set _ _ _ _ i W), Nat.eqb_refl; reflexivity|left; reflexivity|].
      exists [Update i; Meet x], t1. cbn [acts]. assert (X : act capacity t (Update i) = Some t0) by (cbn [act]; rewrite W, (proj2 (Nat.ltb_lt _ _) F3); reflexivity). rewrite X, T1. auto. }
    assert (Drain : forall n t, clients t = clients s -> workers t = workers s -> pending t <= n -> exists l' s', acts capacity t l' = Some s' /\ clients s' x = after_stop b /\ ~ running s' i).
    { induction n as [|n IH]; intros t F1 F2 F3; [apply Post; [exact F1|exact F2|lia]|].
      destruct (pending t) as [|m] eqn:Pm; [apply Post; [exact F1|exact F2|lia]|].
      set (t0 := mk_state (clients t) (cell t) (locked t) (workers t) m (updates t) (waits t)).
      destruct (IH t0 F1 F2) as (l' & s' & L1 & L2); [cbn [t0 pending]; lia|].
      exists (Take :: l'), s'. split; [|exact L2]. cbn [acts]. assert (X : act capacity t Take = Some t0) by (cbn [act]; rewrite (eq_trans (f_equal (fun g => g 0) F1) I0), Pm; reflexivity). rewrite X. exact L1. }
    exact (Drain (pending s) s eq_refl eq_refl (le_n _)).
  - destruct (Meets s _ A W (or_intror eq_refl)) as (t & T1 & T2 & T3). exists [Meet x], t. cbn [acts]. rewrite T1. auto.
Qed.

(** a callback that stops the collection while the queue is full *)
Record stuck (s : state) : Prop := { k_sending : clients s 0 = Sending 0 false; k_locked : locked s = true; k_cell : cell s = None; k_full : capacity <= pending s;
  k_worker : exists b, nth_error (workers s) 0 = Some (mk_worker Posting b); k_others : forall d, d <> 0 -> clients s d = Idle \/ exists b, clients s d = Want_stop b;
  k_workers : forall j w, nth_error (workers s) j = Some w -> j = 0 }.
Lemma stuck_act s a s' : stuck s -> act capacity s a = Some s' -> stuck s'.
Proof.
  intros [A L C F [b W] O V] S.
  assert (Ful : (pending s <? capacity) = false) by (apply Nat.ltb_ge; exact F).
  destruct a as [d|d|d|d|d|d|j|j|j|j|j| | |]; cbn [act] in S.
  - destruct (clients s d) eqn:Cd; try discriminate. injection S as <-. assert (d <> 0) by (intros ->; congruence). split; try assumption.
    + cbn [clients]. rewrite set_other by congruence. exact A.
    + exists b. exact W.
    + intros e Ne. cbn [clients]. destruct (Nat.eq_dec e d) as [->|Nd]; [rewrite set_same; right; eauto|rewrite set_other by exact Nd; exact (O e Ne)].
  - destruct (clients s d) eqn:Cd; try discriminate. injection S as <-. assert (d <> 0) by (intros ->; congruence). split; try assumption.
    + cbn [clients]. rewrite set_other by congruence. exact A.
    + exists b. exact W.
    + intros e Ne. cbn [clients]. destruct (Nat.eq_dec e d) as [->|Nd]; [rewrite set_same; right; eauto|rewrite set_other by exact Nd; exact (O e Ne)].
  - rewrite L in S. destruct (clients s d); discriminate.
  - destruct (Nat.eq_dec d 0) as [->|Nd]; [rewrite A, W in S; discriminate|]. destruct (O d Nd) as [X|[y X]]; rewrite X in S; discriminate.
  - rewrite L in S. destruct (clients s d); discriminate.
  - destruct (Nat.eq_dec d 0) as [->|Nd]; [rewrite A in S; discriminate|]. destruct (O d Nd) as [X|[y X]]; rewrite X in S; discriminate.
  - destruct (nth_error (workers s) j) as [[[] f]|] eqn:N; try discriminate. rewrite (V j _ N) in N. congruence.
  - destruct (nth_error (workers s) j) as [[[] []]|] eqn:N; try discriminate. rewrite (V j _ N) in N. congruence.
  - destruct (nth_error (workers s) j) as [[[] f]|] eqn:N; try discriminate. rewrite (V j _ N) in N. congruence.
  - destruct (nth_error (workers s) j) as [[[] f]|] eqn:N; try discriminate. rewrite (V j _ N) in N. congruence.
  - rewrite Ful in S. destruct (nth_error (workers s) j) as [[[] f]|] eqn:N; discriminate.
  - rewrite Ful in S. discriminate.
  - rewrite A in S. discriminate.
  - unfold drop_sender in S. rewrite C in S. injection S as <-. split; try assumption; [reflexivity|exists b; exact W].
Qed.
Lemma stuck_acts l : forall s s', stuck s -> acts capacity s l = Some s' -> clients s' 0 = Sending 0 false.
Proof.
  induction l as [|a l IH]; intros s s' K S; cbn [acts] in S; [injection S as <-; exact (k_sending _ K)|].
  destruct (act capacity s a) as [s1|] eqn:A; [|discriminate]. exact (IH s1 s' (stuck_act s a s1 K A) S).
Qed.
Definition fill (s : state) (n : nat) : state := mk_state (clients s) (cell s) (locked s) (workers s) (pending s + n) (updates s) (waits s).
Lemma fill_acts n : forall s, pending s + n <= capacity -> acts capacity s (repeat Other_event n) = Some (fill s n).
Proof.
  induction n as [|n IH]; intros s L; [cbn [repeat acts]; unfold fill; rewrite Nat.add_0_r; destruct s; reflexivity|].
  cbn [repeat acts act]. replace (pending s <? capacity) with true by (symmetry; apply Nat.ltb_lt; lia). rewrite IH by (cbn [pending]; lia). unfold fill. cbn [clients cell locked workers pending updates waits].
  rewrite <- Nat.add_assoc. reflexivity.
Qed.
Lemma one_quiet l : Forall (fun a => ~ is_call a /\ a <> Drop_handles) l -> forall s, one_at_a_time capacity s l.
Proof.
  induction l as [|a l IH]; intros F s; [exact I|]. destruct (Forall_inv F) as [A B]. split; [intros X; destruct (A X)|]. split; [exact B|]. intros s' _. exact (IH (Forall_inv_tail F) s').
Qed.
Lemma acts_trans l1 : forall l2 s s1, acts capacity s l1 = Some s1 -> acts capacity s (l1 ++ l2) = acts capacity s1 l2.
Proof. induction l1 as [|a l IH]; intros l2 s s1 E; cbn [acts app] in *; [injection E as <-; reflexivity|]. destruct (act capacity s a); [exact (IH l2 _ s1 E)|discriminate]. Qed.
Lemma one_trans l1 : forall l2 s, one_at_a_time capacity s l1 -> (forall s1, acts capacity s l1 = Some s1 -> one_at_a_time capacity s1 l2) -> one_at_a_time capacity s (l1 ++ l2).
Proof.
  induction l1 as [|a l IH]; intros l2 s O P; [exact (P s eq_refl)|]. destruct O as (O1 & O2 & O3). split; [exact O1|]. split; [exact O2|].
  intros s' A. apply IH; [exact (O3 s' A)|]. intros s1 E. apply P. cbn [acts]. rewrite A. exact E.
Qed.
Lemma callback_deadlock : capacity <> 0 -> exists l s, one_at_a_time capacity start l /\ acts capacity start l = Some s /\ clients s 0 = Sending 0 false /\
  forall l' s', acts capacity s l' = Some s' -> clients s' 0 = Sending 0 false.
Proof.
  intros Cap. set (A := [Call_start 1; Lock 1; Store 1; Spawn 1; Time_out 0; Prepare 0]).
  destruct (acts capacity start A) as [s1|] eqn:E1; [|discriminate E1].
  assert (X : clients s1 0 = Idle /\ (forall d, clients s1 d = Idle) /\ cell s1 = Some 0 /\ locked s1 = false /\ workers s1 = [mk_worker Posting true] /\ pending s1 = 0).
  { cbn in E1. injection E1 as <-. cbn. split; [reflexivity|]. split; [|auto]. intros d. unfold set_client. cbn. destruct d as [|[|d]]; reflexivity. }
  destruct X as (X0 & X1 & X2 & X3 & X4 & X5).
  pose proof (fill_acts capacity s1 ltac:(lia)) as E2. set (s2 := fill s1 capacity) in *.
  destruct capacity as [|m] eqn:Ecap; [congruence|]. rewrite <- Ecap in *.
  set (s3 := mk_state (set_client s2 0 (Sending 0 false)) None true (workers s2) (m + 1) (updates s2) (waits s2)).
  assert (E3 : exists s4, acts capacity s2 [Take; Call_stop 0; Other_event; Lock 0] = Some s4 /\ stuck s4).
  { assert (P2 : pending s2 = S m) by (cbn [s2 fill pending]; lia).
    cbn [acts act]. change (clients s2) with (clients s1). rewrite X0, P2. cbn [clients pending]. rewrite X0. cbn [clients cell locked workers pending updates waits].
    replace (m <? capacity) with true by (symmetry; apply Nat.ltb_lt; lia). cbn [clients cell locked workers pending updates waits]. rewrite set_same.
    change (locked s2) with (locked s1). rewrite X3. change (cell s2) with (cell s1). rewrite X2. eexists. split; [reflexivity|].
    split; cbn [clients cell locked workers pending]; try reflexivity.
    - lia.
    - exists true. change (workers s2) with (workers s1). rewrite X4. reflexivity.
    - intros d Nd. left. rewrite set_other by exact Nd. cbn [clients]. rewrite set_other by exact Nd. cbn [clients]. apply X1.
    - intros j w N. change (workers s2) with (workers s1) in N. rewrite X4 in N. destruct j as [|[|j]]; [reflexivity|discriminate N|discriminate N]. }
  destruct E3 as (s4 & E4 & K4).
  exists (A ++ repeat Other_event capacity ++ [Take; Call_stop 0; Other_event; Lock 0]), s4. split; [|split; [|split]].
  - apply one_trans.
    + split; [intros _ c; reflexivity|]. split; [discriminate|]. intros s' _. apply one_quiet. repeat constructor; try discriminate; intros [].
    + intros s1' E. rewrite E1 in E. injection E as <-. apply one_trans.
      * apply one_quiet. apply Forall_forall. intros a Ia. apply repeat_spec in Ia. subst a. split; [intros []|discriminate].
      * intros s2' E. rewrite E2 in E. injection E as <-. split; [intros []|]. split; [discriminate|]. intros t T. split.
        -- intros _ c. cbn [act] in T. change (clients s2) with (clients s1) in T. rewrite X0 in T. destruct (pending s2); [discriminate|]. injection T as <-. cbn [clients]. apply X1.
        -- split; [discriminate|]. intros t' _. apply one_quiet. repeat constructor; try discriminate; intros [].
  - rewrite (acts_trans A _ _ _ E1), (acts_trans _ _ _ _ E2). exact E4.
  - exact (k_sending _ K4).
  - intros l' s' S. exact (stuck_acts l' s4 s' K4 S).
Qed.
End Keep.
