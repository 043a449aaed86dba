(** The online context: invariant. *)
From Coq Require Import List Arith Bool Lia.
From Verif Require Import Context_Model Context_Spec.
Import ListNotations.

Section Inv.
Context {M : Type}.
Notation world := (world M). Notation msg := (msg M). Notation stream := (stream M). Notation pc := (pc M).

Definition is_apply (m : msg) : bool := match m with Apply _ => true | _ => false end.
Definition life (c : list msg) : list msg := filter (fun m => negb (is_apply m)) c.
Definition applies (c : list msg) : list M := flat_map (fun m => match m with Apply x => [x] | _ => [] end) c.
Definition stored (w : world) : list msg := match w_buf w with Some l => l | None => [] end.
Definition eff (s : stream) : bool := fold_left (fun b r => match r with BResume => true | BSuspend => false | BClose => b end) (s_queue s) (s_running s).
Definition opened (s : stream) : Prop := s_alive s = true /\ ~ In BClose (s_queue s).
Inductive want := WRun | WStop | WOpen | WAny.
Definition fits (s : stream) (x : want) : Prop :=
  match x with WRun => opened s /\ eff s = true | WStop => opened s /\ eff s = false | WOpen => opened s | WAny => True end.
Definition pc_ok (b : bool) (s : stream) : Prop :=
  match s_pc s with
  | ROff => True
  | RFirst k => b = true -> k <= 1
  | RChunk k => b = true -> k <= 1 /\ (k = 1 -> s_suspended s = false /\ s_graph s <> None)
  | RNext k => b = true -> k = 0
  | RCrash => False
  end.
Definition retired (s : stream) : Prop := s_graph s = None /\ s_listening s = false /\ pc_ok true s.
Definition newborn (b : bool) (s : stream) : Prop :=
  s_queue s = [] /\ s_running s = true /\ s_alive s = true /\ s_graph s = None /\ s_suspended s = false /\ s_listening s = true /\
  match s_pc s with ROff => True | RFirst k => b = true -> k <= 1 | _ => False end.
Definition point (p : pc) (st : cstate) : Prop :=
  match p with
  | Idle | SuspChk true | ResChk true | CloseChk true => True
  | SinkChk => st <> Suspended
  | SuspChk2 true st' => st' = st /\ st <> Closed
  | SuspSend true | CloseSend true => st = Running
  | SinkLock st' | SinkDrain st' [] | SinkRecycle st' [] => st = Running /\ st' = Running
  | ResStream true | CloseManual true => st = Suspended
  | CloseChk2 true => st <> Closed
  | SinkFlush [] => st = Running
  | _ => False
  end.
Inductive shape (t : nat) : pc -> cstate -> bool -> list msg -> list nat -> bool -> want -> Prop :=
| sh_run p : point p Running -> shape t p Running false [] [] false WRun
| sh_susp p : point p Suspended -> shape t p Suspended true [] [] true WStop
| sh_closed p b : point p Closed -> shape t p Closed true [] [] b WAny
| sh_s1 : shape t (SuspWait true) Running false [Suspend t] [] true WRun
| sh_s2 : shape t (SuspWait true) Suspended true [] [t] true WRun
| sh_s3 : shape t (SuspStream true) Suspended true [] [] true WRun
| sh_r1 : shape t (ResSend true) Suspended true [] [] true WRun
| sh_r2 : shape t (ResWait true) Suspended true [Resume t] [] false WRun
| sh_r3 : shape t (ResWait true) Running false [] [t] false WRun
| sh_c1 : shape t (CloseWait true) Running false [Close t] [] false WRun
| sh_c2 b : shape t (CloseWait true) Closed true [] [t] b WRun
| sh_c3 b : shape t (CloseStream true) Closed true [] [] b WOpen
| sh_k : shape t (SinkRecv Running []) Running false [Recycle t] [] false WRun.

Definition is_some {X} (o : option X) : bool := match o with Some _ => true | None => false end.
Definition core (w : world) (s : stream) (g : list M) (st : cstate) (susp : bool) (lf : list msg) (d : list nat) (bs : bool) : Prop :=
  w_state w = st /\ w_pending w = false /\ s_graph s = Some g /\ s_listening s = true /\ s_suspended s = susp /\ life (w_chan w) = lf /\ w_done w = d /\ w_given w = [] /\
  is_some (w_buf w) = bs /\ life (stored w) = [] /\ g ++ applies (w_chan w) ++ applies (stored w) = w_issued w.
(** the sink call owns the channel and nothing is in it *)
Definition alone (p : pc) : bool := match p with SinkRecycle _ _ | SinkRecv _ _ => true | _ => false end.
Definition work (w : world) (s : stream) (t : nat) (p : pc) : Prop :=
  exists g st susp lf d bs x, shape t p st susp lf d bs x /\ core w s g st susp lf d bs /\ fits s x /\ (alone p = true -> applies (w_chan w) = []).
Definition starting (b : bool) (w : world) (s : stream) (p : pc) : Prop :=
  (p = Idle \/ p = SinkFlush []) /\ newborn b s /\ w_state w = Suspended /\ w_buf w = None /\ w_done w = [] /\ w_given w = [] /\
  exists g ms, w_chan w = Startup g :: map Apply ms /\ g ++ ms = w_issued w.
Definition moving (w : world) (s : stream) (t : nat) (p : pc) : Prop :=
  w_state w = Suspended /\ w_pending w = false /\ w_buf w = None /\ w_done w = [] /\ w_chan w = [] /\
  exists g, g = w_issued w /\
    match p with
    | SinkRecv Running [] => w_given w = [(t, g)] /\ retired s /\ fits s WRun
    | SinkClose Running g' [] => g' = g /\ w_given w = [] /\ retired s /\ fits s WRun
    | SinkBuild Running g' [] => g' = g /\ w_given w = [] /\ retired s
    | SinkShip Running g' [] => g' = g /\ w_given w = [] /\ newborn true s
    | _ => False
    end.
Definition sink_pc (p : pc) : bool :=
  match p with
  | SinkChk | SinkLock _ | SinkDrain _ _ | SinkRecycle _ _ | SinkWake _ _ | SinkRecv _ _ | SinkClose _ _ _ | SinkBuild _ _ _ | SinkStop _ _ _ | SinkShip _ _ _ | SinkFlush _ => true
  | _ => false
  end.
Definition writes (p : pc) : bool :=
  match p with
  | SinkDrain _ _ | SinkRecycle _ _ | SinkWake _ _ | SinkRecv _ _ | SinkClose _ _ _ | SinkBuild _ _ _ | SinkStop _ _ _ | SinkShip _ _ _ | SinkFlush _ => true
  | _ => false
  end.
Definition holder (w : world) (t : nat) (p : pc) : Prop :=
  (w_lock w = None /\ p = Idle /\ forall u, w_pcs w u = Idle) \/
  (w_lock w = Some t /\ w_pcs w t = p /\ p <> Idle /\ forall u, u <> t -> w_pcs w u = Idle).
Definition Inv (b : bool) (w : world) : Prop :=
  exists old s t p, w_streams w = old ++ [s] /\ Forall retired old /\ (b = false -> old = [] /\ sink_pc p = false) /\ pc_ok b s /\
    holder w t p /\ w_wlock w = (if writes p then Some t else None) /\
    (work w s t p \/ starting b w s p \/ moving w s t p).

(** ** Streams *)
Lemma current_last (w : world) old s : w_streams w = old ++ [s] -> current w = length old.
Proof. intros E. unfold current. rewrite E, app_length. cbn. lia. Qed.
Lemma nth_last (old : list stream) s : nth_error (old ++ [s]) (length old) = Some s.
Proof. rewrite nth_error_app2, Nat.sub_diag by lia. reflexivity. Qed.
Lemma set_last (old : list stream) s s' : set_nth (old ++ [s]) (length old) s' = old ++ [s'].
Proof. induction old as [|x old IH]; [reflexivity|]. cbn. rewrite IH. reflexivity. Qed.
Lemma set_old (old : list stream) s i x x' : nth_error old i = Some x -> exists old', set_nth (old ++ [s]) i x' = old' ++ [s] /\ (Forall retired old -> retired x' -> Forall retired old') /\ length old' = length old.
Proof.
  revert i. induction old as [|y old IH]; intros i H; [destruct i; discriminate|]. destruct i as [|i].
  - exists (x' :: old). split; [reflexivity|]. split; [|reflexivity]. intros F R. inversion F; subst. constructor; assumption.
  - destruct (IH i H) as (old' & E & R & L). exists (y :: old'). cbn. rewrite E. split; [reflexivity|]. split; [|rewrite L; reflexivity]. intros F Rx. inversion F; subst. constructor; [assumption|]. apply R; assumption.
Qed.
Lemma which (old : list stream) s i x : nth_error (old ++ [s]) i = Some x -> (nth_error old i = Some x /\ i < length old) \/ (i = length old /\ x = s).
Proof.
  intros H. destruct (Nat.lt_ge_cases i (length old)) as [L|L]; [left; rewrite nth_error_app1 in H by exact L; split; assumption|]. right. rewrite nth_error_app2 in H by exact L.
  destruct (i - length old) as [|k] eqn:E; [|destruct k; discriminate]. injection H as ->. split; [lia|reflexivity].
Qed.
Lemma opened_ask s r : opened s -> r <> BClose -> opened (st_ask s r).
Proof. intros [A B] N. split; [exact A|]. cbn. rewrite in_app_iff. intros [I|[I|[]]]; [apply B; exact I|congruence]. Qed.
Lemma eff_ask s r : eff (st_ask s r) = match r with BResume => true | BSuspend => false | BClose => eff s end.
Proof. unfold eff. cbn. rewrite fold_left_app. destruct r; reflexivity. Qed.
(** ** Messages *)
Lemma life_app a b : life (a ++ b) = life a ++ life b.
Proof. apply filter_app. Qed.
Lemma applies_app a b : applies (a ++ b) = applies a ++ applies b.
Proof. apply flat_map_app. Qed.
Lemma life_map ms : life (map Apply ms) = [].
Proof. induction ms as [|m ms IH]; [reflexivity|exact IH]. Qed.
Lemma applies_map ms : applies (map Apply ms) = ms.
Proof. induction ms as [|m ms IH]; [reflexivity|]. cbn. f_equal. exact IH. Qed.
Lemma life_in m c : In m c -> is_apply m = false -> In m (life c).
Proof. intros I A. apply filter_In. split; [exact I|]. rewrite A. reflexivity. Qed.

(** ** The holder of the lock *)
Lemma hold_goto (w : world) t p : w_lock w = Some t -> (forall u, u <> t -> w_pcs w u = Idle) -> p <> Idle -> holder (goto w t p) t p.
Proof. intros L O N. right. cbn. rewrite Nat.eqb_refl. split; [exact L|]. split; [reflexivity|]. split; [exact N|]. intros u H. apply Nat.eqb_neq in H. rewrite H. apply O. apply Nat.eqb_neq. exact H. Qed.
Lemma hold_finish (w : world) t : (forall u, u <> t -> w_pcs w u = Idle) -> holder (finish w t true) t Idle.
Proof. intros O. left. cbn. split; [reflexivity|]. split; [reflexivity|]. intros u. destruct (Nat.eqb_spec u t); [reflexivity|apply O; assumption]. Qed.
Lemma hold_idle (w : world) t p u : holder w t p -> w_pcs w u <> Idle -> u = t /\ p = w_pcs w t /\ w_lock w = Some t /\ forall v, v <> t -> w_pcs w v = Idle.
Proof. intros [(_ & _ & H)|(L & E & N & O)] Q; [contradiction (Q (H u))|]. destruct (Nat.eq_dec u t) as [->|D]; [|contradiction (Q (O u D))]. split; [reflexivity|]. split; [symmetry; exact E|]. split; assumption. Qed.
Lemma ask_ok b (w : world) old s r : w_streams w = old ++ [s] -> s_alive s = true -> pc_ok b s -> ask w r = Some (with_streams w (old ++ [st_ask s r])).
Proof.
  intros E A P. unfold ask. rewrite (current_last w old s E), E, nth_last, A. cbn [andb]. unfold put. rewrite E, set_last. unfold pc_ok in P. destruct (s_pc s); try reflexivity. contradiction.
Qed.
Lemma pc_ask b s r : pc_ok b s -> pc_ok b (st_ask s r).
Proof. exact (fun H => H). Qed.
Lemma remove_self t : remove_one t [t] = Some [].
Proof. unfold remove_one. cbn. rewrite Nat.eqb_refl. reflexivity. Qed.

Lemma call_inv b (w w' : world) u o : Inv b w -> allowed b w (LCall u o) -> call w u o = Some w' -> Inv b w'.
Proof.
  intros (old & s & t & p & E & Ro & Nb & Pc & H & Wl & Ph) Al C. unfold call in C. destruct (w_pcs w u) eqn:Eu; try discriminate.
  assert (Lk : forall q, settled w -> free (w_lock w) = true -> point q (w_state w) -> q <> Idle -> writes q = false -> alone q = false -> (b = false -> sink_pc q = false) -> Inv b (goto (with_lock w (Some u)) u q)).
  { intros q St Fr P1 N Wq Aq Sq. destruct H as [(L & -> & O)|(L & _)]; [|rewrite L in Fr; discriminate]. exists old, s, u, q. split; [exact E|]. split; [exact Ro|]. split; [intros B; split; [apply Nb; exact B|apply Sq; exact B]|]. split; [exact Pc|].
    split; [apply hold_goto; [reflexivity|intros v _; apply O|exact N]|]. split; [rewrite Wq; exact Wl|]. left. destruct Ph as [(g & st & susp & lf & d & bs & x & Sh & Co & Fi & _)|[(_ & _ & _ & _ & _ & _ & g & ms & Ec & _)|(_ & _ & _ & _ & _ & g & _ & [])]].
    - exists g, st, susp, lf, d, bs, x. split; [rewrite (proj1 Co) in P1; inversion Sh; subst; [apply sh_run|apply sh_susp|apply sh_closed]; exact P1|]. split; [exact Co|]. split; [exact Fi|]. rewrite Aq. discriminate.
    - exfalso. apply (St g). rewrite Ec. left. reflexivity. }
  destruct o as [sync|sync|sync| |m].
  - destruct Al as [-> St]. destruct (free (w_lock w)) eqn:Fr; [|discriminate]. injection C as <-. apply Lk; cbn; (exact I || exact St || exact Fr || discriminate || reflexivity).
  - destruct Al as [-> St]. destruct (free (w_lock w)) eqn:Fr; [|discriminate]. injection C as <-. apply Lk; cbn; (exact I || exact St || exact Fr || discriminate || reflexivity).
  - destruct Al as [-> St]. destruct (free (w_lock w)) eqn:Fr; [|discriminate]. injection C as <-. apply Lk; cbn; (exact I || exact St || exact Fr || discriminate || reflexivity).
  - destruct Al as (-> & St & Ns). destruct (free (w_lock w)) eqn:Fr; [|discriminate]. injection C as <-. apply Lk; cbn; (exact I || exact St || exact Fr || exact Ns || discriminate || reflexivity).
  - assert (Q : w_state w = Closed \/ exists w1, send_msg w (Apply m) = Some w1 /\ w' = with_issued w1 (w_issued w1 ++ [m]) /\ w_wlock w = None /\ w1 = match w_buf w with Some l => with_buf w (Some (l ++ [Apply m])) | None => with_chan w (w_chan w ++ [Apply m]) end).
    { unfold send_msg in C |- *. destruct (w_state w); [right|right|left; reflexivity]; (destruct (w_wlock w); [discriminate|]; cbn [free] in C |- *; injection C as <-; eexists; repeat split). }
    destruct Q as [Q|(w1 & Q1 & -> & Q2 & Q3)]; [rewrite Q in C; injection C as <-; exists old, s, t, p; repeat (split; [assumption|]); exact Ph|].
    assert (Wp : writes p = false) by (destruct (writes p); [rewrite Q2 in Wl; discriminate|reflexivity]).
    exists old, s, t, p. rewrite Q3. split; [destruct (w_buf w); exact E|]. split; [exact Ro|]. split; [exact Nb|]. split; [exact Pc|]. split; [destruct (w_buf w); exact H|]. split; [destruct (w_buf w); exact Wl|].
    destruct Ph as [(g & st & susp & lf & d & bs & x & Sh & Co & Fi & Ap)|[(Hp & Nw & S1 & S2 & S3 & S4 & g & ms & Ec & Ei)|(_ & _ & _ & _ & _ & g & _ & F)]].
    + left. exists g, st, susp, lf, d, bs, x. split; [exact Sh|]. split; [|split; [exact Fi|intros A; destruct p; discriminate]].
      destruct Co as (C1 & C2 & C3 & C4 & C5 & C6 & C7 & C8 & C9 & C10 & C11). unfold core, stored in *. destruct (w_buf w) as [l|] eqn:Eb; cbn [with_issued with_buf with_chan w_state w_pending w_chan w_done w_given w_buf w_issued]; rewrite ?Eb.
      * repeat (split; [assumption|]). split; [rewrite life_app, C10; reflexivity|]. rewrite applies_app, <- C11. cbn [applies flat_map app]. rewrite !app_assoc. reflexivity.
      * repeat (split; [assumption|]). split; [rewrite life_app, C6, app_nil_r; reflexivity|]. repeat (split; [assumption || reflexivity|]). rewrite applies_app, <- C11. cbn [applies flat_map app]. rewrite !app_nil_r, !app_assoc. reflexivity.
    + right. left. destruct Hp as [->| ->]; [|discriminate]. unfold starting. rewrite S2. cbn. split; [left; reflexivity|]. repeat (split; [assumption|]). exists g, (ms ++ [m]). split; [rewrite Ec, map_app; reflexivity|]. rewrite <- Ei, app_assoc. reflexivity.
    + exfalso. destruct p; try contradiction; discriminate.
Qed.

Lemma life_snoc c m : is_apply m = false -> life (c ++ [m]) = life c ++ [m].
Proof. intros A. rewrite life_app. cbn. rewrite A. reflexivity. Qed.
Lemma applies_snoc c m : is_apply m = false -> applies (c ++ [m]) = applies c.
Proof. intros A. rewrite applies_app. destruct m; try discriminate A; cbn; apply app_nil_r. Qed.
Lemma all_apply c : life c = [] -> c = map Apply (applies c).
Proof. induction c as [|m c IH]; [reflexivity|]. intros H. destruct m; try discriminate. cbn. f_equal. apply IH. exact H. Qed.

Definition pointish (p : pc) : bool :=
  match p with
  | Idle | SuspChk true | ResChk true | CloseChk true | SinkChk | SuspChk2 true _ | SuspSend true | CloseSend true | SinkLock _ | SinkDrain _ [] | SinkRecycle _ [] | ResStream true | CloseManual true | CloseChk2 true | SinkFlush [] => true
  | _ => false
  end.
Lemma sh_move t t' p q st susp lf d bs x : shape t p st susp lf d bs x -> pointish p = true -> point q st -> shape t' q st susp lf d bs x.
Proof. intros Sh P Q. destruct Sh; try discriminate P; [apply sh_run|apply sh_susp|apply sh_closed]; exact Q. Qed.
Lemma sh_at t p st susp lf d bs x : shape t p st susp lf d bs x -> pointish p = true -> point p st.
Proof. intros Sh P. destruct Sh; try discriminate P; assumption. Qed.
Definition impossible (p : pc) : bool :=
  negb (pointish p) && match p with SuspWait true | SuspStream true | ResSend true | ResWait true | CloseWait true | CloseStream true | SinkRecv _ _ => false | _ => true end.
Lemma sh_bad t p st susp lf d bs x : shape t p st susp lf d bs x -> impossible p = true -> False.
Proof. intros Sh P. destruct Sh; try discriminate P; (destruct p as [|[]|[] ?|[]|[]|[]|[]|[]|[]|[]|[]|[]|[]|[]|[]|[]| |?|? []|? []|? []|? []|? ? []|? ? []|? ? []|? ? []|[]| ]; try discriminate P; try contradiction). Qed.
Ltac keep_work g := left; exists g; do 6 eexists; (split; [|split; [|split]]).
Lemma thread_inv b (w w' : world) u : Inv b w -> allowed b w (LStep u) -> thread_step w u = Some w' -> Inv b w'.
Proof.
  intros (old & s & t & p & E & Ro & Nb & Pc & H & Wl & Ph) Al C. assert (Nu : w_pcs w u <> Idle) by (intros Q; unfold thread_step in C; rewrite Q in C; discriminate).
  destruct (hold_idle w t p u H Nu) as (-> & -> & Lk & O). clear H. unfold thread_step in C. cbn [allowed] in Al.
  assert (Fin : forall (w1 : world) s1, w_streams w1 = old ++ [s1] -> w_pcs w1 = w_pcs w -> pc_ok b s1 -> w_wlock w1 = None -> work w1 s1 t Idle \/ starting b w1 s1 Idle -> Inv b (finish w1 t true)).
  { intros w1 s1 E1 Ep P1 W1 Ph1. exists old, s1, t, Idle. split; [exact E1|]. split; [exact Ro|]. split; [intros B; split; [apply Nb; exact B|reflexivity]|]. split; [exact P1|]. split; [apply hold_finish; rewrite Ep; exact O|]. split; [exact W1|]. destruct Ph1 as [Q|Q]; [left; exact Q|right; left; exact Q]. }
  assert (Go : forall (w1 : world) s1 q, w_streams w1 = old ++ [s1] -> w_pcs w1 = w_pcs w -> w_lock w1 = Some t -> pc_ok b s1 -> q <> Idle -> (b = false -> sink_pc (w_pcs w t) = false -> sink_pc q = false) -> w_wlock w1 = (if writes q then Some t else None) ->
    work w1 s1 t q \/ starting b w1 s1 q \/ moving w1 s1 t q -> Inv b (goto w1 t q)).
  { intros w1 s1 q E1 Ep L1 P1 Nq Sq W1 Ph1. exists old, s1, t, q. split; [exact E1|]. split; [exact Ro|]. split; [intros B; split; [apply Nb; exact B|apply Sq; [exact B|apply Nb; exact B]]|]. split; [exact P1|]. split; [apply hold_goto; [exact L1|rewrite Ep; exact O|exact Nq]|]. split; [exact W1|]. exact Ph1. }
  destruct Ph as [(g & st & susp & lf & d & bs & x & Sh & Co & Fi & Ap)|[(Hp & Nw & S1 & S2 & S3 & S4 & g & ms & Ec & Ei)|(M1 & M2 & M3 & M4 & M5 & g & Mi & Mp)]].
  2: { destruct Hp as [Hp|Hp]; [contradiction|]. rewrite Hp in *. injection C as <-. apply (Fin (with_wlock w None) s); try assumption; try reflexivity. right. split; [left; reflexivity|]. split; [exact Nw|]. repeat (split; [assumption|]). exists g, ms. split; assumption. }
  2: { destruct (w_pcs w t) as [|sync|sync st|sync|sync|sync|sync|sync|sync|sync|sync|sync|sync|sync|sync|sync| |st|st p|st p|st p|st p|st g' p|st g' p|st g' p|st g' p|p| ] eqn:Ep; try contradiction; destruct st; try contradiction; destruct p; try contradiction.
    - destruct Mp as (Mg & Mr & Mf). unfold take_given in C. rewrite Mg in C. cbn in C. rewrite Nat.eqb_refl in C. cbn in C. injection C as <-. apply (Go (with_given w []) s); try assumption; try reflexivity; try discriminate. right. right. split; [exact M1|]. split; [exact M2|]. split; [exact M3|]. split; [exact M4|]. split; [exact M5|]. exists g. split; [exact Mi|]. split; [reflexivity|]. split; [reflexivity|]. split; assumption.
    - destruct Mp as (-> & Mg & Mr & Mf). unfold asked in C. rewrite (ask_ok b w old s BClose E (proj1 (proj1 Mf)) Pc) in C. injection C as <-. apply (Go _ (st_ask s BClose)); try assumption; try reflexivity; try discriminate. right. right. split; [exact M1|]. split; [exact M2|]. split; [exact M3|]. split; [exact M4|]. split; [exact M5|]. exists g. split; [exact Mi|]. split; [reflexivity|]. split; [exact Mg|]. exact Mr.
    - destruct Mp as (-> & Mg & Mr). injection C as <-. cbn [is_state]. assert (B : b = true) by (destruct b; [reflexivity|]; destruct (Nb eq_refl); discriminate).
      exists (old ++ [s]), fresh_stream, t, (SinkShip Running g []). split; [cbn; rewrite E; reflexivity|]. split; [apply Forall_app; split; [exact Ro|constructor; [exact Mr|constructor]]|]. split; [rewrite B; discriminate|]. split; [exact I|]. split; [apply hold_goto; [exact Lk|exact O|discriminate]|]. split; [exact Wl|]. right. right. split; [exact M1|]. split; [exact M2|]. split; [exact M3|]. split; [exact M4|]. split; [exact M5|]. exists g. split; [exact Mi|]. split; [reflexivity|]. split; [exact Mg|]. repeat split.
    - destruct Mp as (-> & Mg & Mn). injection C as <-. apply (Go (with_chan w (w_chan w ++ [Startup g])) s); try assumption; try reflexivity; try discriminate. right. left. split; [right; reflexivity|].
      assert (B : b = true) by (destruct b; [reflexivity|]; destruct (Nb eq_refl); discriminate). rewrite B. split; [exact Mn|]. split; [exact M1|]. split; [exact M3|]. split; [exact M4|]. split; [exact Mg|]. exists g, []. split; [cbn; rewrite M5; reflexivity|]. rewrite app_nil_r. exact Mi. }
  assert (Co' := Co).
  destruct (w_pcs w t) as [|sync|sync st'|sync|sync|sync|sync|sync|sync|sync|sync|sync|sync|sync|sync|sync| |st'|st' p|st' p|st' p|st' p|st' g' p|st' g' p|st' g' p|st' g' p|p| ] eqn:Ep; try contradiction; try (exfalso; apply (sh_bad _ _ _ _ _ _ _ _ Sh eq_refl)).
  - (* SuspChk *) destruct sync; [|exfalso; apply (sh_bad _ _ _ _ _ _ _ _ Sh eq_refl)]. rewrite (proj1 Co) in C. assert (St : (st = Closed /\ w' = finish w t true) \/ (st <> Closed /\ w' = goto w t (SuspChk2 true st))) by (destruct st; [right|right|left]; (split; [discriminate || reflexivity|congruence])). clear C.
    destruct St as [(-> & ->)|(N & ->)].
    + apply (Fin w s); try assumption; try reflexivity. left. exists g, Closed, susp, lf, d, bs, x. split; [apply (sh_move t t _ _ _ _ _ _ _ _ Sh); [reflexivity|cbn; repeat split; (exact I || reflexivity)]|]. split; [exact Co'|]. split; [exact Fi|discriminate].
    + apply (Go w s); try assumption; try reflexivity; try discriminate. left. exists g, st, susp, lf, d, bs, x. split; [apply (sh_move t t _ _ _ _ _ _ _ _ Sh); [reflexivity|cbn; split; [reflexivity|exact N]]|]. split; [exact Co'|]. split; [exact Fi|discriminate].
  - (* SuspChk2 *) destruct sync; [|exfalso; apply (sh_bad _ _ _ _ _ _ _ _ Sh eq_refl)]. rewrite (proj1 (proj2 Co)) in C. cbn [negb] in C. rewrite andb_true_r in C.
    assert (Q : st' = st /\ st <> Closed) by (exact (sh_at _ _ _ _ _ _ _ _ Sh eq_refl)). destruct Q as [-> N]. destruct st; cbn [is_state negb] in C; injection C as <-; [| |contradiction].
    + apply (Fin w s); try assumption; try reflexivity. left. exists g, Suspended, susp, lf, d, bs, x. split; [apply (sh_move t t _ _ _ _ _ _ _ _ Sh); [reflexivity|cbn; repeat split; (exact I || reflexivity)]|]. split; [exact Co'|]. split; [exact Fi|discriminate].
    + apply (Go w s); try assumption; try reflexivity; try discriminate. left. exists g, Running, susp, lf, d, bs, x. split; [apply (sh_move t t _ _ _ _ _ _ _ _ Sh); [reflexivity|cbn; repeat split; (exact I || reflexivity)]|]. split; [exact Co'|]. split; [exact Fi|discriminate].
  - (* SuspSend *) destruct sync; [|exfalso; apply (sh_bad _ _ _ _ _ _ _ _ Sh eq_refl)]. rewrite Wl in C. cbn [writes free] in C. injection C as <-.
    apply (Go _ s); try assumption; try reflexivity; try discriminate. left. clear Co'; inversion Sh as [p' Q|p' Q|p' b' Q| | | | | | | | | |]; subst; destruct Co as (C1 & C2 & C3 & C4 & C5 & C6 & C7 & C8 & C9 & C10 & C11); cbn in Q; try discriminate Q.
    exists g, Running, false, [Suspend t], [], true, WRun. split; [apply sh_s1|]. split; [|split; [exact Fi|discriminate]]. unfold core, stored. cbn. rewrite life_snoc, applies_snoc by reflexivity.
    assert (B0 : w_buf w = None) by (destruct (w_buf w); [discriminate|reflexivity]). unfold stored in C11. rewrite B0 in C11. repeat (split; [assumption || reflexivity|]). split; [rewrite C6; reflexivity|]. repeat (split; [assumption || reflexivity|]). exact C11.
  - (* SuspWait *) destruct sync; [|exfalso; apply (sh_bad _ _ _ _ _ _ _ _ Sh eq_refl)]. clear Co'; inversion Sh as [p' Q|p' Q|p' b' Q| | | | | | | | | |]; subst; destruct Co as (C1 & C2 & C3 & C4 & C5 & C6 & C7 & C8 & C9 & C10 & C11); try contradiction Q; rewrite C7 in C; [discriminate|]. rewrite remove_self in C. injection C as <-.
    apply (Go _ s); try assumption; try reflexivity; try discriminate. left. exists g, Suspended, true, [], [], true, WRun. split; [apply sh_s3|]. split; [|split; [exact Fi|discriminate]]. repeat (split; [assumption || reflexivity|]). exact C11.
  - (* SuspStream *) destruct sync; [|exfalso; apply (sh_bad _ _ _ _ _ _ _ _ Sh eq_refl)]. clear Co'; inversion Sh as [p' Q|p' Q|p' b' Q| | | | | | | | | |]; subst; destruct Co as (C1 & C2 & C3 & C4 & C5 & C6 & C7 & C8 & C9 & C10 & C11); try contradiction Q. cbn [may_lock orb] in C. unfold asked in C. rewrite (ask_ok b w old s BSuspend E (proj1 (proj1 Fi)) Pc) in C. injection C as <-.
    apply (Fin _ (st_ask s BSuspend)); try assumption; try reflexivity. left. exists g, Suspended, true, [], [], true, WStop. split; [apply sh_susp; exact I|]. split; [repeat (split; [assumption || reflexivity|]); exact C11|]. split; [split; [apply opened_ask; [apply Fi|discriminate]|apply eff_ask]|discriminate].
  - (* ResChk *) destruct sync; [|exfalso; apply (sh_bad _ _ _ _ _ _ _ _ Sh eq_refl)]. rewrite (proj1 Co) in C. destruct (is_state st Suspended) eqn:Es.
    + assert (st = Suspended) by (destruct st; (reflexivity || discriminate)). subst st. injection C as <-. apply (Go w s); try assumption; try reflexivity; try discriminate. left. exists g, Suspended, susp, lf, d, bs, x. split; [apply (sh_move t t _ _ _ _ _ _ _ _ Sh); [reflexivity|cbn; repeat split; (exact I || reflexivity)]|]. split; [exact Co'|]. split; [exact Fi|discriminate].
    + injection C as <-. apply (Fin w s); try assumption; try reflexivity. left. exists g, st, susp, lf, d, bs, x. split; [apply (sh_move t t _ _ _ _ _ _ _ _ Sh); [reflexivity|cbn; exact I]|]. split; [exact Co'|]. split; [exact Fi|discriminate].
  - (* ResStream *) destruct sync; [|exfalso; apply (sh_bad _ _ _ _ _ _ _ _ Sh eq_refl)]. clear Co'; inversion Sh as [p' Q|p' Q|p' b' Q| | | | | | | | | |]; subst; destruct Co as (C1 & C2 & C3 & C4 & C5 & C6 & C7 & C8 & C9 & C10 & C11); cbn in Q; try discriminate Q. unfold asked in C. rewrite (ask_ok b w old s BResume E (proj1 (proj1 Fi)) Pc) in C. injection C as <-.
    apply (Go _ (st_ask s BResume)); try assumption; try reflexivity; try discriminate. left. exists g, Suspended, true, [], [], true, WRun. split; [apply sh_r1|]. split; [repeat (split; [assumption || reflexivity|]); exact C11|]. split; [split; [apply opened_ask; [apply Fi|discriminate]|apply eff_ask]|discriminate].
  - (* ResSend *) destruct sync; [|exfalso; apply (sh_bad _ _ _ _ _ _ _ _ Sh eq_refl)]. clear Co'; inversion Sh as [p' Q|p' Q|p' b' Q| | | | | | | | | |]; subst; destruct Co as (C1 & C2 & C3 & C4 & C5 & C6 & C7 & C8 & C9 & C10 & C11); try contradiction Q. rewrite Wl in C. cbn [writes free] in C. injection C as <-.
    apply (Go _ s); try assumption; try reflexivity; try discriminate. left. exists g, Suspended, true, [Resume t], [], false, WRun. split; [apply sh_r2|]. split; [|split; [exact Fi|discriminate]]. unfold core. cbn [with_chan with_buf w_state w_pending w_chan w_done w_given w_buf w_issued stored is_some]. change (match w_buf w with Some l => l | None => [] end) with (stored w).
    repeat (split; [assumption || reflexivity|]). split; [rewrite life_app, life_snoc, C10, C6 by reflexivity; reflexivity|]. repeat (split; [assumption || reflexivity|]). rewrite applies_app, applies_snoc by reflexivity. cbn [applies flat_map]. rewrite app_nil_r. exact C11.
  - (* ResWait *) destruct sync; [|exfalso; apply (sh_bad _ _ _ _ _ _ _ _ Sh eq_refl)]. clear Co'; inversion Sh as [p' Q|p' Q|p' b' Q| | | | | | | | | |]; subst; destruct Co as (C1 & C2 & C3 & C4 & C5 & C6 & C7 & C8 & C9 & C10 & C11); try contradiction Q; rewrite C7 in C; [discriminate|]. rewrite remove_self in C. injection C as <-.
    apply (Fin (with_done w []) s); try assumption; try reflexivity. left. exists g, Running, false, [], [], false, WRun. split; [apply sh_run; exact I|]. split; [|split; [exact Fi|discriminate]]. repeat (split; [assumption || reflexivity|]). exact C11.
  - (* CloseChk *) destruct sync; [|exfalso; apply (sh_bad _ _ _ _ _ _ _ _ Sh eq_refl)]. rewrite (proj1 Co) in C. destruct (is_state st Closed) eqn:Es.
    + assert (st = Closed) by (destruct st; (reflexivity || discriminate)). subst st. injection C as <-. apply (Fin w s); try assumption; try reflexivity. left. exists g, Closed, susp, lf, d, bs, x. split; [apply (sh_move t t _ _ _ _ _ _ _ _ Sh); [reflexivity|cbn; repeat split; (exact I || reflexivity)]|]. split; [exact Co'|]. split; [exact Fi|discriminate].
    + injection C as <-. assert (N : st <> Closed) by (intros ->; discriminate). apply (Go w s); try assumption; try reflexivity; try discriminate. left. exists g, st, susp, lf, d, bs, x. split; [apply (sh_move t t _ _ _ _ _ _ _ _ Sh); [reflexivity|cbn; exact N]|]. split; [exact Co'|]. split; [exact Fi|discriminate].
  - (* CloseChk2 *) destruct sync; [|exfalso; apply (sh_bad _ _ _ _ _ _ _ _ Sh eq_refl)]. rewrite (proj1 Co) in C. assert (N : st <> Closed) by (exact (sh_at _ _ _ _ _ _ _ _ Sh eq_refl)). destruct (is_state st Running) eqn:Es.
    + assert (st = Running) by (destruct st; (reflexivity || discriminate)). subst st. injection C as <-. apply (Go w s); try assumption; try reflexivity; try discriminate. left. exists g, Running, susp, lf, d, bs, x. split; [apply (sh_move t t _ _ _ _ _ _ _ _ Sh); [reflexivity|cbn; repeat split; (exact I || reflexivity)]|]. split; [exact Co'|]. split; [exact Fi|discriminate].
    + assert (st = Suspended) by (destruct st; (reflexivity || discriminate || contradiction)). subst st. injection C as <-. apply (Go w s); try assumption; try reflexivity; try discriminate. left. exists g, Suspended, susp, lf, d, bs, x. split; [apply (sh_move t t _ _ _ _ _ _ _ _ Sh); [reflexivity|cbn; repeat split; (exact I || reflexivity)]|]. split; [exact Co'|]. split; [exact Fi|discriminate].
  - (* CloseSend *) destruct sync; [|exfalso; apply (sh_bad _ _ _ _ _ _ _ _ Sh eq_refl)]. clear Co'; inversion Sh as [p' Q|p' Q|p' b' Q| | | | | | | | | |]; subst; destruct Co as (C1 & C2 & C3 & C4 & C5 & C6 & C7 & C8 & C9 & C10 & C11); cbn in Q; try discriminate Q. unfold send_msg in C. rewrite C1, Wl in C. cbn [writes free] in C. assert (B0 : w_buf w = None) by (destruct (w_buf w); [discriminate|reflexivity]). rewrite B0 in C. injection C as <-.
    apply (Go _ s); try assumption; try reflexivity; try discriminate. left. exists g, Running, false, [Close t], [], false, WRun. split; [apply sh_c1|]. split; [|split; [exact Fi|discriminate]]. unfold core, stored in *. cbn. rewrite life_snoc, applies_snoc by reflexivity. repeat (split; [assumption || (symmetry; assumption)|]). split; [rewrite C6; reflexivity|]. repeat (split; [assumption|]). exact C11.
  - (* CloseWait *) destruct sync; [|exfalso; apply (sh_bad _ _ _ _ _ _ _ _ Sh eq_refl)]. clear Co'; inversion Sh as [p' Q|p' Q|p' b' Q| | | | | | | | | |]; subst; destruct Co as (C1 & C2 & C3 & C4 & C5 & C6 & C7 & C8 & C9 & C10 & C11); try contradiction Q; rewrite C7 in C; [discriminate|]. rewrite remove_self in C. injection C as <-.
    apply (Go _ s); try assumption; try reflexivity; try discriminate. left. eexists g, Closed, true, [], [], _, WOpen. split; [apply sh_c3|]. split; [|split; [exact (proj1 Fi)|discriminate]]. repeat (split; [assumption || reflexivity|]). exact C11.
  - (* CloseManual *) destruct sync; [|exfalso; apply (sh_bad _ _ _ _ _ _ _ _ Sh eq_refl)]. clear Co'; inversion Sh as [p' Q|p' Q|p' b' Q| | | | | | | | | |]; subst; destruct Co as (C1 & C2 & C3 & C4 & C5 & C6 & C7 & C8 & C9 & C10 & C11); cbn in Q; try discriminate Q. rewrite C1 in C. cbn [is_state] in C. injection C as <-.
    apply (Go _ s); try assumption; try reflexivity; try discriminate. left. eexists g, Closed, true, [], [], _, WOpen. split; [apply sh_c3|]. split; [|split; [exact (proj1 Fi)|discriminate]]. repeat (split; [assumption || reflexivity|]). exact C11.
  - (* CloseStream *) destruct sync; [|exfalso; apply (sh_bad _ _ _ _ _ _ _ _ Sh eq_refl)]. clear Co'; inversion Sh as [p' Q|p' Q|p' b' Q| | | | | | | | | |]; subst; destruct Co as (C1 & C2 & C3 & C4 & C5 & C6 & C7 & C8 & C9 & C10 & C11); try contradiction Q. cbn [may_lock orb] in C. unfold asked in C. rewrite (ask_ok b w old s BClose E (proj1 Fi) Pc) in C. injection C as <-.
    apply (Fin _ (st_ask s BClose)); try assumption; try reflexivity. left. eexists g, Closed, true, [], [], _, WAny. split; [apply sh_closed; exact I|]. split; [repeat (split; [assumption || reflexivity|]); exact C11|]. split; [exact I|discriminate].
  - (* SinkChk *) rewrite (proj1 Co) in C. destruct (is_state st Closed) eqn:Es.
    + assert (st = Closed) by (destruct st; (reflexivity || discriminate)). subst st. injection C as <-. apply (Fin w s); try assumption; try reflexivity. left. exists g, Closed, susp, lf, d, bs, x. split; [apply (sh_move t t _ _ _ _ _ _ _ _ Sh); [reflexivity|cbn; repeat split; (exact I || reflexivity)]|]. split; [exact Co'|]. split; [exact Fi|discriminate].
    + assert (N : st <> Suspended) by (exact (sh_at _ _ _ _ _ _ _ _ Sh eq_refl)). assert (st = Running) by (destruct st; (reflexivity || discriminate || contradiction)). subst st. injection C as <-. apply (Go w s); try assumption; try reflexivity; try discriminate. left. exists g, Running, susp, lf, d, bs, x. split; [apply (sh_move t t _ _ _ _ _ _ _ _ Sh); [reflexivity|cbn; repeat split; (exact I || reflexivity)]|]. split; [exact Co'|]. split; [exact Fi|discriminate].
  - (* SinkLock *) rewrite Wl in C. cbn [writes free] in C. injection C as <-. clear Co'; inversion Sh as [p' Q|p' Q|p' b' Q| | | | | | | | | |]; subst; destruct Co as (C1 & C2 & C3 & C4 & C5 & C6 & C7 & C8 & C9 & C10 & C11); destruct Q as [Q1 Q2]; try discriminate Q1. subst st'.
    apply (Go _ s); try assumption; try reflexivity; try discriminate. left. exists g, Running, false, [], [], false, WRun. split; [apply sh_run; split; reflexivity|]. split; [repeat (split; [assumption || (symmetry; assumption) || reflexivity|]); exact C11|]. split; [exact Fi|discriminate].
  - (* SinkDrain *) rewrite Al in C. destruct p as [|m p]; [|exfalso; apply (sh_bad _ _ _ _ _ _ _ _ Sh eq_refl)]. injection C as <-. clear Co'; inversion Sh as [p' Q|p' Q|p' b' Q| | | | | | | | | |]; subst; destruct Co as (C1 & C2 & C3 & C4 & C5 & C6 & C7 & C8 & C9 & C10 & C11); destruct Q as [Q1 Q2]; try discriminate Q1. subst st'.
    apply (Go _ s); try assumption; try reflexivity; try discriminate. left. exists g, Running, false, [], [], false, WRun. split; [apply sh_run; split; reflexivity|]. split; [repeat (split; [assumption || (symmetry; assumption) || reflexivity|]); exact C11|]. split; [exact Fi|]. intros _. rewrite Al. reflexivity.
  - (* SinkRecycle *) destruct p as [|m p]; [|exfalso; apply (sh_bad _ _ _ _ _ _ _ _ Sh eq_refl)]. clear Co'; inversion Sh as [p' Q|p' Q|p' b' Q| | | | | | | | | |]; subst; destruct Co as (C1 & C2 & C3 & C4 & C5 & C6 & C7 & C8 & C9 & C10 & C11); destruct Q as [Q1 Q2]; try discriminate Q1. subst st'. cbn [is_state] in C. injection C as <-.
    apply (Go _ s); try assumption; try reflexivity; try discriminate. left. exists g, Running, false, [Recycle t], [], false, WRun. split; [apply sh_k|]. split; [|split; [exact Fi|intros _; cbn; rewrite applies_snoc by reflexivity; apply Ap; reflexivity]].
    unfold core. cbn [with_chan w_state w_pending w_chan w_done w_given w_buf w_issued]. rewrite life_snoc, applies_snoc by reflexivity. repeat (split; [assumption || (symmetry; assumption)|]). split; [rewrite C6; reflexivity|]. repeat (split; [assumption|]). exact C11.
  - (* SinkRecv *) clear Co'; inversion Sh as [p' Q|p' Q|p' b' Q| | | | | | | | | |]; subst; destruct Co as (C1 & C2 & C3 & C4 & C5 & C6 & C7 & C8 & C9 & C10 & C11); try contradiction Q. unfold take_given in C. rewrite C8 in C. discriminate.
  - (* SinkFlush *) destruct p as [|m p]; [|exfalso; apply (sh_bad _ _ _ _ _ _ _ _ Sh eq_refl)]. injection C as <-. clear Co'; inversion Sh as [p' Q|p' Q|p' b' Q| | | | | | | | | |]; subst; destruct Co as (C1 & C2 & C3 & C4 & C5 & C6 & C7 & C8 & C9 & C10 & C11); cbn in Q; try discriminate Q.
    apply (Fin (with_wlock w None) s); try assumption; try reflexivity. left. exists g, Running, false, [], [], false, WRun. split; [apply sh_run; exact I|]. split; [repeat (split; [assumption || (symmetry; assumption)|]); exact C11|]. split; [exact Fi|discriminate].
Qed.

(** ** The streams *)
Definition frames_only (w w' : world) : Prop := exists n, w' = with_frames w n.
Lemma old_inv b (w : world) old s i x x' : Inv b w -> w_streams w = old ++ [s] -> nth_error old i = Some x -> (b = true -> retired x -> retired x') -> Inv b (put w i x').
Proof.
  intros (old0 & s0 & t & p & E & Ro & Nb & Pc & H & Wl & Ph) E' Nx R. rewrite E in E'. apply app_inj_tail in E'. destruct E' as [-> ->]. destruct (set_old old s i x x' Nx) as (old' & Es & Rt & Ln).
  assert (B : b = true). { destruct b; [reflexivity|]. destruct (Nb eq_refl) as [-> _]. destruct i; discriminate. }
  exists old', s, t, p. split; [cbn; rewrite E; exact Es|]. split; [apply Rt; [exact Ro|apply R; [exact B|apply (proj1 (Forall_forall _ _) Ro); apply nth_error_In with i; exact Nx]]|]. split; [rewrite B; discriminate|]. split; [exact Pc|]. split; [exact H|]. split; [exact Wl|]. exact Ph.
Qed.
Lemma cur_inv b (w : world) old s s' n : Inv b w -> w_streams w = old ++ [s] -> s_graph s' = s_graph s -> s_suspended s' = s_suspended s -> s_listening s' = s_listening s ->
  pc_ok b s' -> (forall x, fits s x -> fits s' x) -> (newborn b s -> newborn b s') -> (b = true -> retired s -> retired s') -> Inv b (put (with_frames w n) (length old) s').
Proof.
  intros (old0 & s0 & t & p & E & Ro & Nb & Pc & H & Wl & Ph) E' G S L P F N R. rewrite E in E'. apply app_inj_tail in E'. destruct E' as [-> ->].
  exists old, s', t, p. split; [cbn; rewrite E; apply set_last|]. split; [exact Ro|]. split; [exact Nb|]. split; [exact P|]. split; [exact H|]. split; [exact Wl|].
  destruct Ph as [(g & st & susp & lf & d & bs & x & Sh & Co & Fi & Ap)|[(Hp & Nw & Rest)|(M1 & M2 & M3 & M4 & M5 & g & Mi & Mp)]].
  - left. exists g, st, susp, lf, d, bs, x. split; [exact Sh|]. split; [|split; [apply F; exact Fi|exact Ap]]. destruct Co as (C1 & C2 & C3 & C4 & C5 & Cr). unfold core. rewrite G, S, L. split; [exact C1|]. split; [exact C2|]. split; [exact C3|]. split; [exact C4|]. split; [exact C5|]. exact Cr.
  - right. left. split; [exact Hp|]. split; [apply N; exact Nw|]. exact Rest.
  - right. right. split; [exact M1|]. split; [exact M2|]. split; [exact M3|]. split; [exact M4|]. split; [exact M5|]. exists g. split; [exact Mi|].
    assert (B : b = true) by (destruct b; [reflexivity|]; destruct (Nb eq_refl) as [_ Q]; destruct p; try contradiction Mp; discriminate Q).
    subst b. destruct p as [| | | | | | | | | | | | | | | | |st|st p|st p|st p|st p|st g' p|st g' p|st g' p|st g' p|p| ]; try contradiction; destruct st; try contradiction; destruct p; try contradiction.
    + destruct Mp as (Q1 & Q2 & Q3). split; [exact Q1|]. split; [apply R; [reflexivity|exact Q2]|exact (F WRun Q3)].
    + destruct Mp as (Q0 & Q1 & Q2 & Q3). split; [exact Q0|]. split; [exact Q1|]. split; [apply R; [reflexivity|exact Q2]|exact (F WRun Q3)].
    + destruct Mp as (Q0 & Q1 & Q2). split; [exact Q0|]. split; [exact Q1|]. apply R; [reflexivity|exact Q2].
    + destruct Mp as (Q0 & Q1 & Q2). split; [exact Q0|]. split; [exact Q1|]. apply N. exact Q2.
Qed.
Lemma fits_pc s q : forall x, fits s x -> fits (st_pc s q) x.
Proof. intros x H. exact H. Qed.
Lemma frames_same (w : world) : with_frames w (w_frames w) = w.
Proof. destruct w. reflexivity. Qed.

Lemma start_inv b (w w' : world) i k s : Inv b w -> (b = true -> k <= 1) -> nth_error (w_streams w) i = Some s -> stream_start w i k s = Some w' -> Inv b w'.
Proof.
  intros I K N C. assert (I' := I). destruct I' as (old & s0 & _ & _ & E & Ro & _). rewrite E in N. unfold stream_start in C. destruct (s_pc s) eqn:P; try discriminate. destruct (s_alive s && s_running s) eqn:Ar; [|discriminate]. injection C as <-.
  destruct (which old s0 i s N) as [(No & _)|(-> & ->)].
  - apply (old_inv b w old s0 i s _ I E No). intros B (R1 & R2 & R3). split; [exact R1|]. split; [exact R2|]. cbn. intros _. apply K. exact B.
  - rewrite <- (frames_same w). apply (cur_inv b w old s0 _ _ I E); try reflexivity; [exact K|apply fits_pc| |].
    + intros (N1 & N2 & N3 & N4 & N5 & N6 & _). repeat (split; [assumption|]). exact K.
    + intros B (R1 & R2 & R3). split; [exact R1|]. split; [exact R2|]. cbn. intros _. apply K. exact B.
Qed.

Lemma request_inv b (w w' : world) i s : Inv b w -> nth_error (w_streams w) i = Some s -> stream_request w i s = Some w' -> Inv b w'.
Proof.
  intros I N C. assert (I' := I). destruct I' as (old & s0 & _ & _ & E & Ro & _ & Pc & _). rewrite E in N. unfold stream_request in C. destruct (s_pc s) eqn:P; try discriminate. destruct (s_queue s) as [|r q] eqn:Q; [discriminate|]. destruct (s_alive s) eqn:A; [|discriminate]. injection C as <-.
  destruct (which old s0 i s N) as [(No & _)|(-> & ->)].
  - apply (old_inv b w old s0 i s _ I E No). intros B (R1 & R2 & R3). split; [exact R1|]. split; [exact R2|]. exact Logic.I.
  - rewrite <- (frames_same w). apply (cur_inv b w old s0 _ _ I E); try reflexivity; [| |].
    + intros x F. assert (Ef : r <> BClose -> eff (mk_stream q match r with BResume => true | BSuspend => false | BClose => s_running s0 end match r with BClose => false | _ => true end (s_graph s0) (s_suspended s0) (s_listening s0) ROff) = eff s0). { intros Nr. unfold eff. rewrite Q. cbn. destruct r; [reflexivity|reflexivity|contradiction]. }
      assert (Op : opened s0 -> r <> BClose /\ opened (mk_stream q match r with BResume => true | BSuspend => false | BClose => s_running s0 end match r with BClose => false | _ => true end (s_graph s0) (s_suspended s0) (s_listening s0) ROff)).
      { intros (O1 & O2). rewrite Q in O2. assert (Nr : r <> BClose) by (intros ->; apply O2; left; reflexivity). split; [exact Nr|]. split; [cbn; destruct r; try reflexivity; contradiction|]. cbn. intros In'. apply O2. right. exact In'. }
      destruct x; unfold fits in F |- *; [| | |exact Logic.I].
      * destruct F as [F1 F2]. destruct (Op F1) as [Nr O]. split; [exact O|]. exact (eq_trans (Ef Nr) F2).
      * destruct F as [F1 F2]. destruct (Op F1) as [Nr O]. split; [exact O|]. exact (eq_trans (Ef Nr) F2).
      * apply (Op F).
    + intros (N1 & _). rewrite N1 in Q. discriminate.
    + intros B (R1 & R2 & R3). split; [exact R1|]. split; [exact R2|]. exact Logic.I.
Qed.

Variable active : list M -> bool.
Variable RQ : nat.
Lemma retired_step b (w w' : world) old s i x : Inv b w -> w_streams w = old ++ [s] -> nth_error old i = Some x -> render_step active RQ w i x = Some w' -> Inv b w'.
Proof.
  intros I E N C. unfold render_step in C. assert (I' := I). destruct I' as (old0 & s0 & t & p & E' & Ro & _). rewrite E in E'. apply app_inj_tail in E'. destruct E' as [<- <-].
  assert (R : retired x) by (apply (proj1 (Forall_forall _ _) Ro); apply nth_error_In with i; exact N). destruct R as (R1 & R2 & R3). rewrite R1, R2 in C. unfold pc_ok in R3. destruct (s_pc x) as [|k|k|k|] eqn:P; try discriminate.
  - injection C as <-. apply (old_inv b w old s i x _ I E N). intros _ _. split; [exact R1|]. split; [exact R2|]. cbn. rewrite orb_true_r. exact Logic.I.
  - destruct k as [|k]; [injection C as <-; apply (old_inv b w old s i x _ I E N); intros _ _; split; [exact R1|]; split; [exact R2|]; exact Logic.I|]. exfalso. destruct (R3 eq_refl) as [L Q]. destruct (Q ltac:(lia)) as [_ Q']. contradiction.
  - injection C as <-. apply (old_inv b w old s i x _ I E N). intros _ _. split; [exact R1|]. split; [exact R2|]. cbn. intros _. rewrite (R3 eq_refl). split; [lia|discriminate].
Qed.
(** a message reaches the current stream *)
Lemma handle_inv b (w : world) old s m c : Inv b w -> w_streams w = old ++ [s] -> s_listening s = true -> w_chan w = m :: c -> (match s_pc s with RFirst _ | RNext _ => True | _ => False end) -> Inv b (handle (with_chan w c) (length old) s m).
Proof.
  intros (old0 & s0 & t & p & E & Ro & Nb & Pc & H & Wl & Ph) E' Li Ec Hp. rewrite E in E'. apply app_inj_tail in E'. destruct E' as [-> ->].
  assert (Pk : forall s', s_pc s' = s_pc s -> pc_ok b s'). { intros s' Q. unfold pc_ok in *. rewrite Q. destruct (s_pc s); try contradiction; exact Pc. }
  assert (Pt : forall s', b = true -> s_pc s' = s_pc s -> pc_ok true s'). { intros s' B Q. unfold pc_ok in *. rewrite Q, B in *. destruct (s_pc s); try contradiction; exact Pc. }
  assert (Mk : forall (w1 : world) s1, w_streams w1 = old ++ [s1] -> s_pc s1 = s_pc s -> w_pcs w1 = w_pcs w -> w_lock w1 = w_lock w -> w_wlock w1 = w_wlock w -> work w1 s1 t p \/ starting b w1 s1 p \/ moving w1 s1 t p -> Inv b w1).
  { intros w1 s1 E1 P1 Q1 Q2 Q3 Ph1. exists old, s1, t, p. split; [exact E1|]. split; [exact Ro|]. split; [exact Nb|]. split; [apply Pk; exact P1|]. split; [unfold holder in *; rewrite Q1, Q2; exact H|]. split; [rewrite Q3; exact Wl|]. exact Ph1. }
  destruct Ph as [(g & st & susp & lf & d & bs & x & Sh & Co & Fi & Ap)|[(Hp' & Nw & S1 & S2 & S3 & S4 & g & ms & Es & Ei)|(_ & _ & _ & _ & Q & _)]]; [| |rewrite Q in Ec; discriminate].
  - assert (L : lf = life (m :: c)) by (destruct Co as (_ & _ & _ & _ & _ & C6 & _); rewrite Ec in C6; symmetry; exact C6). rewrite Ec in Ap.
    destruct m as [y|u|u|u|g'|u].
    + destruct Co as (C1 & C2 & C3 & C4 & C5 & C6 & C7 & C8 & C9 & C10 & C11). rewrite Ec in C6, C11. cbn [handle]. rewrite C3. apply (Mk _ (st_graph s (Some (g ++ [y])))); try reflexivity; [cbn; rewrite E; apply set_last|]. left. exists (g ++ [y]), st, susp, lf, d, bs, x. split; [exact Sh|]. split; [|split; [exact Fi|]].
      * unfold core. split; [exact C1|]. split; [exact C2|]. split; [reflexivity|]. split; [exact C4|]. split; [exact C5|]. split; [exact C6|]. split; [exact C7|]. split; [exact C8|]. split; [exact C9|]. split; [exact C10|]. rewrite <- app_assoc. exact C11.
      * intros A. specialize (Ap A). discriminate.
    + cbn [life filter is_apply negb] in L. fold (life c) in L. rewrite L in Sh, Co. clear L Ap. inversion Sh; subst. destruct Co as (C1 & C2 & C3 & C4 & C5 & C6 & C7 & C8 & C9 & C10 & C11); rewrite Ec in C6, C11; cbn [life filter is_apply negb] in C6; fold (life c) in C6. apply (Mk _ (st_suspended s true)); try reflexivity; [cbn; rewrite E; apply set_last|]. left. exists g, Suspended, true, [], [u], true, WRun. split; [apply sh_s2|]. split; [|split; [exact Fi|discriminate]].
      unfold core. cbn [handle put with_streams with_done with_state with_chan w_state w_pending w_chan w_done w_given w_buf w_issued]. rewrite C7. split; [reflexivity|]. split; [exact C2|]. split; [exact C3|]. split; [exact C4|]. split; [reflexivity|]. split; [congruence|]. split; [reflexivity|]. split; [exact C8|]. split; [exact C9|]. split; [exact C10|]. exact C11.
    + cbn [life filter is_apply negb] in L. fold (life c) in L. rewrite L in Sh, Co. clear L Ap. inversion Sh; subst. destruct Co as (C1 & C2 & C3 & C4 & C5 & C6 & C7 & C8 & C9 & C10 & C11); rewrite Ec in C6, C11; cbn [life filter is_apply negb] in C6; fold (life c) in C6. apply (Mk _ (st_suspended s false)); try reflexivity; [cbn; rewrite E; apply set_last|]. left. exists g, Running, false, [], [u], false, WRun. split; [apply sh_r3|]. split; [|split; [exact Fi|discriminate]].
      unfold core. cbn [handle put with_streams with_done with_state with_chan w_state w_pending w_chan w_done w_given w_buf w_issued]. rewrite C7. split; [reflexivity|]. split; [exact C2|]. split; [exact C3|]. split; [exact C4|]. split; [reflexivity|]. split; [congruence|]. split; [reflexivity|]. split; [exact C8|]. split; [exact C9|]. split; [exact C10|]. exact C11.
    + cbn [life filter is_apply negb] in L. fold (life c) in L. rewrite L in Sh, Co. clear L Ap. inversion Sh; subst. destruct Co as (C1 & C2 & C3 & C4 & C5 & C6 & C7 & C8 & C9 & C10 & C11); rewrite Ec in C6, C11; cbn [life filter is_apply negb] in C6; fold (life c) in C6. apply (Mk _ (st_suspended s true)); try reflexivity; [cbn; rewrite E; apply set_last|]. left. exists g, Closed, true, [], [u], false, WRun. split; [apply sh_c2|]. split; [|split; [exact Fi|discriminate]].
      unfold core. cbn [handle put with_streams with_done with_state with_chan w_state w_pending w_chan w_done w_given w_buf w_issued]. rewrite C7. split; [reflexivity|]. split; [exact C2|]. split; [exact C3|]. split; [exact C4|]. split; [reflexivity|]. split; [congruence|]. split; [reflexivity|]. split; [exact C8|]. split; [exact C9|]. split; [exact C10|]. exact C11.
    + cbn [life filter is_apply negb] in L. fold (life c) in L. rewrite L in Sh. inversion Sh.
    + cbn [life filter is_apply negb] in L. fold (life c) in L. rewrite L in Sh, Co. clear L. inversion Sh; subst. destruct Co as (C1 & C2 & C3 & C4 & C5 & C6 & C7 & C8 & C9 & C10 & C11); rewrite Ec in C6, C11; cbn [life filter is_apply negb] in C6; fold (life c) in C6.
      assert (B : b = true) by (destruct b; [reflexivity|]; destruct (Nb eq_refl); discriminate).
      cbn [handle]. rewrite C3. apply (Mk _ (st_deaf (st_graph s None))); try reflexivity; [cbn; rewrite E; apply set_last|]. right. right. cbn [moving]. assert (C0 : c = []). { assert (Q := Ap eq_refl). change (applies c = []) in Q. rewrite (all_apply c) by congruence. rewrite Q. reflexivity. } subst c. assert (B0 : w_buf w = None) by (destruct (w_buf w); [discriminate|reflexivity]).
      split; [reflexivity|]. split; [exact C2|]. split; [exact B0|]. split; [exact C7|]. split; [reflexivity|]. exists g. split; [unfold stored in C11; rewrite B0 in C11; cbn in C11; rewrite app_nil_r in C11; exact C11|]. cbn [put with_streams with_given with_state with_chan w_given]. rewrite C8. split; [reflexivity|]. split; [|exact Fi]. split; [reflexivity|]. split; [reflexivity|]. apply Pt; [exact B|reflexivity].
  - rewrite Ec in Es. injection Es as -> ->. apply (Mk _ (st_graph s (Some g))); try reflexivity; [cbn; rewrite E; apply set_last|]. left. destruct Nw as (N1 & N2 & N3 & N4 & N5 & N6 & N7).
    exists g, Running, false, [], [], false, WRun. split; [apply sh_run; destruct Hp' as [->| ->]; reflexivity || exact Logic.I|]. split; [|split].
    + unfold core, stored. cbn [handle put with_streams with_pending with_state with_chan w_state w_pending w_chan w_done w_given w_buf w_issued]. rewrite S2. repeat (split; [assumption || reflexivity|]). split; [apply life_map|]. repeat (split; [assumption || reflexivity|]). cbn [applies flat_map]. fold (applies (map Apply ms)). rewrite applies_map, app_nil_r. exact Ei.
    + split; [split; [exact N3|cbn; rewrite N1; exact (fun F => F)]|]. unfold eff. cbn. rewrite N1. exact N2.
    + destruct Hp' as [->| ->]; discriminate.
Qed.

Lemma render_inv b (w w' : world) i s : Inv b w -> nth_error (w_streams w) i = Some s -> render_step active RQ w i s = Some w' -> Inv b w'.
Proof.
  intros I N C. assert (I' := I). destruct I' as (old & s0 & t & p & E & Ro & Nb & Pc & _ & _ & Ph). rewrite E in N.
  destruct (which old s0 i s N) as [(No & _)|(-> & ->)]; [apply (retired_step b w w' old s0 i s I E No C)|].
  assert (Keep : forall q n, pc_ok b (st_pc s0 q) -> (newborn b s0 -> newborn b (st_pc s0 q)) -> (b = true -> retired s0 -> pc_ok true (st_pc s0 q)) -> Inv b (put (with_frames w n) (length old) (st_pc s0 q))).
  { intros q n P Q R. apply (cur_inv b w old s0 _ _ I E); try reflexivity; [exact P|apply fits_pc|exact Q|]. intros B (R1 & R2 & R3). split; [exact R1|]. split; [exact R2|]. apply R; [exact B|]. split; [exact R1|]. split; [exact R2|exact R3]. }
  assert (K0 : forall q, pc_ok b (st_pc s0 q) -> (newborn b s0 -> newborn b (st_pc s0 q)) -> (b = true -> retired s0 -> pc_ok true (st_pc s0 q)) -> Inv b (put w (length old) (st_pc s0 q))).
  { intros q. rewrite <- (frames_same w) at 1. apply Keep. }
  unfold render_step in C. assert (Pc' := Pc). unfold pc_ok in Pc'. destruct (s_pc s0) as [|k|k|k|] eqn:P; try discriminate.
  - destruct (if s_listening s0 then w_chan w else []) as [|m c] eqn:Q.
    + injection C as <-. destruct (s_suspended s0 || negb (match s_graph s0 with Some g => active g | None => false end)) eqn:Ac.
      * apply K0; [exact Logic.I| |intros; exact Logic.I]. intros (N1 & N2 & N3 & N4 & N5 & N6 & _). repeat (split; [assumption|]). exact Logic.I.
      * apply orb_false_iff in Ac. destruct Ac as [A1 A2]. assert (G : s_graph s0 <> None) by (intros G; rewrite G in A2; discriminate). apply K0; [cbn; intros B; split; [apply Pc'; exact B|intros _; split; assumption]| |].
        -- intros (N1 & N2 & N3 & N4 & _). contradiction.
        -- intros _ (R1 & _). contradiction.
    + destruct (s_listening s0) eqn:Li; [|discriminate]. injection C as <-. apply handle_inv; try assumption. rewrite P. exact Logic.I.
  - destruct k as [|k].
    + injection C as <-. apply K0; [exact Logic.I| |intros; exact Logic.I]. intros (N1 & N2 & N3 & N4 & N5 & N6 & N7). rewrite P in N7. contradiction.
    + destruct (s_graph s0) as [g|] eqn:G.
      * injection C as <-. apply Keep; [cbn; intros B; destruct (Pc' B); lia| |intros _ (R1 & _); congruence]. intros (N1 & N2 & N3 & N4 & _). congruence.
      * exfalso. destruct Ph as [(g & st & susp & lf & d & bs & x & _ & (_ & _ & C3 & _) & _)|[(_ & (_ & _ & _ & _ & _ & _ & Q) & _)|(_ & _ & _ & _ & _ & g & _ & Mp)]]; [congruence|rewrite P in Q; contradiction|].
        assert (B : b = true) by (destruct b; [reflexivity|]; destruct (Nb eq_refl) as [_ Q]; destruct p; try contradiction Mp; discriminate Q). destruct (Pc' B) as [L Q]. destruct (Q ltac:(lia)) as [_ Q']. congruence.
  - destruct (if s_listening s0 then w_chan w else []) as [|m c] eqn:Q.
    + injection C as <-. apply K0; [cbn; intros B; rewrite (Pc' B); split; [lia|discriminate]| |].
      * intros (N1 & N2 & N3 & N4 & N5 & N6 & N7). rewrite P in N7. contradiction.
      * intros B (_ & _ & R3). cbn. intros _. rewrite (Pc' B). split; [lia|discriminate].
    + destruct (s_listening s0) eqn:Li; [|discriminate]. injection C as <-. apply handle_inv; try assumption. rewrite P. exact Logic.I.
Qed.
Theorem step_inv b (w w' : world) l : Inv b w -> allowed b w l -> step active RQ w l = Some w' -> Inv b w'.
Proof.
  intros I A C. destruct l as [t o|t|i k|i|i]; cbn [step] in C.
  - apply (call_inv b w w' t o I A C).
  - apply (thread_inv b w w' t I A C).
  - destruct (nth_error (w_streams w) i) as [s|] eqn:N; [|discriminate]. apply (start_inv b w w' i k s I A N C).
  - destruct (nth_error (w_streams w) i) as [s|] eqn:N; [|discriminate]. destruct (s_alive s); [|discriminate]. apply (render_inv b w w' i s I N C).
  - destruct (nth_error (w_streams w) i) as [s|] eqn:N; [|discriminate]. apply (request_inv b w w' i s I N C).
Qed.
Lemma init_inv b : Inv b new_context.
Proof.
  exists [], fresh_stream, 0, Idle. split; [reflexivity|]. split; [constructor|]. split; [split; reflexivity|]. split; [exact I|]. split; [left; repeat split|]. split; [reflexivity|]. right. left. split; [left; reflexivity|]. split; [repeat split|]. repeat (split; [reflexivity|]). exists [], []. split; reflexivity.
Qed.
Theorem reach_inv b (w : world) : reaches active RQ b new_context w -> Inv b w.
Proof. intros R. induction R as [|w1 l w2 _ IH A C]; [apply init_inv|]. apply (step_inv b w1 w2 l IH A C). Qed.

(** ** Consequences *)
(** what the current stream may find in the channel *)
Lemma head_facts b (w : world) i s m c : Inv b w -> nth_error (w_streams w) i = Some s -> s_listening s = true -> w_chan w = m :: c ->
  match m with
  | Apply _ => True
  | Suspend t => w_state w = Running /\ w_pcs w t = SuspWait true
  | Resume t => w_state w = Suspended /\ w_pcs w t = ResWait true
  | Close t => w_state w = Running /\ w_pcs w t = CloseWait true
  | Startup _ => w_state w = Suspended
  | Recycle _ => w_state w = Running /\ b = true
  end.
Proof.
  intros (old & s0 & t & p & E & Ro & Nb & Pc & H & Wl & Ph) N Li Ec. rewrite E in N. destruct (which old s0 i s N) as [(No & _)|(-> & ->)].
  { exfalso. assert (R : retired s) by (apply (proj1 (Forall_forall _ _) Ro); apply nth_error_In with i; exact No). destruct R as (_ & R & _). congruence. }
  destruct Ph as [(g & st & susp & lf & d & bs & x & Sh & Co & Fi & Ap)|[(Hp' & Nw & S1 & S2 & S3 & S4 & g & ms & Es & Ei)|(_ & _ & _ & _ & Q & _)]]; [| |rewrite Q in Ec; discriminate].
  - destruct Co as (C1 & _ & _ & _ & _ & C6 & _). rewrite Ec in C6. assert (Hl : p <> Idle -> w_pcs w t = p) by (intros Np; destruct H as [(_ & Q & _)|(_ & Q & _)]; [contradiction|exact Q]).
    destruct m; [exact I| | | | |]; cbn [life filter is_apply negb] in C6; fold (life c) in C6; rewrite <- C6, <- C1 in Sh; inversion Sh; subst; (split; [congruence|]) || idtac; try (apply Hl; discriminate).
    destruct b; [reflexivity|]. destruct (Nb eq_refl). discriminate.
  - rewrite Ec in Es. injection Es as -> ->. exact S1.
Qed.
Lemma render_cases b (w w' : world) i s : Inv b w -> nth_error (w_streams w) i = Some s -> render_step active RQ w i s = Some w' ->
  (exists m c, w_chan w = m :: c /\ s_listening s = true /\ w' = handle (with_chan w c) i s m /\ w_frames w' = w_frames w) \/
  (w_state w' = w_state w /\ w_events w' = w_events w /\ (w_frames w' = w_frames w \/ exists k, s_pc s = RChunk (S k) /\ s_graph s <> None /\ w_frames w' = w_frames w + RQ)).
Proof.
  intros I N C. unfold render_step in C. destruct (s_pc s) as [|k|k|k|] eqn:P; try discriminate.
  - destruct (if s_listening s then w_chan w else []) as [|m c] eqn:Q; [injection C as <-; right; split; [reflexivity|]; split; [reflexivity|left; reflexivity]|]. destruct (s_listening s); [|discriminate]. injection C as <-. left. exists m, c. split; [exact Q|]. split; [reflexivity|]. split; [reflexivity|]. destruct m; cbn; try reflexivity; destruct (s_graph s); reflexivity.
  - destruct k as [|k]; [injection C as <-; right; split; [reflexivity|]; split; [reflexivity|left; reflexivity]|]. destruct (s_graph s) as [g|] eqn:G; injection C as <-; right; (split; [reflexivity|]; split; [reflexivity|]); [right; exists k; split; [reflexivity|]; split; [discriminate|reflexivity]|left; reflexivity].
  - destruct (if s_listening s then w_chan w else []) as [|m c] eqn:Q; [injection C as <-; right; split; [reflexivity|]; split; [reflexivity|left; reflexivity]|]. destruct (s_listening s); [|discriminate]. injection C as <-. left. exists m, c. split; [exact Q|]. split; [reflexivity|]. split; [reflexivity|]. destruct m; cbn; try reflexivity; destruct (s_graph s); reflexivity.
Qed.
(** calls change neither the state nor the clock *)
Lemma call_same (w w' : world) t o : call w t o = Some w' -> w_state w' = w_state w /\ w_events w' = w_events w /\ w_frames w' = w_frames w.
Proof.
  unfold call. destruct (w_pcs w t); try discriminate. destruct o as [[]|[]|[]| |m]; try (destruct (free (w_lock w)); [|discriminate]); try (intros C; injection C as <-; repeat split).
  unfold send_msg. destruct (w_state w) eqn:St; [| |intros C; injection C as <-; repeat split; exact St]; (destruct (free (w_wlock w)); [|discriminate]; destruct (w_buf w); intros C; injection C as <-; repeat split; exact St).
Qed.
(** inside a call the state changes in one place only *)
Lemma asked_same (w : world) t r k w' : asked w t r k = Some w' -> (forall w1, w_state (k w1) = w_state w1 /\ w_events (k w1) = w_events w1 /\ w_frames (k w1) = w_frames w1) -> w_state w' = w_state w /\ w_events w' = w_events w /\ w_frames w' = w_frames w.
Proof.
  unfold asked, ask. intros C K. injection C as <-. destruct (nth_error (w_streams w) (current w)) as [s|]; [|repeat split]. destruct (s_alive s && _); [|repeat split]. destruct (K (put w (current w) (st_ask s r))) as (K1 & K2 & K3). rewrite K1, K2, K3. repeat split.
Qed.
Lemma send_same (w w' : world) m : send_msg w m = Some w' -> w_state w' = w_state w /\ w_events w' = w_events w /\ w_frames w' = w_frames w.
Proof.
  unfold send_msg. destruct (w_state w) eqn:St; [| |intros C; injection C as <-; repeat split; exact St]; (destruct (free (w_wlock w)); [|discriminate]; destruct (w_buf w); intros C; injection C as <-; repeat split; exact St).
Qed.
Lemma thread_same (w w' : world) t : thread_step w t = Some w' -> (exists sync, w_pcs w t = CloseManual sync) \/ (w_state w' = w_state w /\ w_events w' = w_events w /\ w_frames w' = w_frames w).
Proof.
  unfold thread_step. destruct (w_pcs w t) as [|sync|sync st|sync|sync|sync|sync|sync|sync|sync|sync|sync|sync|sync|sync|sync| |st|st p|st p|st p|st p|st g p|st g p|st g p|st g p|p| ] eqn:Ep; try discriminate; intros C; try (left; exists sync; reflexivity); right.
  - destruct (w_state w) eqn:St; injection C as <-; destruct sync; repeat split; exact St.
  - destruct (_ && _); injection C as <-; destruct sync; repeat split.
  - destruct (free (w_wlock w)); [|discriminate]. injection C as <-. repeat split.
  - destruct (remove_one t (w_done w)); [|discriminate]. injection C as <-. repeat split.
  - destruct (may_lock w sync); [|discriminate]. apply (asked_same w t _ _ w' C). intros w1. destruct sync; repeat split.
  - destruct (is_state (w_state w) Suspended); injection C as <-; repeat split.
  - apply (asked_same w t _ _ w' C). intros w1. repeat split.
  - destruct (free (w_wlock w)); [|discriminate]. injection C as <-. destruct sync; repeat split.
  - destruct (remove_one t (w_done w)); [|discriminate]. injection C as <-. destruct sync; repeat split.
  - destruct (is_state (w_state w) Closed); injection C as <-; destruct sync; repeat split.
  - destruct (is_state (w_state w) Running); injection C as <-; repeat split.
  - destruct (w_state w) eqn:St; [| |injection C as <-; repeat split; exact St]; (destruct (send_msg w (Close t)) as [w1|] eqn:Sm; [|discriminate]; injection C as <-; rewrite <- St; apply (send_same w w1 _ Sm)).
  - destruct (remove_one t (w_done w)); [|discriminate]. injection C as <-. repeat split.
  - destruct (may_lock w sync); [|discriminate]. apply (asked_same w t _ _ w' C). intros w1. destruct sync; repeat split.
  - destruct (is_state (w_state w) Closed); injection C as <-; repeat split.
  - destruct (free (w_wlock w)); [|discriminate]. injection C as <-. repeat split.
  - destruct (w_chan w) as [|m c]; [|injection C as <-; repeat split]. destruct p as [|[] p]; injection C as <-; repeat split.
  - injection C as <-. repeat split.
  - apply (asked_same w t _ _ w' C). intros w1. repeat split.
  - destruct (take_given t (w_given w)) as [[g l]|]; [|discriminate]. injection C as <-. repeat split.
  - apply (asked_same w t _ _ w' C). intros w1. repeat split.
  - injection C as <-. repeat split.
  - apply (asked_same w t _ _ w' C). intros w1. repeat split.
  - injection C as <-. repeat split.
  - destruct p as [|m p]; [injection C as <-; repeat split|]. destruct (send_msg w m) as [w1|] eqn:Sm; [|discriminate]. injection C as <-. apply (send_same w w1 _ Sm).
Qed.
Lemma manual b (w : world) t sync : Inv b w -> w_pcs w t = CloseManual sync -> w_state w = Suspended.
Proof.
  intros (old & s & u & p & E & Ro & Nb & Pc & H & Wl & Ph) Q. destruct (hold_idle w u p t H) as (-> & -> & _); [rewrite Q; discriminate|]. rewrite Q in *.
  destruct Ph as [(g & st & susp & lf & d & bs & x & Sh & Co & _)|[([X|X] & _)|(_ & _ & _ & _ & _ & g & _ & Mp)]]; try discriminate; try contradiction.
  destruct sync; [|exfalso; apply (sh_bad _ _ _ _ _ _ _ _ Sh eq_refl)]. rewrite (proj1 Co). apply (sh_at _ _ _ _ _ _ _ _ Sh eq_refl).
Qed.
(** how the state may change *)
Theorem changes b (w w' : world) l : Inv b w -> allowed b w l -> step active RQ w l = Some w' ->
  (w_state w' = w_state w /\ w_events w' = w_events w) \/
  (w_events w' = w_events w ++ [w_state w'] /\
   match w_state w, w_state w' with
   | Suspended, Running => (exists t, requested (w_pcs w t) = Some Running) \/ exists g c, w_chan w = Startup g :: c
   | Running, Suspended => (exists t, requested (w_pcs w t) = Some Suspended) \/ (b = true /\ exists t c, w_chan w = Recycle t :: c)
   | Suspended, Closed | Running, Closed => exists t, requested (w_pcs w t) = Some Closed
   | _, _ => False
   end).
Proof.
  intros I A C. destruct l as [t o|t|i k|i|i]; cbn [step] in C.
  - left. destruct (call_same w w' t o C) as (Q1 & Q2 & _). split; assumption.
  - destruct (thread_same w w' t C) as [(sync & Q)|(Q1 & Q2 & _)]; [|left; split; assumption]. right. assert (S := manual b w t sync I Q). unfold thread_step in C. rewrite Q, S in C. cbn [is_state] in C. injection C as <-. cbn. rewrite S. split; [reflexivity|]. exists t. rewrite Q. reflexivity.
  - destruct (nth_error (w_streams w) i) as [s|]; [|discriminate]. unfold stream_start in C. destruct (s_pc s); try discriminate. destruct (_ && _); [|discriminate]. injection C as <-. left. split; reflexivity.
  - destruct (nth_error (w_streams w) i) as [s|] eqn:N; [|discriminate]. destruct (s_alive s); [|discriminate]. destruct (render_cases b w w' i s I N C) as [(m & c & Ec & Li & -> & _)|(Q1 & Q2 & _)]; [|left; split; assumption].
    assert (F := head_facts b w i s m c I N Li Ec). destruct m as [y|u|u|u|g|u].
    + left. cbn. destruct (s_graph s); split; reflexivity.
    + right. destruct F as [F1 F2]. cbn. rewrite F1. split; [reflexivity|]. left. exists u. rewrite F2. reflexivity.
    + right. destruct F as [F1 F2]. cbn. rewrite F1. split; [reflexivity|]. left. exists u. rewrite F2. reflexivity.
    + right. destruct F as [F1 F2]. cbn. rewrite F1. split; [reflexivity|]. exists u. rewrite F2. reflexivity.
    + right. cbn. rewrite F. split; [reflexivity|]. right. exists g, c. exact Ec.
    + right. destruct F as [F1 F2]. cbn. destruct (s_graph s); cbn; rewrite F1; (split; [reflexivity|]; right; split; [exact F2|]; exists u, c; exact Ec).
  - destruct (nth_error (w_streams w) i) as [s|]; [|discriminate]. unfold stream_request in C. destruct (s_pc s); try discriminate. destruct (s_queue s); [discriminate|]. destruct (s_alive s); [|discriminate]. injection C as <-. left. split; reflexivity.
Qed.
(** the clock *)
Theorem clock (w w' : world) l : Inv true w -> step active RQ w l = Some w' -> w_frames w' = w_frames w \/ (w_frames w' = w_frames w + RQ /\ w_state w = Running /\ w_state w' = Running).
Proof.
  intros I C. destruct l as [t o|t|i k|i|i]; cbn [step] in C.
  - left. apply (call_same w w' t o C).
  - left. destruct (thread_same w w' t C) as [(sync & Q)|(_ & _ & Q)]; [|exact Q]. unfold thread_step in C. rewrite Q in C. injection C as <-. destruct (is_state (w_state w) Closed); reflexivity.
  - destruct (nth_error (w_streams w) i) as [s|]; [|discriminate]. unfold stream_start in C. destruct (s_pc s); try discriminate. destruct (_ && _); [|discriminate]. injection C as <-. left. reflexivity.
  - destruct (nth_error (w_streams w) i) as [s|] eqn:N; [|discriminate]. destruct (s_alive s); [|discriminate]. destruct (render_cases true w w' i s I N C) as [(m & c & _ & _ & _ & Q)|(Q1 & Q2 & [Q|(k & P & G & Q)])]; [left; exact Q|left; exact Q|]. right. split; [exact Q|]. rewrite Q1.
    cut (w_state w = Running); [intros X; split; exact X|]. destruct I as (old & s0 & t & p & E & Ro & Nb & Pc & H & Wl & Ph). rewrite E in N. destruct (which old s0 i s N) as [(No & _)|(-> & ->)].
    { exfalso. assert (R : retired s) by (apply (proj1 (Forall_forall _ _) Ro); apply nth_error_In with i; exact No). destruct R as (R & _). contradiction. }
    unfold pc_ok in Pc. rewrite P in Pc. destruct (Pc eq_refl) as [L X]. destruct (X ltac:(lia)) as [Su _].
    destruct Ph as [(g & st & susp & lf & d & bs & x & Sh & Co & Fi & Ap)|[(_ & (_ & _ & _ & Y & _) & _)|(_ & _ & _ & _ & _ & g & _ & Mp)]]; [|contradiction|].
    + destruct Co as (C1 & _ & _ & _ & C5 & _). rewrite C1. rewrite Su in C5. subst susp. inversion Sh; reflexivity.
    + exfalso. destruct p as [| | | | | | | | | | | | | | | | |st|st p|st p|st p|st p|st g' p|st g' p|st g' p|st g' p|p| ]; try contradiction; destruct st; try contradiction; destruct p; try contradiction.
      * destruct Mp as (_ & (Mr & _) & _). contradiction.
      * destruct Mp as (_ & _ & (Mr & _) & _). contradiction.
      * destruct Mp as (_ & _ & (Mr & _)). contradiction.
      * destruct Mp as (_ & _ & (_ & _ & _ & Mr & _)). contradiction.
  - destruct (nth_error (w_streams w) i) as [s|]; [|discriminate]. unfold stream_request in C. destruct (s_pc s); try discriminate. destruct (s_queue s); [discriminate|]. destruct (s_alive s); [|discriminate]. injection C as <-. left. reflexivity.
Qed.
End Inv.
