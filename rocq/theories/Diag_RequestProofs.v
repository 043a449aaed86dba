(** Proofs about the requests of diagnostics. *)
From Coq Require Import List Arith Bool Lia.
From Verif Require Import Event_Model Diag_Model Diag_Spec.
Import ListNotations.

Lemma lookup_insert : forall k h t j, lookup j (insert k h t) = if k =? j then Some h else lookup j t.
Proof.
  intros k h t j. unfold insert, lookup, remove. cbn [find fst]. destruct (Nat.eqb_spec k j) as [->|N]; [reflexivity|].
  induction t as [|[a b] t IH]; [reflexivity|]. cbn [filter fst]. destruct (Nat.eqb_spec a k) as [->|Na]; cbn [negb find fst].
  - rewrite IH. cbn [find fst]. destruct (Nat.eqb_spec k j); [contradiction|reflexivity].
  - destruct (a =? j); [reflexivity|exact IH].
Qed.
Lemma lookup_remove : forall k t j, lookup j (remove k t) = if k =? j then None else lookup j t.
Proof.
  intros k t j. unfold lookup, remove. induction t as [|[a b] t IH]; cbn [filter find fst].
  - destruct (k =? j); reflexivity.
  - destruct (Nat.eqb_spec a k) as [->|Na]; cbn [negb find fst].
    + rewrite IH. destruct (Nat.eqb_spec k j) as [->|N]; reflexivity.
    + destruct (Nat.eqb_spec a j) as [->|Nj]; [|exact IH]. destruct (Nat.eqb_spec k j) as [->|_]; [congruence|reflexivity].
Qed.

Section Requests.
Variable capacity : nat.
Notation wstep := (wstep capacity).
Notation wrun := (wrun capacity).

(** all requests are answered and delivered, or the last one is on its way, or it was lost *)
Inductive phase (w : world) : Prop :=
  | ph_idle : delivered w = w_asked w -> w_pending w = [] -> in_queue w = [] -> lookup K (handlers (w_loop w)) = None -> phase w
  | ph_posted : forall h r, delivered w ++ [(Once h, answer r)] = w_asked w -> w_pending w = [r] -> in_queue w = [] ->
      lookup K (handlers (w_loop w)) = Some (Once h) -> phase w
  | ph_queued : forall h r, delivered w ++ [(Once h, answer r)] = w_asked w -> w_pending w = [] -> in_queue w = [answer r] ->
      lookup K (handlers (w_loop w)) = Some (Once h) -> phase w
  | ph_lost : forall h r, delivered w ++ [(Once h, answer r)] = w_asked w -> w_pending w = [] -> in_queue w = [] -> w_crashed w = true ->
      lookup K (handlers (w_loop w)) = Some (Once h) -> phase w.
Definition winv (w : world) : Prop :=
  phase w /\ match running (w_loop w) with Some (e, Multiple _) => e_key e <> K | _ => True end.

(** a step of the loop that has nothing to do with reports *)
Lemma phase_same : forall w l, phase w ->
  filter (fun c => e_key (snd c) =? K) (calls l) = delivered w -> filter (fun e => e_key e =? K) (queue l) = in_queue w ->
  lookup K (handlers l) = lookup K (handlers (w_loop w)) -> phase (mk_world (w_pending w) (w_crashed w) l (w_asked w)).
Proof.
  intros w l H Hc Hq Hl. set (w' := mk_world (w_pending w) (w_crashed w) l (w_asked w)).
  assert (delivered w' = delivered w) as E1 by exact Hc. assert (in_queue w' = in_queue w) as E2 by exact Hq.
  destruct H as [A B C D|h r A B C D|h r A B C D|h r A B C F D];
    [apply ph_idle|apply (ph_posted _ h r)|apply (ph_queued _ h r)|apply (ph_lost _ h r)];
    rewrite ?E1, ?E2; cbn [w' w_asked w_pending w_crashed w_loop]; rewrite ?Hl; assumption.
Qed.
Lemma key_false : forall k, (k =? K) = false -> k <> K. Proof. intros k H. apply Nat.eqb_neq. exact H. Qed.

Lemma step_winv : forall w m w', winv w -> match m with Ask _ _ => length (delivered w) = length (w_asked w) | _ => True end ->
  wstep w m = Some w' -> winv w'.
Proof.
  intros w m w' [Hp Hr] Ho H. destruct m as [h r| |l]; cbn [Diag_Model.wstep] in H.
  - cbn [step] in H. injection H as <-. split; [|exact Hr].
    assert (delivered w = w_asked w /\ w_pending w = [] /\ in_queue w = []) as (E1 & E2 & E3).
    { destruct Hp as [A B C D|h0 r0 A B C D|h0 r0 A B C D|h0 r0 A B C F D]; [auto| | |]; exfalso; rewrite <- A, app_length in Ho; cbn in Ho; lia. }
    apply (ph_posted _ h r); cbn [w_asked w_pending w_loop handlers].
    + change (delivered _) with (delivered w). rewrite E1. reflexivity.
    + rewrite E2. reflexivity.
    + exact E3.
    + rewrite lookup_insert, Nat.eqb_refl. reflexivity.
  - destruct (w_crashed w) eqn:Ec; [discriminate|]. destruct (w_pending w) as [|r rest] eqn:Epn; [discriminate|].
    destruct Hp as [A B C D|h0 r0 A B C D|h0 r0 A B C D|h0 r0 A B C F D]; try congruence. rewrite Epn in B. injection B as -> ->.
    destruct (length (queue (w_loop w)) <? capacity) eqn:El.
    + cbn [step] in H. rewrite El in H. injection H as <-. split; [|exact Hr]. apply (ph_queued _ h0 r0).
      * exact A.
      * reflexivity.
      * unfold in_queue. cbn [w_loop queue]. rewrite filter_app. unfold in_queue in C. rewrite C. reflexivity.
      * exact D.
    + injection H as <-. split; [|exact Hr]. apply (ph_lost _ h0 r0); auto.
  - destruct l as [k hd|k|e|e| | |]; cbn [step option_map] in H.
    + destruct (k =? K) eqn:Ek; [discriminate|]. injection H as <-. split; [|exact Hr]. apply phase_same; [exact Hp|reflexivity|reflexivity|].
      cbn [handlers]. rewrite lookup_insert, Ek. reflexivity.
    + destruct (k =? K) eqn:Ek; [discriminate|]. injection H as <-. split; [|exact Hr]. apply phase_same; [exact Hp|reflexivity|reflexivity|].
      cbn [handlers]. rewrite lookup_remove, Ek. reflexivity.
    + destruct (e_key e =? K) eqn:Ek; [discriminate|]. destruct (length (queue (w_loop w)) <? capacity); [|discriminate]. injection H as <-. split; [|exact Hr].
      apply phase_same; [exact Hp|reflexivity| |reflexivity]. cbn [queue]. rewrite filter_app. cbn [filter]. rewrite Ek, app_nil_r. reflexivity.
    + destruct (e_key e =? K) eqn:Ek; [discriminate|]. destruct (length (queue (w_loop w)) <? capacity); injection H as <-; (split; [|exact Hr]).
      * apply phase_same; [exact Hp|reflexivity| |reflexivity]. cbn [queue]. rewrite filter_app. cbn [filter]. rewrite Ek, app_nil_r. reflexivity.
      * apply phase_same; [exact Hp|reflexivity..].
    + destruct (running (w_loop w)) eqn:Er; [discriminate|]. destruct (stopped (w_loop w)); [discriminate|].
      destruct (queue (w_loop w)) as [|e q] eqn:Eq; [discriminate|].
      destruct (e_key e =? K) eqn:Ek.
      * (* the report *)
        assert (in_queue w = e :: filter (fun e => e_key e =? K) q) as Eiq by (unfold in_queue; rewrite Eq; cbn [filter]; rewrite Ek; reflexivity).
        destruct Hp as [A B C D|h0 r0 A B C D|h0 r0 A B C D|h0 r0 A B C F D]; try (rewrite Eiq in C; discriminate).
        rewrite Eiq in C. injection C as -> C. cbn [e_key answer] in H. rewrite D in H. injection H as <-. split; [|exact I].
        apply ph_idle; cbn [w_asked w_pending w_loop handlers].
        -- unfold delivered. cbn [w_loop calls]. rewrite filter_app. unfold delivered in A. cbn [filter snd e_key answer]. rewrite Nat.eqb_refl. exact A.
        -- exact B.
        -- exact C.
        -- rewrite lookup_remove, Nat.eqb_refl. reflexivity.
      * assert (in_queue w = filter (fun e => e_key e =? K) q) as Eiq by (unfold in_queue; rewrite Eq; cbn [filter]; rewrite Ek; reflexivity).
        destruct (lookup (e_key e) (handlers (w_loop w))) as [h|] eqn:El; injection H as <-.
        -- split; [|cbn [w_loop running]; destruct h; [exact I|apply key_false; exact Ek]].
           apply phase_same; [exact Hp| |symmetry; exact Eiq|].
           ++ cbn [calls]. rewrite filter_app. cbn [filter snd]. rewrite Ek, app_nil_r. reflexivity.
           ++ cbn [handlers]. rewrite lookup_remove, Ek. reflexivity.
        -- split; [|exact I]. apply phase_same; [exact Hp|reflexivity|symmetry; exact Eiq|reflexivity].
    + destruct (running (w_loop w)) as [[e [h|h]]|] eqn:Er; [| |discriminate]; injection H as <-; (split; [|exact I]).
      * apply phase_same; [exact Hp|reflexivity..].
      * apply phase_same; [exact Hp|reflexivity|reflexivity|]. cbn [handlers]. rewrite lookup_insert. apply Nat.eqb_neq in Hr. rewrite Hr. reflexivity.
    + destruct (running (w_loop w)) as [[e h]|] eqn:Er; [|discriminate]. injection H as <-. split; [|exact I]. apply phase_same; [exact Hp|reflexivity..].
Qed.
Lemma winv_new : winv new_world.
Proof. split; [apply ph_idle; reflexivity|exact I]. Qed.
Lemma run_winv : forall ms w w', winv w -> one_at_a_time capacity w ms -> wrun w ms = Some w' -> winv w'.
Proof.
  induction ms as [|m ms IH]; intros w w' HI HO H; cbn [Diag_Model.wrun one_at_a_time] in *; [injection H as <-; exact HI|].
  destruct HO as [HO HO']. destruct (wstep w m) as [w1|] eqn:E1; [|discriminate].
  exact (IH w1 w' (step_winv w m w1 HI HO E1) HO' H).
Qed.
Lemma step_asked : forall w m w', wstep w m = Some w' -> w_asked w' = w_asked w ++ requests [m].
Proof.
  intros w m w' H. destruct m as [h r| |l]; cbn [Diag_Model.wstep requests flat_map app] in *.
  - cbn [step] in H. injection H as <-. reflexivity.
  - rewrite app_nil_r. destruct (w_crashed w); [discriminate|]. destruct (w_pending w); [discriminate|].
    destruct (_ <? _); [|injection H as <-; reflexivity]. destruct (step _ _ _ _); [|discriminate]. injection H as <-. reflexivity.
  - rewrite app_nil_r. destruct l; repeat match type of H with (if ?b then _ else _) = _ => destruct b; [discriminate|] end;
      destruct (step _ _ _ _); try discriminate; injection H as <-; reflexivity.
Qed.
Lemma run_asked : forall ms w w', wrun w ms = Some w' -> w_asked w' = w_asked w ++ requests ms.
Proof.
  induction ms as [|m ms IH]; intros w w' H; cbn [Diag_Model.wrun] in H; [injection H as <-; cbn; rewrite app_nil_r; reflexivity|].
  destruct (wstep w m) as [w1|] eqn:E1; [|discriminate]. rewrite (IH w1 w' H), (step_asked w m w1 E1), <- app_assoc. f_equal.
  change (m :: ms) with ([m] ++ ms). unfold requests. rewrite flat_map_app. reflexivity.
Qed.
Lemma answered : forall ms w, wrun new_world ms = Some w -> one_at_a_time capacity new_world ms ->
  (exists rest, requests ms = delivered w ++ rest /\ length rest <= 1) /\
  (w_crashed w = false -> w_pending w = [] -> in_queue w = [] -> delivered w = requests ms).
Proof.
  intros ms w H HO. pose proof (run_asked ms new_world w H) as Ha. cbn [new_world w_asked app] in Ha. rewrite <- Ha.
  destruct (run_winv ms new_world w winv_new HO H) as [Hp _].
  destruct Hp as [A B C D|h0 r0 A B C D|h0 r0 A B C D|h0 r0 A B C F D].
  - split; [|auto]. exists []. rewrite app_nil_r. split; [congruence|cbn; lia].
  - split; [|congruence]. exists [(Once h0, answer r0)]. split; [congruence|cbn; lia].
  - split; [|congruence]. exists [(Once h0, answer r0)]. split; [congruence|cbn; lia].
  - split; [|congruence]. exists [(Once h0, answer r0)]. split; [congruence|cbn; lia].
Qed.
End Requests.

(** without a handler nothing is delivered any more *)
Lemma step_silent : forall capacity w m w', wstep capacity w m = Some w' -> match m with Ask _ _ => False | _ => True end ->
  lookup K (handlers (w_loop w)) = None -> match running (w_loop w) with Some (e, Multiple _) => e_key e <> K | _ => True end ->
  delivered w' = delivered w /\ lookup K (handlers (w_loop w')) = None /\ match running (w_loop w') with Some (e, Multiple _) => e_key e <> K | _ => True end.
Proof.
  intros capacity w m w' H HA HN HR. destruct m as [h r| |l]; [destruct HA| |]; cbn [wstep] in H.
  - destruct (w_crashed w); [discriminate|]. destruct (w_pending w) as [|r rest]; [discriminate|].
    destruct (length (queue (w_loop w)) <? capacity) eqn:El; [|injection H as <-; auto]. cbn [step] in H. rewrite El in H. injection H as <-. auto.
  - destruct l as [k hd|k|e|e| | |]; cbn [step option_map] in H.
    + destruct (k =? K) eqn:Ek; [discriminate|]. injection H as <-. cbn [w_loop handlers running]. rewrite lookup_insert, Ek. auto.
    + destruct (k =? K) eqn:Ek; [discriminate|]. injection H as <-. cbn [w_loop handlers running]. rewrite lookup_remove, Ek. auto.
    + destruct (e_key e =? K) eqn:Ek; [discriminate|]. destruct (length (queue (w_loop w)) <? capacity); [|discriminate]. injection H as <-. auto.
    + destruct (e_key e =? K) eqn:Ek; [discriminate|]. destruct (length (queue (w_loop w)) <? capacity); injection H as <-; auto.
    + destruct (running (w_loop w)) eqn:Er; [discriminate|]. destruct (stopped (w_loop w)); [discriminate|].
      destruct (queue (w_loop w)) as [|e q] eqn:Eq; [discriminate|].
      destruct (lookup (e_key e) (handlers (w_loop w))) as [h|] eqn:El; injection H as <-; [|cbn; auto].
      assert (e_key e <> K) as Nk by (intros X; rewrite X in El; congruence). apply Nat.eqb_neq in Nk as Nb.
      cbn [w_loop handlers running]. rewrite lookup_remove, Nb. split; [|split; [exact HN|destruct h; auto]].
      unfold delivered. cbn [w_loop calls]. rewrite filter_app. cbn [filter snd]. rewrite Nb, app_nil_r. reflexivity.
    + destruct (running (w_loop w)) as [[e [h|h]]|] eqn:Er; [| |discriminate]; injection H as <-; cbn [w_loop handlers running]; [auto|].
      rewrite lookup_insert. apply Nat.eqb_neq in HR. rewrite HR. auto.
    + destruct (running (w_loop w)) as [[e h]|] eqn:Er; [|discriminate]. injection H as <-. cbn [w_loop handlers running]. auto.
Qed.
Lemma run_silent : forall capacity ms w w', wrun capacity w ms = Some w' -> (forall m, In m ms -> match m with Ask _ _ => False | _ => True end) ->
  lookup K (handlers (w_loop w)) = None -> match running (w_loop w) with Some (e, Multiple _) => e_key e <> K | _ => True end -> delivered w' = delivered w.
Proof.
  intros capacity ms. induction ms as [|m ms IH]; intros w w' H HA HN HR; cbn [wrun] in H; [injection H as <-; reflexivity|].
  destruct (wstep capacity w m) as [w1|] eqn:E1; [|discriminate].
  destruct (step_silent capacity w m w1 E1 (HA m (or_introl eq_refl)) HN HR) as (A & B & C).
  rewrite (IH w1 w' H (fun x Hx => HA x (or_intror Hx)) B C). exact A.
Qed.
Lemma two_requests : forall capacity ms w, 2 <= capacity ->
  wrun capacity new_world ([Ask 7 1; Ask 8 2; Answer; Answer; Other Take; Other Return; Other Take] ++ ms) = Some w ->
  (forall m, In m ms -> match m with Ask _ _ => False | _ => True end) ->
  delivered w = [(Once 8, answer 1)].
Proof.
  intros [|[|capacity]] ms w Hc H HA; [lia|lia|]. cbn in H.
  match type of H with wrun _ ?w0 ms = _ => rewrite (run_silent _ ms w0 w H HA) end; reflexivity.
Qed.
