(** The locks of a media recorder: proofs. *)
From Coq Require Import List Arith Bool Lia.
From Verif Require Import RecLock_Model RecLock_Spec.
Import ListNotations.

Definition rank (k : lock) : nat := match k with On_error => 0 | Recorded => 1 | On_data => 2 | On_stop => 3 end.
Fixpoint ordered (held : list lock) (p : list instruction) : Prop :=
  match p with
  | [] => held = []
  | Lock k :: p' => (forall x, In x held -> rank x < rank k) /\ ordered (k :: held) p'
  | Unlock k :: p' => match held with x :: h => x = k /\ (forall y, In y h -> rank y < rank k) /\ ordered h p' | [] => False end
  end.
Definition fits (w : place) (h : list lock) : Prop :=
  match w with Outside => h = [] | In_error => h = [On_error] | In_data => forall x, In x h -> rank x < 3 | In_stop => True end.

Fixpoint op_ind' (P : operation -> Prop) (hs : forall k, P (Set_callback k)) (hw : P Write) (hf : forall l, Forall P l -> P (Flush l)) (ht : forall l, Forall P l -> P (Tell_stop l))
  (he : forall l, Forall P l -> P (Tell_error l)) (o : operation) : P o :=
  let all := fix all (l : list operation) : Forall P l := match l with [] => Forall_nil P | x :: r => Forall_cons x (op_ind' P hs hw hf ht he x) (all r) end in
  match o with Set_callback k => hs k | Write => hw | Flush l => hf l (all l) | Tell_stop l => ht l (all l) | Tell_error l => he l (all l) end.

Definition good (o : operation) : Prop := forall w h p, careful w o -> fits w h -> ordered h p -> ordered h (compile o ++ p).
Lemma good_list w h p l : Forall good l -> fold_right (fun c P => careful w c /\ P) True l -> fits w h -> ordered h p -> ordered h (flat_map compile l ++ p).
Proof.
  intros G C F O. induction l as [|o l IH]; [exact O|]. cbn [flat_map]. rewrite <- app_assoc. inversion G as [|? ? G1 G2]; subst. destruct C as [C1 C2]. apply (G1 w); [exact C1|exact F|]. exact (IH G2 C2).
Qed.
Ltac none := let x := fresh in let I := fresh in intros x I; cbn [In] in I; repeat (destruct I as [I|I]; [subst; cbn; lia|]); destruct I.
Lemma all_good o : good o.
Proof.
  induction o as [k| |l IH|l IH|l IH] using op_ind'; intros w h p C F O; cbn [compile app].
  - assert (B : forall x, In x h -> rank x < rank k).
    { destruct w; cbn [careful fits] in *; [subst; none| |subst k; exact F|destruct C]. subst h. intros x [<-|[]]. destruct k; cbn; try lia. contradiction. }
    cbn [ordered]. auto.
  - assert (B : forall x, In x h -> rank x < rank Recorded) by (destruct C as [->| ->]; cbn [fits] in F; subst h; none). cbn [ordered]. auto.
  - cbn [careful] in C. destruct C as [W C]. assert (B : forall x, In x h -> rank x < 1) by (destruct W as [->| ->]; cbn [fits] in F; subst h; none).
    cbn [ordered]. split; [exact B|]. split; [intros x [<-|I]; [cbn; lia|specialize (B x I); cbn; lia]|]. rewrite <- app_assoc. apply (good_list In_data); [exact IH|exact C| |].
    + intros x [<-|[<-|I]]; [cbn; lia|cbn; lia|specialize (B x I); lia].
    + cbn [app ordered]. split; [reflexivity|]. split; [intros y [<-|I]; [cbn; lia|specialize (B y I); cbn; lia]|]. split; [reflexivity|]. split; [exact B|exact O].
  - cbn [careful] in C. destruct C as [W C]. assert (B : forall x, In x h -> rank x < 3) by (destruct W as [->| ->]; cbn [fits] in F; subst h; none).
    cbn [ordered]. split; [exact B|]. rewrite <- app_assoc. apply (good_list In_stop); [exact IH|exact C|exact I|]. cbn [app ordered]. auto.
  - cbn [careful] in C. destruct C as [-> C]. cbn [fits] in F. subst h. cbn [ordered]. split; [intros x []|]. rewrite <- app_assoc. apply (good_list In_error); [exact IH|exact C|reflexivity|]. cbn [app ordered].
    split; [reflexivity|]. split; [intros y []|exact O].
Qed.
Lemma start_ordered os : Forall (careful Outside) os -> ordered [] (flat_map compile os).
Proof.
  intros C. rewrite <- (app_nil_r (flat_map compile os)). apply (good_list Outside); [apply Forall_forall; intros o _; apply all_good| |reflexivity|reflexivity].
  induction C; cbn [fold_right]; auto.
Qed.

Definition inv (s : list thread) : Prop := forall t, In t s -> ordered (fst t) (snd t).
Lemma in_replace s i t x : In x (replace s i t) -> x = t \/ In x s.
Proof. revert i. induction s as [|y s IH]; intros [|i]; cbn [replace]; [auto|auto|intros [<-|I]; [auto|right; right; exact I]|]. intros [<-|I]; [right; left; reflexivity|]. destruct (IH i I); [auto|right; right; assumption]. Qed.
Lemma lock_eqb_eq a b : lock_eqb a b = true <-> a = b.
Proof. destruct a, b; cbn; split; congruence. Qed.
Lemma filter_same k h : (forall y, In y h -> rank y < rank k) -> filter (fun x => negb (lock_eqb x k)) (k :: h) = h.
Proof.
  intros B. cbn [filter]. rewrite (proj2 (lock_eqb_eq k k) eq_refl). cbn [negb]. induction h as [|y h IH]; [reflexivity|]. cbn [filter]. destruct (lock_eqb y k) eqn:E.
  - apply lock_eqb_eq in E. subst. specialize (B k (or_introl eq_refl)). lia.
  - cbn [negb]. f_equal. apply IH. intros z I. apply B. right. exact I.
Qed.
Lemma inv_step s i s' : inv s -> step s i = Some s' -> inv s'.
Proof.
  intros V S. unfold step in S. destruct (nth_error s i) as [[held [|[k|k] p]]|] eqn:E; try discriminate; apply nth_error_In in E; specialize (V _ E) as O; cbn [fst snd ordered] in O.
  - destruct (existsb (fun t => holds t k) s); [discriminate|]. injection S as <-. intros t I. apply in_replace in I. destruct I as [->|I]; [exact (proj2 O)|exact (V t I)].
  - injection S as <-. intros t I. apply in_replace in I. destruct I as [->|I]; [|exact (V t I)]. destruct held as [|x h]; [destruct O|]. destruct O as (-> & B & O). rewrite filter_same by exact B. exact O.
Qed.
Definition work (s : list thread) : nat := list_sum (map (fun t => length (snd t)) s).
Lemma work_replace s i t u : nth_error s i = Some t -> work (replace s i u) + length (snd t) = work s + length (snd u).
Proof.
  unfold work. revert i. induction s as [|x s IH]; intros [|i] E; try discriminate; cbn [nth_error replace map list_sum fold_right] in *.
  - injection E as ->. unfold list_sum. cbn [fold_right]. lia.
  - specialize (IH i E). unfold list_sum in *. cbn [fold_right] in *. lia.
Qed.
Lemma work_step s i s' : step s i = Some s' -> work s' + 1 = work s.
Proof.
  unfold step. destruct (nth_error s i) as [[held [|[k|k] p]]|] eqn:E; try discriminate.
  - destruct (existsb (fun t => holds t k) s); [discriminate|]. intros S. injection S as <-. pose proof (work_replace s i _ (k :: held, p) E) as W. cbn [snd length] in W. lia.
  - intros S. injection S as <-. pose proof (work_replace s i _ (filter (fun x => negb (lock_eqb x k)) held, p) E) as W. cbn [snd length] in W. lia.
Qed.
Lemma progress_rank s : inv s -> forall n held k p, 3 - rank k <= n -> In (held, Lock k :: p) s -> exists i s', step s i = Some s'.
Proof.
  intros V. induction n as [|n IH]; intros held k p R I.
  all: destruct (existsb (fun t => holds t k) s) eqn:H; [|destruct (In_nth_error _ _ I) as [i E]; exists i; unfold step; rewrite E, H; eexists; reflexivity].
  all: apply existsb_exists in H; destruct H as ([h q] & J & Hd); unfold holds in Hd; cbn [fst] in Hd; apply existsb_exists in Hd; destruct Hd as (x & X & E); apply lock_eqb_eq in E; subst x.
  all: pose proof (V _ J) as O; cbn [fst snd] in O; destruct q as [|[k'|k'] q]; cbn [ordered] in O; [subst h; destruct X| |destruct (In_nth_error _ _ J) as [i E]; exists i; unfold step; rewrite E; eexists; reflexivity].
  all: destruct O as [O _]; specialize (O k X).
  - destruct k, k'; cbn in *; lia.
  - apply (IH h k' q); [|exact J]. lia.
Qed.
Lemma progress s : inv s -> stuck s -> all_returned s.
Proof.
  intros V S [held p] I. destruct p as [|[k|k] p]; [reflexivity| |]; exfalso.
  - destruct (progress_rank s V 3 held k p ltac:(lia) I) as (i & s' & E). rewrite (S i) in E. discriminate E.
  - destruct (In_nth_error _ _ I) as [i E]. specialize (S i). unfold step in S. rewrite E in S. discriminate S.
Qed.
Lemma inv_steps l : forall s s', inv s -> steps s l = Some s' -> inv s' /\ work s' + length l = work s.
Proof.
  induction l as [|i l IH]; intros s s' V S; cbn [steps] in S; [injection S as <-; split; [exact V|cbn; lia]|]. destruct (step s i) as [s1|] eqn:E; [|discriminate].
  destruct (IH s1 s' (inv_step s i s1 V E) S) as [V' W]. split; [exact V'|]. pose proof (work_step s i s1 E). cbn [length]. lia.
Qed.
Lemma calls_return os l s : Forall (Forall (careful Outside)) os -> steps (threads os) l = Some s ->
  length l <= list_sum (map (fun o => length (flat_map compile o)) os) /\ (stuck s -> all_returned s).
Proof.
  intros C S. assert (V : inv (threads os)).
  { intros t I. unfold threads in I. apply in_map_iff in I. destruct I as (o & <- & I). cbn [fst snd]. apply start_ordered. rewrite Forall_forall in C. exact (C o I). }
  destruct (inv_steps l _ _ V S) as [V' W]. split; [|exact (progress s V')].
  assert (E : work (threads os) = list_sum (map (fun o => length (flat_map compile o)) os)) by (unfold work, threads; rewrite map_map; reflexivity). lia.
Qed.
