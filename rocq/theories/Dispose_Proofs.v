(** Data handed to nodes: proofs. *)
From Coq Require Import List Arith Bool Lia Permutation.
From Verif Require Import Dispose_Model Dispose_Spec.
Import ListNotations.

Definition in_node (n : option (kind * slot)) : list nat := match n with Some (_, Some r) => [r] | _ => [] end.
Lemma in_nodes_eq s : in_nodes s = flat_map in_node (nodes s). Proof. reflexivity. Qed.
Lemma held_eq (s : slot) : held s = match s with Some r => [r] | None => [] end. Proof. reflexivity. Qed.
Lemma in_node_held k x : in_node (Some (k, x)) = held x. Proof. destruct x; reflexivity. Qed.

(** replacing a node *)
Lemma split_nth {X} n (x : X) l : nth_error l n = Some x -> l = firstn n l ++ x :: skipn (S n) l.
Proof.
  revert n. induction l as [|y l IH]; intros [|n] E; try discriminate.
  - injection E as ->. reflexivity.
  - cbn [firstn app]. f_equal. exact (IH n E).
Qed.
Lemma nodes_set n x y l : nth_error l n = Some x ->
  Permutation (flat_map in_node l) (in_node x ++ flat_map in_node (firstn n l ++ skipn (S n) l)) /\
  Permutation (flat_map in_node (set_nth n y l)) (in_node y ++ flat_map in_node (firstn n l ++ skipn (S n) l)).
Proof.
  intros E. split.
  - rewrite (split_nth n x l E) at 1. rewrite !flat_map_app. cbn [flat_map]. rewrite !app_assoc. apply Permutation_app_tail, Permutation_app_comm.
  - unfold set_nth. rewrite !flat_map_app. cbn [flat_map]. rewrite !app_assoc. apply Permutation_app_tail, Permutation_app_comm.
Qed.
Lemma receive_keeps k x m : forall x' m' g, receive k x m = (x', m', g) -> Permutation (held x ++ held m) (held x' ++ held m' ++ g).
Proof.
  intros x' m' g E.
  assert (Sw : Permutation (held x ++ held m) (held m ++ held x ++ [])) by (rewrite app_nil_r; apply Permutation_app_comm).
  destruct k; cbn [receive] in E; unfold receive_buffer, receive_wave, receive_convolvers, receive_curve, receive_hrtf in E.
  - destruct x as [r|]; injection E as <- <- <-; exact Sw.
  - destruct x as [r|]; injection E as <- <- <-; exact Sw.
  - injection E as <- <- <-; exact Sw.
  - injection E as <- <- <-; exact Sw.
  - injection E as <- <- <-. cbn [held app]. apply Permutation_app_comm.
  - injection E as <- <- <-. rewrite app_nil_r. apply Permutation_refl.
Qed.

Definition everything (s : state) : list nat := in_nodes s ++ in_messages s ++ in_garbage s ++ gone s.
Definition new_data (a : action) : list nat := match a with Make _ (Some r) | Post _ (Some r) => [r] | _ => [] end.
Lemma gone_by w l : map snd (by_who w l) = l.
Proof. unfold by_who. rewrite map_map. cbn [snd]. apply map_id. Qed.

Ltac perm := rewrite ?app_nil_r, ?app_nil_l, <- ?app_assoc; reflexivity.
(** permutations of concatenations by counting *)
Lemma perm_count (a b : list nat) : (forall x, count_occ Nat.eq_dec a x = count_occ Nat.eq_dec b x) -> Permutation a b.
Proof. apply (Permutation_count_occ Nat.eq_dec). Qed.
Lemma count_perm (a b : list nat) x : Permutation a b -> count_occ Nat.eq_dec a x = count_occ Nat.eq_dec b x.
Proof. intros P. exact (proj1 (Permutation_count_occ Nat.eq_dec a b) P x). Qed.

Lemma act_keeps s a s' : act s a = Some s' -> Permutation (everything s ++ new_data a) (everything s').
Proof.
  intros E. unfold everything, gone, in_messages, in_garbage. rewrite !in_nodes_eq.
  destruct a as [k x|n x| |n| |]; cbn [act] in E.
  - destruct (alive s); [|discriminate]. injection E as <-. cbn [nodes channel garbage dropped]. rewrite flat_map_app. cbn [flat_map]. rewrite in_node_held, app_nil_r.
    replace (new_data (Make k x)) with (held x) by (destruct x; reflexivity).
    apply perm_count. intros y. rewrite !count_occ_app. lia.
  - destruct (alive s); [|discriminate]. injection E as <-. cbn [nodes channel garbage dropped]. rewrite flat_map_app. cbn [flat_map snd].
    replace (new_data (Post n x)) with (held x) by (destruct x; reflexivity). change (match x with Some r => [r] | None => [] end) with (held x). rewrite app_nil_r.
    apply perm_count. intros y. rewrite !count_occ_app. lia.
  - destruct (alive s); [|discriminate]. destruct (channel s) as [|[n m] ms] eqn:C; [discriminate|].
    destruct (nth_error (nodes s) n) as [[[k x]|]|] eqn:N; try discriminate.
    destruct (receive k x m) as [[x' m'] g] eqn:R. pose proof (receive_keeps k x m x' m' g R) as P.
    destruct (nodes_set n (Some (k, x)) (Some (k, x')) (nodes s) N) as [A B]. rewrite in_node_held in A, B.
    cbn [new_data flat_map snd]. rewrite app_nil_r. change (match m with Some r => [r] | None => [] end) with (held m).
    destruct (sends s); injection E as <-; cbn [nodes channel garbage dropped]; apply perm_count; intros y;
      pose proof (count_perm _ _ y P) as P'; pose proof (count_perm _ _ y A) as A'; pose proof (count_perm _ _ y B) as B';
      rewrite ?map_app, ?gone_by, ?flat_map_app in *; cbn [flat_map] in *; rewrite ?app_nil_r in *;
      try change (match m' with Some r => [r] | None => [] end) with (held m') in *; rewrite !count_occ_app in *; lia.
  - destruct (alive s); [|discriminate]. destruct (nth_error (nodes s) n) as [[[k x]|]|] eqn:N; try discriminate. injection E as <-.
    destruct (nodes_set n (Some (k, x)) None (nodes s) N) as [A B]. rewrite in_node_held in A. cbn [in_node app] in B.
    cbn [nodes channel garbage dropped new_data]. rewrite app_nil_r, map_app, gone_by. apply perm_count; intros y.
    pose proof (count_perm _ _ y A) as A'; pose proof (count_perm _ _ y B) as B'. rewrite !count_occ_app in *. lia.
  - destruct (alive s); [|discriminate]. injection E as <-. cbn [nodes channel garbage dropped new_data flat_map]. rewrite app_nil_r, map_app, gone_by. unfold rest.
    assert (G : flat_map (fun i => match i with Content (Some r) => [r] | _ => [] end) (if sends s then garbage s ++ [Terminate] else garbage s) =
                flat_map (fun i => match i with Content (Some r) => [r] | _ => [] end) (garbage s)).
    { destruct (sends s); [|reflexivity]. rewrite flat_map_app. cbn [flat_map]. rewrite !app_nil_r. reflexivity. }
    rewrite G. replace (flat_map (fun n => match n with Some (_, x) => held x | None => [] end) (nodes s)) with (flat_map in_node (nodes s)).
    2:{ apply flat_map_ext. intros [[k [r|]]|]; reflexivity. }
    apply perm_count; intros y. unfold held. rewrite !count_occ_app. cbn [count_occ]. lia.
  - destruct (collector s); [|discriminate]. cbn [new_data]. rewrite app_nil_r.
    destruct (garbage s) as [|[m|] g] eqn:G; injection E as <-; rewrite ?G; cbn [nodes channel garbage dropped flat_map]; try reflexivity.
    rewrite map_app, gone_by. change (match m with Some r => [r] | None => [] end) with (held m). apply perm_count; intros y. rewrite !count_occ_app. lia.
Qed.
Lemma acts_keep l : forall s s', acts s l = Some s' -> Permutation (everything s ++ handed_over l) (everything s').
Proof.
  induction l as [|a l IH]; intros s s' E; cbn [acts] in E; [injection E as <-; cbn; rewrite app_nil_r; reflexivity|].
  destruct (act s a) as [s1|] eqn:A; [|discriminate]. pose proof (act_keeps s a s1 A) as P. pose proof (IH s1 s' E) as Q.
  replace (handed_over (a :: l)) with (new_data a ++ handed_over l) by reflexivity.
  rewrite app_assoc. rewrite <- Q. apply Permutation_app_tail, P.
Qed.
Lemma one_place realtime l s : acts (start realtime) l = Some s -> Permutation (handed_over l) (in_nodes s ++ in_messages s ++ in_garbage s ++ gone s).
Proof. intros E. exact (acts_keep l _ _ E). Qed.

(** the queue to the garbage collector *)
Definition content (i : item) : Prop := match i with Content _ => True | Terminate => False end.
Inductive phase (s : state) : Prop :=
  | Ph_running : alive s = true -> sends s = true -> collector s = true -> Forall content (garbage s) -> phase s
  | Ph_closing g : alive s = false -> sends s = false -> collector s = true -> garbage s = g ++ [Terminate] -> Forall content g -> nodes s = [] -> channel s = [] -> phase s
  | Ph_closed : alive s = false -> sends s = false -> collector s = false -> garbage s = [] -> nodes s = [] -> channel s = [] -> phase s
  | Ph_offline : alive s = true -> sends s = false -> collector s = false -> garbage s = [] -> phase s.
Lemma phase_start realtime : phase (start realtime).
Proof. destruct realtime; [apply Ph_running|apply Ph_offline]; try reflexivity. constructor. Qed.
Lemma phase_act s a s' : phase s -> act s a = Some s' -> phase s'.
Proof.
  intros P E. destruct a as [k x|n x| |n| |]; cbn [act] in E.
  - destruct P as [A S C G|g A S C G F N M|A S C G N M|A S C G]; rewrite A in E; try discriminate E; injection E as <-;
      [apply Ph_running|apply Ph_offline]; cbn [alive sends collector garbage]; auto.
  - destruct P as [A S C G|g A S C G F N M|A S C G N M|A S C G]; rewrite A in E; try discriminate E; injection E as <-;
      [apply Ph_running|apply Ph_offline]; cbn [alive sends collector garbage]; auto.
  - destruct (alive s) eqn:A'; [|discriminate]. destruct (channel s) as [|[n m] ms]; [discriminate|].
    destruct (nth_error (nodes s) n) as [[[k x]|]|]; try discriminate. destruct (receive k x m) as [[x' m'] g'].
    destruct P as [A S C G|g A S C G F N M|A S C G N M|A S C G]; try congruence; rewrite S in E; injection E as <-;
      [apply Ph_running|apply Ph_offline]; cbn [alive sends collector garbage]; auto. apply Forall_app. split; [exact G|]. constructor; [exact I|constructor].
  - destruct (alive s) eqn:A'; [|discriminate]. destruct (nth_error (nodes s) n) as [[[k x]|]|]; try discriminate. injection E as <-.
    destruct P as [A S C G|g A S C G F N M|A S C G N M|A S C G]; try congruence; [apply Ph_running|apply Ph_offline]; cbn [alive sends collector garbage]; auto.
  - destruct (alive s) eqn:A'; [|discriminate]. injection E as <-.
    destruct P as [A S C G|g A S C G F N M|A S C G N M|A S C G]; try congruence; rewrite S.
    + apply Ph_closing with (garbage s); cbn [alive sends collector garbage nodes channel]; auto.
    + apply Ph_closed; cbn [alive sends collector garbage nodes channel]; auto.
  - destruct P as [A S C G|g A S C G F N M|A S C G N M|A S C G]; rewrite C in E; try discriminate E.
    + destruct (garbage s) as [|[m|] g'] eqn:Q; injection E as <-.
      * apply Ph_running; try assumption. rewrite Q. constructor.
      * apply Ph_running; cbn [alive sends collector garbage]; auto. exact (Forall_inv_tail G).
      * destruct (Forall_inv G).
    + rewrite G in E. destruct g as [|[m|] g']; cbn [app] in E; injection E as <-.
      * apply Ph_closed; cbn [alive sends collector garbage nodes channel]; auto.
      * apply Ph_closing with g'; cbn [alive sends collector garbage nodes channel]; auto. exact (Forall_inv_tail F).
      * destruct (Forall_inv F).
Qed.
Lemma phase_acts l : forall s s', phase s -> acts s l = Some s' -> phase s'.
Proof.
  induction l as [|a l IH]; intros s s' P E; cbn [acts] in E; [injection E as <-; exact P|].
  destruct (act s a) as [s1|] eqn:A; [|discriminate]. exact (IH s1 s' (phase_act s a s1 P A) E).
Qed.
Lemma all_dropped realtime l s : acts (start realtime) l = Some s -> alive s = false -> collector s = false -> Permutation (handed_over l) (gone s).
Proof.
  intros E A C. pose proof (one_place realtime l s E) as P. pose proof (phase_acts l _ _ (phase_start realtime) E) as Ph.
  destruct Ph as [A' S C' G|g A' S C' G F N M|A' S C' G N M|A' S C' G]; try congruence.
  rewrite in_nodes_eq in P. unfold in_messages, in_garbage in P. rewrite N, M, G in P. exact P.
Qed.
Lemma collect_all g : forall s, collector s = true -> garbage s = g ++ [Terminate] -> Forall content g -> exists s', acts s (repeat Collect (length g + 1)) = Some s' /\ collector s' = false.
Proof.
  induction g as [|i g IH]; intros s C G F.
  - cbn [length Nat.add repeat acts act]. rewrite C, G. cbn [app]. eexists. split; [reflexivity|reflexivity].
  - destruct i as [m|]; [|destruct (Forall_inv F)]. cbn [length Nat.add repeat acts act]. rewrite C, G. cbn [app].
    apply IH; [reflexivity|reflexivity|exact (Forall_inv_tail F)].
Qed.
Lemma collector_ends l s : acts (start true) l = Some s -> alive s = false -> collector s = true ->
  exists s', acts s (repeat Collect (length (garbage s))) = Some s' /\ collector s' = false.
Proof.
  intros E A C. pose proof (phase_acts l _ _ (phase_start true) E) as Ph.
  destruct Ph as [A' S C' G|g A' S C' G F N M|A' S C' G N M|A' S C' G]; try congruence.
  destruct (collect_all g s C G F) as (s' & R & D). exists s'. split; [|exact D]. rewrite G, app_length. exact R.
Qed.

(** nothing is dropped by the render thread *)
Definition quiet (s : state) : Prop := sends s = true /\ Forall (fun d => fst d = Collector) (dropped s) /\ Forall (fun n => match n with Some (Panner, _) => False | _ => True end) (nodes s).
Lemma quiet_act s a s' : quiet s -> keeps_nodes a -> no_panner a -> act s a = Some s' -> quiet s'.
Proof.
  intros (S & D & N) K P E. destruct a as [k x|n x| |n| |]; cbn [act keeps_nodes no_panner] in *; try contradiction.
  - destruct (alive s); [|discriminate]. injection E as <-. split; [exact S|]. split; [exact D|]. cbn [nodes]. apply Forall_app. split; [exact N|]. constructor; [|constructor]. destruct k; auto.
  - destruct (alive s); [|discriminate]. injection E as <-. split; [exact S|]. split; [exact D|exact N].
  - destruct (alive s); [|discriminate]. destruct (channel s) as [|[n m] ms]; [discriminate|].
    destruct (nth_error (nodes s) n) as [[[k x]|]|] eqn:Nn; try discriminate.
    assert (Kp : k <> Panner). { pose proof (proj1 (Forall_forall _ _) N _ (nth_error_In _ _ Nn)) as X. cbn beta iota in X. intros ->. exact X. }
    destruct (receive k x m) as [[x' m'] g] eqn:R.
    assert (G : g = []). { destruct k; cbn [receive] in R; unfold receive_buffer, receive_wave, receive_convolvers, receive_curve in R; try (destruct x); try congruence; injection R as <- <- <-; reflexivity. }
    rewrite S in E. injection E as <-. subst g. split; [reflexivity|]. split; [cbn [dropped by_who map]; rewrite app_nil_r; exact D|].
    cbn [nodes]. pose proof (split_nth n _ _ Nn) as Sp. rewrite Sp in N. apply Forall_app in N. destruct N as [N1 N2]. unfold set_nth. apply Forall_app. split; [exact N1|].
    constructor; [destruct k; auto|exact (Forall_inv_tail N2)].
  - destruct (collector s); [|discriminate]. destruct (garbage s) as [|[m|] g]; injection E as <-; (split; [exact S|split; [|exact N]]); try exact D.
    cbn [dropped]. apply Forall_app. split; [exact D|]. destruct m; repeat constructor.
Qed.
Lemma quiet_acts l : forall s s', quiet s -> Forall keeps_nodes l -> Forall no_panner l -> acts s l = Some s' -> quiet s'.
Proof.
  induction l as [|a l IH]; intros s s' Q K P E; cbn [acts] in E; [injection E as <-; exact Q|].
  destruct (act s a) as [s1|] eqn:A; [|discriminate]. apply (IH s1 s'); [|exact (Forall_inv_tail K)|exact (Forall_inv_tail P)|exact E].
  exact (quiet_act s a s1 Q (Forall_inv K) (Forall_inv P) A).
Qed.
Lemma not_on_render_thread l s : Forall keeps_nodes l -> Forall no_panner l -> acts (start true) l = Some s -> Forall (fun d => fst d = Collector) (dropped s).
Proof.
  intros K P E. assert (Q : quiet (start true)) by (split; [reflexivity|split; constructor]). exact (proj1 (proj2 (quiet_acts l _ _ Q K P E))).
Qed.
