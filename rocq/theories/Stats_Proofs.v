From Coq Require Import List ZArith Bool Lia.
From Verif Require Import Stats_Model Stats_Spec.
Import ListNotations.
Local Open Scope Z_scope.

Lemma exec_all_app m a b : exec_all m (a ++ b) = exec_all (exec_all m a) b.
Proof. apply fold_left_app. Qed.
Lemma after_app m a b : after m (a ++ b) = after (after m a) b.
Proof. unfold after. rewrite flat_map_app. apply exec_all_app. Qed.
Lemma after_cons m o b : after m (o :: b) = after (exec_all m (program o)) b.
Proof. unfold after. cbn [flat_map]. apply exec_all_app. Qed.
Lemma wrap_small x : 0 <= x < 2 ^ 64 -> wrap x = x.
Proof. intros H. apply Z.mod_small. exact H. Qed.
Lemma wrap_add x n : wrap (wrap x + n) = wrap (x + n).
Proof. unfold wrap. apply Zplus_mod_idemp_l. Qed.

(** ** Effect of each operation *)
Ltac open_memory m := let s := fresh "s" in let p := fresh "p" in destruct m as [s ? ? p ?]; destruct s; destruct p.
Lemma latency_effect m n : let s := shared m in
  shared (exec_all m (latency_program n)) =
  mk_stats (callback_count s) (render_total s) (budget_total s) (underrun_count s) (peak_load s) (underrun_total s) (underrun_events s) (previous_underrun s)
    n (wrap (latency_sum s + n)) (wrap (latency_count s + 1)) (Z.min (latency_min s) n) (Z.max (latency_max s) n).
Proof. open_memory m. reflexivity. Qed.
Lemma reset_effect m : let s := shared m in
  shared (exec_all m reset_program) =
  mk_stats (callback_count s) (render_total s) (budget_total s) (underrun_count s) (peak_load s) (underrun_total s) (underrun_events s) (previous_underrun s)
    (latest_latency s) (latest_latency s) 1 (latest_latency s) (latest_latency s).
Proof. open_memory m. reflexivity. Qed.
Lemma callback_effect m r b : let s := shared m in
  shared (exec_all m (callback_program r b)) =
  mk_stats (wrap (callback_count s + 1)) (wrap (render_total s + r)) (wrap (budget_total s + b))
    (if b <? r then wrap (underrun_count s + 1) else underrun_count s) (Z.max (peak_load s) (load_ppm r b))
    (if b <? r then wrap (underrun_total s + (r - b)) else underrun_total s)
    (if (b <? r) && negb (previous_underrun s) then wrap (underrun_events s + 1) else underrun_events s) (b <? r)
    (latest_latency s) (latency_sum s) (latency_count s) (latency_min s) (latency_max s).
Proof.
  unfold callback_program. replace (0 <? Z.max 0 (r - b)) with (b <? r) by (destruct (Z.ltb_spec b r), (Z.ltb_spec 0 (Z.max 0 (r - b))); try reflexivity; lia).
  open_memory m. destruct (Z.ltb_spec b r) as [H|H].
  - rewrite Z.max_r by lia. destruct previous_underrun; reflexivity.
  - reflexivity.
Qed.
Lemma snapshot_effect m : let s := shared m in
  snapshot_of m = mk_snapshot (callback_count s) (render_total s) (budget_total s) (underrun_count s) (underrun_total s) (underrun_events s) (latency_sum s) (latency_count s)
    (if latency_min s =? u64_MAX then 0 else latency_min s) (latency_max s).
Proof. open_memory m. reflexivity. Qed.

(** ** Latency *)
Definition least (l : list Z) : Z := fold_right Z.min u64_MAX l.
Definition greatest (l : list Z) : Z := fold_right Z.max 0 l.
Lemma total_snoc l n : total (l ++ [n]) = total l + n.
Proof. unfold total. induction l as [|x l IH]; cbn [fold_right app]; lia. Qed.
Lemma least_snoc l n : n <= u64_MAX -> least (l ++ [n]) = Z.min (least l) n.
Proof. intros H. unfold least. induction l as [|x l IH]; cbn [fold_right app]; [lia|]. rewrite IH. lia. Qed.
Lemma greatest_snoc l n : 0 <= n -> greatest (l ++ [n]) = Z.max (greatest l) n.
Proof. intros H. unfold greatest. induction l as [|x l IH]; cbn [fold_right app]; [lia|]. rewrite IH. lia. Qed.
Record latency_inv (s : stats) (latest : Z) (seen : list Z) : Prop := {
  li_latest : latest_latency s = latest;
  li_range : 0 <= latest < 2 ^ 64;
  li_sum : latency_sum s = wrap (total seen);
  li_count : latency_count s = wrap (Z.of_nat (length seen));
  li_min : latency_min s = least seen;
  li_max : latency_max s = greatest seen;
  li_all : Forall (fun n => 0 <= n < 2 ^ 64) seen }.
Lemma latency_run : forall ops m latest seen, Forall legal ops -> latency_inv (shared m) latest seen ->
  exists latest', latency_inv (shared (after m ops)) latest' (latencies ops latest seen).
Proof.
  induction ops as [|o ops IH]; intros m latest seen L I; [exists latest; exact I|]. inversion L as [|? ? Lo Ls]; subst. rewrite after_cons.
  destruct o as [r b|n|]; cbn [program latencies].
  - apply IH; [exact Ls|]. destruct I. split; try rewrite callback_effect; assumption.
  - apply IH; [exact Ls|]. cbn in Lo. destruct I as [I1 I2 I3 I4 I5 I6 I7]. assert (n <= u64_MAX) by (unfold u64_MAX; lia). split; try rewrite latency_effect; cbn.
    + reflexivity.
    + exact Lo.
    + rewrite I3, wrap_add, total_snoc. reflexivity.
    + rewrite I4, wrap_add, app_length, Nat2Z.inj_add. reflexivity.
    + rewrite I5, least_snoc by assumption. reflexivity.
    + rewrite I6, greatest_snoc by lia. reflexivity.
    + apply Forall_app. split; [exact I7|]. repeat constructor; apply Lo.
  - apply IH; [exact Ls|]. destruct I as [I1 I2 I3 I4 I5 I6 I7]. split; try rewrite reset_effect; cbn.
    + exact I1.
    + exact I2.
    + rewrite I1, Z.add_0_r, wrap_small by exact I2. reflexivity.
    + reflexivity.
    + rewrite I1. unfold u64_MAX. lia.
    + rewrite I1. lia.
    + repeat constructor; apply I2.
Qed.
Lemma latency_new : latency_inv (shared new_memory) 0 [].
Proof. split; cbn; try reflexivity; [lia|constructor]. Qed.

Lemma total_bounds l a b : (forall x, In x l -> a <= x <= b) -> a * Z.of_nat (length l) <= total l <= b * Z.of_nat (length l).
Proof.
  induction l as [|x l IH]; intros H; [cbn; lia|]. assert (Hx := H x (or_introl eq_refl)). assert (Hl := IH ltac:(intros; apply H; right; assumption)).
  cbn [length total fold_right]. fold (total l). rewrite Nat2Z.inj_succ. nia.
Qed.
Lemma least_spec l : l <> [] -> Forall (fun n => 0 <= n < 2 ^ 64) l -> is_minimum (least l) l.
Proof.
  induction l as [|x l IH]; intros N F; [congruence|]. inversion F as [|? ? Fx Fl]; subst. destruct l as [|y l].
  - cbn [least fold_right]. rewrite Z.min_l by (unfold u64_MAX; lia). split; [left; reflexivity|]. intros z [<-|[]]. lia.
  - specialize (IH ltac:(discriminate) Fl). destruct IH as [I1 I2]. change (least (x :: y :: l)) with (Z.min x (least (y :: l))). split.
    + destruct (Z.le_ge_cases x (least (y :: l))); [rewrite Z.min_l by lia; left; reflexivity|]. rewrite Z.min_r by lia. right. exact I1.
    + intros z [<-|Hz]; [lia|]. specialize (I2 z Hz). lia.
Qed.
Lemma greatest_spec l : l <> [] -> Forall (fun n => 0 <= n < 2 ^ 64) l -> is_maximum (greatest l) l.
Proof.
  induction l as [|x l IH]; intros N F; [congruence|]. inversion F as [|? ? Fx Fl]; subst. destruct l as [|y l].
  - cbn [greatest fold_right]. rewrite Z.max_l by lia. split; [left; reflexivity|]. intros z [<-|[]]. lia.
  - specialize (IH ltac:(discriminate) Fl). destruct IH as [I1 I2]. change (greatest (x :: y :: l)) with (Z.max x (greatest (y :: l))). split.
    + destruct (Z.le_ge_cases (greatest (y :: l)) x); [rewrite Z.max_l by lia; left; reflexivity|]. rewrite Z.max_r by lia. right. exact I1.
    + intros z [<-|Hz]; [lia|]. specialize (I2 z Hz). lia.
Qed.
Lemma latency_snapshot ops : Forall legal ops -> let l := latencies ops 0 [] in total l < u64_MAX -> Z.of_nat (length l) < 2 ^ 64 ->
  let s := snapshot_of (after new_memory ops) in
  0 <= s_min s /\ s_min s <= average_ns s <= s_max s /\ s_max s < 2 ^ 64 /\
  (l = [] -> s_min s = 0 /\ average_ns s = 0 /\ s_max s = 0) /\
  (l <> [] -> is_minimum (s_min s) l /\ is_maximum (s_max s) l /\ average_ns s = total l / Z.of_nat (length l)).
Proof.
  intros L l T N s. destruct (latency_run ops new_memory 0 [] L latency_new) as [latest [_ _ I3 I4 I5 I6 I7]]. fold l in I3, I4, I5, I6, I7.
  unfold s. rewrite snapshot_effect. unfold average_ns. cbn [s_min s_max s_sum s_count]. rewrite I3, I4, I5, I6.
  assert (N0 : 0 <= Z.of_nat (length l)) by lia. rewrite (wrap_small (Z.of_nat (length l))) by lia.
  assert (P : 0 <= total l). { pose proof (total_bounds l 0 (2 ^ 64) ltac:(intros x Hx; rewrite Forall_forall in I7; specialize (I7 x Hx); lia)). lia. }
  rewrite (wrap_small (total l)) by (unfold u64_MAX in T; lia).
  destruct l as [|x l'] eqn:E; [cbn; repeat split; try lia; try congruence|].
  rewrite <- E in *. assert (NE : l <> []) by (rewrite E; discriminate). assert (Ln : 1 <= Z.of_nat (length l)) by (rewrite E; cbn [length]; lia).
  destruct (least_spec l NE I7) as [M1 M2]. destruct (greatest_spec l NE I7) as [G1 G2].
  assert (R1 : 0 <= least l < 2 ^ 64) by (rewrite Forall_forall in I7; apply I7; exact M1). assert (R2 : 0 <= greatest l < 2 ^ 64) by (rewrite Forall_forall in I7; apply I7; exact G1).
  assert (B := total_bounds l (least l) (greatest l) ltac:(intros z Hz; split; [apply M2|apply G2]; exact Hz)).
  assert (Lm : least l < u64_MAX) by nia. rewrite (proj2 (Z.eqb_neq (least l) u64_MAX)) by lia. rewrite (proj2 (Z.eqb_neq (Z.of_nat (length l)) 0)) by lia.
  assert (A1 : least l <= total l / Z.of_nat (length l)) by (apply Z.div_le_lower_bound; nia).
  assert (A2 : total l / Z.of_nat (length l) <= greatest l) by (apply Z.div_le_upper_bound; nia).
  split; [lia|]. split; [lia|]. split; [lia|]. split; [congruence|]. intros _. split; [split; assumption|]. split; [split; assumption|]. reflexivity.
Qed.

(** ** Underruns, one operation after the other *)
Definition ended_late (before : bool) (l : list (Z * Z)) : bool := fold_left (fun _ c => late c) l before.
Lemma late_runs_snoc c : forall l before, late_runs before (l ++ [c]) = late_runs before l + (if late c && negb (ended_late before l) then 1 else 0).
Proof. induction l as [|d l IH]; intros before; cbn [late_runs app ended_late fold_left]; [destruct (late c && negb before); reflexivity|]. rewrite IH. unfold ended_late. lia. Qed.
Lemma ended_late_snoc c l before : ended_late before (l ++ [c]) = late c.
Proof. unfold ended_late. rewrite fold_left_app. reflexivity. Qed.
Lemma late_count_snoc c l : late_count (l ++ [c]) = late_count l + (if late c then 1 else 0).
Proof. unfold late_count. rewrite filter_app, app_length, Nat2Z.inj_add. cbn [filter]. destruct (late c); reflexivity. Qed.
Lemma time_lost_snoc c l : time_lost (l ++ [c]) = time_lost l + Z.max 0 (fst c - snd c).
Proof. unfold time_lost. rewrite map_app. cbn [map]. apply total_snoc. Qed.
Record callback_inv (s : stats) (cs : list (Z * Z)) : Prop := {
  ci_callbacks : callback_count s = wrap (Z.of_nat (length cs));
  ci_underruns : underrun_count s = wrap (late_count cs);
  ci_events : underrun_events s = wrap (late_runs false cs);
  ci_previous : previous_underrun s = ended_late false cs;
  ci_duration : underrun_total s = wrap (time_lost cs);
  ci_render : render_total s = wrap (total (map fst cs));
  ci_budget : budget_total s = wrap (total (map snd cs)) }.
Lemma callback_run : forall ops m cs, callback_inv (shared m) cs -> callback_inv (shared (after m ops)) (cs ++ callbacks_of ops).
Proof.
  induction ops as [|o ops IH]; intros m cs I; [cbn; rewrite app_nil_r; exact I|]. rewrite after_cons. unfold callbacks_of. cbn [flat_map]. fold (callbacks_of ops). rewrite app_assoc. apply IH.
  destruct o as [r b|n|]; cbn [program].
  - destruct I as [I1 I2 I3 I4 I5 I6 I7]. assert (E : late (r, b) = (b <? r)) by reflexivity. split; rewrite callback_effect; cbn.
    + rewrite I1, wrap_add, app_length, Nat2Z.inj_add. reflexivity.
    + rewrite I2, late_count_snoc, E. destruct (b <? r); [apply wrap_add|]. rewrite Z.add_0_r. reflexivity.
    + rewrite I3, I4, late_runs_snoc, E. destruct ((b <? r) && _); [apply wrap_add|]. rewrite Z.add_0_r. reflexivity.
    + rewrite ended_late_snoc. reflexivity.
    + rewrite I5, time_lost_snoc. cbn [fst snd]. destruct (Z.ltb_spec b r) as [H|H]; [rewrite wrap_add, Z.max_r by lia; reflexivity|]. rewrite Z.max_l, Z.add_0_r by lia. reflexivity.
    + rewrite I6, wrap_add, map_app. cbn [map fst]. rewrite total_snoc. reflexivity.
    + rewrite I7, wrap_add, map_app. cbn [map snd]. rewrite total_snoc. reflexivity.
  - rewrite app_nil_r. destruct I. split; rewrite latency_effect; assumption.
  - rewrite app_nil_r. destruct I. split; rewrite reset_effect; assumption.
Qed.
Lemma callback_new : callback_inv (shared new_memory) [].
Proof. split; reflexivity. Qed.
Lemma late_count_range l : 0 <= late_count l <= Z.of_nat (length l).
Proof. unfold late_count. induction l as [|c l IH]; [cbn; lia|]. cbn [filter]. destruct (late c); cbn [length]; lia. Qed.
Lemma late_runs_range : forall l before, 0 <= late_runs before l <= late_count l.
Proof.
  induction l as [|c l IH]; intros before; [cbn; lia|]. cbn [late_runs]. specialize (IH (late c)). unfold late_count in *. cbn [filter]. destruct (late c); cbn [length andb]; [|lia].
  rewrite Nat2Z.inj_succ. destruct before; cbn [negb]; lia.
Qed.
Lemma callback_snapshot ops : let cs := callbacks_of ops in Z.of_nat (length cs) < 2 ^ 64 ->
  let s := snapshot_of (after new_memory ops) in
  s_callbacks s = Z.of_nat (length cs) /\ s_underruns s = late_count cs /\ s_events s = late_runs false cs /\
  s_render s = wrap (total (map fst cs)) /\ s_budget s = wrap (total (map snd cs)) /\ s_duration s = wrap (time_lost cs).
Proof.
  intros cs N s. destruct (callback_run ops new_memory [] callback_new) as [I1 I2 I3 _ I5 I6 I7]. cbn [app] in *. fold cs in I1, I2, I3, I5, I6, I7. unfold s. rewrite snapshot_effect. cbn [s_callbacks s_underruns s_events s_render s_budget s_duration].
  pose proof (late_count_range cs). pose proof (late_runs_range cs false). rewrite I1, I2, I3, I5, I6, I7, !wrap_small by lia. repeat split.
Qed.

(** ** Any interleaving *)
Definition counts (op : micro) : bool := match op with Add_callback | Add_underrun | Swap_previous | Add_event | Clear_previous => true | _ => false end.
Record core := mk_core { c_callbacks : Z; c_underruns : Z; c_events : Z; c_previous : bool; c_fresh : bool }.
Definition core_of (m : memory) : core := mk_core (callback_count (shared m)) (underrun_count (shared m)) (underrun_events (shared m)) (previous_underrun (shared m)) (fresh m).
Definition core_exec (c : core) (op : micro) : core :=
  match op with
  | Add_callback => mk_core (wrap (c_callbacks c + 1)) (c_underruns c) (c_events c) (c_previous c) (c_fresh c)
  | Add_underrun => mk_core (c_callbacks c) (wrap (c_underruns c + 1)) (c_events c) (c_previous c) (c_fresh c)
  | Swap_previous => mk_core (c_callbacks c) (c_underruns c) (c_events c) true (negb (c_previous c))
  | Add_event => if c_fresh c then mk_core (c_callbacks c) (c_underruns c) (wrap (c_events c + 1)) (c_previous c) (c_fresh c) else c
  | Clear_previous => mk_core (c_callbacks c) (c_underruns c) (c_events c) false (c_fresh c)
  | _ => c
  end.
Lemma core_step m op : core_of (exec m op) = if counts op then core_exec (core_of m) op else core_of m.
Proof. open_memory m. destruct op; cbn; try reflexivity. destruct fresh; reflexivity. Qed.
Lemma core_all : forall l m, core_of (exec_all m l) = fold_left core_exec (filter counts l) (core_of m).
Proof.
  induction l as [|op l IH]; intros m; [reflexivity|]. change (exec_all m (op :: l)) with (exec_all (exec m op) l). rewrite IH, core_step. cbn [filter]. destruct (counts op); reflexivity.
Qed.
Lemma inter_filter {X} (f : X -> bool) (a b c : list X) : interleaving a b c -> (forall x, In x b -> f x = false) -> filter f c = filter f a.
Proof.
  induction 1 as [|x a b c I IH|x a b c I IH]; intros F; [reflexivity| |].
  - cbn [filter]. rewrite IH by assumption. reflexivity.
  - cbn [filter]. rewrite (F x (or_introl eq_refl)). apply IH. intros y Hy. apply F. right. exact Hy.
Qed.
Lemma request_counts reqs x : In x (flat_map request_program reqs) -> counts x = false.
Proof.
  intros H. apply in_flat_map in H. destruct H as (r & _ & H). destruct r; cbn in H; intuition subst; reflexivity.
Qed.
Definition sane (n : Z) (c : core) : Prop := 0 <= c_events c <= c_underruns c /\ c_underruns c <= c_callbacks c <= n.
Definition core_program (o : op) : list micro := filter counts (program o).
Lemma core_program_prefix o c n p q : core_program o = p ++ q -> sane n c -> n + 1 < 2 ^ 64 -> sane (n + match o with Callback _ _ => 1 | _ => 0 end) (fold_left core_exec p c).
Proof.
  intros E [H1 H2] N. unfold core_program in E. destruct o as [r b|k|].
  - unfold program, callback_program in E. destruct (0 <? Z.max 0 (r - b)); cbn in E.
    + destruct p as [|a p]; [split; cbn; lia|]. injection E as <- E. destruct p as [|a p]; [split; cbn; rewrite ?wrap_small; lia|]. injection E as <- E.
      destruct p as [|a p]; [split; cbn; rewrite ?wrap_small; lia|]. injection E as <- E. destruct p as [|a p]; [split; cbn; rewrite ?wrap_small; lia|]. injection E as <- E.
      destruct p as [|a p]; [|discriminate]. cbn. destruct (c_previous c); cbn; split; cbn; rewrite ?wrap_small; lia.
    + destruct p as [|a p]; [split; cbn; lia|]. injection E as <- E. destruct p as [|a p]; [split; cbn; rewrite ?wrap_small; lia|]. injection E as <- E.
      destruct p as [|a p]; [|discriminate]. cbn. split; cbn; rewrite ?wrap_small; lia.
  - cbn in E. destruct p; [|discriminate]. split; cbn; lia.
  - cbn in E. destruct p; [|discriminate]. split; cbn; lia.
Qed.
Lemma filter_flat_map {X Y} (f : Y -> bool) (g : X -> list Y) l : filter f (flat_map g l) = flat_map (fun x => filter f (g x)) l.
Proof. induction l as [|x l IH]; [reflexivity|]. cbn [flat_map]. rewrite filter_app, IH. reflexivity. Qed.
Lemma split_app {X} : forall (a b p q : list X), a ++ b = p ++ q -> (exists r, a = p ++ r) \/ (exists r, p = a ++ r /\ b = r ++ q).
Proof.
  induction a as [|x a IH]; intros b p q E; [right; exists p; split; [reflexivity|exact E]|]. destruct p as [|y p]; [left; exists (x :: a); reflexivity|]. cbn in E. injection E as -> E.
  destruct (IH b p q E) as [[r ->]|[r [-> ->]]]; [left; exists r; reflexivity|right; exists r; split; reflexivity].
Qed.
Lemma core_run : forall ops c n p q, flat_map core_program ops = p ++ q -> sane n c -> n + Z.of_nat (length (callbacks_of ops)) + 1 < 2 ^ 64 -> sane (n + Z.of_nat (length (callbacks_of ops))) (fold_left core_exec p c).
Proof.
  induction ops as [|o ops IH]; intros c n p q E S N.
  - cbn in E. destruct p; [|discriminate]. cbn. rewrite Z.add_0_r. exact S.
  - cbn [flat_map] in E. unfold callbacks_of in *. cbn [flat_map] in *. fold (callbacks_of ops) in *. rewrite app_length, Nat2Z.inj_add in *.
    assert (L : Z.of_nat (length (match o with Callback r b => [(r, b)] | _ => [] end)) = match o with Callback _ _ => 1 | _ => 0 end) by (destruct o; reflexivity). rewrite L in *.
    assert (L1 : 0 <= match o with Callback _ _ => 1 | _ => 0 end <= 1) by (destruct o; lia). apply split_app in E. destruct E as [[r E]|[r [-> E]]].
    + destruct (core_program_prefix o c n p r E S ltac:(lia)) as [H1 H2]. split; lia.
    + rewrite fold_left_app. destruct (IH (fold_left core_exec (core_program o) c) (n + match o with Callback _ _ => 1 | _ => 0 end) r q E) as [H1 H2]; [|lia|split; lia].
      apply (core_program_prefix o c n (core_program o) []); [rewrite app_nil_r; reflexivity|exact S|lia].
Qed.
Lemma inter_core ops reqs c p q : interleaving (flat_map program ops) (flat_map request_program reqs) c -> c = p ++ q -> Z.of_nat (length (callbacks_of ops)) + 1 < 2 ^ 64 ->
  let s := shared (exec_all new_memory p) in 0 <= underrun_events s <= underrun_count s /\ underrun_count s <= callback_count s <= Z.of_nat (length (callbacks_of ops)).
Proof.
  intros I E N s. assert (F := inter_filter counts _ _ _ I (request_counts reqs)). rewrite E, filter_app, filter_flat_map in F.
  destruct (core_run ops (core_of new_memory) 0 (filter counts p) (filter counts q)) as [H1 H2]; [symmetry; exact F|split; cbn; lia|lia|]. rewrite <- core_all in H1, H2. exact (conj H1 H2).
Qed.
