(** Connection messages refer to nodes that were made, and to inputs and outputs these have. *)
From Coq Require Import List Arith Bool Lia.
From Verif Require Import Graph_Model Protocol_Model Calls_Model Calls_Spec Calls_Proofs Calls_RunProofs.
Import ListNotations.

Notation reg := (nat -> option (nat * nat)).

(** every connect message of [log] is fine, for a renderer that knows [r] *)
Fixpoint fine (r : reg) (log : list note) : Prop :=
  match log with
  | [] => True
  | NConnect s o d p :: l =>
      (exists i k, r s = Some (i, k) /\ o < k) /\ (exists i k, r d = Some (i, k) /\ match p with Some q => q < i | None => True end) /\ fine r l
  | NRegister id ins outs :: l => fine (fun j => if Nat.eqb j id then Some (ins, outs) else r j) l
  | NDrop id :: l => fine (fun j => if Nat.eqb j id then None else r j) l
  | _ :: l => fine r l
  end.

Lemma made_app l m r : made (l ++ m) r = made m (made l r).
Proof. revert r. induction l as [|x l IH]; intros r; [reflexivity|]. destruct x; cbn [app made]; apply IH. Qed.
Lemma fine_app l m r : fine r (l ++ m) <-> fine r l /\ fine (made l r) m.
Proof. revert r. induction l as [|x l IH]; intros r; cbn [app fine made]; [tauto|]. destruct x; cbn [fine]; rewrite IH; tauto. Qed.

Definition plain_note (m : note) : Prop := match m with NRegister _ _ _ | NDrop _ => False | _ => True end.
Lemma made_plain l r : Forall plain_note l -> made l r = r.
Proof. induction 1 as [|m l H F IH]; [reflexivity|]. destruct m; cbn in H; try contradiction; exact IH. Qed.

Lemma made_regs params r j : made (map (fun p => NRegister p 1 1) params) r j = if existsb (Nat.eqb j) params then Some (1, 1) else r j.
Proof.
  revert r. induction params as [|p ps IH]; intros r; [reflexivity|]. cbn [map made existsb]. rewrite IH.
  destruct (existsb (Nat.eqb j) ps); [now rewrite orb_true_r|]. rewrite orb_false_r. reflexivity.
Qed.
Lemma fine_regs params r : fine r (map (fun p => NRegister p 1 1) params).
Proof. revert r. induction params as [|p ps IH]; intros r; cbn [map fine]; auto. Qed.
Lemma fine_params params r id i k : r id = Some (i, k) -> Forall (fun p => r p = Some (1, 1)) params -> fine r (map (fun p => NConnect p 0 id None) params).
Proof.
  intros H F. induction F as [|p ps Hp F IH]; cbn [map fine]; [exact I|]. split; [exists 1, 1; auto|]. split; [exists i, k; auto|exact IH].
Qed.
Lemma plain_params params id : Forall plain_note (map (fun p => NConnect p 0 id None) params).
Proof. induction params; cbn [map]; constructor; cbn; auto. Qed.

Lemma existsb_in j l : existsb (Nat.eqb j) l = true <-> In j l.
Proof.
  rewrite existsb_exists. split; [intros (y & H & E); apply Nat.eqb_eq in E as ->; exact H|]. intros H. exists j. split; [exact H|apply Nat.eqb_refl].
Qed.
Lemma existsb_notin j l : ~ In j l -> existsb (Nat.eqb j) l = false.
Proof. intros H. destruct (existsb (Nat.eqb j) l) eqn:E; [|reflexivity]. apply existsb_in in E. contradiction. Qed.

(** the ids of an object are known to the renderer, with its inputs and outputs *)
Definition shown_to (r : reg) (x : object) : Prop := (exists k, r (o_in x) = Some (o_ins x, k)) /\ (exists i, r (o_out x) = Some (i, o_outs x)).

Definition asleep (w : world) (ctx : nat) : Prop := w_waiting w ctx <> [].

Record K (before : list call) (w : world) : Prop := {
  k_fine : forall ctx, fine (fun _ => None) (w_sent w ctx);
  k_dest : forall ctx, made_by (w_sent w ctx) 0 = Some (1, 1);
  k_wait : forall ctx, (w_waiting w ctx = [] /\ made_by (w_sent w ctx) 1 = Some (0, 9)) \/ (w_waiting w ctx = seq 2 9 ++ [1] /\ w_params w ctx = seq 2 9 /\ existsb (wakes ctx) before = false);
  k_objs : forall a x, live_at (w_objs w) a x -> (2 <= o_in x <= 10 -> w_waiting w (o_ctx x) = []) -> shown_to (made_by (w_sent w (o_ctx x))) x;
  k_small : forall a x, live_at (w_objs w) a x -> o_in x <= 10 -> o_out x = o_in x /\ o_ins x = 1 /\ o_outs x = 1 /\ o_in x <> 1;
  k_big : forall a x, live_at (w_objs w) a x -> 10 < o_in x -> 10 < o_out x
}.

Lemma set_same {X} (f : nat -> X) i v : set f i v i = v.
Proof. unfold set. now rewrite Nat.eqb_refl. Qed.
Lemma set_other {X} (f : nat -> X) i j v : j <> i -> set f i v j = f j.
Proof. intros H. unfold set. now rewrite (proj2 (Nat.eqb_neq j i) H). Qed.

Section Step.
Variables (before : list call) (w : world) (v : view).
Hypothesis HK : K before w.
Hypothesis HJ : J (w_objs w) (w_conns w) v.

(** messages that neither make nor drop nodes *)
Lemma K_plain c ctx ms w' :
  w_objs w' = w_objs w -> w_waiting w' = w_waiting w -> w_params w' = w_params w ->
  w_sent w' = set (w_sent w) ctx (w_sent w ctx ++ ms) -> Forall plain_note ms -> fine (made_by (w_sent w ctx)) ms ->
  (forall x, wakes x c = false) -> K (before ++ [c]) w'.
Proof.
  intros E1 E2 E3 E4 P F Wk. pose proof HK as [K1 K2 K3 K4 K5 K6].
  assert (M : forall x, made_by (w_sent w' x) = made_by (w_sent w x)).
  { intros x. rewrite E4. unfold set. destruct (Nat.eqb_spec x ctx) as [->|]; [|reflexivity]. unfold made_by. rewrite made_app. now apply made_plain. }
  constructor.
  - intros x. rewrite E4. unfold set. destruct (Nat.eqb_spec x ctx) as [->|]; [|apply K1]. apply fine_app. split; [apply K1|exact F].
  - intros x. rewrite M. apply K2.
  - intros x. rewrite M, E2, E3, existsb_app. cbn [existsb]. rewrite Wk, !orb_false_r. apply K3.
  - intros a x. rewrite E1, E2, M. apply K4.
  - intros a x. rewrite E1. apply K5.
  - intros a x. rewrite E1. apply K6.
Qed.
End Step.

Lemma fine_wake r ps : ps = seq 2 9 -> r 0 = Some (1, 1) ->
  let ms := map shape (rev (seq 2 9 ++ [1])) ++ map (fun p => NConnect p 0 1 None) ps ++ [NConnect 1 0 0 None] in
  fine r ms /\ made ms r 1 = Some (0, 9) /\ (forall j, 2 <= j <= 10 -> made ms r j = Some (1, 1)) /\ (forall j, j = 0 \/ 10 < j -> made ms r j = r j).
Proof.
  intros -> R0 ms. unfold ms. split; [|split; [|split]].
  - cbn. repeat (split; [do 2 eexists; split; [reflexivity|lia]|]; split; [do 2 eexists; split; [reflexivity|exact I]|]).
    split; [do 2 eexists; split; [reflexivity|lia]|]. split; [|exact I]. exists 1, 1. split; [exact R0|exact I].
  - reflexivity.
  - intros j Hj. do 11 (destruct j as [|j]; [try lia; reflexivity|]). lia.
  - intros j Hj. destruct j as [|j]; [reflexivity|]. do 10 (destruct j as [|j]; [lia|]). reflexivity.
Qed.

(** the listener enters the graph *)
Lemma K_wake before w ctx c : K before w -> (forall x, wakes x c = Nat.eqb ctx x) -> K (before ++ [c]) (wake_listener w ctx).
Proof.
  intros HK Wk. pose proof HK as [K1 K2 K3 K4 K5 K6]. unfold wake_listener. destruct (K3 ctx) as [[E M1]|(E & Ep & Ew)].
  - rewrite E. constructor; [exact K1|exact K2| |exact K4|exact K5|exact K6]. intros x. destruct (Nat.eq_dec x ctx) as [->|N]; [left; auto|]. rewrite existsb_app. cbn [existsb]. rewrite Wk, (proj2 (Nat.eqb_neq ctx x)) by congruence. rewrite !orb_false_r. apply K3.
  - rewrite E. change (seq 2 9 ++ [1]) with (2 :: seq 3 8 ++ [1]) at 1. cbv iota beta. change (2 :: seq 3 8 ++ [1]) with (seq 2 9 ++ [1]).
    destruct (fine_wake (made_by (w_sent w ctx)) (w_params w ctx) Ep (K2 ctx)) as (F1 & F2 & F3 & F4).
    set (ms := map shape (rev (seq 2 9 ++ [1])) ++ map (fun p => NConnect p 0 1 None) (w_params w ctx)) in *.
    assert (S : forall x, w_sent (link_up (say (mk_world (w_objs w) (w_conns w) (set (w_waiting w) ctx []) (set (w_params w) ctx []) (w_sent w)) ctx ms) ctx 1 0 0 None) x =
                          if Nat.eqb x ctx then w_sent w ctx ++ (map shape (rev (seq 2 9 ++ [1])) ++ map (fun p => NConnect p 0 1 None) (w_params w ctx) ++ [NConnect 1 0 0 None]) else w_sent w x).
    { intros x. cbn [link_up say w_sent w_objs w_conns w_waiting w_params]. unfold set. rewrite Nat.eqb_refl. destruct (Nat.eqb x ctx); [|reflexivity]. unfold ms. rewrite <- !app_assoc. reflexivity. }
    set (w' := link_up _ ctx 1 0 0 None) in *. assert (O' : w_objs w' = w_objs w) by reflexivity. assert (W' : w_waiting w' = set (w_waiting w) ctx []) by reflexivity. assert (P' : w_params w' = set (w_params w) ctx []) by reflexivity.
    set (all := map shape (rev (seq 2 9 ++ [1])) ++ map (fun p => NConnect p 0 1 None) (w_params w ctx) ++ [NConnect 1 0 0 None]) in *. clearbody w'.
    assert (M : forall x j, made_by (w_sent w' x) j = if Nat.eqb x ctx then made all (made_by (w_sent w ctx)) j else made_by (w_sent w x) j).
    { intros x j. rewrite S. destruct (Nat.eqb x ctx); [|reflexivity]. unfold made_by. now rewrite made_app. }
    constructor.
    + intros x. rewrite S. destruct (Nat.eqb x ctx); [|apply K1]. apply fine_app. split; [apply K1|exact F1].
    + intros x. rewrite M. destruct (Nat.eqb_spec x ctx) as [->|]; [|apply K2]. rewrite F4 by lia. apply K2.
    + intros x. destruct (Nat.eq_dec x ctx) as [->|N].
      * left. rewrite W', set_same, M, Nat.eqb_refl. auto.
      * rewrite W', P', M, !set_other by assumption. rewrite (proj2 (Nat.eqb_neq x ctx) N). rewrite existsb_app. cbn [existsb]. rewrite Wk, (proj2 (Nat.eqb_neq ctx x)) by congruence. rewrite !orb_false_r. apply K3.
    + intros a x Ha Hx. rewrite O' in Ha. unfold shown_to. rewrite !M. destruct (Nat.eqb_spec (o_ctx x) ctx) as [Ec|N].
      * destruct (Nat.le_gt_cases (o_in x) 10) as [L|G].
        -- destruct (K5 a x Ha L) as (-> & -> & -> & N1). destruct (Nat.eq_dec (o_in x) 0) as [Z|Z].
           ++ rewrite Z, F4, K2 by lia. split; eexists; reflexivity.
           ++ rewrite F3 by lia. split; eexists; reflexivity.
        -- rewrite !F4 by (right; first [exact G|exact (K6 a x Ha G)]). rewrite <- Ec. apply (K4 a x Ha). lia.
      * apply (K4 a x Ha). intros H. specialize (Hx H). rewrite W', set_other in Hx by exact N. exact Hx.
    + intros a x Ha. rewrite O' in Ha. apply (K5 a x Ha).
    + intros a x Ha. rewrite O' in Ha. apply (K6 a x Ha).
Qed.

Lemma wake_keeps before w ctx : K before w -> let w' := wake_listener w ctx in
  w_objs w' = w_objs w /\ (forall j, 10 < j -> made_by (w_sent w' ctx) j = made_by (w_sent w ctx) j) /\ made_by (w_sent w' ctx) 1 = Some (0, 9).
Proof.
  intros [K1 K2 K3 K4 K5 K6] w'. unfold w', wake_listener. destruct (K3 ctx) as [[E M1]|(E & Ep & Ew)].
  - rewrite E. auto.
  - rewrite E. change (seq 2 9 ++ [1]) with (2 :: seq 3 8 ++ [1]) at 1. cbv iota beta. change (2 :: seq 3 8 ++ [1]) with (seq 2 9 ++ [1]).
    destruct (fine_wake (made_by (w_sent w ctx)) (w_params w ctx) Ep (K2 ctx)) as (F1 & F2 & F3 & F4).
    split; [reflexivity|].
    assert (S : forall j, made_by (w_sent (link_up (say (mk_world (w_objs w) (w_conns w) (set (w_waiting w) ctx []) (set (w_params w) ctx []) (w_sent w)) ctx (map shape (rev (seq 2 9 ++ [1])) ++ map (fun p => NConnect p 0 1 None) (w_params w ctx))) ctx 1 0 0 None) ctx) j =
       made (map shape (rev (seq 2 9 ++ [1])) ++ map (fun p => NConnect p 0 1 None) (w_params w ctx) ++ [NConnect 1 0 0 None]) (made_by (w_sent w ctx)) j).
    { intros j. cbn [link_up say w_sent w_objs w_conns w_waiting w_params]. rewrite !set_same. unfold made_by. rewrite <- made_app. rewrite <- !app_assoc. reflexivity. }
    split; [intros j Hj; rewrite S; apply F4; lia|]. rewrite S. exact F2.
Qed.

(** new objects: their ids are made by [ms] *)
Lemma K_new before w ctx os ms w' :
  K before w ->
  w_objs w' = w_objs w ++ map (fun o => (o, true)) os -> w_waiting w' = w_waiting w -> w_params w' = w_params w ->
  (forall x, w_sent w' x = if Nat.eqb x ctx then w_sent w ctx ++ ms else w_sent w x) ->
  fine (made_by (w_sent w ctx)) ms ->
  (forall j, made ms (made_by (w_sent w ctx)) j = made_by (w_sent w ctx) j \/ (10 < j /\ ~ in_use w ctx j)) ->
  (forall x, In x os -> o_ctx x = ctx /\ 10 < o_in x /\ 10 < o_out x /\ shown_to (made ms (made_by (w_sent w ctx))) x) ->
  K before w'.
Proof.
  intros HK E1 E2 E3 E4 F U N. pose proof HK as [K1 K2 K3 K4 K5 K6].
  assert (M : forall x j, made_by (w_sent w' x) j = if Nat.eqb x ctx then made ms (made_by (w_sent w ctx)) j else made_by (w_sent w x) j).
  { intros x j. rewrite E4. destruct (Nat.eqb x ctx); [|reflexivity]. unfold made_by. now rewrite made_app. }
  assert (M0 : forall x j, j <= 10 \/ in_use w x j -> made_by (w_sent w' x) j = made_by (w_sent w x) j).
  { intros x j H. rewrite M. destruct (Nat.eqb_spec x ctx) as [->|]; [|reflexivity]. destruct (U j) as [E|[G NU]]; [exact E|]. destruct H; [lia|contradiction]. }
  assert (Split : forall a x, live_at (w_objs w') a x -> live_at (w_objs w) a x \/ In x os).
  { intros a x H. unfold live_at in H. rewrite E1 in H. apply nth_snoc in H as [H|[_ H]]; [left; exact H|right]. rewrite nth_error_map in H. destruct (nth_error os _) eqn:Eo; [|discriminate]. cbn in H. injection H as <-. eapply nth_error_In; exact Eo. }
  constructor.
  - intros x. rewrite E4. destruct (Nat.eqb x ctx); [|apply K1]. apply fine_app. split; [apply K1|exact F].
  - intros x. rewrite M0 by lia. apply K2.
  - intros x. rewrite M0 by lia. rewrite E2, E3. apply K3.
  - intros a x Ha Hx. rewrite E2 in Hx. destruct (Split a x Ha) as [H|H].
    + unfold shown_to. rewrite !M0; [apply (K4 a x H Hx)| |]; right; exists a, x; auto.
    + destruct (N x H) as (-> & _ & _ & [[k S1] [i S2]]). unfold shown_to. rewrite !M, Nat.eqb_refl. split; eauto.
  - intros a x Ha. destruct (Split a x Ha) as [H|H]; [apply (K5 a x H)|]. destruct (N x H). lia.
  - intros a x Ha. destruct (Split a x Ha) as [H|H]; [apply (K6 a x H)|]. destruct (N x H). lia.
Qed.

Lemma node_notes before w ctx id ins outs params :
  K before w -> NoDup (id :: params) -> Forall (fun i => 10 < i /\ ~ in_use w ctx i) (id :: params) ->
  let ms := map (fun p => NRegister p 1 1) params ++ [NRegister id ins outs] ++ map (fun p => NConnect p 0 id None) params in
  let r := made_by (w_sent w ctx) in
  fine r ms /\ (forall j, made ms r j = r j \/ (10 < j /\ ~ in_use w ctx j)) /\
  (forall x, In x (mk_object ctx id id ins outs :: map (param_of ctx) params) -> o_ctx x = ctx /\ 10 < o_in x /\ 10 < o_out x /\ shown_to (made ms r) x).
Proof.
  intros HK ND FF ms r. inversion ND as [|? ? Nid NDp]; subst.
  assert (MJ : forall j, made ms r j = if Nat.eqb j id then Some (ins, outs) else if existsb (Nat.eqb j) params then Some (1, 1) else r j).
  { intros j. unfold ms. rewrite !made_app. cbn [made]. rewrite made_plain by apply plain_params. rewrite made_regs. reflexivity. }
  assert (Fi := Forall_inv FF). assert (Fp := Forall_inv_tail FF). cbv beta in Fi. rewrite Forall_forall in Fp.
  split; [|split].
  - unfold ms. apply fine_app. split; [apply fine_regs|]. cbn [app fine]. apply (fine_params _ _ _ ins outs); [now rewrite Nat.eqb_refl|].
    apply Forall_forall. intros p Hp. rewrite (proj2 (Nat.eqb_neq p id)) by (intros ->; contradiction). rewrite made_regs. now rewrite (proj2 (existsb_in p params) Hp).
  - intros j. rewrite MJ. destruct (Nat.eqb_spec j id) as [->|N]; [right; exact Fi|]. destruct (existsb (Nat.eqb j) params) eqn:E; [|left; reflexivity]. right. apply Fp. now apply existsb_in.
  - intros x [<-|Hx].
    + cbn [o_ctx o_in o_out]. split; [reflexivity|]. split; [apply Fi|]. split; [apply Fi|]. unfold shown_to. cbn [o_in o_out o_ins o_outs]. rewrite MJ, Nat.eqb_refl. split; eexists; reflexivity.
    + apply in_map_iff in Hx as (p & <- & Hp). unfold param_of. cbn [o_ctx o_in o_out]. split; [reflexivity|]. split; [apply (Fp p Hp)|]. split; [apply (Fp p Hp)|]. unfold shown_to. cbn [o_in o_out o_ins o_outs].
      rewrite MJ, (proj2 (Nat.eqb_neq p id)) by (intros ->; contradiction). rewrite (proj2 (existsb_in p params) Hp). split; eexists; reflexivity.
Qed.

Lemma made_drops ids r j : made (map NDrop ids) r j = if existsb (Nat.eqb j) ids then None else r j.
Proof.
  revert r. induction ids as [|p ps IH]; intros r; [reflexivity|]. cbn [map made existsb]. rewrite IH.
  destruct (existsb (Nat.eqb j) ps); [now rewrite orb_true_r|]. rewrite orb_false_r. reflexivity.
Qed.
Lemma fine_drops ids r : fine r (map NDrop ids).
Proof. revert r. induction ids as [|p ps IH]; intros r; cbn [map fine]; auto. Qed.

Lemma K_drop before w ctx ids w' :
  K before w -> Forall (fun id => 10 < id) ids ->
  (forall a x, live_at (w_objs w') a x -> live_at (w_objs w) a x /\ (o_ctx x = ctx -> ~ In (o_in x) ids /\ ~ In (o_out x) ids)) ->
  w_waiting w' = w_waiting w -> w_params w' = w_params w ->
  (forall x, w_sent w' x = if Nat.eqb x ctx then w_sent w ctx ++ map NDrop ids else w_sent w x) -> K before w'.
Proof.
  intros HK G L E2 E3 E4. pose proof HK as [K1 K2 K3 K4 K5 K6]. rewrite Forall_forall in G.
  assert (M : forall x j, (x = ctx -> ~ In j ids) -> made_by (w_sent w' x) j = made_by (w_sent w x) j).
  { intros x j H. rewrite E4. destruct (Nat.eqb_spec x ctx) as [->|]; [|reflexivity]. unfold made_by. rewrite made_app, made_drops. rewrite existsb_notin by auto. reflexivity. }
  assert (M0 : forall x j, j <= 10 -> made_by (w_sent w' x) j = made_by (w_sent w x) j).
  { intros x j H. apply M. intros _ Hi. specialize (G j Hi). lia. }
  constructor.
  - intros x. rewrite E4. destruct (Nat.eqb x ctx); [|apply K1]. apply fine_app. split; [apply K1|apply fine_drops].
  - intros x. rewrite M0 by lia. apply K2.
  - intros x. rewrite M0 by lia. rewrite E2, E3. apply K3.
  - intros a x Ha Hx. destruct (L a x Ha) as [Ha' Nx]. rewrite E2 in Hx. unfold shown_to. rewrite !M by (intros; now apply Nx). apply (K4 a x Ha' Hx).
  - intros a x Ha. destruct (L a x Ha) as [Ha' _]. apply (K5 a x Ha').
  - intros a x Ha. destruct (L a x Ha) as [Ha' _]. apply (K6 a x Ha').
Qed.

Lemma K_more before w c : K before w -> (forall x, wakes x c = false) -> K (before ++ [c]) w.
Proof.
  intros [K1 K2 K3 K4 K5 K6] Wk. constructor; try assumption. intros x. rewrite existsb_app. cbn [existsb]. rewrite Wk, !orb_false_r. apply K3.
Qed.

Lemma K_down before w v c ctx src out dst inp : K before w -> J (w_objs w) (w_conns w) v -> (forall x, wakes x c = false) -> K (before ++ [c]) (snd (link_down w ctx src out dst inp)).
Proof.
  intros HK HJ Wk. set (port := match inp with Some i => Some (Some i) | None => None end).
  assert (G : forall l, Forall plain_note (map (undo src) l) /\ forall r, fine r (map (undo src) l)).
  { induction l as [|[[[a o] d] p] l [IH1 IH2]]; [split; [constructor|intros; exact I]|]. split; [constructor; [exact I|exact IH1]|]. intros r. apply IH2. }
  assert (E : snd (link_down w ctx src out dst inp) = say (mk_world (w_objs w) (set (w_conns w) ctx (filter (fun c => negb (selects src out dst port c)) (w_conns w ctx))) (w_waiting w) (w_params w) (w_sent w)) ctx (map (undo src) (filter (selects src out dst port) (w_conns w ctx)))).
  { unfold link_down. fold port. destruct (filter (selects src out dst port) (w_conns w ctx)); destruct dst; reflexivity. }
  rewrite E. destruct (G (filter (selects src out dst port) (w_conns w ctx))) as [G1 G2]. eapply (K_plain before w HK c ctx); try reflexivity; auto.
Qed.

Definition asked_call (before : list call) (w : world) (c : call) : Prop :=
  match c with Connect a _ b _ => forall x, held w a = Some x \/ held w b = Some x -> 2 <= o_in x <= 10 -> existsb (wakes (o_ctx x)) before = true | _ => True end.

Lemma K_step before w v c : K before w -> J (w_objs w) (w_conns w) v -> fresh_call w c -> asked_call before w c -> K (before ++ [c]) (snd (call_step c w)).
Proof.
  intros HK HJ Fr As. pose proof HK as [K1 K2 K3 K4 K5 K6].
  destruct c as [ctx id ins outs params|ctx wr rd p|ctx id params|ctx|a out b inp|a|a b|a out|a b out|a b out inp|a].
  - destruct (Fr ctx _ eq_refl) as [ND FF]. destruct (node_notes before w ctx id ins outs params HK ND FF) as (N1 & N2 & N3). cbn [call_step snd].
    apply K_more; [|reflexivity]. eapply (K_new before w ctx (mk_object ctx id id ins outs :: map (param_of ctx) params) _ _ HK); try reflexivity; [exact N1|exact N2|exact N3].
  - destruct (Fr ctx _ eq_refl) as [ND FF]. cbn [call_step snd].
    assert (Fw := Forall_inv FF). assert (F' := Forall_inv_tail FF). assert (Frd := Forall_inv F'). assert (Fp := Forall_inv (Forall_inv_tail F')). cbv beta in Fw, Frd, Fp.
    assert (D : wr <> rd /\ wr <> p /\ rd <> p).
    { inversion ND as [|? ? N1 ND1]; subst. inversion ND1 as [|? ? N2 _]; subst. cbn in N1, N2. intuition congruence. }
    destruct D as (D1 & D2 & D3).
    set (ms := [NRegister p 1 1; NRegister rd 1 1; NConnect p 0 rd None; NRegister wr 1 1; NBreaker wr; NConnect wr 0 rd (Some 0)]).
    set (r := made_by (w_sent w ctx)).
    assert (MJ : forall j, made ms r j = if Nat.eqb j wr then Some (1, 1) else if Nat.eqb j rd then Some (1, 1) else if Nat.eqb j p then Some (1, 1) else r j) by reflexivity.
    apply K_more; [|reflexivity]. apply (K_new before w ctx [mk_object ctx wr rd 1 1; param_of ctx p] ms _ HK); try reflexivity.
    + intros x. cbn [link_up say new_objs w_sent w_objs w_conns w_waiting w_params]. unfold set. rewrite Nat.eqb_refl. destruct (Nat.eqb x ctx); [|reflexivity]. rewrite <- app_assoc. reflexivity.
    + fold r. unfold ms. cbn [fine]. rewrite !Nat.eqb_refl, (proj2 (Nat.eqb_neq p rd)), (proj2 (Nat.eqb_neq rd wr)) by congruence.
      split; [exists 1, 1; auto|]. split; [exists 1, 1; auto|]. split; [exists 1, 1; auto|]. split; [exists 1, 1; split; [reflexivity|lia]|exact I].
    + intros j. fold r. rewrite MJ. destruct (Nat.eqb_spec j wr) as [->|]; [right; exact Fw|]. destruct (Nat.eqb_spec j rd) as [->|]; [right; exact Frd|]. destruct (Nat.eqb_spec j p) as [->|]; [right; exact Fp|]. left; reflexivity.
    + intros x Hx. fold r. destruct Hx as [<-|[<-|[]]]; unfold param_of; cbn [o_ctx o_in o_out]; (split; [reflexivity|]); (split; [tauto|]); (split; [tauto|]); unfold shown_to; cbn [o_in o_out o_ins o_outs]; rewrite !MJ, ?Nat.eqb_refl.
      * split; [eexists; reflexivity|]. rewrite (proj2 (Nat.eqb_neq rd wr)) by congruence. eexists; reflexivity.
      * rewrite (proj2 (Nat.eqb_neq p wr)), (proj2 (Nat.eqb_neq p rd)) by congruence. split; eexists; reflexivity.
  - destruct (Fr ctx _ eq_refl) as [ND FF]. cbn [call_step snd]. inversion ND as [|? ? Nid NDp]; subst.
    assert (Fi := Forall_inv FF). assert (Fp := Forall_inv_tail FF). cbv beta in Fi. rewrite Forall_forall in Fp.
    set (w1 := say w ctx (map (fun p => NRegister p 1 1) params)).
    assert (HK1 : K before w1).
    { apply (K_new before w ctx [] (map (fun p => NRegister p 1 1) params) w1 HK); try reflexivity.
      - cbn [map]. now rewrite app_nil_r.
      - apply fine_regs.
      - intros j. rewrite made_regs. destruct (existsb (Nat.eqb j) params) eqn:E; [|left; reflexivity]. right. apply Fp. now apply existsb_in.
      - intros x []. }
    assert (HK2 : K (before ++ [MakePanner ctx id params]) (wake_listener w1 ctx)) by (apply K_wake; [exact HK1|reflexivity]).
    destruct (wake_keeps before w1 ctx HK1) as (O2 & N2 & Wa).
    assert (O2' : w_objs (wake_listener w1 ctx) = w_objs w) by (rewrite O2; reflexivity).
    set (w2 := wake_listener w1 ctx) in *. clearbody w2. set (r := made_by (w_sent w2 ctx)) in *.
    assert (Rp : forall p, In p params -> r p = Some (1, 1)).
    { intros p Hp. unfold r. rewrite N2 by (apply Fp; exact Hp). unfold w1. cbn [say w_sent]. rewrite set_same. unfold made_by. rewrite made_app, made_regs. now rewrite (proj2 (existsb_in p params) Hp). }
    set (ms := NRegister id 1 1 :: map (fun p => NConnect p 0 id None) params ++ [NConnect 1 0 id None]).
    assert (MJ : forall j, made ms r j = if Nat.eqb j id then Some (1, 1) else r j).
    { intros j. unfold ms. cbn [made]. rewrite made_app. cbn [made]. rewrite made_plain by apply plain_params. reflexivity. }
    apply (K_new _ w2 ctx (mk_object ctx id id 1 1 :: map (param_of ctx) params) ms _ HK2); try reflexivity.
    + intros x. cbn [link_up say new_objs w_sent w_objs w_conns w_waiting w_params]. unfold set. rewrite Nat.eqb_refl. destruct (Nat.eqb x ctx); [|reflexivity]. rewrite <- app_assoc. reflexivity.
    + fold r. unfold ms. cbn [fine]. apply fine_app. split.
      * apply (fine_params _ _ _ 1 1); [now rewrite Nat.eqb_refl|]. apply Forall_forall. intros p Hp. rewrite (proj2 (Nat.eqb_neq p id)) by (intros ->; contradiction). now apply Rp.
      * rewrite made_plain by apply plain_params. cbn [fine]. rewrite Nat.eqb_refl. rewrite (proj2 (Nat.eqb_neq 1 id)) by lia.
        split; [exists 0, 9; split; [exact Wa|lia]|]. split; [exists 1, 1; auto|exact I].
    + intros j. fold r. rewrite MJ. destruct (Nat.eqb_spec j id) as [->|]; [|left; reflexivity]. right. destruct Fi as [Fi1 Fi2]. split; [exact Fi1|]. unfold in_use in *. rewrite O2'. exact Fi2.
    + intros x Hx. fold r. destruct Hx as [<-|Hx].
      * cbn [o_ctx o_in o_out]. split; [reflexivity|]. split; [apply Fi|]. split; [apply Fi|]. unfold shown_to. cbn [o_in o_out o_ins o_outs]. rewrite MJ, Nat.eqb_refl. split; eexists; reflexivity.
      * apply in_map_iff in Hx as (p & <- & Hp). unfold param_of. cbn [o_ctx o_in o_out]. split; [reflexivity|]. split; [apply (Fp p Hp)|]. split; [apply (Fp p Hp)|]. unfold shown_to. cbn [o_in o_out o_ins o_outs].
        rewrite MJ, (proj2 (Nat.eqb_neq p id)) by (intros ->; contradiction). rewrite (Rp p Hp). split; eexists; reflexivity.
  - cbn [call_step snd]. apply K_wake; [exact HK|]. intros x. cbn [wakes]. reflexivity.
  - cbn [call_step]. destruct (held w a) as [x|] eqn:Ha; [|apply K_more; [exact HK|reflexivity]]. destruct (held w b) as [y|] eqn:Hb; [|apply K_more; [exact HK|reflexivity]].
    destruct (Nat.eqb_spec (o_ctx x) (o_ctx y)) as [Ec|]; cbn [negb]; [|apply K_more; [exact HK|reflexivity]].
    destruct (Nat.ltb_spec out (o_outs x)) as [Lo|]; cbn [negb]; [|apply K_more; [exact HK|reflexivity]].
    destruct (Nat.ltb_spec inp (o_ins y)) as [Li|]; cbn [negb]; [|apply K_more; [exact HK|reflexivity]].
    cbn [snd]. cbn [asked_call] in As.
    assert (Wt : forall z, held w a = Some z \/ held w b = Some z -> 2 <= o_in z <= 10 -> w_waiting w (o_ctx z) = []).
    { intros z Hz Hr. specialize (As z). rewrite Ha, Hb in As. rewrite Ha, Hb in Hz. specialize (As Hz Hr). destruct (K3 (o_ctx z)) as [[E _]|(_ & _ & E)]; [exact E|congruence]. }
    assert (Sx : shown_to (made_by (w_sent w (o_ctx x))) x) by (apply (K4 a); [now apply held_live|apply Wt; left; exact Ha]).
    assert (Sy : shown_to (made_by (w_sent w (o_ctx x))) y) by (rewrite Ec; apply (K4 b); [now apply held_live|apply Wt; right; exact Hb]).
    eapply (K_plain before w HK _ (o_ctx x)); try reflexivity; [constructor; [exact I|constructor]|].
    cbn [fine]. destruct Sx as [_ [i Sx]], Sy as [[k Sy] _]. split; [exists i, (o_outs x); auto|]. split; [exists (o_ins y), k; auto|exact I].
  - cbn [call_step]. destruct (held w a) as [x|] eqn:Ha; [|apply K_more; [exact HK|reflexivity]]. eapply K_down; [exact HK|exact HJ|reflexivity].
  - cbn [call_step]. destruct (held w a) as [x|] eqn:Ha; [|apply K_more; [exact HK|reflexivity]]. destruct (held w b) as [y|] eqn:Hb; [|apply K_more; [exact HK|reflexivity]].
    destruct (negb _); [apply K_more; [exact HK|reflexivity]|]. eapply K_down; [exact HK|exact HJ|reflexivity].
  - cbn [call_step]. destruct (held w a) as [x|] eqn:Ha; [|apply K_more; [exact HK|reflexivity]]. destruct (negb _); [apply K_more; [exact HK|reflexivity]|]. eapply K_down; [exact HK|exact HJ|reflexivity].
  - cbn [call_step]. destruct (held w a) as [x|] eqn:Ha; [|apply K_more; [exact HK|reflexivity]]. destruct (held w b) as [y|] eqn:Hb; [|apply K_more; [exact HK|reflexivity]].
    do 2 (destruct (negb _); [apply K_more; [exact HK|reflexivity]|]). eapply K_down; [exact HK|exact HJ|reflexivity].
  - cbn [call_step]. destruct (held w a) as [x|] eqn:Ha; [|apply K_more; [exact HK|reflexivity]]. destruct (held w b) as [y|] eqn:Hb; [|apply K_more; [exact HK|reflexivity]].
    do 3 (destruct (negb _); [apply K_more; [exact HK|reflexivity]|]). eapply K_down; [exact HK|exact HJ|reflexivity].
  - cbn [call_step]. destruct (held w a) as [x|] eqn:Ha; [|apply K_more; [exact HK|reflexivity]]. cbn [snd]. apply held_live in Ha. apply K_more; [|reflexivity].
    destruct (Nat.le_gt_cases (o_in x) 10) as [L|G].
    + destruct (K5 a x Ha L) as (E & _). assert (Mg : magic (o_in x) = true) by (unfold magic; now apply Nat.leb_le).
      rewrite E, Nat.eqb_refl, Mg. unfold drop_id. rewrite Mg. exact HK.
    + assert (Go := K6 a x Ha G). assert (Mi : magic (o_in x) = false) by (unfold magic; now apply Nat.leb_gt). assert (Mo : magic (o_out x) = false) by (unfold magic; now apply Nat.leb_gt).
      rewrite Mi. unfold drop_id. rewrite Mo, Mi.
      assert (Dis : forall b y, live_at (release (w_objs w) a) b y -> live_at (w_objs w) b y /\ (o_ctx y = o_ctx x -> o_in y <> o_out x /\ o_out y <> o_out x /\ o_in y <> o_in x /\ o_out y <> o_in x)).
      { intros b y Hb. apply live_release in Hb as [Hb N]. split; [exact Hb|]. intros Ec. destruct (j_dis _ _ _ HJ b a y x Hb Ha Ec N) as (D1 & D2 & D3).
        destruct (j_dis _ _ _ HJ a b x y Ha Hb (eq_sym Ec) (not_eq_sym N)) as (_ & D4 & _). repeat split; congruence. }
      destruct (Nat.eqb_spec (o_in x) (o_out x)) as [Eio|Nio].
      * apply (K_drop before w (o_ctx x) [o_out x]); try reflexivity; [exact HK|constructor; [exact Go|constructor]|].
        intros b y Hb. destruct (Dis b y Hb) as [H1 H2]. split; [exact H1|]. intros Ec. destruct (H2 Ec) as (D1 & D2 & _). cbn [In]. intuition congruence.
      * apply (K_drop before w (o_ctx x) [o_out x; o_in x]); try reflexivity; [exact HK|repeat constructor; assumption| |].
        -- intros b y Hb. destruct (Dis b y Hb) as [H1 H2]. split; [exact H1|]. intros Ec. destruct (H2 Ec) as (D1 & D2 & D3 & D4). cbn [In]. intuition congruence.
        -- intros y. cbn [say w_sent w_objs w_conns w_waiting w_params]. unfold set. rewrite Nat.eqb_refl. destruct (Nat.eqb y (o_ctx x)); [|reflexivity]. rewrite <- app_assoc. reflexivity.
Qed.

Lemma K_first n : K [] (world0 n).
Proof.
  assert (L : forall a x, live_at (w_objs (world0 n)) a x -> exists ctx, In x (fixtures ctx)).
  { intros a x H. unfold live_at in H. apply nth_error_In in H. unfold world0 in H. cbn [w_objs] in H. apply in_map_iff in H as (y & E & H). injection E as ->. apply in_flat_map in H as (ctx & _ & H). now exists ctx. }
  assert (Fx : forall x ctx, In x (fixtures ctx) -> o_in x = o_out x /\ o_ins x = 1 /\ o_outs x = 1 /\ (o_in x = 0 \/ 2 <= o_in x <= 10)).
  { intros x ctx [<-|H]; [cbn; lia|]. apply in_map_iff in H as (p & <- & H). apply in_seq in H. cbn. lia. }
  constructor.
  - intros ctx. exact I.
  - intros ctx. reflexivity.
  - intros ctx. right. repeat split.
  - intros a x Ha Hx. destruct (L a x Ha) as [ctx H]. destruct (Fx x ctx H) as (E & E1 & E2 & [Z|R]).
    + unfold shown_to. rewrite E1, E2, <- E, Z. split; eexists; reflexivity.
    + specialize (Hx R). discriminate Hx.
  - intros a x Ha Lx. destruct (L a x Ha) as [ctx H]. destruct (Fx x ctx H) as (E & E1 & E2 & R). lia.
  - intros a x Ha G. destruct (L a x Ha) as [ctx H]. destruct (Fx x ctx H) as (E & E1 & E2 & R). lia.
Qed.

Lemma K_run n cs : fresh_ids n cs -> asked_first n cs -> K cs (snd (calls cs (world0 n))).
Proof.
  induction cs as [|c cs IH] using rev_ind; intros F A; [apply K_first|].
  assert (F' : fresh_ids n cs) by (apply (fresh_prefix n _ [c]); exact F).
  assert (A' : asked_first n cs). { intros b a o d i after E. apply (A b a o d i (after ++ [c])). rewrite E, <- app_assoc. reflexivity. }
  destruct (run_refines n cs F') as [_ HJ]. rewrite calls_snoc. eapply K_step; [exact (IH F' A')|exact HJ| |].
  - intros ctx ids E. exact (F cs c [] eq_refl ctx ids E).
  - destruct c; try exact I. intros x Hx. exact (A cs _ _ _ _ [] eq_refl x Hx).
Qed.

Lemma ports_run n cs ctx pre s o d p post : fresh_ids n cs -> asked_first n cs ->
  w_sent (snd (calls cs (world0 n))) ctx = pre ++ NConnect s o d p :: post ->
  (exists i k, made_by pre s = Some (i, k) /\ o < k) /\ (exists i k, made_by pre d = Some (i, k) /\ match p with Some q => q < i | None => True end).
Proof.
  intros F A E. pose proof (k_fine _ _ (K_run n cs F A) ctx) as H. rewrite E in H. apply fine_app in H as [_ H]. cbn [fine] in H. destruct H as (H1 & H2 & _). split; [exact H1|exact H2].
Qed.
