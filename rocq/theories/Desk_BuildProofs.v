From Coq Require Import List Arith Bool ZArith Lia.
From Verif Require Import Common_Model Arith_Model Quantum_Model Route_Model Route_Spec Source_Model Graph_Model Graph_Spec Graph_OrderProofs
  Graph_TraceModel Graph_TraceSpec Graph_TraceProofs Whole_Spec Desk_Model.
From Verif Require Param_Model.
Import ListNotations.

(** ** Reaching a graph by legal messages *)
Section Reach.
Context {P Q CFG : Type}.
Variable E : env P Q CFG.
Notation graph := (graph P Q CFG).
Notation gop := (gop P CFG).
Notation node := (node P Q CFG).

Definition reaches (g : graph) (ops : list gop) (g' : graph) : Prop := legal_run E g ops /\ exists ls, grun E ops g = Some (g', ls).
Lemma reaches_nil g : reaches g [] g.
Proof. split; [exact I|]. exists []. reflexivity. Qed.
Lemma reaches_one g op g' l : legal E g op -> gstep E op g = Some (g', l) -> reaches g [op] g'.
Proof.
  intros H1 H2. split; [split; [exact H1|intros; exact I]|]. exists (l ++ []). cbn [grun]. rewrite H2. reflexivity.
Qed.
Lemma reaches_app g a : forall g1 b g2, reaches g a g1 -> reaches g1 b g2 -> reaches g (a ++ b) g2.
Proof.
  revert g. induction a as [|op a IH]; intros g g1 b g2 [H1 [ls H2]] H3; cbn [app].
  - cbn in H2. injection H2 as <- <-. exact H3.
  - cbn [grun] in H2. destruct (gstep E op g) as [[g3 l3]|] eqn:E3; [|discriminate]. destruct (grun E a g3) as [[g4 l4]|] eqn:E4; [|discriminate]. injection H2 as <- <-.
    destruct H1 as [L1 L2]. destruct (IH g3 g4 b g2) as [R1 [lr R2]]; [split; [exact (L2 _ _ E3)|exists l4; exact E4]|exact H3|].
    split; [split; [exact L1|]|].
    + intros g' l H. rewrite E3 in H. injection H as <- <-. exact R1.
    + exists (l3 ++ lr). cbn [grun]. rewrite E3, R2. reflexivity.
Qed.

(** the nodes as a function *)
Definition table := nat -> option node.
Definition is_table (g : graph) (t : table) : Prop := forall j, get (g_nodes g) j = t j.
Definition upd (t : table) (i : nat) (x : node) : table := fun j => if Nat.eqb i j then Some x else t j.
Definition with_edge (n : node) (e : edge) : node :=
  mk_node (n_proc n) (n_inputs n) (n_outputs n) (n_cfg n) (n_edges n ++ [e]) (n_dropped n) (n_connected n) (n_breaker n).
Definition with_proc (n : node) (p : P) : node :=
  mk_node p (n_inputs n) (n_outputs n) (n_cfg n) (n_edges n) (n_dropped n) (n_connected n) (n_breaker n).
Definition new_node (p : P) (ins outs : nat) (cfg : CFG) : node :=
  mk_node p (repeat (silence E) ins) (repeat (silence E) outs) cfg [] false false false.

Lemma upd_same t i x : upd t i x i = Some x.
Proof. unfold upd. rewrite Nat.eqb_refl. reflexivity. Qed.
Lemma upd_other t i x j : i <> j -> upd t i x j = t j.
Proof. intros H. unfold upd. destruct (Nat.eqb_spec i j); [contradiction|reflexivity]. Qed.

Lemma add_step g t id p ins outs cfg : is_table g t -> t id = None ->
  exists g', reaches g [OpAdd id p ins outs cfg] g' /\ is_table g' (upd t id (new_node p ins outs cfg)).
Proof.
  intros H H1. eexists. split.
  - eapply reaches_one; [|reflexivity]. cbn. intros [n Hn]. rewrite H, H1 in Hn. discriminate.
  - intros j. cbn [add_node g_nodes]. rewrite get_insert. unfold upd, new_node. destruct (Nat.eqb id j); [reflexivity|apply H].
Qed.
Lemma connect_step g t src out dst port n d : is_table g t -> t src = Some n -> out < length (n_outputs n) -> t dst = Some d ->
  (forall p, port = Some p -> p < length (n_inputs d)) ->
  exists g', reaches g [OpConnect src out dst port] g' /\ is_table g' (upd t src (with_edge n (mk_edge out dst port))).
Proof.
  intros H H1 H2 H3 H4. eexists. split.
  - eapply reaches_one.
    + cbn. split; [exists n|exists d]; rewrite H; auto.
    + cbn [gstep]. unfold add_edge. rewrite H, H1. reflexivity.
  - intros j. cbn [g_nodes]. unfold upd. destruct (Nat.eqb_spec src j) as [<-|X].
    + rewrite get_update_eq, H, H1. reflexivity.
    + rewrite get_update_neq by exact X. apply H.
Qed.
Lemma message_step g t id f n p : is_table g t -> t id = Some n -> f (n_proc n) = Some p ->
  exists g', reaches g [OpMessage id f] g' /\ is_table g' (upd t id (with_proc n p)).
Proof.
  intros H H1 H2. eexists. split.
  - eapply reaches_one.
    + cbn. exists n. rewrite H. split; [exact H1|congruence].
    + cbn [gstep]. unfold route_message. rewrite H, H1, H2. reflexivity.
  - intros j. cbn [g_nodes]. unfold upd. destruct (Nat.eqb_spec id j) as [<-|X].
    + rewrite get_update_eq, H, H1. reflexivity.
    + rewrite get_update_neq by exact X. apply H.
Qed.
Lemma is_table_ext g t t' : is_table g t -> (forall j, t j = t' j) -> is_table g t'.
Proof. intros H H' j. rewrite H. apply H'. Qed.

End Reach.

Section Build.
Context {T V : Type}.
Variable A : arith T V.
Variable PO : @Param_Model.param_ops T V.
Variable sr : V.
Notation E := (desk_env A PO sr).
Notation param := (@Param_Model.param T V).
Notation voice := (voice T V).
Notation messages := (list (gop (proc T V) channel_config)).
Notation fresh := (fresh_param (T := T) A).

(** the parameters of a voice after its calls *)
Definition set_up (x : V) (calls : list (@Param_Model.call T V)) : list Param_Model.pop :=
  map Param_Model.Schedule (Param_Model.C_set_value x :: calls).
Definition ready (x : V) (calls : list (@Param_Model.call T V)) (p : param) : Prop := exists o, Param_Model.prun PO RQ fresh (set_up x calls) = Ok (p, o).

(** the nodes of a voice *)
Definition source_state (v : voice) : @csource T := mk_csource (v_start v) (match v_stop v with Some t => t | None => t_MAX A end) false.
Definition n_source (i : nat) (v : voice) : node (proc T V) (signal V) channel_config :=
  mk_node (P_constant (source_state v) (offset_id i)) [] [silent_signal A] node_config [mk_edge 0 (gain_id i) (Some 0)] false false false.
Definition n_param (p : param) (i : nat) : node (proc T V) (signal V) channel_config :=
  mk_node (P_param p) [silent_signal A] [silent_signal A] param_config [mk_edge 0 i None] false false false.
Definition n_gain (i : nat) : node (proc T V) (signal V) channel_config :=
  mk_node (P_gain (level_id i)) [silent_signal A] [silent_signal A] node_config [mk_edge 0 0 (Some 0)] false false false.
Definition n_destination (n : nat) : node (proc T V) (signal V) channel_config :=
  mk_node P_destination [silent_signal A] [silent_signal A] (destination_config n) [] false false false.

(** a voice with its two parameters *)
Definition set_voice := (voice * (param * param))%type.
Definition slot (l : list set_voice) (j : nat) : option (node (proc T V) (signal V) channel_config) :=
  match nth_error l ((j - 11) / 4) with
  | None => None
  | Some (v, (po, pg)) =>
      let i := (j - 11) / 4 in
      match (j - 11) mod 4 with
      | 0 => Some (n_source i v)
      | 1 => Some (n_param po (source_id i))
      | 2 => Some (n_gain i)
      | _ => Some (n_param pg (gain_id i))
      end
  end.
Definition desk_table (n : nat) (l : list set_voice) : table := fun j =>
  if Nat.eqb j 0 then Some (n_destination n) else if Nat.ltb j 11 then None else slot l j.

Lemma div4 i r : r < 4 -> (11 + 4 * i + r - 11) / 4 = i /\ (11 + 4 * i + r - 11) mod 4 = r.
Proof.
  intros H. replace (11 + 4 * i + r - 11) with (r + i * 4) by lia.
  rewrite Nat.div_add, Nat.mod_add, Nat.div_small, Nat.mod_small by lia. lia.
Qed.
Lemma split4 j : 11 <= j -> exists i r, r < 4 /\ j = 11 + 4 * i + r.
Proof.
  intros H. exists ((j - 11) / 4), ((j - 11) mod 4). pose proof (Nat.div_mod (j - 11) 4 ltac:(lia)). pose proof (Nat.mod_upper_bound (j - 11) 4 ltac:(lia)). lia.
Qed.
Lemma slot_at l i r : r < 4 -> slot l (11 + 4 * i + r) =
  match nth_error l i with
  | None => None
  | Some (v, (po, pg)) => match r with 0 => Some (n_source i v) | 1 => Some (n_param po (source_id i)) | 2 => Some (n_gain i) | _ => Some (n_param pg (gain_id i)) end
  end.
Proof. intros H. unfold slot. destruct (div4 i r H) as [-> ->]. reflexivity. Qed.
Lemma table_at n l i r : r < 4 -> desk_table n l (11 + 4 * i + r) =
  match nth_error l i with
  | None => None
  | Some (v, (po, pg)) => match r with 0 => Some (n_source i v) | 1 => Some (n_param po (source_id i)) | 2 => Some (n_gain i) | _ => Some (n_param pg (gain_id i)) end
  end.
Proof.
  intros H. unfold desk_table. destruct (Nat.eqb_spec (11 + 4 * i + r) 0); [lia|]. destruct (Nat.ltb_spec (11 + 4 * i + r) 11); [lia|]. apply slot_at. exact H.
Qed.

(** calls of one parameter *)
Lemma automation_step id calls : forall g t n p p' o, is_table g t -> t id = Some n -> n_proc n = P_param p ->
  Param_Model.prun PO RQ p (map Param_Model.Schedule calls) = Ok (p', o) ->
  exists g', reaches E g (automation PO id calls) g' /\ is_table g' (upd t id (with_proc n (P_param p'))).
Proof.
  induction calls as [|c calls IH]; intros g t n p p' o HT Hn Hp H; cbn [map Param_Model.prun] in H.
  - injection H as <- <-. exists g. split; [apply reaches_nil|]. eapply is_table_ext; [exact HT|]. intros j. unfold upd. destruct (Nat.eqb_spec id j) as [<-|]; [|reflexivity].
    rewrite Hn. f_equal. destruct n; cbn in *. unfold with_proc. cbn. congruence.
  - cbn [Param_Model.pstep] in H. unfold automation. cbn [flat_map]. fold (automation PO id calls).
    destruct (Param_Model.call_event PO c) as [e|] eqn:Ee.
    + destruct (Param_Model.handle_incoming_event PO p e) as [p1| |] eqn:Eh; cbn [bind] in H; try discriminate.
      destruct (Param_Model.prun PO RQ (fst (p1, [])) (map Param_Model.Schedule calls)) as [[p2 o2]| |] eqn:Er; cbn [bind] in H; try discriminate. cbn [fst snd app] in *.
      injection H as <- <-.
      destruct (message_step E g t id (on_event PO e) n (P_param p1) HT Hn) as (g1 & R1 & T1); [unfold on_event; rewrite Hp, Eh; reflexivity|].
      destruct (IH g1 _ (with_proc n (P_param p1)) p1 p2 o2 T1 (upd_same _ _ _) eq_refl Er) as (g2 & R2 & T2).
      exists g2. split; [exact (reaches_app E g [OpMessage id (on_event PO e)] g1 (automation PO id calls) g2 R1 R2)|]. eapply is_table_ext; [exact T2|]. intros j. unfold upd. destruct (Nat.eqb id j); reflexivity.
    + cbn [bind fst snd] in H. destruct (Param_Model.prun PO RQ p (map Param_Model.Schedule calls)) as [[p2 o2]| |] eqn:Er; cbn [bind] in H; try discriminate. injection H as <- <-.
      cbn [app]. eapply IH; eassumption.
Qed.
Lemma prun_app RQ : forall a b (p p' : param) o, Param_Model.prun PO RQ p (a ++ b) = Ok (p', o) ->
  exists p1 o1 o2, Param_Model.prun PO RQ p a = Ok (p1, o1) /\ Param_Model.prun PO RQ p1 b = Ok (p', o2) /\ o = o1 ++ o2.
Proof.
  induction a as [|x a IH]; intros b p p' o H; cbn [app Param_Model.prun] in *; [exists p, [], o; auto|].
  destruct (Param_Model.pstep PO RQ p x) as [[q l]| |]; cbn [bind fst snd] in *; try discriminate.
  destruct (Param_Model.prun PO RQ q (a ++ b)) as [[q2 l2]| |] eqn:E2; cbn [bind fst snd] in *; try discriminate. injection H as <- <-.
  destruct (IH _ _ _ _ E2) as (p1 & o1 & o2 & H1 & H2 & ->). exists p1, (l ++ o1), o2. rewrite H1. cbn [bind fst snd]. rewrite H2, app_assoc. auto.
Qed.

Ltac look := cbv [upd offset_id source_id gain_id level_id]; repeat (match goal with |- context [Nat.eqb ?a ?b] => destruct (Nat.eqb_spec a b); [try lia|try lia] end); try reflexivity.

Lemma voice_step n l g i v po pg : is_table g (desk_table n l) -> i = length l -> ready (v_offset v) (v_offset_calls v) po -> ready (v_gain v) (v_gain_calls v) pg ->
  exists g', reaches E g (voice_messages A PO i v) g' /\ is_table g' (desk_table n (l ++ [(v, (po, pg))])).
Proof.
  intros H Hi [oo Ho] [og Hg].
  unfold set_up in Ho, Hg. cbn [map] in Ho, Hg.
  change (Param_Model.Schedule ?x :: ?y) with ([Param_Model.Schedule x] ++ y) in Ho. change (Param_Model.Schedule ?x :: ?y) with ([Param_Model.Schedule x] ++ y) in Hg.
  apply prun_app in Ho. destruct Ho as (po1 & oo1 & oo2 & Ho1 & Ho2 & _). apply prun_app in Hg. destruct Hg as (pg1 & og1 & og2 & Hg1 & Hg2 & _).
  assert (F : forall r, r < 4 -> desk_table n l (11 + 4 * i + r) = None).
  { intros r Hr. rewrite table_at by exact Hr. destruct (nth_error l i) eqn:X; [|reflexivity]. assert (i < length l) by (apply nth_error_Some; congruence). lia. }
  assert (F0 := F 0 ltac:(lia)). assert (F1 := F 1 ltac:(lia)). assert (F2 := F 2 ltac:(lia)). assert (F3 := F 3 ltac:(lia)).
  replace (11 + 4 * i + 0) with (source_id i) in F0 by (unfold source_id; lia). replace (11 + 4 * i + 1) with (offset_id i) in F1 by (unfold offset_id; lia).
  replace (11 + 4 * i + 2) with (gain_id i) in F2 by (unfold gain_id; lia). replace (11 + 4 * i + 3) with (level_id i) in F3 by (unfold level_id; lia).
  assert (N1 : source_id i <> offset_id i) by (unfold source_id, offset_id; lia). assert (N2 : source_id i <> gain_id i) by (unfold source_id, gain_id; lia).
  assert (N3 : source_id i <> level_id i) by (unfold source_id, level_id; lia). assert (N4 : offset_id i <> gain_id i) by (unfold offset_id, gain_id; lia).
  assert (N5 : offset_id i <> level_id i) by (unfold offset_id, level_id; lia). assert (N6 : gain_id i <> level_id i) by (unfold gain_id, level_id; lia).
  assert (Z1 : source_id i <> 0) by (unfold source_id; lia). assert (Z2 : offset_id i <> 0) by (unfold offset_id; lia). assert (Z3 : gain_id i <> 0) by (unfold gain_id; lia). assert (Z4 : level_id i <> 0) by (unfold level_id; lia).
  assert (F4 : desk_table n l 0 = Some (n_destination n)) by reflexivity.
  set (t0 := desk_table n l) in *.
  assert (Same : forall (t : @table (proc T V) (signal V) channel_config) a x b, a = b -> upd t a x b = Some x) by (intros; subst; apply upd_same).
  destruct (add_step E g t0 (offset_id i) (P_param fresh) 1 1 param_config H F1) as (g1 & R1 & T1).
  destruct (automation_step (offset_id i) [Param_Model.C_set_value (v_offset v)] g1 _ _ fresh po1 oo1 T1 (upd_same _ _ _) eq_refl Ho1) as (g2 & R2 & T2).
  destruct (add_step E g2 _ (source_id i) (P_constant (cs_new A) (offset_id i)) 0 1 node_config T2) as (g3 & R3 & T3); [rewrite !upd_other by auto; exact F0|].
  destruct (connect_step E g3 _ (offset_id i) 0 (source_id i) None (with_proc (new_node E (P_param fresh) 1 1 param_config) (P_param po1)) (new_node E (P_constant (cs_new A) (offset_id i)) 0 1 node_config) T3) as (g4 & R4 & T4);
    [rewrite upd_other by auto; apply upd_same|cbn; lia|apply upd_same|discriminate|].
  destruct (add_step E g4 _ (level_id i) (P_param fresh) 1 1 param_config T4) as (g5 & R5 & T5); [rewrite !upd_other by auto; exact F3|].
  destruct (automation_step (level_id i) [Param_Model.C_set_value (v_gain v)] g5 _ _ fresh pg1 og1 T5 (upd_same _ _ _) eq_refl Hg1) as (g6 & R6 & T6).
  destruct (add_step E g6 _ (gain_id i) (P_gain (level_id i)) 1 1 node_config T6) as (g7 & R7 & T7); [rewrite !upd_other by auto; exact F2|].
  destruct (connect_step E g7 _ (level_id i) 0 (gain_id i) None (with_proc (new_node E (P_param fresh) 1 1 param_config) (P_param pg1)) (new_node E (P_gain (level_id i)) 1 1 node_config) T7) as (g8 & R8 & T8);
    [rewrite upd_other by auto; apply upd_same|cbn; lia|apply upd_same|discriminate|].
  destruct (connect_step E g8 _ (source_id i) 0 (gain_id i) (Some 0) (new_node E (P_constant (cs_new A) (offset_id i)) 0 1 node_config) (new_node E (P_gain (level_id i)) 1 1 node_config) T8) as (g9 & R9 & T9);
    [rewrite !upd_other by auto; apply upd_same|cbn; lia|rewrite upd_other by auto; apply upd_same|intros p [= <-]; cbn; lia|].
  destruct (connect_step E g9 _ (gain_id i) 0 0 (Some 0) (new_node E (P_gain (level_id i)) 1 1 node_config) (n_destination n) T9) as (g10 & R10 & T10);
    [rewrite !upd_other by auto; apply upd_same|cbn; lia|rewrite !upd_other by auto; exact F4|intros p [= <-]; cbn; lia|].
  destruct (automation_step (offset_id i) (v_offset_calls v) g10 _ (with_edge (with_proc (new_node E (P_param fresh) 1 1 param_config) (P_param po1)) (mk_edge 0 (source_id i) None)) po1 po oo2 T10) as (g11 & R11 & T11);
    [rewrite !upd_other by auto; apply upd_same|reflexivity|exact Ho2|].
  destruct (automation_step (level_id i) (v_gain_calls v) g11 _ (with_edge (with_proc (new_node E (P_param fresh) 1 1 param_config) (P_param pg1)) (mk_edge 0 (gain_id i) None)) pg1 pg og2 T11) as (g12 & R12 & T12);
    [rewrite !upd_other by auto; apply upd_same|reflexivity|exact Hg2|].
  destruct (message_step E g12 _ (source_id i) (on_start (v_start v)) (with_edge (new_node E (P_constant (cs_new A) (offset_id i)) 0 1 node_config) (mk_edge 0 (gain_id i) (Some 0)))
     (P_constant (mk_csource (v_start v) (t_MAX A) false) (offset_id i)) T12) as (g13 & R13 & T13);
    [rewrite !upd_other by auto; apply upd_same|reflexivity|].
  assert (X : exists g', reaches E g13 (match v_stop v with Some t => [OpMessage (source_id i) (on_stop t)] | None => [] end) g' /\
     is_table g' (upd (upd (upd (upd (upd t0 (offset_id i) (n_param po (source_id i))) (level_id i) (n_param pg (gain_id i))) (gain_id i) (n_gain i)) (source_id i) (n_source i v)) 0 (n_destination n))).
  { unfold n_source, source_state. destruct (v_stop v) as [t|].
    - destruct (message_step E g13 _ (source_id i) (on_stop t) (with_proc (with_edge (new_node E (P_constant (cs_new A) (offset_id i)) 0 1 node_config) (mk_edge 0 (gain_id i) (Some 0))) (P_constant (mk_csource (v_start v) (t_MAX A) false) (offset_id i))) (P_constant (mk_csource (v_start v) t false) (offset_id i)) T13) as (g14 & R14 & T14); [apply upd_same|reflexivity|].
      exists g14. split; [exact R14|]. eapply is_table_ext; [exact T14|]. intros j. unfold upd.
      destruct (Nat.eqb_spec (source_id i) j), (Nat.eqb_spec (level_id i) j), (Nat.eqb_spec (offset_id i) j), (Nat.eqb_spec (gain_id i) j), (Nat.eqb_spec 0 j); subst; try congruence; try reflexivity.
    - exists g13. split; [apply reaches_nil|]. eapply is_table_ext; [exact T13|]. intros j. unfold upd.
      destruct (Nat.eqb_spec (source_id i) j), (Nat.eqb_spec (level_id i) j), (Nat.eqb_spec (offset_id i) j), (Nat.eqb_spec (gain_id i) j), (Nat.eqb_spec 0 j); subst; try congruence; try reflexivity. }
  destruct X as (g14 & R14 & T14). exists g14. split.
  - unfold voice_messages. cbn [app].
    change (reaches E g ([OpAdd (offset_id i) (P_param fresh) 1 1 param_config] ++ automation PO (offset_id i) [Param_Model.C_set_value (v_offset v)] ++
      [OpAdd (source_id i) (P_constant (cs_new A) (offset_id i)) 0 1 node_config] ++ [OpConnect (offset_id i) 0 (source_id i) None] ++ [OpAdd (level_id i) (P_param fresh) 1 1 param_config] ++
      automation PO (level_id i) [Param_Model.C_set_value (v_gain v)] ++ [OpAdd (gain_id i) (P_gain (level_id i)) 1 1 node_config] ++ [OpConnect (level_id i) 0 (gain_id i) None] ++
      [OpConnect (source_id i) 0 (gain_id i) (Some 0)] ++ [OpConnect (gain_id i) 0 0 (Some 0)] ++ automation PO (offset_id i) (v_offset_calls v) ++ automation PO (level_id i) (v_gain_calls v) ++
      [OpMessage (source_id i) (on_start (v_start v))] ++ match v_stop v with Some t => [OpMessage (source_id i) (on_stop t)] | None => [] end) g14).
    repeat (eapply reaches_app; [eassumption|]). exact R14.
  - eapply is_table_ext; [exact T14|]. intros j. unfold upd.
    destruct (Nat.eqb_spec 0 j) as [<-|J0]; [reflexivity|].
    destruct (Nat.ltb_spec j 11) as [L|L].
    + assert (Y : forall k, 11 <= k -> Nat.eqb k j = false) by (intros k Hk; apply Nat.eqb_neq; lia).
      rewrite !Y by (unfold source_id, offset_id, gain_id, level_id; lia). unfold t0, desk_table. destruct (Nat.eqb_spec j 0); [reflexivity|]. destruct (Nat.ltb_spec j 11); [reflexivity|lia].
    + destruct (split4 j L) as (i' & r & Hr & ->). rewrite table_at by exact Hr.
      destruct (Nat.eq_dec i' i) as [->|Ni].
      * rewrite nth_error_app2 by lia. rewrite Hi, Nat.sub_diag. cbn [nth_error]. rewrite <- Hi.
        unfold source_id, offset_id, gain_id, level_id.
        destruct r as [|[|[|[|]]]]; [| | | |lia]; repeat (match goal with |- context [Nat.eqb ?a ?b] => destruct (Nat.eqb_spec a b) end); try lia; reflexivity.
      * assert (Y : forall k, k < 4 -> Nat.eqb (11 + 4 * i + k) (11 + 4 * i' + r) = false) by (intros k Hk; apply Nat.eqb_neq; lia).
        assert (Y0 := Y 0 ltac:(lia)). assert (Y1 := Y 1 ltac:(lia)). assert (Y2 := Y 2 ltac:(lia)). assert (Y3 := Y 3 ltac:(lia)).
        replace (11 + 4 * i + 0) with (source_id i) in Y0 by (unfold source_id; lia). replace (11 + 4 * i + 1) with (offset_id i) in Y1 by (unfold offset_id; lia).
        replace (11 + 4 * i + 2) with (gain_id i) in Y2 by (unfold gain_id; lia). replace (11 + 4 * i + 3) with (level_id i) in Y3 by (unfold level_id; lia).
        rewrite Y0, Y1, Y2, Y3. unfold t0. rewrite table_at by exact Hr. destruct (Nat.lt_ge_cases i' (length l)).
        -- rewrite nth_error_app1 by lia. reflexivity.
        -- rewrite nth_error_app2 by lia. rewrite (proj2 (nth_error_None l i')) by lia.
           replace (i' - length l) with (S (i' - length l - 1)) by lia. cbn [nth_error]. destruct (i' - length l - 1); reflexivity.
Qed.

Definition voice_ready (v : set_voice) : Prop :=
  ready (v_offset (fst v)) (v_offset_calls (fst v)) (fst (snd v)) /\ ready (v_gain (fst v)) (v_gain_calls (fst v)) (snd (snd v)).

Lemma voices_step n l : forall done g, Forall voice_ready l -> is_table g (desk_table n done) ->
  exists g', reaches E g (voices_messages A PO (length done) (map fst l)) g' /\ is_table g' (desk_table n (done ++ l)).
Proof.
  induction l as [|[v [po pg]] l IH]; intros done g HF HT; cbn [map voices_messages].
  - exists g. rewrite app_nil_r. split; [apply reaches_nil|exact HT].
  - inversion HF as [|? ? [H1 H2] H3]; subst. cbn [fst snd] in *.
    destruct (voice_step n done g (length done) v po pg HT eq_refl H1 H2) as (g1 & R1 & T1).
    destruct (IH (done ++ [(v, (po, pg))]) g1 H3 T1) as (g2 & R2 & T2). rewrite app_length in R2. cbn [length] in R2. rewrite Nat.add_1_r in R2.
    rewrite <- app_assoc in T2. exists g2. split; [eapply reaches_app; [exact R1|exact R2]|exact T2].
Qed.

Theorem desk_built n l : Forall voice_ready l ->
  exists g ls, legal_run E graph_new (desk A PO n (map fst l)) /\ grun E (desk A PO n (map fst l)) graph_new = Some (g, ls) /\
    forall j, get (g_nodes g) j = desk_table n l j.
Proof.
  intros H.
  destruct (add_step E graph_new (fun _ => None) 0 P_destination 1 1 (destination_config n)) as (g1 & R1 & T1); [intros j; apply get_repeat_None|reflexivity|].
  destruct (voices_step n l [] g1 H) as (g2 & R2 & T2).
  { eapply is_table_ext; [exact T1|]. intros j. unfold upd, desk_table, slot. destruct (Nat.eqb_spec 0 j) as [<-|]; [reflexivity|]. destruct (Nat.eqb_spec j 0); [lia|].
    destruct (Nat.ltb j 11); [reflexivity|]. destruct ((j - 11) / 4); reflexivity. }
  destruct (reaches_app E graph_new _ g1 _ g2 R1 R2) as [L [ls G]]. exists g2, ls. split; [exact L|]. split; [exact G|exact T2].
Qed.

(** the messages of the program *)
Lemma automation_messages id calls : Forall (fun m : gop (proc T V) channel_config => match m with OpMessage _ _ => True | _ => False end) (automation PO id calls).
Proof.
  unfold automation. induction calls as [|c calls IH]; cbn [flat_map]; [constructor|]. apply Forall_app. split; [|exact IH]. destruct (Param_Model.call_event PO c); repeat constructor.
Qed.
Lemma voice_only i v : messages_only (voice_messages A PO i v).
Proof.
  assert (X : forall id calls, messages_only (automation (T := T) (V := V) PO id calls)).
  { intros id calls. eapply Forall_impl; [|apply automation_messages]. intros []; tauto. }
  unfold voice_messages, messages_only. repeat (apply Forall_app; split); try apply X; repeat (apply Forall_nil || (apply Forall_cons; [exact I|])). all: try destruct (v_stop v); try (destruct (Param_Model.call_event _ _)); repeat (apply Forall_nil || (apply Forall_cons; [exact I|])).
Qed.
Lemma desk_only n l : messages_only (desk A PO n l).
Proof.
  constructor; [exact I|]. generalize 0 as i. induction l as [|v l IH]; intros i; cbn [voices_messages]; [constructor|]. apply Forall_app. split; [apply voice_only|apply IH].
Qed.

Lemma in_time_messages a : forall c l b, Forall (fun m : gop (proc T V) channel_config => match m with OpMessage _ _ => True | _ => False end) a ->
  in_time c l b -> in_time c l (a ++ b).
Proof.
  induction a as [|m a IH]; intros c l b HF H; cbn [app]; [exact H|]. inversion HF as [|? ? H1 H2]; subst. destruct m; try destruct H1. cbn [in_time]. apply IH; assumption.
Qed.
Lemma voice_in_time i v c l b : in_time true false b -> in_time c l (voice_messages A PO i v ++ b).
Proof.
  intros H. unfold voice_messages. rewrite <- ?app_assoc. cbn [app in_time]. rewrite <- ?app_assoc.
  apply in_time_messages; [apply automation_messages|]. cbn [app in_time]. rewrite <- ?app_assoc.
  apply in_time_messages; [apply automation_messages|]. cbn [app in_time]. rewrite <- ?app_assoc.
  apply in_time_messages; [apply automation_messages|]. apply in_time_messages; [apply automation_messages|]. cbn [app in_time].
  destruct (v_stop v); cbn [app in_time]; exact H.
Qed.
Lemma desk_in_time n l : registrations_in_time (desk A PO n l).
Proof.
  assert (X : forall l i c, in_time c false (voices_messages (T := T) A PO i l)).
  { clear. induction l as [|v l IH]; intros i c; cbn [voices_messages]; [reflexivity|]. apply voice_in_time. apply IH. }
  unfold registrations_in_time, desk. cbn [in_time orb]. apply X.
Qed.

(** handles *)
Lemma never_dropped n l j : ~ In (OpDrop j) (desk A PO n l).
Proof.
  assert (X : forall id calls k, ~ In (OpDrop k) (automation (T := T) (V := V) PO id calls)).
  { intros id calls k Hin. pose proof (automation_messages id calls) as Y. rewrite Forall_forall in Y. exact (Y _ Hin). }
  intros [H|H]; [discriminate|]. revert H. generalize 0 as i. induction l as [|v l IH]; intros i H; cbn [voices_messages] in H; [exact H|].
  apply in_app_iff in H. destruct H as [H|H]; [|exact (IH _ H)]. unfold voice_messages in H.
  repeat (apply in_app_iff in H; destruct H as [H|H]; [first [exact (X _ _ _ H) | cbn in H; repeat destruct H as [H|H]; try discriminate; exact H]|]).
  cbn [In] in H. destruct H as [H|H]; [discriminate|]. destruct (v_stop v); cbn in H; repeat destruct H as [H|H]; try discriminate; exact H.
Qed.
Lemma alive_handle j (ops : messages) p ins outs cfg : In (OpAdd j p ins outs cfg) ops -> ~ In (OpDrop j) ops -> handle_alive j ops.
Proof.
  intros H1 H2. apply in_split in H1. destruct H1 as (a & b & ->). exists a, p, ins, outs, cfg, b. split; [reflexivity|]. intros H. apply H2. apply in_or_app. right. right. exact H.
Qed.
Lemma voice_adds i v j : In j [source_id i; offset_id i; gain_id i; level_id i] -> exists p ins outs cfg, In (OpAdd j p ins outs cfg) (voice_messages A PO i v).
Proof.
  intros H. unfold voice_messages. destruct H as [<-|[<-|[<-|[<-|[]]]]].
  - exists (P_constant (cs_new A) (offset_id i)), 0, 1, node_config. do 2 (apply in_or_app; right). apply in_or_app. left. left. reflexivity.
  - exists (P_param fresh), 1, 1, param_config. apply in_or_app. left. left. reflexivity.
  - exists (P_gain (level_id i)), 1, 1, node_config. do 4 (apply in_or_app; right). apply in_or_app. left. left. reflexivity.
  - exists (P_param fresh), 1, 1, param_config. do 2 (apply in_or_app; right). apply in_or_app. left. right. right. left. reflexivity.
Qed.
Lemma voices_adds l : forall k i v j, nth_error l i = Some v -> In j [source_id (k + i); offset_id (k + i); gain_id (k + i); level_id (k + i)] ->
  exists p ins outs cfg, In (OpAdd j p ins outs cfg) (voices_messages A PO k l).
Proof.
  induction l as [|w l IH]; intros k i v j H H1; [destruct i; discriminate|]. cbn [voices_messages]. destruct i as [|i].
  - rewrite Nat.add_0_r in H1. destruct (voice_adds k w j H1) as (p & ins & outs & cfg & X). exists p, ins, outs, cfg. apply in_or_app. left. exact X.
  - replace (k + S i) with (S k + i) in H1 by lia. destruct (IH (S k) i v j H H1) as (p & ins & outs & cfg & X). exists p, ins, outs, cfg. apply in_or_app. right. exact X.
Qed.
Lemma table_cases n l j x : desk_table n l j = Some x -> (j = 0 /\ x = n_destination n) \/
  exists i v po pg, nth_error l i = Some (v, (po, pg)) /\
    ((j = source_id i /\ x = n_source i v) \/ (j = offset_id i /\ x = n_param po (source_id i)) \/ (j = gain_id i /\ x = n_gain i) \/ (j = level_id i /\ x = n_param pg (gain_id i))).
Proof.
  intros H. destruct (Nat.eq_dec j 0) as [->|J0]; [left; cbn in H; split; congruence|]. right.
  destruct (Nat.lt_ge_cases j 11) as [L|L].
  - exfalso. unfold desk_table in H. destruct (Nat.eqb_spec j 0); [lia|]. destruct (Nat.ltb_spec j 11); [discriminate|lia].
  - destruct (split4 j L) as (i & r & Hr & ->). rewrite table_at in H by exact Hr. destruct (nth_error l i) as [[v [po pg]]|] eqn:Ei; [|discriminate].
    exists i, v, po, pg. split; [exact Ei|]. destruct r as [|[|[|[|]]]]; [| | | |lia]; injection H as <-.
    + left. split; [unfold source_id; lia|reflexivity].
    + right; left. split; [unfold offset_id; lia|reflexivity].
    + right; right; left. split; [unfold gain_id; lia|reflexivity].
    + right; right; right. split; [unfold level_id; lia|reflexivity].
Qed.
Lemma table_source n (l : list set_voice) i v po pg : nth_error l i = Some (v, (po, pg)) -> desk_table n l (source_id i) = Some (n_source i v).
Proof. intros H. replace (source_id i) with (11 + 4 * i + 0) by (unfold source_id; lia). rewrite table_at, H by lia. reflexivity. Qed.
Lemma table_offset n (l : list set_voice) i v po pg : nth_error l i = Some (v, (po, pg)) -> desk_table n l (offset_id i) = Some (n_param po (source_id i)).
Proof. intros H. replace (offset_id i) with (11 + 4 * i + 1) by (unfold offset_id; lia). rewrite table_at, H by lia. reflexivity. Qed.
Lemma table_gain n (l : list set_voice) i v po pg : nth_error l i = Some (v, (po, pg)) -> desk_table n l (gain_id i) = Some (n_gain i).
Proof. intros H. replace (gain_id i) with (11 + 4 * i + 2) by (unfold gain_id; lia). rewrite table_at, H by lia. reflexivity. Qed.
Lemma table_level n (l : list set_voice) i v po pg : nth_error l i = Some (v, (po, pg)) -> desk_table n l (level_id i) = Some (n_param pg (gain_id i)).
Proof. intros H. replace (level_id i) with (11 + 4 * i + 3) by (unfold level_id; lia). rewrite table_at, H by lia. reflexivity. Qed.

Lemma desk_handles n l j x : desk_table n l j = Some x -> handle_alive j (desk A PO n (map fst l)).
Proof.
  intros H. destruct (table_cases n l j x H) as [[-> _]|(i & v & po & pg & Hi & Hj)].
  - eapply alive_handle; [left; reflexivity|apply never_dropped].
  - assert (M : nth_error (map fst l) i = Some v) by exact (map_nth_error fst i l Hi).
    destruct (voices_adds (map fst l) 0 i v j M) as (p & ins & outs & cfg & X).
    { cbn [Nat.add]. cbn [In]. destruct Hj as [[-> _]|[[-> _]|[[-> _]|[-> _]]]]; auto. }
    eapply alive_handle; [right; exact X|apply never_dropped].
Qed.

(** no cycles: parameters, sources, gains, destination *)
Definition rank (j : nat) : nat := if Nat.ltb j 11 then 0 else match (j - 11) mod 4 with 0 => 2 | 1 => 3 | 2 => 1 | _ => 2 end.
Lemma rank_at i r : r < 4 -> rank (11 + 4 * i + r) = match r with 0 => 2 | 1 => 3 | 2 => 1 | _ => 2 end.
Proof. intros H. unfold rank. destruct (Nat.ltb_spec (11 + 4 * i + r) 11); [lia|]. destruct (div4 i r H) as [_ ->]. reflexivity. Qed.
Lemma rank_source i : rank (source_id i) = 2.
Proof. replace (source_id i) with (11 + 4 * i + 0) by (unfold source_id; lia). apply rank_at. lia. Qed.
Lemma rank_offset i : rank (offset_id i) = 3.
Proof. replace (offset_id i) with (11 + 4 * i + 1) by (unfold offset_id; lia). apply rank_at. lia. Qed.
Lemma rank_gain i : rank (gain_id i) = 1.
Proof. replace (gain_id i) with (11 + 4 * i + 2) by (unfold gain_id; lia). apply rank_at. lia. Qed.
Lemma rank_level i : rank (level_id i) = 2.
Proof. replace (level_id i) with (11 + 4 * i + 3) by (unfold level_id; lia). apply rank_at. lia. Qed.

Lemma desk_connected n l (ns : nodes _ _ _) a b : (forall j, get ns j = desk_table n l j) -> connected ns a b ->
  exists i, (a = source_id i /\ b = gain_id i) \/ (a = offset_id i /\ b = source_id i) \/ (a = gain_id i /\ b = 0) \/ (a = level_id i /\ b = gain_id i).
Proof.
  intros HT (x & e & Hx & He & Hb). rewrite HT in Hx. destruct (table_cases n l a x Hx) as [[-> ->]|(i & v & po & pg & Hi & Hj)]; [destruct He|].
  exists i. destruct Hj as [[-> ->]|[[-> ->]|[[-> ->]|[-> ->]]]]; destruct He as [<-|[]]; cbn in Hb; subst b; tauto.
Qed.
Lemma desk_acyclic n l (ns : nodes _ _ _) : (forall j, get ns j = desk_table n l j) -> forall c, ~ is_cycle (connected ns) c.
Proof.
  intros HT [|a c] Hc; [exact Hc|]. cbn in Hc.
  assert (X : forall c a b, chain (connected ns) a c b -> rank b < rank a).
  { assert (Y : forall a b, connected ns a b -> rank b < rank a).
    { intros a0 b0 H0. destruct (desk_connected n l ns a0 b0 HT H0) as [i H]. destruct H as [[-> ->]|[[-> ->]|[[-> ->]|[-> ->]]]]; rewrite ?rank_source, ?rank_offset, ?rank_gain, ?rank_level; change (rank 0) with 0; lia. }
    clear - Y. induction c as [|x c IH]; cbn; intros a b Hc; [apply Y; exact Hc|]. destruct Hc as [H1 H2]. apply Y in H1. apply IH in H2. lia. }
  apply X in Hc. lia.
Qed.
End Build.
