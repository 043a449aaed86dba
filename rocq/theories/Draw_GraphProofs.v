(** The graph a log of messages builds in the renderer. *)
From Coq Require Import List Arith Bool Lia.
From Verif Require Import Graph_Model Graph_Spec Graph_OrderProofs Graph_TraceModel Graph_TraceSpec Graph_TraceProofs
  Protocol_Model Calls_Model Calls_Spec Calls_Proofs Calls_RunProofs Calls_PortProofs Draw_Model Draw_Spec.
Import ListNotations.

(** the connections a log leaves, in order *)
Fixpoint wired_from (l : list conn) (log : list note) : list conn :=
  match log with
  | [] => l
  | NConnect s o d p :: r => wired_from (l ++ [(s, o, d, p)]) r
  | NDisconnect s o d p :: r => wired_from (filter (fun c => negb (conn_eqb (s, o, d, p) c)) l) r
  | _ :: r => wired_from l r
  end.
Definition wired (log : list note) : list conn := wired_from [] log.
Lemma wired_from_app l a b : wired_from l (a ++ b) = wired_from (wired_from l a) b.
Proof. revert l. induction a as [|m a IH]; intros l; [reflexivity|]. destruct m; cbn [app wired_from]; apply IH. Qed.

Definition registered (log : list note) (id : nat) : Prop := exists i k, In (NRegister id i k) log.

Definition good_note (pre : list note) (m : note) : Prop :=
  match m with
  | NRegister id _ _ => ~ registered pre id
  | NConnect _ _ _ _ => True
  | NDisconnect s _ _ _ => registered pre s
  | NDrop _ => False
  | NBreaker s => registered pre s /\ forall o d p, ~ In (NConnect s o d p) pre
  end.
Fixpoint good_from (pre log : list note) : Prop :=
  match log with [] => True | m :: r => good_note pre m /\ good_from (pre ++ [m]) r end.
Definition Good (log : list note) : Prop := good_from [] log.
Lemma good_from_app pre a b : good_from pre (a ++ b) <-> good_from pre a /\ good_from (pre ++ a) b.
Proof.
  revert pre. induction a as [|m a IH]; intros pre; cbn [app good_from]; [rewrite app_nil_r; tauto|]. rewrite IH, <- app_assoc. cbn [app]. tauto.
Qed.

Lemma registered_app a b id : registered (a ++ b) id <-> registered a id \/ registered b id.
Proof. unfold registered. split; [intros (i & k & H); apply in_app_iff in H as [H|H]; eauto|]. intros [(i & k & H)|(i & k & H)]; exists i, k; apply in_app_iff; auto. Qed.

Lemma made_registered log r id i k : made log r id = Some (i, k) -> r id = Some (i, k) \/ registered log id.
Proof.
  revert r. induction log as [|m log IH]; intros r H; [now left|].
  assert (Up : registered log id -> registered (m :: log) id) by (intros (a & b & Hin); exists a, b; now right).
  destruct m; cbn [made] in H; apply IH in H as [H|H]; auto.
  - destruct (Nat.eqb_spec id id0) as [->|]; [|now left]. right. exists ins, outs. now left.
  - destruct (Nat.eqb id id0); [discriminate|now left].
Qed.

Lemma conn_eqb_spec a b : conn_eqb a b = true <-> a = b.
Proof.
  destruct a as [[[s o] d] p], b as [[[s' o'] d'] p']. cbn [conn_eqb]. rewrite !andb_true_iff, !Nat.eqb_eq. split.
  - intros (((-> & ->) & ->) & H). destruct p, p'; cbn in H; try discriminate; [apply Nat.eqb_eq in H as ->|]; reflexivity.
  - intros E. injection E as -> -> -> ->. repeat split. destruct p'; cbn; [apply Nat.eqb_refl|reflexivity].
Qed.

Lemma wired_note_from log : forall l s o d p, In (s, o, d, p) (wired_from l log) -> In (s, o, d, p) l \/ In (NConnect s o d p) log.
Proof.
  induction log as [|m log IH]; intros l s o d p H; [now left|].
  destruct m; cbn [wired_from] in H; apply IH in H as [H|H]; cbn [In]; auto.
  - apply in_app_iff in H as [H|[H|[]]]; auto. injection H as -> -> -> ->. auto.
  - apply filter_In in H as [H _]. auto.
Qed.
Lemma wired_note log s o d p : In (s, o, d, p) (wired log) -> In (NConnect s o d p) log.
Proof. intros H. apply wired_note_from in H as [[]|H]. exact H. Qed.

Definition edge_of (c : conn) : edge := let '(_, o, d, p) := c in mk_edge o d p.
Definition from (s : nat) (c : conn) : bool := Nat.eqb (csrc c) s.

Section Build.
Context {P Q CFG : Type}.
Variable E : env P Q CFG.
Variables (proc : nat -> P) (cfg : nat -> CFG).
Notation graph := (graph P Q CFG).

Record Rel (log : list note) (g : graph) : Prop := {
  r_live : forall id, live (g_nodes g) id <-> registered log id;
  r_node : forall id nd, get (g_nodes g) id = Some nd ->
     n_proc nd = proc id /\ n_cfg nd = cfg id /\ n_edges nd = map edge_of (filter (from id) (wired log)) /\ (n_breaker nd = true <-> In (NBreaker id) log) /\ n_dropped nd = false;
  r_size : forall id i k, made_by log id = Some (i, k) -> exists nd, get (g_nodes g) id = Some nd /\ length (n_inputs nd) = i /\ length (n_outputs nd) = k;
  r_src : forall c, In c (wired log) -> registered log (csrc c);
  r_brk : forall id, In (NBreaker id) log -> registered log id
}.

Lemma Rel_new : Rel [] graph_new.
Proof.
  constructor.
  - intros id. split; [intros [nd H]; unfold graph_new in H; cbn [g_nodes] in H; rewrite get_repeat_None in H; discriminate|intros (i & k & [])].
  - intros id nd H. unfold graph_new in H. cbn [g_nodes] in H. rewrite get_repeat_None in H. discriminate.
  - intros id i k H. discriminate.
  - intros c [].
  - intros id [].
Qed.

Lemma filter_map_edge out dst port s l : filter (keep_edge out dst port) (map edge_of (filter (from s) l)) = map edge_of (filter (from s) (filter (fun c => negb (conn_eqb (s, out, dst, port) c)) l)).
Proof.
  induction l as [|c l IH]; [reflexivity|]. cbn [filter]. destruct c as [[[s' o'] d'] p'].
  destruct (from s (s', o', d', p')) eqn:F; cbn [map filter].
  - unfold from in F. cbn [csrc] in F. apply Nat.eqb_eq in F. subst s'.
    assert (X : keep_edge out dst port (edge_of (s, o', d', p')) = negb (conn_eqb (s, out, dst, port) (s, o', d', p'))).
    { cbn [edge_of keep_edge e_dest e_self e_port conn_eqb]. rewrite Nat.eqb_refl. cbn [andb]. rewrite (Nat.eqb_sym out o'), (Nat.eqb_sym dst d').
      replace (port_eqb port p') with (port_eqb p' port) by (destruct port, p'; cbn; auto using Nat.eqb_sym). unfold keep_edge. cbn [e_dest e_self e_port].
      destruct (Nat.eqb o' out), (Nat.eqb d' dst), (port_eqb p' port); reflexivity. }
    rewrite X. destruct (negb _); cbn [filter]; [|apply IH]. unfold from at 2. cbn [csrc]. rewrite Nat.eqb_refl. cbn [map]. f_equal. apply IH.
  - destruct (negb _); cbn [filter]; [rewrite F|]; apply IH.
Qed.

Lemma filter_other s l c : csrc c <> s -> filter (from s) (filter (fun x => negb (conn_eqb c x)) l) = filter (from s) l.
Proof.
  intros N. induction l as [|x l IH]; [reflexivity|]. cbn [filter]. destruct (conn_eqb c x) eqn:Ex; cbn [negb filter].
  - apply conn_eqb_spec in Ex. subst x. unfold from at 2. rewrite (proj2 (Nat.eqb_neq _ _) N). exact IH.
  - destruct (from s x); [f_equal|]; exact IH.
Qed.

Lemma build_step log m g : Rel log g -> good_note log m -> fine (made_by log) [m] ->
  exists g', legal E g (op_of proc cfg m) /\ gstep E (op_of proc cfg m) g = Some (g', []) /\ Rel (log ++ [m]) g'.
Proof.
  intros [R1 R2 R3 R4 R5] G F. destruct m as [id ins outs|s o d p|s o d p|id|id]; cbn [op_of good_note] in *.
  - assert (NL : ~ live (g_nodes g) id) by (rewrite R1; exact G).
    exists (add_node E g id (proc id) ins outs (cfg id)). split; [exact NL|]. split; [reflexivity|].
    assert (Wd : wired (log ++ [NRegister id ins outs]) = wired log) by (unfold wired; rewrite wired_from_app; reflexivity).
    constructor; cbn [add_node g_nodes].
    + intros j. rewrite registered_app, <- R1. unfold live. split.
      * intros [nd H]. rewrite get_insert in H. destruct (Nat.eqb_spec id j) as [->|]; [|left; eauto]. right. exists ins, outs. now left.
      * intros [[nd H]|(i & k & [H|[]])]; rewrite get_insert; destruct (Nat.eqb_spec id j); eauto. injection H as -> -> ->. contradiction.
    + intros j nd H. rewrite get_insert in H. rewrite Wd. destruct (Nat.eqb_spec id j) as [->|N].
      * injection H as <-. cbn [n_proc n_cfg n_edges n_breaker n_dropped]. split; [reflexivity|]. split; [reflexivity|]. split; [|split; [|reflexivity]].
        -- replace (filter (from j) (wired log)) with (@nil conn); [reflexivity|]. symmetry. destruct (filter (from j) (wired log)) as [|c l] eqn:Ef; [reflexivity|].
           assert (Hc : In c (filter (from j) (wired log))) by (rewrite Ef; now left). apply filter_In in Hc as [Hc Hf]. apply Nat.eqb_eq in Hf. apply R4 in Hc. rewrite Hf in Hc. contradiction.
        -- split; [discriminate|]. intros Hb. apply in_app_iff in Hb as [Hb|[Hb|[]]]; [|discriminate]. exfalso. apply G. now apply R5.
      * destruct (R2 j nd H) as (A & B & C & D & D'). repeat split; try assumption; [|].
        -- intros Hb. apply in_app_iff. left. now apply D.
        -- intros Hb. apply in_app_iff in Hb as [Hb|[Hb|[]]]; [now apply D|discriminate].
    + intros j i k H. unfold made_by in H. rewrite made_app in H. cbn [made] in H. rewrite get_insert. rewrite (Nat.eqb_sym id j). destruct (Nat.eqb_spec j id) as [->|N].
      * injection H as <- <-. eexists. split; [reflexivity|]. cbn [n_inputs n_outputs]. now rewrite !repeat_length.
      * destruct (R3 j i k H) as (nd & A & B). exists nd. auto.
    + intros c Hc. rewrite Wd in Hc. apply registered_app. left. now apply R4.
    + intros j Hb. apply in_app_iff in Hb as [Hb|[Hb|[]]]; [|discriminate]. apply registered_app. left. now apply R5.
  - cbn [fine] in F. destruct F as ((i1 & k1 & Es & Lo) & (i2 & k2 & Ed & Li) & _).
    destruct (R3 s i1 k1 Es) as (ns & Gs & Ls1 & Ls2). destruct (R3 d i2 k2 Ed) as (nd & Gd & Ld1 & Ld2).
    assert (Reg : forall j, registered (log ++ [NConnect s o d p]) j <-> registered log j).
    { intros j. rewrite registered_app. split; [intros [H|(i & k & [H|[]])]; [exact H|discriminate]|now left]. }
    assert (Wd : wired (log ++ [NConnect s o d p]) = wired log ++ [(s, o, d, p)]) by (unfold wired; rewrite wired_from_app; reflexivity).
    assert (Br : forall j, In (NBreaker j) (log ++ [NConnect s o d p]) <-> In (NBreaker j) log).
    { intros j. rewrite in_app_iff. split; [intros [H|[H|[]]]; [exact H|discriminate]|now left]. }
    cbn [gstep]. unfold add_edge. rewrite Gs. cbn [option_map]. eexists. split; [|split; [reflexivity|]].
    + cbn [legal]. split; [exists ns; split; [exact Gs|lia]|]. exists nd. split; [exact Gd|]. intros q ->. lia.
    + constructor; cbn [g_nodes].
      * intros j. rewrite Reg, <- R1. unfold live. destruct (Nat.eq_dec s j) as [<-|N]; [rewrite get_update_eq, Gs; cbn; split; eauto|]. rewrite get_update_neq by exact N. reflexivity.
      * intros j n H. rewrite Wd, Br, filter_app, map_app. destruct (Nat.eq_dec s j) as [<-|N].
        -- rewrite get_update_eq, Gs in H. cbn in H. injection H as <-. cbn [n_proc n_cfg n_edges n_breaker n_dropped]. destruct (R2 s ns Gs) as (A & B & C & D & D').
           repeat split; try assumption; try apply D. rewrite C. f_equal. cbn [filter]. unfold from. cbn [csrc]. rewrite Nat.eqb_refl. reflexivity.
        -- rewrite get_update_neq in H by exact N. destruct (R2 j n H) as (A & B & C & D & D'). repeat split; try assumption; try apply D. rewrite C. cbn [filter]. unfold from at 3. cbn [csrc]. rewrite (proj2 (Nat.eqb_neq s j) N). now rewrite app_nil_r.
      * intros j i k H. unfold made_by in H. rewrite made_app in H. cbn [made] in H. destruct (R3 j i k H) as (n & A & B & C). destruct (Nat.eq_dec s j) as [<-|N].
        -- rewrite get_update_eq, A. cbn. eexists. split; [reflexivity|]. cbn. auto.
        -- rewrite get_update_neq by exact N. eauto.
      * intros c Hc. rewrite Wd in Hc. apply Reg. apply in_app_iff in Hc as [Hc|[<-|[]]]; [now apply R4|]. cbn [csrc]. apply R1. now exists ns.
      * intros j Hb. apply Reg, R5, Br, Hb.
  - apply R1 in G as [ns Gs].
    assert (Reg : forall j, registered (log ++ [NDisconnect s o d p]) j <-> registered log j).
    { intros j. rewrite registered_app. split; [intros [H|(i & k & [H|[]])]; [exact H|discriminate]|now left]. }
    assert (Wd : wired (log ++ [NDisconnect s o d p]) = filter (fun c => negb (conn_eqb (s, o, d, p) c)) (wired log)) by (unfold wired; rewrite wired_from_app; reflexivity).
    assert (Br : forall j, In (NBreaker j) (log ++ [NDisconnect s o d p]) <-> In (NBreaker j) log).
    { intros j. rewrite in_app_iff. split; [intros [H|[H|[]]]; [exact H|discriminate]|now left]. }
    cbn [gstep]. unfold remove_edge. rewrite Gs. cbn [option_map]. eexists. split; [|split; [reflexivity|]].
    + cbn [legal]. now exists ns.
    + constructor; cbn [g_nodes].
      * intros j. rewrite Reg, <- R1. unfold live. destruct (Nat.eq_dec s j) as [<-|N]; [rewrite get_update_eq, Gs; cbn; split; eauto|]. rewrite get_update_neq by exact N. reflexivity.
      * intros j n H. rewrite Wd, Br. destruct (Nat.eq_dec s j) as [<-|N].
        -- rewrite get_update_eq, Gs in H. cbn in H. injection H as <-. cbn [n_proc n_cfg n_edges n_breaker n_dropped]. destruct (R2 s ns Gs) as (A & B & C & D & D').
           repeat split; try assumption; try apply D. rewrite C. apply filter_map_edge.
        -- rewrite get_update_neq in H by exact N. destruct (R2 j n H) as (A & B & C & D & D'). repeat split; try assumption; try apply D. rewrite C. now rewrite filter_other by exact N.
      * intros j i k H. unfold made_by in H. rewrite made_app in H. cbn [made] in H. destruct (R3 j i k H) as (n & A & B & C). destruct (Nat.eq_dec s j) as [<-|N].
        -- rewrite get_update_eq, A. cbn. eexists. split; [reflexivity|]. cbn. auto.
        -- rewrite get_update_neq by exact N. eauto.
      * intros c Hc. rewrite Wd in Hc. apply filter_In in Hc as [Hc _]. apply Reg. now apply R4.
      * intros j Hb. apply Reg, R5, Br, Hb.
  - destruct G.
  - destruct G as [G Gc]. apply R1 in G as [ns Gs].
    assert (Reg : forall j, registered (log ++ [NBreaker id]) j <-> registered log j).
    { intros j. rewrite registered_app. split; [intros [H|(i & k & [H|[]])]; [exact H|discriminate]|now left]. }
    assert (Wd : wired (log ++ [NBreaker id]) = wired log) by (unfold wired; rewrite wired_from_app; reflexivity).
    cbn [gstep]. unfold mark_breaker. rewrite Gs. cbn [option_map]. eexists. split; [|split; [reflexivity|]].
    + cbn [legal]. exists ns. split; [exact Gs|]. destruct (R2 id ns Gs) as (_ & _ & C & _). rewrite C. destruct (filter (from id) (wired log)) as [|c l] eqn:Ef; [reflexivity|]. exfalso.
      assert (Hc : In c (filter (from id) (wired log))) by (rewrite Ef; now left). apply filter_In in Hc as [Hc Hf]. apply Nat.eqb_eq in Hf. destruct c as [[[s' o'] d'] p']. cbn [csrc] in Hf. subst s'. apply wired_note in Hc. exact (Gc _ _ _ Hc).
    + constructor; cbn [g_nodes].
      * intros j. rewrite Reg, <- R1. unfold live. destruct (Nat.eq_dec id j) as [<-|N]; [rewrite get_update_eq, Gs; cbn; split; eauto|]. rewrite get_update_neq by exact N. reflexivity.
      * intros j n H. rewrite Wd. destruct (Nat.eq_dec id j) as [<-|N].
        -- rewrite get_update_eq, Gs in H. cbn in H. injection H as <-. cbn [n_proc n_cfg n_edges n_breaker n_dropped]. destruct (R2 id ns Gs) as (A & B & C & D & D').
           repeat split; try assumption. intros _. apply in_app_iff. right. now left.
        -- rewrite get_update_neq in H by exact N. destruct (R2 j n H) as (A & B & C & D & D'). repeat split; try assumption.
           ++ intros Hb. apply in_app_iff. left. now apply D.
           ++ intros Hb. apply in_app_iff in Hb as [Hb|[Hb|[]]]; [now apply D|congruence].
      * intros j i k H. unfold made_by in H. rewrite made_app in H. cbn [made] in H. destruct (R3 j i k H) as (n & A & B & C). destruct (Nat.eq_dec id j) as [<-|N].
        -- rewrite get_update_eq, A. cbn. eexists. split; [reflexivity|]. cbn. auto.
        -- rewrite get_update_neq by exact N. eauto.
      * intros c Hc. rewrite Wd in Hc. apply Reg. now apply R4.
      * intros j Hb. apply in_app_iff in Hb as [Hb|[Hb|[]]]; [apply Reg; now apply R5|]. injection Hb as <-. apply Reg, R1. now exists ns.
Qed.

Lemma build log : forall pre g, Rel pre g -> good_from pre log -> fine (made_by pre) log ->
  exists g', along E (legal E) g (map (op_of proc cfg) log) /\ grun E (map (op_of proc cfg) log) g = Some (g', []) /\ Rel (pre ++ log) g'.
Proof.
  induction log as [|m log IH]; intros pre g R G F; [exists g; cbn; rewrite app_nil_r; auto|].
  cbn [good_from] in G. destruct G as [G1 G2]. change (m :: log) with ([m] ++ log) in F. apply fine_app in F as [F1 F2].
  destruct (build_step pre m g R G1 F1) as (g1 & L & S & R1).
  assert (Em : made [m] (made_by pre) = made_by (pre ++ [m])) by (unfold made_by; now rewrite made_app). rewrite Em in F2.
  destruct (IH (pre ++ [m]) g1 R1 G2 F2) as (g2 & A2 & S2 & R2). exists g2. cbn [map along grun]. rewrite S, S2. split; [|split].
  - split; [exact L|]. intros g' l X. injection X as <- _. exact A2.
  - reflexivity.
  - now rewrite <- app_assoc in R2.
Qed.
End Build.
