(** * Property C81: what is heard is the graph the program drew *)
From Coq Require Import List Arith Bool Lia.
From Verif Require Import Graph_Model Graph_Spec Graph_TraceModel Graph_TraceSpec Flow_Spec Flow_Props Thread_Model Thread_Spec Whole_Model Whole_Spec Whole_Props
  Calls_Model Calls_Spec Calls_Props Draw_Model Draw_Spec Draw_Proofs.
Import ListNotations.

(** A program makes nodes, connects and disconnects them in any way, on any number of contexts, and keeps its handles.  The
    messages of a context build, without any error, a graph in which each node has the processor, configuration, inputs and
    outputs it was made with; the connections are the links of the program, those its constructors made, those of the listener
    if it was asked for, and no others; none is there twice, if none was drawn twice. *)
Theorem C81_drawn : forall P Q CFG (E : env P Q CFG) proc cfg n cs ctx,
  never_reused cs -> asked_first n cs -> kept cs ->
  exists g, legal_run E graph_new (script proc cfg n cs ctx) /\ grun E (script proc cfg n cs ctx) graph_new = Some (g, []) /\
    (forall a x, held (snd (calls cs (world0 n))) a = Some x -> o_ctx x = ctx -> (2 <= o_in x <= 10 -> existsb (wakes ctx) cs = true) ->
       (exists nd, get (g_nodes g) (o_in x) = Some nd /\ n_proc nd = proc (o_in x) /\ n_cfg nd = cfg (o_in x) /\ length (n_inputs nd) = o_ins x) /\
       (exists nd, get (g_nodes g) (o_out x) = Some nd /\ n_proc nd = proc (o_out x) /\ n_cfg nd = cfg (o_out x) /\ length (n_outputs nd) = o_outs x)) /\
    (forall s o d p, (exists nd, get (g_nodes g) s = Some nd /\ In (mk_edge o d p) (n_edges nd)) <-> drawn n cs ctx (s, o, d, p)) /\
    (drawn_once n cs -> forall id nd, get (g_nodes g) id = Some nd -> NoDup (n_edges nd)).
Proof.
  intros P Q CFG E proc cfg n cs ctx NR AF KP. destruct (built E proc cfg n cs ctx NR AF KP) as (g & L & R & RL). exists g. split; [exact L|]. split; [exact R|].
  split; [exact (node_there proc cfg n cs ctx NR AF KP g RL)|]. split; [exact (drawn_edges proc cfg n cs ctx NR AF KP g RL)|exact (edges_once proc cfg n cs ctx NR AF KP g RL)].
Qed.
Print Assumptions C81_drawn.

(** From the calls to the sound.  If moreover the drawing has no cycle without a delay, and no node was made after the last link,
    startRendering gives a buffer whose samples are those of the solution of the equations of this graph (C68, C69). *)
Theorem C81_sound : forall P Q CFG V (E : env P Q CFG) (chans : Q -> list (list V)) zero RQ nch len proc cfg n cs ctx,
  0 < RQ -> (forall q, well_formed RQ (chans q)) -> env_ok E -> never_panics E -> 0 < nch -> ctx < n ->
  never_reused cs -> asked_first n cs -> kept cs -> settled n cs ctx -> (forall c, ~ is_cycle (at_once n cs ctx) c) ->
  exists g t' buf ns ord state,
    grun E (script proc cfg n cs ctx) graph_new = Some (g, []) /\
    (forall s o d p, (exists nd, get (g_nodes g) s = Some nd /\ In (mk_edge o d p) (n_edges nd)) <-> drawn n cs ctx (s, o, d, p)) /\
    render_audiobuffer (audio_graph E chans) zero RQ nch len new_thread (startup (script proc cfg n cs ctx)) [] [] = Some (t', buf, []) /\
    cut_at_breakers (g_nodes g) ns /\ dataflow E ns ord (clock RQ (div_ceil len RQ)) state /\ length buf = nch /\
    forall i, i < nch -> exists ch, nth_error buf i = Some ch /\ length ch = len /\
      forall j, j < len -> nth_error ch j = Some (heard chans zero RQ state i j).
Proof.
  intros P Q CFG V E chans zero RQ nch len proc cfg n cs ctx H1 H2 EOK NP Hn Cx NR AF KP St NC.
  destruct (built E proc cfg n cs ctx NR AF KP) as (g & L & R & RL).
  destruct (C69_offline P Q CFG V E chans zero RQ nch len (script proc cfg n cs ctx) g [] H1 H2 EOK NP Hn L
              (settled_in_time proc cfg n cs ctx (fresh_here n cs NR AF KP) KP St) (only_messages proc cfg n cs ctx) R
              (handles proc cfg n cs ctx NR AF KP g RL) (no_cycle proc cfg n cs ctx NR AF KP Cx g RL NC) (dest_there proc cfg n cs ctx NR AF KP g RL))
    as (t' & buf & ns & ord & state & X1 & X2 & X3 & X4 & X5).
  exists g, t', buf, ns, ord, state. split; [exact R|]. split; [exact (drawn_edges proc cfg n cs ctx NR AF KP g RL)|]. auto.
Qed.
Print Assumptions C81_sound.

(** a source (object 10) into a gain (11, parameter 12, which the source modulates), a delay (13, 14) in a feedback loop with the gain, a panner (15, 16) *)
Definition C81_program : list call :=
  [MakeNode 0 11 0 1 []; MakeNode 0 12 1 1 [13]; MakeDelay 0 14 15 16; Connect 10 0 11 0; Connect 11 0 13 0; Connect 13 0 11 0;
   Connect 10 0 12 0; Connect 11 0 0 0; MakePanner 0 17 [18]; DisconnectDest 11 0; Connect 11 0 15 0; Connect 15 0 0 0].
Definition C81_proc (id : nat) : nat := if Nat.eqb id 11 then 5 else 0.
Definition C81_rank (v : vertex) : nat :=
  match v with Ears => 2 | Node a => match a with 0 => 0 | 15 => 1 | 16 => 2 | 11 => 3 | 12 => 4 | 13 => 4 | 14 => 5 | _ => 6 end end.

Fixpoint C81_new_check (seen : list (nat * nat)) (cs : list call) : bool :=
  match cs with
  | [] => true
  | c :: r => match takes c with
              | Some (ctx, ids) => forallb (fun id => Nat.ltb 10 id && negb (existsb (fun p => Nat.eqb (fst p) ctx && Nat.eqb (snd p) id) seen)) ids
                                   && C80_distinct ids && C81_new_check (seen ++ map (fun id => (ctx, id)) ids) r
              | None => C81_new_check seen r
              end
  end.
Lemma C81_new_check_ok cs : C81_new_check [] cs = true -> never_reused cs.
Proof.
  assert (G : forall cs seen pre, (forall ctx id, taken pre ctx id -> In (ctx, id) seen) -> C81_new_check seen cs = true ->
    forall b c a, cs = b ++ c :: a -> forall ctx ids, takes c = Some (ctx, ids) -> NoDup ids /\ Forall (fun id => 10 < id /\ ~ taken (pre ++ b) ctx id) ids).
  { clear cs. induction cs as [|c0 cs IH]; intros seen pre HS H b c a E ctx ids T; [destruct b; discriminate|]. cbn [C81_new_check] in H. destruct b as [|b0 b]; cbn [app] in E; injection E as E1 E2.
    - subst c0. rewrite T in H. rewrite !andb_true_iff in H. destruct H as [[H1 H2] _]. split; [now apply C80_distinct_ok|]. rewrite app_nil_r. rewrite forallb_forall in H1. apply Forall_forall. intros id Hid. specialize (H1 id Hid). apply andb_true_iff in H1 as [H1 H3].
      split; [now apply Nat.ltb_lt|]. intros Ht. apply HS in Ht. apply negb_true_iff in H3. enough (existsb (fun p => Nat.eqb (fst p) ctx && Nat.eqb (snd p) id) seen = true) by congruence.
      apply existsb_exists. exists (ctx, id). split; [exact Ht|]. cbn. now rewrite !Nat.eqb_refl.
    - subst b0. replace (pre ++ c0 :: b) with ((pre ++ [c0]) ++ b) by (rewrite <- app_assoc; reflexivity).
      assert (HS' : forall seen', (forall x i, takes c0 = Some (x, i) -> seen' = seen ++ map (fun id => (x, id)) i) -> (takes c0 = None -> seen' = seen) -> forall x id, taken (pre ++ [c0]) x id -> In (x, id) seen').
      { intros seen' S1 S2 x id (c' & ids' & Hc & Ht & Hi). apply in_app_iff in Hc as [Hc|[<-|[]]].
        - assert (In (x, id) seen) by (apply HS; exists c', ids'; auto). destruct (takes c0) as [[x' i']|] eqn:Tk; [rewrite (S1 x' i' eq_refl); apply in_app_iff; now left|now rewrite (S2 eq_refl)].
        - rewrite (S1 x ids' Ht). apply in_app_iff. right. apply in_map_iff. exists id. auto. }
      destruct (takes c0) as [[x i]|] eqn:Tk.
      + rewrite !andb_true_iff in H. destruct H as [_ H]. eapply (IH _ (pre ++ [c0])); [apply (HS' (seen ++ map (fun id => (x, id)) i)); [intros x' i' E; injection E as <- <-; reflexivity|discriminate]|exact H|exact E2|exact T].
      + eapply (IH _ (pre ++ [c0])); [apply (HS' seen); [discriminate|reflexivity]|exact H|exact E2|exact T]. }
  intros H b c a E ctx ids T. apply (G cs [] [] ltac:(intros x id (c' & i & [] & _)) H b c a E ctx ids T).
Qed.

Example C81_case : exists t', never_reused C81_program /\ asked_first 1 C81_program /\ kept C81_program /\ settled 1 C81_program 0 /\
  drawn_once 1 C81_program /\ (forall c, ~ is_cycle (at_once 1 C81_program 0) c) /\
  Forall (eq Accepted) (fst (calls C81_program (world0 1))) /\
  render_audiobuffer (audio_graph E2 chans4) 0 4 1 14 new_thread (startup (script C81_proc (fun _ => tt) 1 C81_program 0)) [] []
    = Some (t', [[5; 5; 5; 5; 10; 10; 10; 10; 15; 15; 15; 15; 20; 20]], []).
Proof.
  eexists. split; [apply C81_new_check_ok; vm_compute; reflexivity|]. split; [apply C80_asked_check_ok; vm_compute; reflexivity|].
  split; [intros a H; cbn in H; repeat destruct H as [H|H]; discriminate || exact H|].
  split. { exists (firstn 11 C81_program), 15, 0, 0, 0, [], (mk_node 0 1 1 true false). repeat split; try (vm_compute; reflexivity). constructor. }
  split. { intros b a out d inp after Eq H.
    do 13 (destruct b as [|? b]; [cbn [app] in Eq; try discriminate; injection Eq; intros; subst; vm_compute in H; repeat destruct H as [H|H]; discriminate || exact H|try (cbn [app] in Eq; injection Eq as ? Eq; subst)]).
    destruct b; discriminate. }
  split. { intros [|u l] Hc; [exact Hc|]. cbn in Hc.
    assert (R1 : forall u v, at_once 1 C81_program 0 u v -> C81_rank v < C81_rank u).
    { intros [a|] [b|]; cbn [at_once].
      - intros [_ [[(o & i & Hl) Nd]|(c & m & Hp & Hm & L)]].
        + assert (D : b <> 13) by (intros ->; apply Nd; exists 0, 14, 15, 16; unfold placed; vm_compute; auto).
          vm_compute in Hl. repeat destruct Hl as [Hl|Hl]; try contradiction; injection Hl; intros; subst; try congruence; cbn; lia.
        + unfold placed in Hp. vm_compute in Hp. repeat destruct Hp as [Hp|Hp]; try contradiction; injection Hp as <- <-; cbn in Hm; injection Hm as <-; try lia.
          * assert (a = 12) as -> by lia. cbn. lia.
          * assert (a = 14) as -> by lia. cbn. lia.
          * assert (a = 16) as -> by lia. cbn. lia.
      - intros L. do 10 (destruct a as [|a]; [cbn; lia|]). lia.
      - intros [->|(id & ps & Hp)]; [cbn; lia|]. unfold placed in Hp. vm_compute in Hp. repeat destruct Hp as [Hp|Hp]; try contradiction; try discriminate. injection Hp as _ _ <-. cbn. lia.
      - intros []. }
    assert (X : forall l a b, chain (at_once 1 C81_program 0) a l b -> C81_rank b < C81_rank a).
    { clear - R1. induction l as [|x l IH]; cbn [chain]; intros a b Hc; [now apply R1|]. destruct Hc as [H1 H2]. apply R1 in H1. apply IH in H2. lia. }
    apply X in Hc. lia. }
  split; [vm_compute; repeat constructor|]. vm_compute. reflexivity.
Qed.
