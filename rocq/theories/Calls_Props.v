(** C80: connect and disconnect calls mean what they say, whatever nodes are made
    of. *)
From Coq Require Import List Arith Bool Lia.
From Verif Require Import Graph_Model Protocol_Model Calls_Model Calls_Spec Calls_Proofs Calls_RunProofs Calls_PortProofs.
Import ListNotations.

(** Every history of calls has the outcomes the links between nodes dictate: a
    connection between contexts is rejected, a port out of bounds is rejected, a
    disconnect naming a destination is rejected exactly when no such link
    exists, everything else is accepted; and a link between two nodes exists
    exactly when the audio graph's connection from the one's output end to the
    other's input end does.  A DelayNode has two ends in the graph and is one
    node here. *)
Theorem C80_calls n cs : fresh_ids n cs ->
  fst (calls cs (world0 n)) = fst (meanings cs (view0 n)) /\
  let w := snd (calls cs (world0 n)) in
  forall ctx a out b inp x y, held w a = Some x -> held w b = Some y -> o_ctx x = ctx -> o_ctx y = ctx ->
  (In (a, out, b, inp) (v_links (snd (meanings cs (view0 n))))
   <-> In (o_out x, out, o_in y, Some inp) (w_conns w ctx)).
Proof. intros F. split; [exact (proj1 (run_refines n cs F))|exact (links_carried n cs F)]. Qed.
Print Assumptions C80_calls.

(** An accepted connect sends one message, from the output end of the one node to
    the input end of the other. *)
Theorem C80_connect_message n cs a out b inp : fresh_ids n cs ->
  let w := snd (calls cs (world0 n)) in
  fst (call_step (Connect a out b inp) w) = Accepted ->
  exists x y, held w a = Some x /\ held w b = Some y /\ o_ctx x = o_ctx y /\
  w_sent (snd (call_step (Connect a out b inp) w)) (o_ctx x)
    = w_sent w (o_ctx x) ++ [NConnect (o_out x) out (o_in y) (Some inp)] /\
  (forall ctx, ctx <> o_ctx x -> w_sent (snd (call_step (Connect a out b inp) w)) ctx = w_sent w ctx).
Proof. intros _ w. exact (connect_msgs w a out b inp). Qed.
Print Assumptions C80_connect_message.

(** An accepted disconnect, of whichever form, sends one message for each link it
    names, and no other. *)
Theorem C80_disconnect_messages n cs c a out b inp : fresh_ids n cs ->
  let w := snd (calls cs (world0 n)) in
  asks c = Some (a, out, b, inp) -> fst (call_step c w) = Accepted ->
  exists x, held w a = Some x /\
  (exists gone,
     w_sent (snd (call_step c w)) (o_ctx x)
       = w_sent w (o_ctx x) ++ map (fun k => let '(s, o, d, p) := k in NDisconnect s o d p) gone /\
     Forall2 (fun l k => carried w l (o_ctx x) k)
       (filter (matches a out b inp) (v_links (snd (meanings cs (view0 n))))) gone) /\
  (forall ctx, ctx <> o_ctx x -> w_sent (snd (call_step c w)) ctx = w_sent w ctx).
Proof. intros F w Ha. exact (disconnect_msgs w _ c a out b inp (proj2 (run_refines n cs F)) Ha). Qed.
Print Assumptions C80_disconnect_messages.

(** A call that is not accepted has no effect: no message, no change of the
    connections or of the nodes. *)
Theorem C80_rejected w c : fst (call_step c w) <> Accepted ->
  let w' := snd (call_step c w) in
  w_objs w' = w_objs w /\ (forall x, w_conns w' x = w_conns w x) /\ (forall x, w_sent w' x = w_sent w x).
Proof. exact (rejected_nothing w c). Qed.
Print Assumptions C80_rejected.

(** The path inside a DelayNode survives every call but the drop of that node: no
    disconnect, on it or on another node, separates its input from its output. *)
Theorem C80_delay_path n before after ctx wr rd q :
  fresh_ids n (before ++ MakeDelay ctx wr rd q :: after) ->
  let a := length (w_objs (snd (calls before (world0 n)))) in
  ~ In (Drop a) after ->
  let w := snd (calls (before ++ MakeDelay ctx wr rd q :: after) (world0 n)) in
  held w a = Some (mk_object ctx wr rd 1 1) /\ In (wr, 0, rd, Some 0) (w_conns w ctx).
Proof.
  intros F a Hn w.
  assert (E : before ++ MakeDelay ctx wr rd q :: after = (before ++ [MakeDelay ctx wr rd q]) ++ after)
    by (rewrite <- app_assoc; reflexivity).
  destruct (F before _ after eq_refl ctx _ eq_refl) as [ND FF].
  pose proof (Forall_inv (Forall_inv_tail FF)) as [G _].
  assert (D : wr <> rd) by (inversion ND as [|? ? N1 _]; subst; cbn in N1; intuition congruence).
  unfold w. rewrite E in *. rewrite held_live.
  apply (own_stays_run n _ _ a (mk_object ctx wr rd 1 1) wr 0 rd (Some 0)); cbn [o_ctx o_in o_out];
    [exact F| |now right|exact D|now right|lia| |exact Hn]; rewrite calls_snoc; cbn [call_step snd].
  - cbn [link_up say new_objs w_objs]. unfold live_at, a. rewrite nth_error_app2, Nat.sub_diag by lia. reflexivity.
  - cbn [link_up say new_objs w_conns]. rewrite set_same. apply record_new.
Qed.
Print Assumptions C80_delay_path.

(** A PannerNode stays connected to the listener until it is dropped. *)
Theorem C80_panner_and_listener n before after ctx id params :
  fresh_ids n (before ++ MakePanner ctx id params :: after) ->
  let a := length (w_objs (snd (calls before (world0 n)))) in
  ~ In (Drop a) after ->
  let w := snd (calls (before ++ MakePanner ctx id params :: after) (world0 n)) in
  held w a = Some (mk_object ctx id id 1 1) /\ In (1, 0, id, None) (w_conns w ctx).
Proof.
  intros F a Hn w.
  assert (E : before ++ MakePanner ctx id params :: after = (before ++ [MakePanner ctx id params]) ++ after)
    by (rewrite <- app_assoc; reflexivity).
  destruct (F before _ after eq_refl ctx _ eq_refl) as [ND FF].
  pose proof (Forall_inv FF) as [G _].
  unfold w. rewrite E in *. rewrite held_live.
  apply (own_stays_run n _ _ a (mk_object ctx id id 1 1) 1 0 id None); cbn [o_ctx o_in o_out];
    [exact F| |now left|lia|now right|lia| |exact Hn]; rewrite calls_snoc; cbn [call_step snd].
  - cbn [new_objs link_up say w_objs]. rewrite wake_objs. unfold live_at, a. cbn [say w_objs].
    rewrite nth_error_app2, Nat.sub_diag by lia. reflexivity.
  - cbn [new_objs link_up say w_conns]. rewrite set_same. apply record_new.
Qed.
Print Assumptions C80_panner_and_listener.

(** The listener enters a context's graph once: when it is first asked for, by
    listener() or by the first PannerNode, as one uninterrupted block of messages
    that makes it, its nine parameters and their connections.  Before that
    nothing refers to it; afterwards only connections to panners do. *)
Theorem C80_listener_once n cs ctx : fresh_ids n cs ->
  let sent := w_sent (snd (calls cs (world0 n))) ctx in
  if existsb (wakes ctx) cs
  then exists pre post, sent = pre ++ listener_block ++ post /\
       Forall (fun m => about_listener m = false) pre /\
       Forall (fun m => about_listener m = false \/ to_panner m = true) post
  else Forall (fun m => about_listener m = false) sent.
Proof.
  intros F sent. pose proof (listener_run n cs ctx F) as H. unfold sent.
  destruct (existsb (wakes ctx) cs); [exact (proj2 H)|exact (proj2 (proj2 H))].
Qed.
Print Assumptions C80_listener_once.

(** A concrete program on two contexts.  Objects 0 and 10 are the destinations;
    20 is a gain (parameter 21), 22 a delay in a feedback loop with it (parameter
    23), 24 a node of the other context, 25 a panner that reuses the identifiers
    of the dropped gain. *)
Definition C80_program : list call :=
  [MakeNode 0 11 1 1 [12];                      (* 20, 21 *)
   MakeDelay 0 13 14 15;                        (* 22, 23 *)
   MakeNode 1 11 1 1 [];                        (* 24 *)
   Connect 20 0 22 0; Connect 22 0 20 0; Connect 22 0 0 0; Connect 22 0 0 0;
   Connect 20 0 23 0; Connect 20 0 24 0; Connect 20 1 0 0; Connect 20 0 0 1;
   DisconnectDest 22 24; DisconnectDest 20 0; Disconnect 22; DisconnectDest 22 0; Disconnect 22;
   DisconnectOutput 20 3; DisconnectDestFromOutput 20 23 0; Drop 20; Drop 21; Connect 20 0 0 0;
   MakePanner 0 11 [12]; Connect 22 0 24 0; Connect 22 0 25 0; DisconnectDestFromOutputToInput 22 25 0 0].

Fixpoint C80_distinct (l : list nat) : bool :=
  match l with [] => true | x :: r => negb (existsb (Nat.eqb x) r) && C80_distinct r end.
Lemma C80_distinct_ok l : C80_distinct l = true -> NoDup l.
Proof.
  induction l as [|x l IH]; intros H; constructor; cbn [C80_distinct] in H; apply andb_true_iff in H as [H1 H2]; auto.
  intros Hin. apply negb_true_iff in H1. enough (existsb (Nat.eqb x) l = true) by congruence.
  apply existsb_exists. exists x. split; [assumption|apply Nat.eqb_refl].
Qed.

Definition C80_fresh_check (n : nat) (cs : list call) : bool :=
  forallb (fun k => match nth_error cs k with
    | Some c => match takes c with
        | Some (ctx, ids) =>
            let w := snd (calls (firstn k cs) (world0 n)) in
            forallb (fun id => Nat.ltb 10 id &&
              negb (existsb (fun ob => snd ob && Nat.eqb (o_ctx (fst ob)) ctx
                                     && (Nat.eqb (o_in (fst ob)) id || Nat.eqb (o_out (fst ob)) id)) (w_objs w))) ids
            && C80_distinct ids
        | None => true end
    | None => true end) (seq 0 (length cs)).

Lemma C80_fresh_check_ok n cs : C80_fresh_check n cs = true -> fresh_ids n cs.
Proof.
  unfold C80_fresh_check. rewrite forallb_forall. intros H before c after E ctx ids Ht.
  specialize (H (length before)). rewrite E in H at 2. rewrite nth_error_app2, Nat.sub_diag in H by lia.
  cbn [nth_error] in H. rewrite Ht in H.
  assert (Hin : In (length before) (seq 0 (length cs))).
  { apply in_seq. rewrite E, app_length. cbn [length]. lia. }
  specialize (H Hin). apply andb_true_iff in H as [H1 H2]. cbv zeta in H1.
  replace (firstn (length before) cs) with before in H1
    by (rewrite E, firstn_app, firstn_all, Nat.sub_diag; cbn [firstn]; now rewrite app_nil_r).
  split; [now apply C80_distinct_ok|]. rewrite forallb_forall in H1. apply Forall_forall. intros id Hid.
  specialize (H1 id Hid). apply andb_true_iff in H1 as [H1 H3]. split; [now apply Nat.ltb_lt|].
  intros (a & o & Ha & Ec & Eid). apply negb_true_iff in H3.
  assert (X : existsb (fun ob : object * bool => snd ob && Nat.eqb (o_ctx (fst ob)) ctx
     && (Nat.eqb (o_in (fst ob)) id || Nat.eqb (o_out (fst ob)) id)) (w_objs (snd (calls before (world0 n)))) = true).
  { apply existsb_exists. exists (o, true). split; [eapply nth_error_In; exact Ha|]. cbn [fst snd].
    rewrite Ec, Nat.eqb_refl. cbn [andb]. apply orb_true_iff. rewrite !Nat.eqb_eq. assumption. }
  congruence.
Qed.

Example C80_calls_case :
  fresh_ids 2 C80_program /\
  fst (calls C80_program (world0 2)) =
    [Accepted; Accepted; Accepted;
     Accepted; Accepted; Accepted; Accepted;
     Accepted; Rejected InvalidAccess; Rejected IndexSize; Rejected IndexSize;
     Rejected InvalidAccess; Rejected InvalidAccess; Accepted; Rejected InvalidAccess; Accepted;
     Rejected IndexSize; Accepted; Accepted; Accepted; Impossible;
     Accepted; Rejected InvalidAccess; Accepted; Accepted] /\
  v_links (snd (meanings C80_program (view0 2))) = [] /\
  v_links (snd (meanings (firstn 8 C80_program) (view0 2)))
    = [(20, 0, 22, 0); (22, 0, 20, 0); (22, 0, 0, 0); (20, 0, 23, 0)] /\
  w_conns (snd (calls C80_program (world0 2))) 0
    = [(13, 0, 14, Some 0); (1, 0, 0, None); (1, 0, 11, None)].
Proof.
  split; [apply C80_fresh_check_ok; vm_compute; reflexivity|]. repeat split; vm_compute; reflexivity.
Qed.

(** Every connection the renderer is asked to make is between nodes it has been
    given and not been told to forget, from an output the first has to an input
    the second has.  The listener's own parameters are only usable after the
    listener has been asked for (or a panner made), as the API demands. *)
Theorem C80_ports n cs ctx pre s o d p post :
  fresh_ids n cs -> asked_first n cs ->
  w_sent (snd (calls cs (world0 n))) ctx = pre ++ NConnect s o d p :: post ->
  (exists i k, made_by pre s = Some (i, k) /\ o < k) /\
  (exists i k, made_by pre d = Some (i, k) /\ match p with Some q => q < i | None => True end).
Proof. exact (ports_run n cs ctx pre s o d p post). Qed.
Print Assumptions C80_ports.

Definition C80_asked_check (n : nat) (cs : list call) : bool :=
  forallb (fun k => match nth_error cs k with
    | Some (Connect a _ b _) =>
        let w := snd (calls (firstn k cs) (world0 n)) in
        forallb (fun e => match held w e with
          | Some x => if Nat.leb 2 (o_in x) && Nat.leb (o_in x) 10 then existsb (wakes (o_ctx x)) (firstn k cs) else true
          | None => true end) [a; b]
    | _ => true end) (seq 0 (length cs)).
Lemma C80_asked_check_ok n cs : C80_asked_check n cs = true -> asked_first n cs.
Proof.
  unfold C80_asked_check. rewrite forallb_forall. intros H before a out b inp after E x Hx Hr.
  specialize (H (length before)). rewrite E in H at 2. rewrite nth_error_app2, Nat.sub_diag in H by lia. cbn [nth_error] in H.
  assert (Hin : In (length before) (seq 0 (length cs))) by (apply in_seq; rewrite E, app_length; cbn [length]; lia).
  specialize (H Hin). cbv zeta in H.
  replace (firstn (length before) cs) with before in H
    by (rewrite E, firstn_app, firstn_all, Nat.sub_diag; cbn [firstn]; now rewrite app_nil_r).
  cbn [forallb] in H. rewrite andb_true_r in H. apply andb_true_iff in H as [H1 H2].
  assert (R : (Nat.leb 2 (o_in x) && Nat.leb (o_in x) 10) = true) by (apply andb_true_iff; split; apply Nat.leb_le; lia).
  destruct Hx as [Hx|Hx]; rewrite Hx, R in *; assumption.
Qed.

(** an oscillator on a parameter of the listener (object 3), two panners, a delay line *)
Definition C80_tour : list call :=
  [Listener 0; MakeNode 0 11 0 1 [12; 13]; Connect 10 0 3 0; MakePanner 0 14 [15; 16];
   MakeDelay 0 17 18 19; Connect 10 0 16 0; Connect 16 0 13 0; Connect 13 0 0 0; Drop 10; MakeNode 0 11 2 3 []; Connect 18 2 16 0].
Example C80_ports_case :
  fresh_ids 1 C80_tour /\ asked_first 1 C80_tour /\
  Forall (eq Accepted) (fst (calls C80_tour (world0 1))) /\
  length (filter (fun m => match m with NConnect _ _ _ _ => true | _ => false end) (w_sent (snd (calls C80_tour (world0 1))) 0)) = 22.
Proof.
  split; [apply C80_fresh_check_ok; vm_compute; reflexivity|]. split; [apply C80_asked_check_ok; vm_compute; reflexivity|].
  split; [|vm_compute; reflexivity]. vm_compute. repeat constructor.
Qed.

(** Before the listener is asked for, its parameters are not in the graph: an
    edge to one of them would name a node the renderer does not know. *)
Example C80_ports_asked : ~ asked_first 1 [MakeNode 0 11 0 1 []; Connect 10 0 3 0].
Proof.
  intros H. specialize (H [MakeNode 0 11 0 1 []] 10 0 3 0 [] eq_refl (param_of 0 4) (or_intror eq_refl)). cbn in H. specialize (H ltac:(lia)). discriminate H.
Qed.
