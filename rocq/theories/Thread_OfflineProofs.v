From Coq Require Import List Arith Bool Lia ZArith QArith Qround Sorted.
From Verif Require Import Thread_Model Thread_Spec Thread_Proofs.
Import ListNotations.
Local Open Scope nat_scope.

Lemma firstn_app_firstn {A} c (x y : list A) : firstn c (firstn c x ++ y) = firstn c (x ++ y).
Proof.
  rewrite !firstn_app, firstn_firstn, Nat.min_id, firstn_length. f_equal.
  destruct (le_lt_dec c (length x)) as [L|L]; [rewrite Nat.min_l by exact L; replace (c - length x) with 0 by lia|rewrite Nat.min_r by lia; reflexivity].
  rewrite Nat.sub_diag. reflexivity.
Qed.

Section Offline.
Context {G M V : Type}.
Variable GO : @graph_ops G M V.
Variable zero : V.
Variable RQ : nat.
Hypothesis RQ_pos : 0 < RQ.
Hypothesis GOK : graph_ok GO RQ.
Notation thread := (@thread G V).
Notation cmsg := (@cmsg G M).
Notation channel := (channel zero RQ).

(** ** The buffer *)
Lemma extend_spec cap buffer q buffer' L : well_formed RQ q -> Forall (fun b => length b = L) buffer -> L <= cap ->
  extend_offline zero RQ cap buffer q = Some buffer' ->
  length buffer' = length buffer /\ Forall (fun b => length b = Nat.min cap (L + RQ)) buffer' /\
  forall i b, nth_error buffer i = Some b -> nth_error buffer' i = Some (firstn cap (b ++ channel i [q])).
Proof.
  intros [_ Hq] HF HL. unfold extend_offline. destruct buffer as [|b0 bs]; [discriminate|].
  remember (b0 :: bs) as buffer eqn:EB.
  assert (H0 : length b0 = L) by (subst; inversion HF; auto).
  intros H. injection H as <-. rewrite map_length, combine_length, seq_length, Nat.min_id. split; [reflexivity|].
  assert (X : forall i b, nth_error buffer i = Some b ->
    nth_error (map (fun ib => snd ib ++ firstn (Nat.min (cap - length b0) RQ) (nth (fst ib) q (repeat zero RQ)))
      (combine (seq 0 (length buffer)) buffer)) i = Some (firstn cap (b ++ channel i [q])) /\ length (firstn cap (b ++ channel i [q])) = Nat.min cap (L + RQ)).
  { intros i b Hi.
    assert (Hib : i < length buffer) by (apply nth_error_Some; congruence).
    assert (Hb : length b = L). { rewrite Forall_forall in HF. apply HF. eapply nth_error_In. exact Hi. }
    assert (HC : channel i [q] = nth i q (repeat zero RQ) /\ length (channel i [q]) = RQ).
    { unfold channel, Thread_Spec.channel. cbn [map concat]. rewrite app_nil_r. destruct (nth_error q i) as [ch|] eqn:E.
      - split; [symmetry; apply nth_error_nth; exact E|]. rewrite Forall_forall in Hq. apply Hq. eapply nth_error_In. exact E.
      - split; [|apply repeat_length]. symmetry. apply nth_overflow. apply nth_error_None. exact E. }
    destruct HC as [HC1 HC2]. split.
    - rewrite nth_error_map.
      assert (HCo : nth_error (combine (seq 0 (length buffer)) buffer) i = Some (i, b)).
      { clear -Hi. change i with (0 + i) at 2. revert i Hi. generalize 0 as s. induction buffer as [|y l IH]; intros s i Hi; [destruct i; discriminate|].
        destruct i as [|i]; cbn in *; [injection Hi as ->; rewrite Nat.add_0_r; reflexivity|]. rewrite (IH (S s) i Hi). f_equal. f_equal. lia. }
      rewrite HCo. cbn [option_map fst snd]. f_equal. rewrite firstn_app. rewrite (firstn_all2 b) by lia. f_equal.
      rewrite <- HC1. rewrite H0, Hb.
      destruct (le_lt_dec RQ (cap - L)) as [A|A].
      + rewrite Nat.min_r by lia. rewrite !firstn_all2 by lia. reflexivity.
      + rewrite Nat.min_l by lia. reflexivity.
    - rewrite firstn_length, app_length, HC2, Hb. lia. }
  split.
  - apply Forall_forall. intros b' Hb'. apply In_nth_error in Hb'. destruct Hb' as [i Hi].
    destruct (nth_error buffer i) as [b|] eqn:E.
    + destruct (X i b E) as [X1 X2]. rewrite X1 in Hi. injection Hi as <-. exact X2.
    + apply nth_error_None in E. assert (Hn : i < length (map (fun ib => snd ib ++ firstn (Nat.min (cap - length b0) RQ) (nth (fst ib) q (repeat zero RQ)))
      (combine (seq 0 (length buffer)) buffer))) by (apply nth_error_Some; congruence).
      rewrite map_length, combine_length, seq_length, Nat.min_id in Hn. lia.
  - intros i b Hi. apply X. exact Hi.
Qed.

Lemma channel_cons i q qs : channel i (q :: qs) = channel i [q] ++ channel i qs.
Proof. unfold channel, Thread_Spec.channel. cbn [map concat]. rewrite app_nil_r. reflexivity. Qed.

Lemma channel_length i qs : Forall (well_formed RQ) qs -> length (channel i qs) = length qs * RQ.
Proof.
  induction 1 as [|q qs [_ Hq] _ IH]; [reflexivity|]. rewrite channel_cons, app_length, IH. cbn [length Nat.mul]. f_equal.
  unfold channel, Thread_Spec.channel. cbn [map concat]. rewrite app_nil_r. destruct (nth_error q i) as [ch|] eqn:E; [|apply repeat_length].
  rewrite Forall_forall in Hq. apply Hq. eapply nth_error_In. exact E.
Qed.

(** ** Messages *)
Lemma handle_frames q : forall t t' rest, handle_control_messages GO t q = Some (t', rest) -> t_frames t' = t_frames t.
Proof.
  intros t t' rest. unfold handle_control_messages. destruct (t_listening t); [|intros H; injection H as <- _; reflexivity].
  revert t. induction q as [|m q IH]; intros t; cbn [handle_all].
  - intros H. injection H as <- <-. reflexivity.
  - destruct (handle_control_message GO t m) as [[t1|t1]|] eqn:E; intros H; [| |discriminate].
    + apply IH in H. rewrite H. destruct m; cbn in E; try (destruct (t_graph t); try discriminate); try (destruct (g_apply GO _ _); try discriminate); try (injection E as <-; reflexivity).
    + injection H as <- _. destruct m; cbn in E; try (destruct (t_graph t); try discriminate); try (destruct (g_apply GO _ _); try discriminate); try (injection E as <-; reflexivity).
Qed.

Lemma handle_listen q : no_recycle q -> forall t t' rest, t_listening t = true -> handle_control_messages GO t q = Some (t', rest) ->
  t_listening t' = true /\ rest = [] /\ happens GO RQ t (Receive q) t'.
Proof.
  intros HR t t' rest HL. unfold handle_control_messages. rewrite HL. intros H.
  assert (X : t_listening t' = true /\ rest = []).
  { revert t HL H. induction HR as [|m q Hm HR IH]; intros t HL H; cbn [handle_all] in H.
    - injection H as <- <-. auto.
    - destruct (handle_control_message GO t m) as [[t1|t1]|] eqn:E; [| |discriminate].
      + eapply IH; [|exact H]. destruct m; cbn in E; try (destruct (t_graph t); try discriminate);
          try (destruct (g_apply GO _ _); try discriminate); try (injection E as <-; exact HL).
      + destruct m; cbn in E; try discriminate; try (destruct (t_graph t); try discriminate);
          try (destruct (g_apply GO _ _); try discriminate). congruence. }
  destruct X as [X1 ->]. split; [exact X1|]. split; [reflexivity|]. apply H_receive; auto.
Qed.

Lemma render_wf (t t' : thread) q : render_quantum GO RQ t = Some (t', q) ->
  well_formed RQ q /\ t_frames t' = t_frames t + RQ /\ t_listening t' = t_listening t.
Proof.
  unfold render_quantum. destruct (t_graph t) as [g|]; [|discriminate].
  destruct (g_render GO g (t_frames t)) as [[g' q']|] eqn:E; [|discriminate]. intros H. injection H as <- <-.
  split; [eapply GOK; exact E|]. auto.
Qed.

(** ** The loop *)
Definition due (quantum : nat) (susp : list (@suspension G M)) : list cmsg * list nat * list (@suspension G M) :=
  match susp with
  | (q, ms) :: susp' => if Nat.eqb q quantum then (ms, [q], susp') else ([], [], susp)
  | [] => ([], [], [])
  end.

Lemma loop_spec cap n k : forall quantum t buffer susp evs t' buf ran L,
  Forall (fun b => length b = L) buffer -> L = Nat.min cap (quantum * RQ) -> length buffer = n ->
  ordered susp -> Forall (fun s => quantum <= fst s) susp ->
  offline_loop GO zero RQ k quantum cap t buffer susp evs = Some (t', buf, ran) ->
  exists qs, length qs = k /\ Forall (well_formed RQ) qs /\ length buf = n /\
    (forall i b, nth_error buffer i = Some b -> nth_error buf i = Some (firstn cap (b ++ channel i qs))) /\
    t_frames t' = t_frames t + k * RQ /\
    ran = map (fun s => (fst s, t_frames t + (fst s - quantum) * RQ)) (filter (fun s => Nat.ltb (fst s) (quantum + k)) susp) /\
    (t_listening t = true -> Forall (fun s => no_recycle (snd s)) susp -> Forall no_recycle evs ->
      t_listening t' = true /\
      history GO RQ t (flat_map (fun jq => [Receive (messages_at susp (fst jq)); Quantum (snd jq); Receive (nth (fst jq - quantum) evs [])])
        (combine (seq quantum k) qs)) t').
Proof.
  induction k as [|k IH]; intros quantum t buffer susp evs t' buf ran L HF HLc Hn Hsort Hge H; cbn [offline_loop] in H.
  - injection H as <- <- <-. exists []. split; [reflexivity|]. split; [constructor|]. split; [exact Hn|].
    split. { intros i b Hi. cbn. rewrite app_nil_r, firstn_all2; [exact Hi|]. rewrite Forall_forall in HF. rewrite (HF b) by (eapply nth_error_In; exact Hi). lia. }
    split; [lia|]. split; [|intros; split; [assumption|constructor]].
    replace (filter (fun s => Nat.ltb (fst s) (quantum + 0)) susp) with (@nil (@suspension G M)); [reflexivity|].
    clear -Hge. induction Hge as [|s l Hs HG IHl]; [reflexivity|]. cbn [filter]. rewrite (proj2 (Nat.ltb_ge _ _)) by lia. exact IHl.
  - match type of H with (match ?x with (_, _) => _ end) = _ => destruct x as [[ms rn] susp'] eqn:EH end.
    destruct (handle_control_messages GO t ms) as [[t1 r1]|] eqn:E1; [|discriminate].
    destruct (render_quantum GO RQ t1) as [[t2 q]|] eqn:E2; [|discriminate].
    destruct (extend_offline zero RQ cap buffer q) as [buffer'|] eqn:E3; [|discriminate].
    destruct (handle_control_messages GO t2 (hd [] evs)) as [[t3 r3]|] eqn:E4; [|discriminate].
    destruct (offline_loop GO zero RQ k (S quantum) cap t3 buffer' susp' (tl evs)) as [[[t4 b4] ran4]|] eqn:E5; [|discriminate].
    injection H as <- <- <-.
    destruct (render_wf _ _ _ E2) as (Wq & F2 & L2).
    destruct (extend_spec cap buffer q buffer' L Wq HF) as (X1 & X2 & X3); [lia|exact E3|].
    (* the remaining suspensions *)
    assert (HS : ordered susp' /\ Forall (fun s => S quantum <= fst s) susp' /\
       rn ++ map (fun s => (fst s, t_frames t + (fst s - quantum) * RQ)) (filter (fun s => Nat.ltb (fst s) (quantum + S k)) susp')
         = map (fun s => (fst s, t_frames t + (fst s - quantum) * RQ)) (filter (fun s => Nat.ltb (fst s) (quantum + S k)) susp) /\
       messages_at susp quantum = ms /\ (forall j, quantum < j -> messages_at susp j = messages_at susp' j) /\
       (Forall (fun s => no_recycle (snd s)) susp -> no_recycle ms /\ Forall (fun s => no_recycle (snd s)) susp')).
    { destruct susp as [|[q0 m0] susp0].
      - injection EH as <- <- <-. repeat split; auto. constructor.
      - inversion Hge as [|? ? G1 G2]; subst. cbn [fst] in G1. unfold ordered in Hsort. cbn [map fst] in Hsort.
        inversion Hsort as [|? ? S1 S2]; subst.
        assert (S2' : Forall (fun s : nat * list cmsg => q0 < fst s) susp0).
        { clear -S2. induction susp0 as [|s l IHl]; [constructor|]. cbn in S2. inversion S2; subst. constructor; auto. }
        destruct (Nat.eqb_spec q0 quantum) as [->|Hne]; injection EH as <- <- <-.
        + split; [exact S1|]. split. { eapply Forall_impl; [|exact S2']. cbn. intros; lia. }
          split. { cbn [filter fst map]. rewrite (proj2 (Nat.ltb_lt _ _)) by lia. cbn [map app fst]. rewrite Nat.sub_diag. cbn [Nat.mul]. rewrite Nat.add_0_r. reflexivity. }
          split. { unfold messages_at. cbn [find fst]. rewrite Nat.eqb_refl. reflexivity. }
          split. { intros j Hj. unfold messages_at. cbn [find fst]. rewrite (proj2 (Nat.eqb_neq _ _)) by lia. reflexivity. }
          intros HR. inversion HR; subst. auto.
        + split; [exact Hsort|]. split. { constructor; [cbn; lia|]. eapply Forall_impl; [|exact S2']. cbn. intros; lia. }
          split; [reflexivity|].
          split. { unfold messages_at. cbn [find fst]. rewrite (proj2 (Nat.eqb_neq _ _)) by lia.
            replace (find (fun s => Nat.eqb (fst s) quantum) susp0) with (@None (nat * list cmsg)); [reflexivity|].
            clear -S2' G1. induction S2' as [|s l Hs HG IHl]; [reflexivity|]. cbn [find]. rewrite (proj2 (Nat.eqb_neq _ _)) by lia. exact IHl. }
          split; [reflexivity|]. intros HR. split; [constructor|exact HR]. }
    destruct HS as (HS1 & HS2 & HS3 & HS4 & HS5 & HS6).
    eapply (IH (S quantum) t3 buffer' susp' (tl evs) t4 b4 ran4 (Nat.min cap (L + RQ))) in E5; [|exact X2|lia|lia|exact HS1|exact HS2].
    destruct E5 as (qs & I1 & I2 & I3 & I4 & I5 & I6 & I7).
    pose proof (handle_frames _ _ _ _ E1) as F1. pose proof (handle_frames _ _ _ _ E4) as F4.
    exists (q :: qs). split; [cbn; lia|]. split; [constructor; assumption|]. split; [lia|].
    split. { intros i b Hi. rewrite (I4 i _ (X3 i b Hi)). rewrite firstn_app_firstn, <- app_assoc, <- channel_cons. reflexivity. }
    split; [lia|]. split.
    { rewrite <- HS3. f_equal. rewrite I6. replace (S quantum + k) with (quantum + S k) by lia.
      apply map_ext_in. intros s Hs. apply filter_In in Hs. rewrite Forall_forall in HS2. specialize (HS2 s (proj1 Hs)). f_equal. nia. }
    intros HL HR HE. destruct (HS6 HR) as [R1 R2].
    destruct (handle_listen _ R1 _ _ _ HL E1) as (L1 & _ & P1).
    assert (R3 : no_recycle (hd [] evs)) by (destruct HE; [constructor|assumption]).
    destruct (handle_listen _ R3 t2 _ _ (eq_trans L2 L1) E4) as (L3 & _ & P3).
    assert (R4 : Forall no_recycle (tl evs)) by (destruct HE; [constructor|assumption]).
    destruct (I7 L3 R2 R4) as [J1 J2]. split; [exact J1|].
    cbn [seq combine flat_map fst snd]. rewrite HS4, Nat.sub_diag.
    econstructor; [exact P1|]. econstructor; [apply H_quantum; exact E2|].
    econstructor; [destruct evs; exact P3|].
    match goal with |- history _ _ _ ?es _ => match type of J2 with history _ _ _ ?es' _ => replace es with es'; [exact J2|] end end.
    rewrite !flat_map_concat_map. f_equal. apply map_ext_in. intros [j x] Hj. apply in_combine_l in Hj. apply in_seq in Hj.
    cbn [fst snd]. rewrite HS5 by lia. replace (j - quantum) with (S (j - S quantum)) by lia. destruct evs; [destruct (j - S quantum)|]; reflexivity.
Qed.

Lemma div_ceil_spec len q : q < div_ceil len RQ <-> q * RQ < len.
Proof.
  unfold div_ceil. split; intros H.
  - destruct (le_lt_dec len (q * RQ)) as [L|L]; [|exact L]. exfalso.
    assert (X : (len + (RQ - 1)) / RQ <= q); [|lia]. apply Nat.lt_succ_r. apply Nat.div_lt_upper_bound; [lia|]. nia.
  - apply Nat.div_le_lower_bound; [lia|]. nia.
Qed.

Lemma div_ceil_enough len : len <= div_ceil len RQ * RQ.
Proof. destruct (le_lt_dec len (div_ceil len RQ * RQ)) as [L|L]; [exact L|]. apply div_ceil_spec in L. lia. Qed.

Lemma audiobuffer_spec n len t init susp evs t' buf ran :
  ordered susp -> render_audiobuffer GO zero RQ n len t init susp evs = Some (t', buf, ran) ->
  exists qs, length qs = div_ceil len RQ /\ Forall (well_formed RQ) qs /\ length buf = n /\
    (forall i, i < n -> nth_error buf i = Some (firstn len (channel i qs)) /\ length (firstn len (channel i qs)) = len) /\
    t_frames t' = t_frames t + div_ceil len RQ * RQ /\
    ran = map (fun s => (fst s, t_frames t + fst s * RQ)) (filter (fun s => Nat.ltb (fst s) (div_ceil len RQ)) susp) /\
    (t_listening t = true -> no_recycle init -> Forall (fun s => no_recycle (snd s)) susp -> Forall no_recycle evs ->
      history GO RQ t (Receive init :: offline_schedule susp evs qs) t').
Proof.
  intros HO. unfold render_audiobuffer. destruct (handle_control_messages GO t init) as [[t1 r1]|] eqn:E1; [|discriminate].
  intros H. eapply (loop_spec len n _ 0 t1 (repeat [] n) susp evs t' buf ran 0) in H; [|apply Forall_forall; intros b Hb; apply repeat_spec in Hb; subst; reflexivity|cbn; lia|apply repeat_length|exact HO|apply Forall_forall; intros; lia].
  destruct H as (qs & I1 & I2 & I3 & I4 & I5 & I6 & I7). pose proof (handle_frames _ _ _ _ E1) as F1.
  exists qs. split; [exact I1|]. split; [exact I2|]. split; [exact I3|]. split; [|split; [|split]].
  - intros i Hi. split.
    + rewrite (I4 i []); [reflexivity|]. clear -Hi. revert n Hi. induction i; intros [|n] Hi; try lia; cbn; [reflexivity|]. apply IHi. lia.
    + rewrite firstn_length, channel_length, I1 by exact I2. pose proof (div_ceil_enough len). lia.
  - lia.
  - rewrite I6. cbn [Nat.add]. apply map_ext. intros s. rewrite Nat.sub_0_r, F1. reflexivity.
  - intros HL R0 R1 R2. destruct (handle_listen _ R0 _ _ _ HL E1) as (L1 & _ & P1). destruct (I7 L1 R1 R2) as [_ J].
    econstructor; [exact P1|]. unfold offline_schedule. rewrite I1.
    match goal with |- history _ _ _ ?es _ => match type of J with history _ _ _ ?es' _ => replace es with es'; [exact J|] end end.
    rewrite !flat_map_concat_map. f_equal. apply map_ext. intros [j x]. cbn [fst snd]. rewrite Nat.sub_0_r. reflexivity.
Qed.

(** ** Rendering does not panic *)
Hypothesis render_total : forall g f, g_render GO g f <> None.
Hypothesis apply_total : forall g m, g_apply GO g m <> None.

Lemma handle_total q : no_recycle q -> forall t, t_graph t <> None ->
  exists t' rest, handle_control_messages GO t q = Some (t', rest) /\ t_graph t' <> None /\ (t_listening t = true -> rest = []) /\ (no_recycle rest).
Proof.
  intros HR t HG. unfold handle_control_messages. destruct (t_listening t) eqn:EL; [|exists t, q; repeat split; auto; discriminate].
  clear EL. revert t HG. induction HR as [|m q Hm HR IH]; intros t HG; cbn [handle_all].
  - exists t, []. repeat split; auto. constructor.
  - assert (X : exists t1, handle_control_message GO t m = Some (inl t1) /\ t_graph t1 <> None).
    { destruct m; cbn; try (eexists; split; [reflexivity|]; cbn; congruence).
      - destruct (t_graph t) as [g|]; [|congruence]. pose proof (apply_total g m). destruct (g_apply GO g m); [|congruence].
        eexists. split; [reflexivity|]. cbn. congruence.
      - congruence. }
    destruct X as (t1 & X1 & X2). rewrite X1. apply IH. exact X2.
Qed.

Lemma quantum_total (t : thread) : t_graph t <> None -> exists t' q, render_quantum GO RQ t = Some (t', q) /\ t_graph t' <> None.
Proof.
  intros H. unfold render_quantum. destruct (t_graph t) as [g|]; [|congruence]. pose proof (render_total g (t_frames t)).
  destruct (g_render GO g (t_frames t)) as [[g' q]|]; [|congruence]. eexists _, _. split; [reflexivity|]. cbn. congruence.
Qed.

Lemma loop_total cap k : forall quantum t buffer susp evs, buffer <> [] -> t_graph t <> None ->
  Forall (fun s => no_recycle (snd s)) susp -> Forall no_recycle evs ->
  offline_loop GO zero RQ k quantum cap t buffer susp evs <> None.
Proof.
  induction k as [|k IH]; intros quantum t buffer susp evs HB HG HS HE; cbn [offline_loop]; [congruence|].
  match goal with |- (match ?x with (_, _) => _ end) <> _ => destruct x as [[ms rn] susp'] eqn:EH end.
  assert (HS' : no_recycle ms /\ Forall (fun s => no_recycle (snd s)) susp').
  { destruct susp as [|[q0 m0] susp0]; [injection EH as <- _ <-; split; constructor|].
    destruct (Nat.eqb q0 quantum); injection EH as <- _ <-; [inversion HS; auto|split; [constructor|exact HS]]. }
  destruct HS' as [H1 H2].
  destruct (handle_total ms H1 t HG) as (t1 & r1 & -> & G1 & _).
  destruct (quantum_total t1 G1) as (t2 & q & -> & G2).
  unfold extend_offline at 1. destruct buffer as [|b0 bs]; [congruence|].
  destruct (handle_total (hd [] evs) ltac:(destruct HE; [constructor|assumption]) t2 G2) as (t3 & r3 & -> & G3 & _).
  match goal with |- context [offline_loop GO zero RQ k (S quantum) cap t3 ?b susp' (tl evs)] =>
    specialize (IH (S quantum) t3 b susp' (tl evs)); destruct (offline_loop GO zero RQ k (S quantum) cap t3 b susp' (tl evs)) as [[[? ?] ?]|]; [discriminate|] end.
  intros _. apply IH; auto; [cbn; discriminate|destruct HE; [constructor|assumption]].
Qed.

Lemma audiobuffer_total n len t init susp evs : 0 < n -> t_graph t <> None -> no_recycle init ->
  Forall (fun s => no_recycle (snd s)) susp -> Forall no_recycle evs ->
  render_audiobuffer GO zero RQ n len t init susp evs <> None.
Proof.
  intros Hn HG HI HS HE. unfold render_audiobuffer. destruct (handle_total init HI t HG) as (t1 & r1 & -> & G1 & _).
  apply loop_total; auto. destruct n; [lia|discriminate].
Qed.

Context {T : Type}.
Variable conv : V -> T.

Lemma receive_total (t : thread) rest bs : t_graph t <> None -> no_recycle rest -> Forall no_recycle bs ->
  exists t' rest' bs', receive GO t rest bs = Some (t', rest', bs') /\ t_graph t' <> None /\ no_recycle rest' /\ Forall no_recycle bs'.
Proof.
  intros HG HR HB. unfold receive.
  assert (X : no_recycle (rest ++ hd [] bs)) by (apply Forall_app; split; [exact HR|destruct HB; [constructor|assumption]]).
  destruct (handle_total _ X t HG) as (t' & r' & -> & G' & _ & R'). exists t', r', (tl bs). repeat split; auto.
  destruct HB; [constructor|assumption].
Qed.

Lemma copy_total n o q data : Forall (fun ch => length ch = RQ) q -> n <= length q -> forall k i (d : list T), i + k <= n -> d = data \/ True ->
  copy_channels conv k i n o q d <> None.
Proof.
  intros HF Hn. induction k as [|k IH]; intros i d Hi _; cbn [copy_channels]; [discriminate|].
  destruct (nth_error q i) eqn:E; [|apply nth_error_None in E; lia]. apply IH; auto. lia.
Qed.

Lemma chunks_total n : 0 < n -> forall cs t rest bs, t_graph t <> None -> no_recycle rest -> Forall no_recycle bs ->
  exists t' out rest' bs', render_chunks GO zero conv RQ n t cs rest bs = Some (t', out, rest', bs') /\
    t_graph t' <> None /\ no_recycle rest' /\ Forall no_recycle bs'.
Proof.
  intros Hn. induction cs as [|data cs IH]; intros t rest bs HG HR HB; cbn [render_chunks].
  - eexists _, _, _, _. split; [reflexivity|]. auto.
  - destruct (quantum_total t HG) as (t1 & q & E & G1). rewrite E. destruct (render_wf _ _ _ E) as (W & _).
    destruct (pad_ok zero RQ RQ_pos n q W) as [P1 P2].
    destruct (copy_channels conv n 0 n 0 (pad zero RQ n q) data) as [d'|] eqn:EC; [|exfalso; eapply (copy_total n 0 _ data P2 P1 n 0 data); eauto].
    match goal with |- context [receive GO ?t2 rest bs] => destruct (receive_total t2 rest bs) as (t3 & r3 & b3 & -> & G3 & R3 & B3); auto end.
    { destruct (Nat.eqb _ _); [exact G1|exact G1]. }
    destruct (IH t3 r3 b3 G3 R3 B3) as (t4 & o4 & r4 & b4 & -> & X). eexists _, _, _, _. split; [reflexivity|exact X].
Qed.

Lemma callbacks_total n : 0 < n -> forall bufs t rest bs,
  Forall (fun buf : list T => exists m, length buf = m * n) bufs -> offset_ok RQ n t ->
  t_graph t <> None -> no_recycle rest -> Forall no_recycle bs -> callbacks GO zero conv RQ n t bufs rest bs <> None.
Proof.
  intros Hn. induction bufs as [|buf bufs IH]; intros t rest bs HF HO HG HR HB; cbn [callbacks]; [discriminate|].
  inversion HF as [|? ? [m Hm] HF']; subst.
  assert (HN : forall t (b : list T), t_graph t <> None -> exists t' out rest' bs', render_next GO zero conv RQ n t b rest bs = Some (t', out, rest', bs') /\
    t_graph t' <> None /\ no_recycle rest' /\ Forall no_recycle bs').
  { intros t0 b HG0. unfold render_next. destruct (receive_total t0 rest bs HG0 HR HB) as (t1 & r1 & b1 & -> & G1 & R1 & B1).
    destruct (t_suspended t1 || _); [eexists _, _, _, _; split; [reflexivity|]; auto|]. apply chunks_total; auto. }
  assert (X : exists t' out rest' bs', render_inner GO zero conv RQ n t buf rest bs = Some (t', out, rest', bs') /\
    t_graph t' <> None /\ no_recycle rest' /\ Forall no_recycle bs').
  { unfold render_inner. destruct (t_offset t) as [[o prev]|] eqn:EO; [|apply HN; exact HG].
    unfold offset_ok in HO. rewrite EO in HO. destruct HO as (_ & O1 & O2).
    destruct (copy_channels conv n 0 n o prev _) as [d|] eqn:EC; [|exfalso; exact (copy_total n o prev [] O2 O1 n 0 _ (le_n _) (or_intror I) EC)].
    destruct (skipn _ buf) as [|y ys]; [eexists _, _, _, _; split; [reflexivity|]; auto|].
    destruct (HN (set_offset t None) (y :: ys) HG) as (t1 & o1 & r1 & b1 & -> & X). eexists _, _, _, _. split; [reflexivity|exact X]. }
  destruct X as (t1 & o1 & r1 & b1 & E1 & G1 & R1 & B1). rewrite E1.
  destruct (inner_stream GO zero conv RQ RQ_pos GOK n Hn t buf rest bs t1 o1 r1 b1 m Hm HO E1) as (es & _ & _ & _ & O1 & _).
  specialize (IH t1 r1 b1 HF' O1 G1 R1 B1). destruct (callbacks GO zero conv RQ n t1 bufs r1 b1) as [[[[? ?] ?] ?]|]; [discriminate|]. exact IH.
Qed.
End Offline.

(** ** Scheduling *)
Lemma insert_spec {A} q (a : A) l : ordered l ->
  (insert_suspension q a l = None <-> exists a', In (q, a') l) /\
  forall l', insert_suspension q a l = Some l' -> ordered l' /\ forall x, In x l' <-> x = (q, a) \/ In x l.
Proof.
  unfold ordered. induction l as [|[q' a'] l IH]; intros HO; cbn [insert_suspension].
  - split; [split; [discriminate|intros [? []]]|]. intros l' H. injection H as <-. split; [repeat constructor|]. cbn. intuition congruence.
  - cbn [map fst] in HO. inversion HO as [|? ? O1 O2]; subst. rewrite Forall_forall in O2.
    destruct (Nat.ltb_spec q q') as [L|L].
    + split.
      * split; [discriminate|]. intros (a0 & [H|H]); [injection H as <- <-; lia|]. specialize (O2 q (in_map fst _ _ H)). lia.
      * intros l' H. injection H as <-. split; [|cbn; intuition congruence]. cbn [map fst]. constructor; [exact HO|].
        constructor; [exact L|]. apply Forall_forall. intros x Hx. specialize (O2 x Hx). lia.
    + destruct (Nat.eqb_spec q q') as [<-|N].
      * split; [|discriminate]. split; [|reflexivity]. intros _. exists a'. left. reflexivity.
      * destruct (IH O1) as [I1 I2]. split.
        -- destruct (insert_suspension q a l) as [l'|]; cbn [option_map]; split; try discriminate; intros H.
           ++ exfalso. destruct H as (a0 & [H|H]); [injection H as -> _; lia|]. pose proof (proj2 I1 (ex_intro _ a0 H)); discriminate.
           ++ destruct (proj1 I1 eq_refl) as [a0 H0]. exists a0. right. exact H0.
           ++ reflexivity.
        -- intros l' H. destruct (insert_suspension q a l) as [l1|] eqn:E; [|discriminate]. injection H as <-.
           destruct (I2 l1 eq_refl) as [J1 J2]. split.
           ++ cbn [map fst]. constructor; [exact J1|]. apply Forall_forall. intros x Hx. apply in_map_iff in Hx. destruct Hx as (y & <- & Hy).
              apply J2 in Hy. destruct Hy as [->|Hy]; [cbn; lia|]. apply O2. apply in_map. exact Hy.
           ++ intros x. cbn [In]. rewrite J2. intuition.
Qed.

Local Open Scope Q_scope.
Lemma boundary_le RQ sr time q : (0 < RQ)%nat -> 0 < sr ->
  time <= boundary_time RQ sr q <-> time * sr / inject_Z (Z.of_nat RQ) <= inject_Z (Z.of_nat q).
Proof.
  intros HR Hsr. unfold boundary_time.
  assert (HRQ : 0 < inject_Z (Z.of_nat RQ)) by (change 0 with (inject_Z 0); rewrite <- Zlt_Qlt; lia).
  assert (E : inject_Z (Z.of_nat (q * RQ)) == inject_Z (Z.of_nat q) * inject_Z (Z.of_nat RQ)).
  { rewrite <- inject_Z_mult, Nat2Z.inj_mul. reflexivity. }
  rewrite E. split; intros H.
  - apply Qle_shift_div_r; [exact HRQ|].
    apply (Qmult_le_compat_r _ _ sr) in H; [|apply Qlt_le_weak; exact Hsr].
    setoid_replace (inject_Z (Z.of_nat q) * inject_Z (Z.of_nat RQ) / sr * sr) with (inject_Z (Z.of_nat q) * inject_Z (Z.of_nat RQ)) in H; [exact H|].
    field. intros X. rewrite X in Hsr. discriminate.
  - apply Qle_shift_div_l; [exact Hsr|].
    apply (Qmult_le_compat_r _ _ (inject_Z (Z.of_nat RQ))) in H; [|apply Qlt_le_weak; exact HRQ].
    setoid_replace (time * sr / inject_Z (Z.of_nat RQ) * inject_Z (Z.of_nat RQ)) with (time * sr) in H; [exact H|].
    field. intros X. rewrite X in HRQ. discriminate.
Qed.

Lemma suspend_frame_spec RQ len sr time : (0 < RQ)%nat -> 0 < sr ->
  (forall q, calculate_suspend_frame RQ len sr time = Some q ->
    time <= boundary_time RQ sr q /\ forall q', time <= boundary_time RQ sr q' -> (q <= q')%nat) /\
  (calculate_suspend_frame RQ len sr time <> None <-> 0 <= time /\ time < inject_Z (Z.of_nat len) / sr).
Proof.
  intros HR Hsr. unfold calculate_suspend_frame. destruct (Qle_bool 0 time && negb (Qle_bool (inject_Z (Z.of_nat len) / sr) time)) eqn:E.
  - apply andb_prop in E. destruct E as [E1 E2]. apply Qle_bool_iff in E1. split.
    + intros q H. injection H as <-.
      assert (HRQ : 0 < inject_Z (Z.of_nat RQ)) by (change 0 with (inject_Z 0); rewrite <- Zlt_Qlt; lia).
      assert (P : 0 <= time * sr / inject_Z (Z.of_nat RQ)).
      { apply Qle_shift_div_l; [exact HRQ|]. rewrite Qmult_0_l. apply Qmult_le_0_compat; [exact E1|apply Qlt_le_weak; exact Hsr]. }
      assert (PC : (0 <= Qceiling (time * sr / inject_Z (Z.of_nat RQ)))%Z).
      { change 0%Z with (Qceiling 0). apply Qceiling_resp_le. exact P. }
      split.
      * apply boundary_le; auto. rewrite Z2Nat.id by exact PC. apply Qle_ceiling.
      * intros q' Hq'. apply boundary_le in Hq'; auto. apply Qceiling_resp_le in Hq'. rewrite Qceiling_Z in Hq'. lia.
    + split; [|discriminate]. intros _. split; [exact E1|]. apply negb_true_iff in E2. apply Qnot_le_lt. intros X. apply Qle_bool_iff in X. congruence.
  - split; [discriminate|]. split; [congruence|]. intros [H1 H2] _. apply andb_false_iff in E. destruct E as [E|E].
    + apply Qle_bool_iff in H1. congruence.
    + apply negb_false_iff in E. apply Qle_bool_iff in E. apply (Qlt_not_le _ _ H2 E).
Qed.
