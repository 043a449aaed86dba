(** Proofs about the media recorder. *)
From Coq Require Import List Arith ZArith Bool Lia.
From Verif Require Import Recorder_Model Recorder_Spec Track_Proofs.
Import ListNotations.

Section Proofs.
Context {V B E : Type}.
Variable header : nat -> nat -> list B.
Variable bytes : V -> list B.
Variable items : list (item V E).
Notation rest := (at_rest items).
Notation step := (rstep header bytes).
Notation steps := (rsteps header bytes).
Notation fl := (file header bytes).

Lemma skip_cons : forall {A} (l : list A) k x, nth_error l k = Some x -> skipn k l = x :: skipn (S k) l.
Proof. induction l as [|y l IH]; intros [|k] x H; cbn in *; try discriminate; [congruence|apply IH; exact H]. Qed.
Lemma next_item : forall k x, nth_error items k = Some x -> next_call 5 (rest k false) 0 = Some (rest (S k) false, Some x).
Proof.
  intros k x H. unfold at_rest. cbn [next_call listen t_listeners nth_error l_at t_ended at_place put firstn skipn app l_pos t_position]. rewrite Nat.eqb_refl.
  cbn [next_call listen t_listeners nth_error l_at t_ended at_place put firstn skipn app l_pos t_position t_provider]. rewrite (skip_cons items k x H).
  cbn [next_call listen t_listeners nth_error l_at t_ended at_place put firstn skipn app l_pos t_position t_provider t_data]. rewrite H. reflexivity.
Qed.
Lemma next_end : forall k, length items <= k -> next_call 5 (rest k false) 0 = Some (rest k true, None).
Proof.
  intros k H. unfold at_rest. cbn [next_call listen t_listeners nth_error l_at t_ended at_place put firstn skipn app l_pos t_position]. rewrite Nat.eqb_refl.
  cbn [next_call listen t_listeners nth_error l_at t_ended at_place put firstn skipn app l_pos t_position t_provider]. rewrite (skipn_all2 items) by exact H. reflexivity.
Qed.

Lemma buffers_nth : forall (l : list (item V E)) n b, n <= length (buffers l) -> nth_error l n = Some (inl b) -> nth_error (buffers l) n = Some b /\ n < length (buffers l).
Proof.
  induction l as [|[c|e] l IH]; intros [|n] b L H; cbn in *; try discriminate; try lia.
  - injection H as ->. split; [reflexivity|lia].
  - destruct (IH n b) as [A C]; [lia|exact H|]. split; [exact A|lia].
Qed.
Lemma buffers_error : forall (l : list (item V E)) n e, n <= length (buffers l) -> nth_error l n = Some (inr e) -> n = length (buffers l) /\ first_error l = Some e.
Proof.
  induction l as [|[c|e'] l IH]; intros [|n] e L H; cbn in *; try discriminate; try lia.
  - destruct (IH n e) as [A C]; [lia|exact H|]. split; [lia|exact C].
  - injection H as ->. auto.
Qed.
Lemma buffers_end : forall (l : list (item V E)) n, n <= length (buffers l) -> nth_error l n = None -> n = length (buffers l) /\ first_error l = None.
Proof.
  induction l as [|[c|e'] l IH]; intros [|n] L H; cbn in *; try discriminate; try lia.
  - auto.
  - destruct (IH n) as [A C]; [lia|exact H|]. split; [lia|exact C].
Qed.
Lemma firstn_next : forall {A} (l : list A) n x, nth_error l n = Some x -> firstn (S n) l = firstn n l ++ [x].
Proof. induction l as [|y l IH]; intros [|n] x H; cbn in *; try discriminate; [congruence|]. f_equal. apply IH. exact H. Qed.
Lemma file_next : forall bs b, bs <> [] -> fl (bs ++ [b]) = fl bs ++ encode_next bytes b.
Proof.
  intros [|a bs] b N; [congruence|]. cbn [app file]. rewrite <- app_assoc. f_equal. change (a :: bs ++ [b]) with ((a :: bs) ++ [b]). rewrite flat_map_app, flat_map_app. f_equal. cbn. rewrite app_nil_r. reflexivity.
Qed.
Lemma file_one : forall b, fl [b] = encode_first header bytes b.
Proof. intros b. unfold file, encode_first, encode_next. cbn [flat_map]. rewrite app_nil_r. reflexivity. Qed.

(** ** Every interleaving of one recording *)
Definition stopper (a : agent V E) : Prop := a_pc a = UserFlush \/ a_pc a = Stop1 \/ a_pc a = Stop2 \/ a_pc a = Gone.
Definition at_pc (p : pc V E) (t : track (item V E)) (n : nat) (blob : list B) : Prop :=
  match p with
  | First => t = rest 0 false /\ n = 0 /\ blob = []
  | Install b => t = rest 1 false /\ n = 0 /\ nth_error items 0 = Some (inl b) /\ blob = []
  | Next | Flush => t = rest n false /\ n > 0
  | Got x => t = rest (S n) false /\ n > 0 /\ nth_error items n = Some x
  | Record b => t = rest (S n) false /\ n > 0 /\ nth_error items n = Some (inl b)
  | ErrFlush e => n = length (buffers items) /\ first_error items = Some e
  | ErrCall e => n = length (buffers items) /\ first_error items = Some e
  | EndFlush => n = length (buffers items) /\ first_error items = None
  | Stop1 | Stop2 | Gone => True
  | UserFlush => False
  end.
Definition inv (s : recorder V B E) (log : list (event B E)) (started : bool) : Prop :=
  r_data_cb s = true /\
  if started then
    exists ti p n, nth_error (r_agents s) ti = Some (mk_agent 0 p) /\ (forall j a, nth_error (r_agents s) j = Some a -> j <> ti -> stopper a) /\
      at_pc p (r_track s) n (r_blob s) /\ n <= length (buffers items) /\ delivered log ++ r_blob s = fl (firstn n (buffers items))
  else Forall stopper (r_agents s) /\ r_track s = new_track items /\ r_blob s = [] /\ delivered log = [].

Lemma nth_set : forall (L : list (agent V E)) i a b, nth_error L i = Some b -> nth_error (set_pc L i a) i = Some a /\ (forall j, j <> i -> nth_error (set_pc L i a) j = nth_error L j).
Proof.
  intros L i a b H. unfold set_pc. assert (Li : i < length L) by (apply nth_error_Some; congruence). split.
  - rewrite nth_error_app2; rewrite firstn_length_le by lia; [|lia]. rewrite Nat.sub_diag. reflexivity.
  - clear b H. revert i Li. induction L as [|y L IH]; intros [|i] Li j N; cbn in *; try lia; [destruct j as [|j]; [congruence|reflexivity]|]. destruct j as [|j]; [reflexivity|]. cbn. apply IH; lia.
Qed.
Lemma delivered_app : forall a b : list (event B E), delivered (a ++ b) = delivered a ++ delivered b.
Proof. intros. unfold delivered. apply flat_map_app. Qed.

Lemma forall_set : forall (L : list (agent V E)) i a, Forall stopper L -> stopper a -> Forall stopper (set_pc L i a).
Proof.
  intros L i a F St. unfold set_pc. apply Forall_app. split; [rewrite <- (firstn_skipn i L) in F; apply Forall_app in F; apply F|]. constructor; [exact St|].
  rewrite <- (firstn_skipn (S i) L) in F. apply Forall_app in F. apply F.
Qed.

Lemma inv_step : forall s log st a s' o, inv s log st -> step s a = Some (s', o) -> a <> SetData false -> (st = true -> a <> Start) -> inv s' (log ++ o) (match a with Start => true | _ => st end) \/ (a = Start /\ inv s' (log ++ o) st).
Proof.
  intros s log st a s' o [D I] H N1 N2. destruct a as [i| | |b|b|b]; cbn [rstep] in H.
  - left. unfold run in H. destruct (nth_error (r_agents s) i) as [[it p]|] eqn:Ha; [|discriminate]. cbn [a_iter a_pc] in H. cbv zeta in H. rewrite D in H.
    destruct st.
    + destruct I as (ti & q & n & A1 & A2 & A3 & A4 & A5). destruct (Nat.eq_dec i ti) as [->|Ni].
      * rewrite A1 in Ha. injection Ha as <- <-.
        assert (K : forall s1 o1 p1 n1, r_data_cb s1 = true -> r_agents s1 = set_pc (r_agents s) ti (mk_agent 0 p1) -> at_pc p1 (r_track s1) n1 (r_blob s1) -> n1 <= length (buffers items) ->
                   (delivered log ++ delivered o1) ++ r_blob s1 = fl (firstn n1 (buffers items)) -> inv s1 (log ++ o1) true).
        { intros s1 o1 p1 n1 B0 B1 B2 B3 B4. split; [exact B0|]. exists ti, p1, n1. rewrite B1. destruct (nth_set (r_agents s) ti (mk_agent 0 p1) _ A1) as [C1 C2]. split; [exact C1|]. split; [|rewrite delivered_app; auto].
          intros j a Hj Nj. rewrite C2 in Hj by exact Nj. eapply A2; eassumption. }
        destruct q; cbn [at_pc] in A3; cbv beta iota in H.
        -- destruct A3 as (T & -> & Bl). rewrite T in H. destruct (nth_error items 0) as [[b|e]|] eqn:E0.
           ++ rewrite (next_item 0 _ E0) in H. injection H as <- <-. eapply K with (n1 := 0); [first [exact D|reflexivity]|reflexivity|..]; cbn; eauto. rewrite app_nil_r. exact A5.
           ++ rewrite (next_item 0 _ E0) in H. injection H as <- <-. destruct (buffers_error items 0 e A4 E0) as [L F]. eapply K with (n1 := 0); [first [exact D|reflexivity]|reflexivity|..]; cbn; eauto. rewrite app_nil_r. exact A5.
           ++ rewrite next_end in H by (apply nth_error_None; exact E0). injection H as <- <-. eapply K with (n1 := 0); [first [exact D|reflexivity]|reflexivity|..]; cbn; eauto. rewrite app_nil_r. exact A5.
        -- destruct A3 as (T & -> & E0 & Bl). injection H as <- <-. destruct (buffers_nth items 0 b A4 E0) as [F L]. eapply K with (n1 := 1); [first [exact D|reflexivity]|reflexivity|..]; cbn; eauto.
           rewrite app_nil_r. rewrite Bl in A5. change (fl (firstn 0 (buffers items))) with (@nil B) in A5. rewrite app_nil_r in A5. rewrite A5. cbn [app].
           destruct (buffers items) as [|b0 bs]; [discriminate|]. cbn in F. injection F as ->. cbn [firstn]. rewrite file_one. reflexivity.
        -- destruct A3 as (T & Gn). rewrite T in H. destruct (nth_error items n) as [x|] eqn:E0.
           ++ rewrite (next_item n _ E0) in H. injection H as <- <-. eapply K with (n1 := n); [first [exact D|reflexivity]|reflexivity|..]; cbn; eauto. rewrite app_nil_r. exact A5.
           ++ rewrite next_end in H by (apply nth_error_None; exact E0). injection H as <- <-. destruct (buffers_end items n A4 E0) as [L F]. eapply K with (n1 := n); [first [exact D|reflexivity]|reflexivity|..]; cbn; eauto. rewrite app_nil_r. exact A5.
        -- destruct A3 as (T & Gn & E0). destruct (r_active s); [destruct x as [b|e]|]; injection H as <- <-.
           ++ eapply K with (n1 := n); [first [exact D|reflexivity]|reflexivity|..]; cbn; eauto. rewrite app_nil_r. exact A5.
           ++ destruct (buffers_error items n e A4 E0) as [L F]. eapply K with (n1 := n); [first [exact D|reflexivity]|reflexivity|..]; cbn; eauto. rewrite app_nil_r. exact A5.
           ++ eapply K with (n1 := n); [first [exact D|reflexivity]|reflexivity|..]; cbn; eauto. rewrite app_nil_r. exact A5.
        -- destruct A3 as (T & Gn & E0). injection H as <- <-. destruct (buffers_nth items n b A4 E0) as [F L].
           eapply K with (n1 := S n); [first [exact D|reflexivity]|reflexivity|..]; cbn [at_pc r_track r_blob delivered flat_map]; eauto.
           ++ destruct (_ <? _)%Z; cbn; split; auto; lia.
           ++ rewrite app_nil_r, app_assoc, A5, (firstn_next _ _ _ F), file_next; [reflexivity|]. destruct (buffers items); [cbn in L; lia|]. destruct n; [lia|discriminate].
        -- destruct A3 as (T & Gn). injection H as <- <-. eapply K with (n1 := n); [first [exact D|reflexivity]|reflexivity|..]; cbn; eauto. rewrite !app_nil_r. exact A5.
        -- destruct A3 as (L & F). injection H as <- <-. eapply K with (n1 := n); [first [exact D|reflexivity]|reflexivity|..]; cbn; eauto. rewrite !app_nil_r. exact A5.
        -- destruct A3 as (L & F). injection H as <- <-. eapply K with (n1 := n); [first [exact D|reflexivity]|reflexivity|..]; cbn; eauto. destruct (r_error_cb s); cbn; rewrite !app_nil_r; exact A5.
        -- destruct A3 as (L & F). injection H as <- <-. eapply K with (n1 := n); [first [exact D|reflexivity]|reflexivity|..]; cbn; eauto. rewrite !app_nil_r. exact A5.
        -- injection H as <- <-. eapply K with (n1 := n); [first [exact D|reflexivity]|reflexivity|..]; cbn; eauto. rewrite !app_nil_r. exact A5.
        -- injection H as <- <-. eapply K with (n1 := n); [first [exact D|reflexivity]|reflexivity|..]; cbn; eauto. destruct (r_stop_cb s); cbn; rewrite !app_nil_r; exact A5.
        -- discriminate.
        -- destruct A3.
      * pose proof (A2 i _ Ha Ni) as S.
        assert (K : forall s1 o1 p1, r_data_cb s1 = true -> r_agents s1 = set_pc (r_agents s) i (mk_agent it p1) -> stopper (mk_agent it p1) -> r_track s1 = r_track s -> at_pc q (r_track s) n (r_blob s1) ->
                   (delivered log ++ delivered o1) ++ r_blob s1 = fl (firstn n (buffers items)) -> inv s1 (log ++ o1) true).
        { intros s1 o1 p1 B0 B1 B2 B3 B4 B5. split; [exact B0|]. exists ti, q, n. rewrite B1, B3. destruct (nth_set (r_agents s) i (mk_agent it p1) _ Ha) as [C1 C2]. split; [rewrite C2 by auto; exact A1|]. split; [|rewrite delivered_app; auto].
          intros j a Hj Nj. destruct (Nat.eq_dec j i) as [->|Nji]; [rewrite C1 in Hj; injection Hj as <-; exact B2|]. rewrite C2 in Hj by exact Nji. eapply A2; eassumption. }
        unfold stopper in S. cbn [a_pc] in S. destruct S as [-> | [-> | [-> | ->]]]; [| | |discriminate]; injection H as <- <-; (eapply K; [first [exact D|reflexivity]|reflexivity|..]; cbn; eauto).
        -- unfold stopper; cbn; auto.
        -- destruct q; cbn in *; intuition auto.
        -- rewrite !app_nil_r. exact A5.
        -- unfold stopper; cbn; auto.
        -- rewrite !app_nil_r. exact A5.
        -- unfold stopper; cbn; auto.
        -- destruct (r_stop_cb s); cbn; rewrite !app_nil_r; exact A5.
    + destruct I as (F & T & Bl & Dl). assert (S : stopper (mk_agent it p)) by (rewrite Forall_forall in F; apply F; eapply nth_error_In; exact Ha).
      unfold stopper in S. cbn [a_pc] in S. destruct S as [-> | [-> | [-> | ->]]]; [| | |discriminate]; injection H as <- <-; (split; [reflexivity || exact D|]); cbn; rewrite delivered_app, Dl, ?Bl; repeat split; auto; try (apply forall_set; [exact F|unfold stopper; cbn; auto]).
      destruct (r_stop_cb s); reflexivity.
  - destruct st; [destruct (N2 eq_refl eq_refl)|]. destruct I as (F & T & Bl & Dl). destruct (r_active s) eqn:Ac; injection H as <- <-.
    + right. split; [reflexivity|]. split; [exact D|]. cbn. rewrite delivered_app, Dl. auto.
    + left. split; [exact D|]. rewrite T. cbn. exists (length (r_agents s)), First, 0. split; [rewrite nth_error_app2, Nat.sub_diag by lia; reflexivity|]. split; [|split; [|split]].
      * intros j a Hj Nj. destruct (Nat.lt_ge_cases j (length (r_agents s))) as [L|L].
        -- rewrite nth_error_app1 in Hj by exact L. rewrite Forall_forall in F. apply F. eapply nth_error_In. exact Hj.
        -- rewrite nth_error_app2 in Hj by exact L. destruct (j - length (r_agents s)) as [|m] eqn:Em; [lia|]. destruct m; discriminate.
      * cbn. auto.
      * lia.
      * rewrite delivered_app, Dl, Bl. reflexivity.
  - injection H as <- <-. left. split; [exact D|]. rewrite app_nil_r. destruct st; cbn.
    + destruct I as (ti & q & n & A1 & A2 & A3 & A4 & A5). exists ti, q, n. split; [rewrite nth_error_app1 by (apply nth_error_Some; congruence); exact A1|]. split; [|auto].
      intros j a Hj Nj. destruct (Nat.lt_ge_cases j (length (r_agents s))) as [L|L].
      * rewrite nth_error_app1 in Hj by exact L. eapply A2; eassumption.
      * rewrite nth_error_app2 in Hj by exact L. destruct (j - length (r_agents s)) as [|m]; [|destruct m; discriminate]. cbn in Hj. injection Hj as <-. unfold stopper; cbn; auto.
    + destruct I as (F & T & Bl & Dl). repeat split; auto. apply Forall_app. split; [exact F|]. repeat constructor.
  - injection H as <- <-. left. rewrite app_nil_r. destruct b; [|congruence]. split; [reflexivity|exact I].
  - injection H as <- <-. left. rewrite app_nil_r. split; [exact D|exact I].
  - injection H as <- <-. left. rewrite app_nil_r. split; [exact D|exact I].
Qed.

Lemma starts_cons : forall a l, starts (a :: l) = (match a with Start => 1 | _ => 0 end) + starts l.
Proof. intros [i| | |b|b|b] l; reflexivity. Qed.
Lemma inv_steps : forall l s log st s' o, inv s log st -> steps s l = Some (s', o) -> ~ In (SetData false) l -> starts l + (if st then 1 else 0) <= 1 -> exists st', inv s' (log ++ o) st'.
Proof.
  induction l as [|a l IH]; intros s log st s' o I H N C; cbn [rsteps] in H; [injection H as <- <-; rewrite app_nil_r; exists st; exact I|].
  destruct (step s a) as [[s1 o1]|] eqn:E1; [|discriminate]. destruct (steps s1 l) as [[s2 o2]|] eqn:E2; [|discriminate]. injection H as <- <-. rewrite starts_cons in C. rewrite app_assoc.
  destruct (inv_step s log st a s1 o1 I E1) as [K|[-> K]].
  - intros ->. apply N. left. reflexivity.
  - intros -> ->. cbn in C. lia.
  - apply (IH s1 (log ++ o1) (match a with Start => true | _ => st end) s2 o2 K E2); [intros Q; apply N; right; exact Q|]. destruct a; try lia; destruct st; lia.
  - apply (IH s1 (log ++ o1) st s2 o2 K E2); [intros Q; apply N; right; exact Q|]. lia.
Qed.
Lemma file_prefix : forall (bs : list (buffer V)) n, exists more, fl (firstn n bs) ++ more = fl bs.
Proof.
  intros [|b bs] [|n].
  - exists []. reflexivity.
  - exists []. reflexivity.
  - exists (fl (b :: bs)). reflexivity.
  - cbn [firstn file]. exists (flat_map bytes (flat_map interleave (skipn n bs))). rewrite <- app_assoc. f_equal. rewrite <- flat_map_app. f_equal.
    change (b :: firstn n bs) with ([b] ++ firstn n bs). change (b :: bs) with ([b] ++ bs). rewrite !flat_map_app, <- app_assoc, <- flat_map_app, firstn_skipn. reflexivity.
Qed.
Theorem prefix_delivered : forall l s log, steps (new_recorder items) (SetData true :: l) = Some (s, log) -> ~ In (SetData false) l -> starts l <= 1 ->
  exists more, delivered log ++ more = fl (buffers items).
Proof.
  intros l s log H N C. cbn [rsteps rstep] in H. destruct (steps _ l) as [[s2 o2]|] eqn:E1; [|discriminate]. injection H as <- <-.
  match type of E1 with steps ?x l = _ => assert (I0 : inv x [] false) by (split; [reflexivity|]; cbn; auto); destruct (inv_steps l x [] false s2 o2 I0 E1 N (eq_ind_r (fun n => n <= 1) C (Nat.add_0_r _))) as [st I]; clear I0 end.
  { destruct I as [_ I]. destruct st.
    + destruct I as (ti & p & n & _ & _ & _ & L & A). destruct (file_prefix (buffers items) n) as [more M]. exists (r_blob s2 ++ more). rewrite app_assoc. cbn [app] in *. rewrite A. exact M.
    + destruct I as (_ & _ & _ & A). cbn [app] in *. rewrite A. eexists. reflexivity. }
Qed.

(** ** Stop events *)
Lemma stops_app : forall a b : list (event B E), stops (a ++ b) = stops a + stops b.
Proof. intros. unfold stops. rewrite filter_app, app_length. reflexivity. Qed.
Lemma stop_step : forall (s : recorder V B E) a s' o, step s a = Some (s', o) -> stops o + (if r_stop_cb s' then 1 else 0) <= (if r_stop_cb s then 1 else 0) + match a with SetStop true => 1 | _ => 0 end.
Proof.
  intros s [i| | |b|b|b] s' o H; cbn [rstep] in H.
  - unfold run in H. destruct (nth_error (r_agents s) i) as [a|]; [|discriminate]. cbv zeta in H.
    destruct (a_pc a); try (destruct (next_call 5 (r_track s) (a_iter a)) as [[t [[b|e]|]]|]; try discriminate); try (destruct (r_active s)); try (destruct x); try discriminate; injection H as <- <-; cbn; try lia; try (destruct (r_data_cb s); cbn; lia); try (destruct (r_error_cb s); cbn; lia); destruct (r_stop_cb s); cbn; lia.
  - destruct (r_active s); injection H as <- <-; cbn; lia.
  - injection H as <- <-. cbn. lia.
  - injection H as <- <-. cbn. lia.
  - injection H as <- <-. cbn. destruct b, (r_stop_cb s); lia.
  - injection H as <- <-. cbn. lia.
Qed.
Theorem stops_bounded : forall l (s s' : recorder V B E) o, steps s l = Some (s', o) -> stops o <= (if r_stop_cb s then 1 else 0) + stop_callbacks l.
Proof.
  induction l as [|a l IH]; intros s s' o H; cbn [rsteps] in H; [injection H as <- <-; cbn; lia|].
  destruct (step s a) as [[s1 o1]|] eqn:E1; [|discriminate]. destruct (steps s1 l) as [[s2 o2]|] eqn:E2; [|discriminate]. injection H as <- <-. rewrite stops_app.
  pose proof (stop_step s a s1 o1 E1). pose proof (IH s1 s2 o2 E2).
  assert (stop_callbacks (a :: l) = match a with SetStop true => 1 | _ => 0 end + stop_callbacks l) by (destruct a as [i| | |b|b|b]; try reflexivity; destruct b; reflexivity). lia.
Qed.

(** ** Error events, and data events without callback *)
Lemma fail_step : forall (s : recorder V B E) a s' o, step s a = Some (s', o) -> failures o + (if r_error_cb s' then 1 else 0) <= (if r_error_cb s then 1 else 0) + match a with SetError true => 1 | _ => 0 end.
Proof.
  intros s [i| | |b|b|b] s' o H; cbn [rstep] in H.
  - unfold run in H. destruct (nth_error (r_agents s) i) as [a|]; [|discriminate]. cbv zeta in H.
    destruct (a_pc a); try (destruct (next_call 5 (r_track s) (a_iter a)) as [[t [[b|e]|]]|]; try discriminate); try (destruct (r_active s)); try (destruct x); try discriminate; injection H as <- <-; cbn; try lia; try (destruct (r_data_cb s); cbn; lia); try (destruct (r_error_cb s); cbn; lia); destruct (r_stop_cb s); cbn; lia.
  - destruct (r_active s); injection H as <- <-; cbn; lia.
  - injection H as <- <-. cbn. lia.
  - injection H as <- <-. cbn. lia.
  - injection H as <- <-. cbn. lia.
  - injection H as <- <-. cbn. destruct b, (r_error_cb s); lia.
Qed.
Theorem failures_bounded : forall l (s s' : recorder V B E) o, steps s l = Some (s', o) -> failures o <= (if r_error_cb s then 1 else 0) + error_callbacks l.
Proof.
  induction l as [|a l IH]; intros s s' o H; cbn [rsteps] in H; [injection H as <- <-; cbn; lia|].
  destruct (step s a) as [[s1 o1]|] eqn:E1; [|discriminate]. destruct (steps s1 l) as [[s2 o2]|] eqn:E2; [|discriminate]. injection H as <- <-.
  assert (A : failures (o1 ++ o2) = failures o1 + failures o2) by (unfold failures; rewrite filter_app, app_length; reflexivity). rewrite A.
  pose proof (fail_step s a s1 o1 E1). pose proof (IH s1 s2 o2 E2).
  assert (error_callbacks (a :: l) = match a with SetError true => 1 | _ => 0 end + error_callbacks l) by (destruct a as [i| | |b|b|b]; try reflexivity; destruct b; reflexivity). lia.
Qed.
Lemma data_step : forall (s : recorder V B E) a s' o, r_data_cb s = false -> a <> SetData true -> step s a = Some (s', o) -> r_data_cb s' = false /\ no_data o.
Proof.
  intros s [i| | |b|b|b] s' o D N H; cbn [rstep] in H.
  - unfold run in H. destruct (nth_error (r_agents s) i) as [a|]; [|discriminate]. cbv zeta in H.
    destruct (a_pc a); try (destruct (next_call 5 (r_track s) (a_iter a)) as [[t [[b|e]|]]|]; try discriminate); try (destruct (r_active s)); try (destruct x); try discriminate; injection H as <- <-; cbn; rewrite ?D; (split; [reflexivity || exact D|]);
      try (destruct (r_error_cb s)); try (destruct (r_stop_cb s)); unfold no_data; repeat constructor.
  - destruct (r_active s); injection H as <- <-; (split; [exact D|]); unfold no_data; repeat constructor.
  - injection H as <- <-. split; [exact D|constructor].
  - injection H as <- <-. split; [|constructor]. cbn. destruct b; [congruence|reflexivity].
  - injection H as <- <-. split; [exact D|constructor].
  - injection H as <- <-. split; [exact D|constructor].
Qed.
Theorem without_callback : forall l (s s' : recorder V B E) o, r_data_cb s = false -> ~ In (SetData true) l -> steps s l = Some (s', o) -> no_data o.
Proof.
  induction l as [|a l IH]; intros s s' o D N H; cbn [rsteps] in H; [injection H as <- <-; constructor|].
  destruct (step s a) as [[s1 o1]|] eqn:E1; [|discriminate]. destruct (steps s1 l) as [[s2 o2]|] eqn:E2; [|discriminate]. injection H as <- <-.
  destruct (data_step s a s1 o1 D) as [D1 O1]; [intros ->; apply N; left; reflexivity|exact E1|].
  apply Forall_app. split; [exact O1|]. apply (IH s1 s2 o2 D1); [intros X; apply N; right; exact X|exact E2].
Qed.

(** ** A recording that nobody stops *)
Definition state (p : pc V E) (k : nat) (e act : bool) (blob : list B) (sc ec : bool) : recorder V B E := mk_rec (rest k e) act blob true sc ec [mk_agent 0 p].
Lemma steps_app : forall l1 l2 (s : recorder V B E), steps s (l1 ++ l2) = match steps s l1 with Some (s1, o1) => match steps s1 l2 with Some (s2, o2) => Some (s2, o1 ++ o2) | None => None end | None => None end.
Proof.
  induction l1 as [|a l1 IH]; intros l2 s; cbn [rsteps app]; [destruct (steps s l2) as [[]|]; reflexivity|].
  destruct (step s a) as [[s1 o1]|]; [|reflexivity]. rewrite IH. destruct (steps s1 l1) as [[s2 o2]|]; [|reflexivity]. destruct (steps s2 l2) as [[s3 o3]|]; [|reflexivity]. rewrite app_assoc. reflexivity.
Qed.
Definition runs (s s' : recorder V B E) (o : list (event B E)) : Prop := exists n, steps s (repeat (Run 0) n) = Some (s', o).
Lemma runs_step : forall s s1 s' o o', step s (Run 0) = Some (s1, o) -> runs s1 s' o' -> runs s s' (o ++ o').
Proof. intros s s1 s' o o' H [n Hn]. exists (S n). cbn [repeat rsteps]. rewrite H, Hn. reflexivity. Qed.
Definition over (e : option E) : list (event B E) := match e with Some e => [Failed e] | None => [] end ++ [Stopped].

Lemma stop_runs : forall k e blob ec, exists s', runs (state Stop1 k e true blob true ec) s' [Stopped] /\ r_agents s' = [mk_agent 0 Gone] /\ r_active s' = false /\ r_blob s' = blob.
Proof. intros. eexists. split; [exists 2; reflexivity|]. cbn. auto. Qed.
Lemma error_runs : forall k er blob, exists s', runs (state (ErrFlush er) k false true blob true true) s' [Data blob; Failed er; Stopped] /\ r_agents s' = [mk_agent 0 Gone] /\ r_active s' = false /\ r_blob s' = [].
Proof. intros. eexists. split; [exists 4; reflexivity|]. cbn. auto. Qed.
Lemma end_runs : forall k blob, exists s', runs (state EndFlush k true true blob true true) s' [Data blob; Stopped] /\ r_agents s' = [mk_agent 0 Gone] /\ r_active s' = false /\ r_blob s' = [].
Proof. intros. eexists. split; [exists 3; reflexivity|]. cbn. auto. Qed.

Lemma rest_runs : forall m n blob, length items <= n + m -> n > 0 -> n <= length (buffers items) ->
  exists s' ds, runs (state Next n false true blob true true) s' (map Data ds ++ over (first_error items)) /\ blob ++ flat_map bytes (flat_map interleave (skipn n (buffers items))) = concat ds /\
    r_agents s' = [mk_agent 0 Gone] /\ r_active s' = false /\ r_blob s' = [].
Proof.
  assert (End : forall n blob, nth_error items n = None -> n <= length (buffers items) -> exists s' ds, runs (state Next n false true blob true true) s' (map Data ds ++ over (first_error items)) /\ blob ++ flat_map bytes (flat_map interleave (skipn n (buffers items))) = concat ds /\
    r_agents s' = [mk_agent 0 Gone] /\ r_active s' = false /\ r_blob s' = []).
  { intros n blob E0 L. destruct (buffers_end items n L E0) as [Ln Fe]. destruct (end_runs n blob) as (s' & R & A). exists s', [blob]. rewrite Fe. cbn [map over app]. split; [|split; [|exact A]].
    - apply (runs_step _ (state EndFlush n true true blob true true) _ [] _); [|exact R]. cbn [rstep]. unfold run, state. cbn [r_agents nth_error a_pc a_iter r_track]. rewrite next_end by (apply nth_error_None; exact E0). reflexivity.
    - rewrite Ln, skipn_all. cbn. reflexivity. }
  induction m as [|m IH]; intros n blob L P Q.
  - apply End; [apply nth_error_None; lia|exact Q].
  - destruct (nth_error items n) as [[b|e]|] eqn:E0; [| |apply End; assumption].
    + destruct (buffers_nth items n b Q E0) as [F Ln].
      assert (S1 : step (state Next n false true blob true true) (Run 0) = Some (state (Got (inl b)) (S n) false true blob true true, [])).
      { cbn [rstep]. unfold run, state. cbn [r_agents nth_error a_pc a_iter r_track]. rewrite (next_item n _ E0). reflexivity. }
      assert (S2 : step (state (Got (inl b)) (S n) false true blob true true) (Run 0) = Some (state (Record b) (S n) false true blob true true, [])) by reflexivity.
      rewrite (skip_cons (buffers items) n b F). cbn [flat_map]. rewrite flat_map_app, app_assoc.
      destruct (128 * 1024 <? Z.of_nat (length (blob ++ encode_next bytes b)))%Z eqn:Big.
      * destruct (IH (S n) [] ltac:(lia) ltac:(lia) ltac:(lia)) as (s' & ds & R & D & A). exists s', ((blob ++ encode_next bytes b) :: ds). split; [|split; [|exact A]].
        -- change (map Data ((blob ++ encode_next bytes b) :: ds) ++ over (first_error items)) with ([] ++ [] ++ [] ++ [@Data B E (blob ++ encode_next bytes b)] ++ (map Data ds ++ over (first_error items))).
           eapply runs_step; [exact S1|]. eapply runs_step; [exact S2|]. eapply runs_step; [|eapply runs_step; [|exact R]].
           ++ cbn [rstep]. unfold run, state. cbn [r_agents nth_error a_pc a_iter r_track r_blob]. cbv zeta. rewrite Big. reflexivity.
           ++ reflexivity.
        -- cbn [concat]. rewrite <- D. cbn [app]. reflexivity.
      * destruct (IH (S n) (blob ++ encode_next bytes b) ltac:(lia) ltac:(lia) ltac:(lia)) as (s' & ds & R & D & A). exists s', ds. split; [|split; [exact D|exact A]].
        change (map Data ds ++ over (first_error items)) with ([] ++ [] ++ [] ++ (@map _ (event B E) Data ds ++ over (first_error items))).
        eapply runs_step; [exact S1|]. eapply runs_step; [exact S2|]. eapply runs_step; [|exact R]. cbn [rstep]. unfold run, state. cbn [r_agents nth_error a_pc a_iter r_track r_blob]. cbv zeta. rewrite Big. reflexivity.
    + destruct (buffers_error items n e Q E0) as [Ln Fe]. destruct (error_runs (S n) e blob) as (s' & R & A). exists s', [blob]. rewrite Fe. cbn [map over app]. split; [|split; [|exact A]].
      * change [Data blob; Failed e; Stopped] with ([] ++ [] ++ [Data blob; Failed e; @Stopped B E]). eapply runs_step; [|eapply runs_step; [|exact R]].
        -- cbn [rstep]. unfold run, state. cbn [r_agents nth_error a_pc a_iter r_track]. rewrite (next_item n _ E0). reflexivity.
        -- reflexivity.
      * rewrite Ln, skipn_all. cbn. reflexivity.
Qed.
Theorem whole_recording : items <> [] -> exists n s ds, steps (new_recorder items) ([SetData true; SetStop true; SetError true; Start] ++ repeat (Run 0) n) = Some (s, map Data ds ++ over (first_error items)) /\
  concat ds = fl (buffers items) /\ r_agents s = [mk_agent 0 Gone] /\ r_active s = false.
Proof.
  intros N. set (s0 := state First 0 false true [] true true).
  assert (K : exists s ds, runs s0 s (map Data ds ++ over (first_error items)) /\ concat ds = fl (buffers items) /\ r_agents s = [mk_agent 0 Gone] /\ r_active s = false).
  { destruct (nth_error items 0) as [[b|e]|] eqn:E0.
    - destruct (buffers_nth items 0 b ltac:(lia) E0) as [F L]. destruct (rest_runs (length items) 1 (encode_first header bytes b) ltac:(lia) ltac:(lia) ltac:(lia)) as (s' & ds & R & D & A). exists s', ds. split; [|split; [|tauto]].
      + change (map Data ds ++ over (first_error items)) with ([] ++ [] ++ (@map _ (event B E) Data ds ++ over (first_error items))). eapply runs_step; [|eapply runs_step; [|exact R]].
        * cbn [rstep]. unfold run, s0, state. cbn [r_agents nth_error a_pc a_iter r_track]. rewrite (next_item 0 _ E0). reflexivity.
        * reflexivity.
      + rewrite <- D. destruct (buffers items) as [|b0 bs]; [cbn in L; lia|]. cbn in F. injection F as ->. cbn [skipn file flat_map]. unfold encode_first, encode_next. rewrite flat_map_app, app_assoc. reflexivity.
    - destruct (buffers_error items 0 e ltac:(lia) E0) as [Ln Fe]. destruct (error_runs 1 e []) as (s' & R & A). exists s', [[]]. rewrite Fe. cbn [map over app]. split; [|split; [|tauto]].
      + change [Data []; Failed e; Stopped] with ([] ++ [Data []; Failed e; @Stopped B E]). eapply runs_step; [|exact R]. cbn [rstep]. unfold run, s0, state. cbn [r_agents nth_error a_pc a_iter r_track]. rewrite (next_item 0 _ E0). reflexivity.
      + destruct (buffers items); [reflexivity|cbn in Ln; lia].
    - destruct items; [congruence|discriminate]. }
  destruct K as (s & ds & [n R] & D & A). exists n, s, ds. split; [|auto]. rewrite steps_app.
  replace (steps (new_recorder items) [SetData true; SetStop true; SetError true; Start]) with (Some (s0, @nil (event B E))) by reflexivity. rewrite R. reflexivity.
Qed.
End Proofs.

(** ** Decoding *)
Section Decode.
Context {V : Type}.
Definition frame (b : buffer V) (i : nat) : list V := flat_map (fun c => match nth_error c i with Some v => [v] | None => [] end) (b_chans b).
Definition frames (b : buffer V) : list (list V) := map (frame b) (seq 0 (b_length b)).
Lemma interleave_frames : forall b : buffer V, interleave b = concat (frames b).
Proof. intros b. unfold interleave, frames. rewrite flat_map_concat_map. reflexivity. Qed.
Lemma concat_nth : forall (F : list (list V)) ch k c, Forall (fun f => length f = ch) F -> c < ch -> nth_error (concat F) (k * ch + c) = match nth_error F k with Some f => nth_error f c | None => None end.
Proof.
  induction F as [|f F IH]; intros ch k c H L; [cbn [concat]; rewrite (proj2 (nth_error_None [] (k * ch + c))) by (cbn; lia); destruct k; reflexivity|].
  inversion H as [|? ? Hf HF]; subst. destruct k as [|k]; cbn [concat nth_error].
  - rewrite nth_error_app1 by lia. reflexivity.
  - rewrite nth_error_app2 by (cbn; lia). replace (S k * length f + c - length f) with (k * length f + c) by (cbn; lia). apply IH; assumption.
Qed.
Lemma frame_nth : forall (cs : list (list V)) i c, Forall (fun l => i < length l) cs -> nth_error (flat_map (fun c => match nth_error c i with Some v => [v] | None => [] end) cs) c = match nth_error cs c with Some l => nth_error l i | None => None end
  /\ length (flat_map (fun c => match nth_error c i with Some v => [v] | None => [] end) cs) = length cs.
Proof.
  induction cs as [|l cs IH]; intros i c F; [split; [destruct c|]; reflexivity|]. inversion F as [|? ? Hl HF]; subst. cbn [flat_map]. destruct (nth_error l i) as [v|] eqn:Ei; [|apply nth_error_None in Ei; lia].
  destruct (IH i (pred c) HF) as [A C]. split; [|cbn; rewrite C; reflexivity]. destruct c as [|c]; cbn; [symmetry; exact Ei|exact A].
Qed.
Lemma shape_frames : forall ch (b : buffer V), shape ch b -> Forall (fun f => length f = ch) (frames b) /\ forall c, c < ch -> map (fun f => nth_error f c) (frames b) = map Some (nth c (b_chans b) []).
Proof.
  intros ch b [Hc Hl]. assert (K : forall i, i < b_length b -> Forall (fun l : list V => i < length l) (b_chans b)) by (intros i Hi; eapply Forall_impl; [|exact Hl]; cbn; intros; lia). split.
  - unfold frames. apply Forall_map, Forall_forall. intros i Hi. apply in_seq in Hi. unfold frame. rewrite (proj2 (frame_nth (b_chans b) i 0 (K i ltac:(lia)))). exact Hc.
  - intros c Lc. unfold frames. rewrite map_map. destruct (nth_error (b_chans b) c) as [l|] eqn:El; [|apply nth_error_None in El; lia]. rewrite (nth_error_nth _ _ _ El).
    assert (Ll : length l = b_length b) by (rewrite Forall_forall in Hl; apply Hl; eapply nth_error_In; exact El). rewrite <- Ll in *.
    transitivity (map (fun i => nth_error l i) (seq 0 (length l))).
    + apply map_ext_in. intros i Hi. apply in_seq in Hi. unfold frame. rewrite (proj1 (frame_nth (b_chans b) i c (K i ltac:(lia)))), El. reflexivity.
    + clear. induction l as [|v l IH]; [reflexivity|]. cbn [length seq map nth_error]. f_equal. rewrite <- seq_shift, map_map. exact IH.
Qed.
Theorem decode : forall ch (bs : list (buffer V)) k c, Forall (shape ch) bs -> c < ch -> nth_error (flat_map interleave bs) (k * ch + c) = nth_error (channel c bs) k.
Proof.
  intros ch bs k c F L. set (G := flat_map frames bs).
  assert (A : flat_map interleave bs = concat G) by (unfold G; clear; induction bs as [|b bs IH]; [reflexivity|]; cbn [flat_map]; rewrite concat_app, IH, interleave_frames; reflexivity).
  assert (C : Forall (fun f => length f = ch) G) by (unfold G; clear A; induction F as [|b bs Hb F IH]; [constructor|]; cbn [flat_map]; apply Forall_app; split; [apply (shape_frames ch b Hb)|exact IH]).
  assert (D : map (fun f => nth_error f c) G = map Some (channel c bs)) by (unfold G, channel; clear A C; induction F as [|b bs Hb F IH]; [reflexivity|]; cbn [flat_map]; rewrite !map_app, IH; f_equal; apply (shape_frames ch b Hb); exact L).
  rewrite A, (concat_nth G ch k c C L). apply (f_equal (fun l => nth_error l k)) in D. rewrite !nth_error_map in D. destruct (nth_error G k) as [f|], (nth_error (channel c bs) k) as [v|]; cbn in D; congruence.
Qed.
End Decode.
