(** The analyser's ring buffer: alone and with two threads. *)
From Coq Require Import List Arith Bool ZArith Lia.
From Verif Require Import Analyser_Model Analyser_Spec Delay_Proofs.
Import ListNotations.

Section Ring.
Context {V : Type}.
Variable zero : V.
Variable size : nat.
Hypothesis size_pos : 0 < size.
Notation ring := (ring (V := V)).

(** sample [m], counted from [size] zeros before the start *)
Definition at_ (signal : list V) (m : nat) : V := nth m (repeat zero size ++ signal) zero.
Definition buffer_ok (signal : list V) (b : list V) : Prop :=
  length b = size /\ forall m, length signal <= m < length signal + size -> nth_error b (m mod size) = Some (at_ signal m).

Lemma at_app : forall l l' m, m < length l + size -> at_ (l ++ l') m = at_ l m.
Proof using size_pos. intros l l' m H. unfold at_. rewrite app_assoc. apply app_nth1. rewrite app_length, repeat_length. lia. Qed.
Lemma mod_inj : forall a b, a mod size = b mod size -> a <= b -> b < a + size -> a = b.
Proof using size_pos. intros a b E H1 H2. pose proof (Nat.div_mod a size ltac:(lia)). pose proof (Nat.div_mod b size ltac:(lia)). assert (a / size = b / size) by nia. nia. Qed.
Lemma wrap : forall a, (a + size) mod size = a mod size.
Proof using size_pos. intros a. replace (a + size) with (a + 1 * size) by lia. apply Nat.mod_add. lia. Qed.

Lemma buffer_new : buffer_ok [] (repeat zero size).
Proof using size_pos.
  split; [apply repeat_length|]. intros m H. cbn [length] in H. rewrite Nat.mod_small by lia. rewrite nth_error_repeat by lia. unfold at_. rewrite app_nil_r, nth_repeat. reflexivity.
Qed.
Lemma buffer_store : forall l b x, buffer_ok l b -> store b (length l mod size) x = Ok (update (length l mod size) (fun _ => x) b) /\ buffer_ok (l ++ [x]) (update (length l mod size) (fun _ => x) b).
Proof using size_pos.
  intros l b x [L H]. assert (I : length l mod size < size) by (apply Nat.mod_upper_bound; lia). split; [unfold store; rewrite L; destruct (Nat.ltb_spec (length l mod size) size); [reflexivity|lia]|].
  split; [rewrite update_length; exact L|]. intros m Hm. rewrite app_length in Hm. cbn [length] in Hm. rewrite update_nth. destruct (Nat.eqb_spec (length l mod size) (m mod size)) as [Q|Q].
  - rewrite <- wrap in Q. assert (m = length l + size) as -> by (symmetry; apply mod_inj; [exact Q|lia|lia] || (apply mod_inj; [congruence|lia|lia])).
    destruct (nth_error b ((length l + size) mod size)) as [y|] eqn:Q2; [|exfalso; apply nth_error_None in Q2; rewrite wrap in Q2; lia]. cbn [option_map]. f_equal. unfold at_. rewrite app_nth2 by (rewrite repeat_length; lia). rewrite repeat_length, Nat.add_sub, app_nth2, Nat.sub_diag by lia. reflexivity.
  - assert (m <> length l + size) by (intros ->; rewrite wrap in Q; contradiction). rewrite H by lia. rewrite at_app by lia. reflexivity.
Qed.
Lemma stores : forall src l b i, buffer_ok l b -> i mod size = length l mod size -> exists b', ring_store size src i b = Ok b' /\ buffer_ok (l ++ src) b'.
Proof using size_pos.
  induction src as [|x src IH]; intros l b i Hb Hi; cbn [ring_store]; [exists b; rewrite app_nil_r; auto|]. unfold check. destruct (Nat.ltb_spec 0 size); [|lia]. cbn [bind]. rewrite Hi. destruct (buffer_store l b x Hb) as [-> Hb']. cbn [bind].
  destruct (IH (l ++ [x]) _ (S i) Hb') as (b' & E & Q).
  - rewrite app_length. cbn [length]. rewrite <- Nat.add_1_r, (Nat.add_mod i), (Nat.add_mod (length l)), Hi by lia. reflexivity.
  - exists b'. rewrite <- app_assoc in Q. auto.
Qed.
Lemma advance_mod : forall i, i < 2 * size -> advance size i = i mod size.
Proof using size_pos.
  intros i H. unfold advance. destruct (Nat.leb_spec size i); [|symmetry; apply Nat.mod_small; lia]. rewrite <- (Nat.mod_small (i - size) size) by lia. replace i with (i - size + size) at 2 by lia. rewrite wrap. reflexivity.
Qed.
Definition ring_ok (l : list V) (r : ring) : Prop := buffer_ok l (g_buffer r) /\ g_index r = length l mod size.
Lemma ring_ok_new : ring_ok [] (ring_new size zero).
Proof using size_pos. split; [apply buffer_new|]. cbn. rewrite Nat.mod_0_l by lia. reflexivity. Qed.
Lemma next_index : forall (l src : list V), length src <= size -> advance size (length l mod size + length src) = length (l ++ src) mod size.
Proof using size_pos.
  intros l src H. pose proof (Nat.mod_upper_bound (length l) size ltac:(lia)). rewrite advance_mod by lia. rewrite app_length, Nat.add_mod_idemp_l by lia. reflexivity.
Qed.
Lemma write_ok : forall l r src, ring_ok l r -> length src <= size -> exists r', ring_write size r src = Ok r' /\ ring_ok (l ++ src) r'.
Proof using size_pos.
  intros l r src [Hb Hi] Hl. unfold ring_write. destruct (stores src l (g_buffer r) (g_index r) Hb) as (b' & -> & Hb'); [rewrite Hi; apply Nat.mod_mod; lia|]. cbn [bind]. eexists. split; [reflexivity|]. split; cbn [g_buffer g_index]; [exact Hb'|]. rewrite Hi. apply next_index. exact Hl.
Qed.

(** what is read: [l] is published, [l ++ more] stored *)
Lemma position_ok : forall (l : list V) len i, len <= size -> ring_position size (length l mod size) len i = Ok ((length l + size - len + i) mod size).
Proof using size_pos.
  intros l len i H. unfold ring_position, check. destruct (Nat.ltb_spec 0 size); [|lia]. destruct (Nat.leb_spec len (size + length l mod size)); [|lia]. cbn [andb bind]. f_equal.
  replace (size + length l mod size - len + i) with (length l mod size + (size - len + i)) by lia. rewrite Nat.add_mod_idemp_l by lia. f_equal. lia.
Qed.
Lemma load_ok : forall l more b len i, buffer_ok (l ++ more) b -> len <= size -> i < len -> length more + len <= size + i ->
  ring_load size b (length l mod size) len i = Ok (at_ l (length l + size - len + i)).
Proof using size_pos.
  intros l more b len i [L H] H1 H2 H3. unfold ring_load. rewrite position_ok by exact H1. cbn [bind]. apply index_Some. rewrite H by (rewrite app_length; lia). rewrite at_app by lia. reflexivity.
Qed.
(** a sample that is overwritten *)
Lemma load_torn : forall l more b len i, buffer_ok (l ++ more) b -> len <= size -> i < len -> size + i < length more + len -> length more <= size ->
  ring_load size b (length l mod size) len i = Ok (nth (size - len + i) more zero).
Proof using size_pos.
  intros l more b len i [L H] H1 H2 H3 H4. unfold ring_load. rewrite position_ok by exact H1. cbn [bind]. apply index_Some. rewrite <- wrap. rewrite H by (rewrite app_length; lia). f_equal. unfold at_. rewrite app_nth2, repeat_length by (rewrite repeat_length; lia). rewrite app_nth2 by lia. f_equal. lia.
Qed.
Lemma recent_length : forall n l, length (recent zero n l) = n.
Proof using size_pos. intros n l. unfold recent. rewrite skipn_length, app_length, repeat_length. lia. Qed.
Lemma nth_skipn_ : forall X (l : list X) n i d, nth i (skipn n l) d = nth (n + i) l d.
Proof using size_pos. intros X l. induction l as [|x l IH]; intros [|n] i d; cbn [skipn plus nth]; try reflexivity; [destruct i; reflexivity|apply IH]. Qed.
Lemma recent_nth : forall n l i, n <= size -> i < n -> nth i (recent zero n l) zero = at_ l (length l + size - n + i).
Proof using size_pos.
  intros n l i H1 H2. unfold recent, at_. rewrite nth_skipn_. destruct (Nat.lt_ge_cases (length l + i) n) as [Q|Q].
  - rewrite !app_nth1 by (rewrite repeat_length; lia). rewrite !nth_repeat. reflexivity.
  - rewrite !app_nth2 by (rewrite repeat_length; lia). rewrite !repeat_length. f_equal. lia.
Qed.
Lemma list_nth_ext : forall (l l' : list V), length l = length l' -> (forall i, i < length l -> nth i l zero = nth i l' zero) -> l = l'.
Proof using size_pos. intros l l' L H. apply (nth_ext l l' zero zero L H). Qed.
Lemma recent_map : forall n l, n <= size -> map (fun i => at_ l (length l + size - n + i)) (seq 0 n) = recent zero n l.
Proof using size_pos.
  intros n l H. apply list_nth_ext; [rewrite map_length, seq_length, recent_length; reflexivity|]. intros i Hi. rewrite map_length, seq_length in Hi.
  rewrite (nth_indep _ zero (at_ l (length l + size - n + 0))) by (rewrite map_length, seq_length; exact Hi). rewrite (map_nth (fun i => at_ l (length l + size - n + i)) (seq 0 n) 0 i), seq_nth, recent_nth by lia. reflexivity.
Qed.
Lemma read_ok : forall l r dst max_len, ring_ok l r -> min (length dst) max_len <= size ->
  ring_read size r dst max_len = Ok (recent zero (min (length dst) max_len) l ++ skipn (min (length dst) max_len) dst).
Proof using size_pos.
  intros l r dst max_len [Hb Hi] H. unfold ring_read. set (n := min (length dst) max_len) in *. rewrite (map_res_ok _ _ _ (fun i => at_ l (length l + size - n + i))).
  - cbn [bind]. rewrite recent_map by exact H. reflexivity.
  - intros i Q. apply in_seq in Q. rewrite Hi. rewrite <- (app_nil_r l) in Hb. apply (load_ok l [] (g_buffer r) n i Hb); cbn [length]; lia.
Qed.

(** ** Two threads *)
Notation threads := (threads (V := V)).
Definition now_stored (w : writer_state (V := V)) : list V := match w_now w with Some (_, l, _) => l | None => [] end.
Record sound (h : threads) : Prop := {
  s_buffer : buffer_ok (published (h_writer h) ++ now_stored (h_writer h)) (g_buffer (h_ring h));
  s_index : g_index (h_ring h) = length (published (h_writer h)) mod size;
  s_now : match w_now (h_writer h) with Some (i, l, rest) => i = g_index (h_ring h) /\ length (l ++ rest) <= size | None => True end;
  s_todo : Forall (fun q => length q <= size) (w_todo (h_writer h))
}.
Lemma sound_new : forall quanta, Forall (fun q => length q <= size) quanta -> sound (threads_new size zero quanta).
Proof using size_pos. intros quanta H. split; cbn; [apply buffer_new|rewrite Nat.mod_0_l by lia; reflexivity|exact I|exact H]. Qed.
(** what the writer does *)
Lemma writer_ok : forall h, sound h -> exists h', thread_step size 0 h Writer = Ok h' /\ sound h' /\ h_reader h' = h_reader h /\
  exists x, published (h_writer h') ++ now_stored (h_writer h') = (published (h_writer h) ++ now_stored (h_writer h)) ++ x.
Proof using size_pos.
  intros [r [todo done now] d] [Hb Hi Hn Ht]. cbn [h_ring h_writer h_reader w_todo w_done w_now] in *. unfold thread_step, writer_step. cbn [h_ring h_writer h_reader w_todo w_done w_now]. destruct now as [[[i l] [|x rest]]|].
  - destruct Hn as [-> Hl]. rewrite app_nil_r in Hl. cbn [bind]. eexists. split; [reflexivity|].
    assert (P : concat (done ++ [l]) = concat done ++ l) by (rewrite concat_app; cbn [concat]; rewrite app_nil_r; reflexivity). unfold published, now_stored in *. cbn [h_writer w_now w_done] in *.
    split; [split; cbn [h_ring h_writer w_todo w_done w_now g_buffer g_index]; unfold published, now_stored; cbn [w_done w_now]|split; [reflexivity|cbn [h_writer w_done w_now]]].
    + rewrite P, app_nil_r. exact Hb.
    + rewrite P, Hi. apply next_index. exact Hl.
    + exact I.
    + exact Ht.
    + exists []. rewrite P, !app_nil_r. reflexivity.
  - destruct Hn as [-> Hl]. unfold check. destruct (Nat.ltb_spec 0 size); [|lia]. cbn [bind]. unfold published, now_stored in *. cbn [w_done w_now h_writer] in *. rewrite Hi, Nat.add_mod_idemp_l, <- app_length by lia. destruct (buffer_store _ _ x Hb) as [-> Hb']. cbn [bind]. eexists. split; [reflexivity|].
    split; [split; cbn [h_ring h_writer w_todo w_done w_now g_buffer g_index]; unfold published, now_stored; cbn [w_done w_now]|split; [reflexivity|cbn [h_writer w_done w_now]]].
    + rewrite app_assoc. exact Hb'.
    + reflexivity.
    + split; [reflexivity|]. rewrite <- app_assoc. exact Hl.
    + exact Ht.
    + exists [x]. rewrite app_assoc. reflexivity.
  - destruct todo as [|q todo].
    + cbn [bind]. eexists. split; [reflexivity|]. split; [split; assumption|]. split; [reflexivity|]. exists []. symmetry. apply app_nil_r.
    + inversion Ht as [|? ? Hq Ht']; subst. cbn [bind]. eexists. split; [reflexivity|]. unfold published, now_stored in *. cbn [w_done w_now h_writer] in *.
      split; [split; cbn [h_ring h_writer w_todo w_done w_now g_buffer g_index]; unfold published, now_stored; cbn [w_done w_now]|split; [reflexivity|cbn [h_writer w_done w_now]]]; auto.
      exists []. symmetry. apply app_nil_r.
Qed.
Lemma step_len : forall len (h : threads), thread_step size len h Writer = thread_step size 0 h Writer.
Proof using size_pos. reflexivity. Qed.

(** the reader has loaded the index when [l] was published *)
Definition reading (len : nat) (l : list V) (h : threads) : Prop :=
  exists more got, published (h_writer h) ++ now_stored (h_writer h) = l ++ more /\ h_reader h = mk_reader (Some (length l mod size)) got /\ length got <= len /\
    (length more + len <= size -> got = map (fun i => at_ l (length l + size - len + i)) (seq 0 (length got))).
Lemma stored_length : forall w, length (published w ++ now_stored w) = stored (V := V) w.
Proof using size_pos. intros w. rewrite app_length. unfold stored, now_stored. destruct (w_now w) as [[[i l] r]|]; reflexivity. Qed.
Lemma load_total : forall l b i len j, buffer_ok l b -> len <= size -> exists x, ring_load size b i len j = Ok x.
Proof using size_pos.
  intros l b i len j [L _] H. unfold ring_load, ring_position, check. destruct (Nat.ltb_spec 0 size); [|lia]. destruct (Nat.leb_spec len (size + i)); [|lia]. cbn [andb bind]. set (p := _ mod size). assert (p < length b) as Q by (unfold p; rewrite L; apply Nat.mod_upper_bound; lia).
  destruct (nth_error b p) as [x|] eqn:E; [exists x; apply index_Some; exact E|]. apply nth_error_None in E. lia.
Qed.
Lemma reading_step : forall len l h t, sound h -> reading len l h -> len <= size -> exists h', thread_step size len h t = Ok h' /\ sound h' /\ reading len l h'.
Proof using size_pos.
  intros len l h [|] Hs (more & got & E & Er & Lg & G) Hlen.
  - rewrite step_len. destruct (writer_ok h Hs) as (h' & -> & Hs' & R' & x & E'). exists h'. split; [reflexivity|]. split; [exact Hs'|]. exists (more ++ x), got. split; [rewrite E', E, app_assoc; reflexivity|]. split; [rewrite R'; exact Er|]. split; [exact Lg|]. rewrite app_length. intros Q. apply G. lia.
  - unfold thread_step, reader_step. rewrite Er. cbn [d_index d_got]. destruct (Nat.ltb_spec (length got) len) as [Q|Q].
    + pose proof (s_buffer _ Hs) as Hb. rewrite E in Hb. destruct (load_total _ _ (length l mod size) _ (length got) Hb Hlen) as [x Ex]. rewrite Ex. cbn [bind]. eexists. split; [reflexivity|]. split; [destruct Hs; split; assumption|]. exists more, (got ++ [x]). split; [exact E|]. split; [reflexivity|]. rewrite app_length. cbn [length]. split; [lia|]. intros Q3.
      rewrite (load_ok _ _ _ _ _ Hb Hlen Q) in Ex by lia. injection Ex as <-. rewrite Nat.add_1_r, seq_S, map_app, <- G by exact Q3. reflexivity.
    + cbn [bind]. eexists. split; [reflexivity|]. split; [destruct Hs; split; assumption|]. exists more, got. auto.
Qed.
Lemma reading_run : forall len l ts h, sound h -> reading len l h -> len <= size -> exists h', threads_run size len h ts = Ok h' /\ sound h' /\ reading len l h'.
Proof using size_pos.
  intros len l. induction ts as [|t ts IH]; intros h Hs Hr Hlen; [exists h; split; [reflexivity|auto]|]. destruct (reading_step len l h t Hs Hr Hlen) as (h1 & E & Hs1 & Hr1). destruct (IH h1 Hs1 Hr1 Hlen) as (h2 & E2 & Q). exists h2. split; [|exact Q]. unfold threads_run in *. cbn [fold_res]. rewrite E. exact E2.
Qed.
Lemma writers_run : forall len n h, sound h -> exists h', threads_run size len h (repeat Writer n) = Ok h' /\ sound h' /\ h_reader h' = h_reader h.
Proof using size_pos.
  intros len. induction n as [|n IH]; intros h Hs; [exists h; split; [reflexivity|auto]|]. destruct (writer_ok h Hs) as (h1 & E & Hs1 & R1 & _). destruct (IH h1 Hs1) as (h2 & E2 & Hs2 & R2). exists h2. split; [|split; [exact Hs2|congruence]]. unfold threads_run in *. cbn [repeat fold_res]. rewrite (step_len len), E. exact E2.
Qed.
Lemma fold_res_app : forall X Y (f : X -> Y -> res X) l1 l2 x, fold_res f x (l1 ++ l2) = do y <- fold_res f x l1; fold_res f y l2.
Proof using size_pos. intros X Y f. induction l1 as [|y l1 IH]; intros l2 x; [reflexivity|]. cbn [app fold_res]. destruct (f x y); cbn [bind]; auto. Qed.
(** the reader starts after [n] steps of the writer *)
Lemma concurrent : forall len quanta n ts, Forall (fun q => length q <= size) quanta -> len <= size ->
  exists h1 h2, threads_run size len (threads_new size zero quanta) (repeat Writer n) = Ok h1 /\ threads_run size len h1 (Reader :: ts) = Ok h2 /\
    length (d_got (h_reader h2)) <= len /\
    (stored (h_writer h2) + len <= length (published (h_writer h1)) + size -> length (d_got (h_reader h2)) = len -> d_got (h_reader h2) = recent zero len (published (h_writer h1))).
Proof using size_pos.
  intros len quanta n ts Hq Hlen. destruct (writers_run len n _ (sound_new quanta Hq)) as (h1 & E1 & Hs & Hr). cbn [threads_new h_reader] in Hr. set (l := published (h_writer h1)).
  set (h1' := mk_threads (h_ring h1) (h_writer h1) (mk_reader (Some (g_index (h_ring h1))) [])).
  assert (S1 : sound h1') by (destruct Hs; split; assumption). assert (R1 : reading len l h1').
  { exists (now_stored (h_writer h1)), []. split; [reflexivity|]. split; [cbn [h1' h_reader]; rewrite (s_index _ Hs); reflexivity|]. cbn [length]. split; [lia|]. reflexivity. }
  destruct (reading_run len l ts h1' S1 R1 Hlen) as (h2 & E2 & S2 & (more & got & P & Q & L & G)). exists h1, h2. split; [exact E1|]. split; [unfold threads_run in *; cbn [fold_res]; unfold thread_step at 1, reader_step; rewrite Hr; cbn [d_index bind]; exact E2|].
  rewrite Q. cbn [d_got]. split; [exact L|]. intros H1 H2. rewrite <- stored_length, P, app_length in H1. fold l in H1. rewrite (G ltac:(lia)), H2. apply recent_map. exact Hlen.
Qed.
(** a writer that gets ahead too far: [more] is stored before the reader continues *)
Lemma overtaken : forall l more r len, ring_ok (l ++ more) r -> 0 < len -> len <= size -> size < length more + len -> length more <= size ->
  exists x, map_res (ring_load size (g_buffer r) (length l mod size) len) (seq 0 len) = Ok x /\ nth 0 x zero = nth (size - len) more zero.
Proof using size_pos.
  intros l more r len [Hb _] H0 H1 H2 H3.
  rewrite (map_res_ok _ _ _ (fun i => match ring_load size (g_buffer r) (length l mod size) len i with Ok x => x | _ => zero end)).
  - eexists. split; [reflexivity|]. destruct len as [|len]; [lia|]. cbn [seq map nth]. rewrite (load_torn l more _ (S len) 0 Hb H1 ltac:(lia) ltac:(lia) H3). rewrite Nat.add_0_r. reflexivity.
  - intros i _. destruct (load_total _ _ (length l mod size) _ i Hb H1) as [x ->]. reflexivity.
Qed.
End Ring.
