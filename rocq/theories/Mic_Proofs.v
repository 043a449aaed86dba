(** Proofs for Mic_Props.v *)
From Coq Require Import List Arith Bool ZArith Lia.
From Verif Require Import Common_Model Float_Model Quantum_Model Buffer_Model Buffer_ResampleProofs Element_Model Mic_Model Mic_Spec.
Import ListNotations.

Lemma step_by_nth {A} n : 0 < n -> forall (l : list A) w k, nth_error (step_by n w l) k = nth_error l (w + k * n).
Proof.
  intros N. induction l as [|x l IH]; intros w k; [cbn; destruct k, (w + _); reflexivity|]. destruct w as [|w]; cbn [step_by].
  - destruct k; [reflexivity|]. cbn [nth_error]. rewrite IH. replace (0 + S k * n) with (S (n - 1 + k * n)) by lia. reflexivity.
  - rewrite IH. reflexivity.
Qed.
Lemma step_by_length {A} n f : 0 < n -> forall (l : list A) c, c < n -> length l = n * f -> length (step_by n 0 (skipn c l)) = f.
Proof.
  intros N l c C L. set (m := length (step_by n 0 (skipn c l))).
  assert (G : forall k, nth_error (step_by n 0 (skipn c l)) k = nth_error l (c + k * n)).
  { intros k. rewrite (step_by_nth n N). rewrite Nat.add_0_l. clear. revert l. induction c as [|c IH]; intros l; [reflexivity|]. destruct l as [|x l]; [destruct (k * n); reflexivity|]. apply IH. }
  assert (U : m <= f). { apply Nat.nlt_ge. intros Q. assert (X : nth_error (step_by n 0 (skipn c l)) f <> None) by (apply nth_error_Some; exact Q). apply X. rewrite G. apply nth_error_None. nia. }
  assert (V : f <= m). { apply Nat.nlt_ge. intros Q. assert (X : nth_error (step_by n 0 (skipn c l)) m = None) by (apply nth_error_None; unfold m; lia). rewrite G in X. apply nth_error_None in X. nia. }
  lia.
Qed.

Lemma separated n (data : list f32) : 0 < n -> length data mod n = 0 ->
  separate_channels n data = map (fun c => map (fun k => nth (k * n + c) data f32_zero) (seq 0 (length data / n))) (seq 0 n).
Proof.
  intros N M. unfold separate_channels. apply map_ext_in. intros c Hc. apply in_seq in Hc.
  assert (L : length data = n * (length data / n)) by (pose proof (Nat.div_mod (length data) n); lia). set (f := length data / n) in *. clearbody f.
  assert (Ls := step_by_length n f N data c ltac:(lia) L). apply (nth_ext _ _ f32_zero f32_zero); [rewrite map_length, seq_length; exact Ls|].
  intros k K. rewrite Ls in K. symmetry. rewrite (nth_error_nth _ k f32_zero (x := nth (k * n + c) data f32_zero)).
  - symmetry. apply nth_error_nth. rewrite (step_by_nth n N), Nat.add_0_l. rewrite <- (nth_error_nth' data f32_zero) by nia.
    clear - data. rewrite Nat.add_comm. generalize (k * n) as j. intros j. revert data. induction c as [|c IH]; intros data; [reflexivity|]. destruct data as [|x l]; [destruct j; reflexivity|]. apply IH.
  - rewrite (map_nth_error (fun k => nth (k * n + c) data f32_zero) k (seq 0 f) (d := k)); [reflexivity|]. rewrite (nth_error_nth' _ 0) by (rewrite seq_length; exact K). now rewrite seq_nth.
Qed.

Lemma captured_block n rate data : rate_ok rate -> 1 <= n <= 32 -> length data mod n = 0 -> from_samples (separate_channels n data) rate = Ok (block n rate data).
Proof.
  intros R N M. rewrite (separated n data) by (lia || exact M). unfold from_samples. unfold rate_ok in R. rewrite R. cbn [check bind]. rewrite map_length, seq_length.
  unfold is_valid_number_of_channels. rewrite (proj2 (Nat.ltb_lt 0 n)), (proj2 (Nat.leb_le n 32)) by lia. cbn [andb check bind].
  assert (F : forallb (fun c => length c =? match map (fun c => map (fun k => nth (k * n + c) data f32_zero) (seq 0 (length data / n))) (seq 0 n) with [] => 0 | c0 :: _ => length c0 end)
    (map (fun c => map (fun k => nth (k * n + c) data f32_zero) (seq 0 (length data / n))) (seq 0 n)) = true).
  { apply forallb_forall. intros c Hc. apply in_map_iff in Hc. destruct Hc as (i & <- & _). destruct n as [|n]; [lia|]. cbn [seq map]. apply Nat.eqb_eq. now rewrite !map_length. }
  rewrite F. reflexivity.
Qed.

Section Mic.
Variables (n : nat) (rate : f32).
Hypothesis Hr : rate_ok rate.
Hypothesis Hn : 1 <= n <= 32.

Definition mine (m : mic) : Prop := m_channels m = n /\ m_rate m = rate.
Definition fits (h : list mic_event) (m : mic) : Prop := mine m /\ queued h = got h ++ m_queue m /\ length (m_queue m) <= 3.

Lemma flat_app {A B} (f : A -> list B) a b : flat_map f (a ++ b) = flat_map f a ++ flat_map f b.
Proof. apply flat_map_app. Qed.
Lemma fits_waiting h m : fits h m -> waiting h = length (m_queue m).
Proof. intros (_ & Q & _). unfold waiting. rewrite Q, app_length. lia. Qed.

Lemma silence_ok m : mine m -> new_content (m_channels m) RQ (m_rate m) = Ok (mk_content (repeat (repeat f32_zero 128) n) rate).
Proof.
  intros [-> ->]. unfold new_content. unfold rate_ok in Hr. rewrite Hr. unfold is_valid_number_of_channels. rewrite (proj2 (Nat.ltb_lt 0 n)), (proj2 (Nat.leb_le n 32)) by lia. reflexivity.
Qed.

Lemma step_fits h m o : fits h m -> whole_frames n o -> exists m' log, mic_step m o = Ok (m', log) /\ fits (h ++ log) m' /\
  (forall e, In e log -> log = [e] /\ right n rate h e /\ (e = Ended -> m_open m' = false /\ m_queue m' = [])) /\
  answered log = asked [o] /\ captured log = (if m_open m then heard n rate [o] else []) /\
  m_open m' = (if m_open m then match o with Close => false | _ => true end else false).
Proof.
  intros F W. pose proof (fits_waiting h m F) as Wt. pose proof F as ([M1 M2] & Q & L3). destruct o as [data| |]; cbn [mic_step whole_frames] in *.
  - destruct (m_open m) eqn:Op.
    + rewrite M1, M2, (captured_block n rate data Hr Hn W). cbn [bind]. unfold smoothing. destruct (Nat.ltb_spec (length (m_queue m)) 3) as [Lt|Ge].
      * eexists _, _. split; [reflexivity|]. split; [|split; [|split; [reflexivity|split; reflexivity]]].
        -- split; [split; reflexivity|]. cbn [m_queue]. unfold queued, got in *. rewrite !flat_app. cbn [flat_map]. rewrite Q, !app_nil_r, app_assoc. split; [reflexivity|]. rewrite app_length. cbn [length]. lia.
        -- intros e [<-|[]]. split; [reflexivity|]. split; [cbn [right]; lia|discriminate].
      * eexists _, _. split; [reflexivity|]. split; [|split; [|split; [reflexivity|split; [reflexivity|exact Op]]]].
        -- split; [split; assumption|]. unfold queued, got in *. rewrite !flat_app. cbn [flat_map]. rewrite !app_nil_r. split; [exact Q|exact L3].
        -- intros e [<-|[]]. split; [reflexivity|]. split; [cbn [right]; lia|discriminate].
    + eexists _, _. split; [reflexivity|]. rewrite app_nil_r. split; [exact F|]. split; [intros e []|]. split; [reflexivity|]. split; [reflexivity|exact Op].
  - eexists _, _. split; [reflexivity|]. rewrite app_nil_r. split; [exact (conj (conj M1 M2) (conj Q L3))|]. split; [intros e []|]. split; [reflexivity|]. split; destruct (m_open m); reflexivity.
  - destruct (m_queue m) as [|b q] eqn:Eq.
    + destruct (m_open m) eqn:Op.
      * rewrite (silence_ok m (conj M1 M2)). cbn [bind]. eexists _, _. split; [reflexivity|]. split; [|split; [|split; [reflexivity|split; [reflexivity|exact Op]]]].
        -- split; [split; assumption|]. rewrite Eq. unfold queued, got in *. rewrite !flat_app. cbn [flat_map]. rewrite !app_nil_r. rewrite app_nil_r in Q. split; [exact Q|cbn; lia].
        -- intros e [<-|[]]. split; [reflexivity|]. split; [split; [exact Wt|reflexivity]|discriminate].
      * eexists _, _. split; [reflexivity|]. split; [|split; [|split; [reflexivity|split; [reflexivity|exact Op]]]].
        -- split; [split; assumption|]. rewrite Eq. unfold queued, got in *. rewrite !flat_app. cbn [flat_map]. rewrite !app_nil_r. rewrite app_nil_r in Q. split; [exact Q|cbn; lia].
        -- intros e [<-|[]]. split; [reflexivity|]. split; [exact Wt|]. intros _. split; assumption.
    + eexists _, _. split; [reflexivity|]. split; [|split; [|split; [reflexivity|split; [destruct (m_open m); reflexivity|cbn [m_open]; destruct (m_open m); reflexivity]]]].
      * split; [split; assumption|]. cbn [m_queue]. unfold queued, got in *. rewrite !flat_app. cbn [flat_map]. rewrite Q, !app_nil_r, <- app_assoc. split; [reflexivity|]. cbn [length] in L3. lia.
      * intros e [<-|[]]. split; [reflexivity|]. split; [|discriminate]. cbn [right]. rewrite Q, nth_error_app2 by lia. rewrite Nat.sub_diag. reflexivity.
Qed.

Lemma over : forall ops m, m_open m = false -> m_queue m = [] -> forall m' log, mic_run m ops = Ok (m', log) -> Forall (eq Ended) log.
Proof.
  induction ops as [|o ops IH]; intros m O Q m' log R; cbn [mic_run] in R; [assert (log = []) by congruence; subst; constructor|].
  assert (X : exists m1 l1, mic_step m o = Ok (m1, l1) /\ Forall (eq Ended) l1 /\ m_open m1 = false /\ m_queue m1 = []).
  { destruct o; cbn [mic_step]; rewrite ?O, ?Q; eexists _, _; (split; [reflexivity|]); repeat split; try assumption; repeat constructor. }
  destruct X as (m1 & l1 & E & F1 & O1 & Q1). rewrite E in R. cbn [bind fst snd] in R. destruct (mic_run m1 ops) as [[m2 l2]| |] eqn:R2; try discriminate. cbn [bind fst snd] in R.
  assert (log = l1 ++ l2) by congruence. subst. apply Forall_app. split; [exact F1|]. exact (IH m1 O1 Q1 _ _ R2).
Qed.

Lemma run_fits : forall ops h m, fits h m -> Forall (whole_frames n) ops -> exists m' log, mic_run m ops = Ok (m', log) /\ fits (h ++ log) m' /\
  (forall pre e post, log = pre ++ e :: post -> right n rate (h ++ pre) e /\ (e = Ended -> Forall (eq Ended) post)) /\
  answered log = asked ops /\ captured log = (if m_open m then heard n rate ops else []).
Proof.
  induction ops as [|o ops IH]; intros h m F W.
  - exists m, []. split; [reflexivity|]. rewrite app_nil_r. split; [exact F|]. split; [|split; [reflexivity|destruct (m_open m); reflexivity]]. intros [|] e post Q; discriminate.
  - apply Forall_cons_iff in W. destruct W as [Wo W]. destruct (step_fits h m o F Wo) as (m1 & l1 & E1 & F1 & R1 & A1 & C1 & O1).
    destruct (IH _ m1 F1 W) as (m2 & l2 & E2 & F2 & R2 & A2 & C2). exists m2, (l1 ++ l2). cbn [mic_run]. rewrite E1. cbn [bind fst snd]. rewrite E2. cbn [bind fst snd].
    split; [reflexivity|]. rewrite app_assoc. split; [exact F2|]. split; [|split].
    + intros pre e post Q. destruct l1 as [|e1 l1].
      * cbn [app] in Q. rewrite app_nil_r in R2. exact (R2 _ _ _ Q).
      * destruct (R1 e1 (or_introl eq_refl)) as (S1 & S2 & S3). rewrite S1 in *. destruct pre as [|e0 pre].
        -- cbn [app] in Q. assert (e1 = e /\ l2 = post) as [-> ->] by (split; congruence). rewrite app_nil_r. split; [exact S2|]. intros N. destruct (S3 N) as [Oc Qc]. exact (over _ _ Oc Qc _ _ E2).
        -- cbn [app] in Q. assert (e1 = e0 /\ l2 = pre ++ e :: post) as [-> Q2] by (split; congruence). destruct (R2 _ _ _ Q2) as [G1 G2]. rewrite <- app_assoc in G1. split; [exact G1|exact G2].
    + unfold answered, asked in *. change (o :: ops) with ([o] ++ ops). rewrite !filter_app, !app_length, A1, A2. reflexivity.
    + unfold captured in *. rewrite flat_app, C1, C2, O1. destruct (m_open m); [|reflexivity]. destruct o; reflexivity.
Qed.

Lemma mic_all ops : Forall (whole_frames n) ops -> exists m log, mic_run (mic_new n rate) ops = Ok (m, log) /\
  (exists rest, queued log = got log ++ rest /\ length rest <= 3) /\
  captured log = heard n rate ops /\ answered log = asked ops /\
  forall pre e post, log = pre ++ e :: post -> right n rate pre e /\ (e = Ended -> Forall (eq Ended) post).
Proof.
  intros W. assert (F : fits [] (mic_new n rate)) by (split; [split; reflexivity|split; [reflexivity|cbn; lia]]).
  destruct (run_fits ops [] _ F W) as (m & log & E & (_ & Q & L) & R & A & C). exists m, log. split; [exact E|]. split; [exists (m_queue m); split; assumption|]. split; [exact C|]. split; [exact A|exact R].
Qed.

Lemma paced_run : forall ops m, mine m -> m_open m = true -> Forall (whole_frames n) ops -> paced (length (m_queue m)) ops -> exists m' log,
  mic_run m ops = Ok (m', log) /\ m_queue m ++ heard n rate ops = got log ++ m_queue m' /\ Forall (fun e => match e with Queued _ | Got _ => True | _ => False end) log.
Proof.
  induction ops as [|o ops IH]; intros m M O W P.
  - exists m, []. split; [reflexivity|]. split; [cbn; now rewrite app_nil_r|constructor].
  - apply Forall_cons_iff in W. destruct W as [Wo W]. pose proof M as [M1 M2]. destruct o as [data| |]; cbn [paced] in P; [|destruct P|]; cbn [mic_run mic_step].
    + rewrite O, M1, M2, (captured_block n rate data Hr Hn Wo). cbn [bind]. destruct P as [P1 P2]. unfold smoothing. rewrite (proj2 (Nat.ltb_lt _ 3) P1). cbn [bind fst snd].
      destruct (IH (mk_mic n rate (m_queue m ++ [block n rate data]) true)) as (m' & log & R & Q & F); [split; reflexivity|reflexivity|exact W| |].
      { cbn [m_queue]. rewrite app_length. cbn [length]. rewrite Nat.add_1_r. exact P2. }
      cbn [m_queue] in *. rewrite R. cbn [bind fst snd]. eexists _, _. split; [reflexivity|]. split; [change (m_queue m ++ [block n rate data] ++ heard n rate ops = got log ++ m_queue m'); rewrite <- Q, <- app_assoc; reflexivity|constructor; [exact Logic.I|exact F]].
    + destruct P as [P1 P2]. destruct (m_queue m) as [|b q] eqn:Eq; [cbn in P1; lia|]. cbn [bind fst snd]. cbn [length] in P2. rewrite Nat.sub_0_r in P2 || (replace (S (length q) - 1) with (length q) in P2 by lia).
      destruct (IH (mk_mic (m_channels m) (m_rate m) q (m_open m))) as (m' & log & R & Q & F); [exact M|exact O|exact W|exact P2|].
      cbn [m_queue] in *. rewrite R. cbn [bind fst snd]. eexists _, _. split; [reflexivity|]. split; [change (b :: (q ++ heard n rate ops) = b :: (got log ++ m_queue m')); f_equal; exact Q|constructor; [exact Logic.I|exact F]].
Qed.
Lemma paced_all ops : Forall (whole_frames n) ops -> paced 0 ops -> exists m log, mic_run (mic_new n rate) ops = Ok (m, log) /\
  (exists rest, heard n rate ops = got log ++ rest /\ length rest <= 3) /\ Forall (fun e => match e with Queued _ | Got _ => True | _ => False end) log.
Proof.
  intros W P. destruct (paced_run ops (mic_new n rate) (conj eq_refl eq_refl) eq_refl W P) as (m & log & R & Q & F). exists m, log. split; [exact R|]. split; [|exact F]. exists (m_queue m). split; [exact Q|].
  destruct (run_fits ops [] (mic_new n rate)) as (m2 & log2 & R2 & (_ & _ & L) & _); [split; [split; reflexivity|split; [reflexivity|cbn; lia]]|exact W|]. rewrite R in R2. assert (m2 = m) by congruence. subst. exact L.
Qed.
End Mic.

Lemma mic_end : forall m, m_open m = false -> forall k,
  mic_run m (repeat Next (length (m_queue m) + k)) = Ok (mk_mic (m_channels m) (m_rate m) [] false, map Got (m_queue m) ++ repeat Ended k).
Proof.
  intros [n rate q o] O k. cbn [m_open m_channels m_rate m_queue] in *. subst o. induction q as [|b q IH].
  - cbn [length Nat.add map app]. induction k as [|k IHk]; [reflexivity|]. cbn [repeat mic_run mic_step m_queue m_open bind fst snd]. rewrite IHk. reflexivity.
  - cbn [length Nat.add repeat mic_run mic_step m_queue m_open m_channels m_rate bind fst snd]. rewrite IH. reflexivity.
Qed.
