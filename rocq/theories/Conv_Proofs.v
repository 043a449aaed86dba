(** The ConvolverNode in exact arithmetic: its output is the convolution. *)
From Coq Require Import List Arith Bool Reals Lia Lra.
From Verif Require Import Common_Model Quantum_Model Arith_Model Arith_Real Route_Spec Conv_Model Conv_Spec.
Import ListNotations.
Local Open Scope R_scope.

(** ** Convolution *)
Lemma sum_ext f g n : (forall k, (k < n)%nat -> f k = g k) -> sum f n = sum g n.
Proof. intros H. unfold sum. f_equal. apply map_ext_in. intros k K. apply H. apply in_seq in K. lia. Qed.
Lemma sum_zero f n : (forall k, (k < n)%nat -> f k = 0) -> sum f n = 0.
Proof. intros H. rewrite (sum_ext f (fun _ => 0) n H). unfold sum. induction (seq 0 n) as [|x l IH]; cbn; [reflexivity|]. rewrite IH. lra. Qed.

Definition recent (L : nat) (h1 h2 : list R) : Prop := forall i, (i < L)%nat -> nth i (rev h1) 0 = nth i (rev h2) 0.
Definition quiet (n : nat) (h : list R) : Prop := forall i, (i < n)%nat -> nth i (rev h) 0 = 0.
Definition zeros (b : list R) : Prop := Forall (fun x => x = 0) b.

Lemma tap h b n k : (n < length b)%nat ->
  (if (k <=? length h + n)%nat then nth (length h + n - k) (h ++ b) 0 else 0) = if (k <=? n)%nat then nth (n - k) b 0 else nth (k - n - 1) (rev h) 0.
Proof.
  intros N. destruct (Nat.leb_spec k n) as [K|K].
  - replace (k <=? length h + n)%nat with true by (symmetry; apply Nat.leb_le; lia). rewrite app_nth2 by lia. f_equal. lia.
  - destruct (Nat.leb_spec k (length h + n)) as [K2|K2].
    + rewrite app_nth1 by lia. rewrite rev_nth by lia. f_equal. lia.
    + rewrite nth_overflow; [reflexivity|]. rewrite rev_length. lia.
Qed.
Lemma conv_recent ir L h1 h2 b n : recent L h1 h2 -> (length ir <= L)%nat -> (n < length b)%nat -> convolution ir (h1 ++ b) (length h1 + n) = convolution ir (h2 ++ b) (length h2 + n).
Proof. intros R Le N. apply sum_ext. intros k K. rewrite !tap by exact N. destruct (k <=? n)%nat; [reflexivity|]. rewrite R by lia. reflexivity. Qed.
Lemma zeros_nth b i : zeros b -> nth i b 0 = 0.
Proof. intros Z. destruct (Nat.lt_ge_cases i (length b)) as [H|H]; [|apply nth_overflow; exact H]. apply (proj1 (Forall_forall _ _) Z). apply nth_In. exact H. Qed.
Lemma conv_quiet ir L h b n : quiet L h -> zeros b -> (length ir <= L)%nat -> (n < length b)%nat -> convolution ir (h ++ b) (length h + n) = 0.
Proof. intros Q Z Le N. apply sum_zero. intros k K. rewrite tap by exact N. destruct (k <=? n)%nat; [rewrite (zeros_nth b) by exact Z|rewrite Q by lia]; ring. Qed.
Lemma conv_causal ir x y n : (n < length x)%nat -> convolution ir (x ++ y) n = convolution ir x n.
Proof. intros N. apply sum_ext. intros k K. destruct (k <=? n)%nat; [|reflexivity]. rewrite app_nth1 by lia. reflexivity. Qed.
Lemma recent_app L h1 h2 b : recent L h1 h2 -> recent L (h1 ++ b) (h2 ++ b).
Proof.
  intros R i I. rewrite !rev_app_distr. destruct (Nat.lt_ge_cases i (length (rev b))) as [H|H]; [rewrite !app_nth1 by exact H; reflexivity|].
  rewrite !app_nth2 by exact H. apply R. lia.
Qed.
Lemma quiet_app n h b : quiet n h -> zeros b -> quiet (n + length b) (h ++ b).
Proof.
  intros Q Z i I. rewrite rev_app_distr. destruct (Nat.lt_ge_cases i (length (rev b))) as [H|H].
  - rewrite app_nth1 by exact H. apply zeros_nth. apply Forall_rev. exact Z.
  - rewrite app_nth2 by exact H. apply Q. rewrite rev_length in *. lia.
Qed.
Lemma quiet_less n m h : quiet n h -> (m <= n)%nat -> quiet m h.
Proof. intros Q L i I. apply Q. lia. Qed.

(** the part of the convolution during [x], after [h] *)
Definition during (ir h x : list R) : list R := map (fun n => convolution ir (h ++ x) (length h + n)) (seq 0 (length x)).
Lemma seq_from : forall n m, seq m n = map (fun i => m + i)%nat (seq 0 n).
Proof.
  induction n as [|n IH]; intros m; [reflexivity|]. cbn. rewrite Nat.add_0_r. f_equal. rewrite (IH (S m)), <- seq_shift, map_map. apply map_ext. intros i. lia.
Qed.
Lemma during_app ir h b x : during ir h (b ++ x) = during ir h b ++ during ir (h ++ b) x.
Proof.
  unfold during. rewrite app_length, seq_app, map_app. f_equal.
  - apply map_ext_in. intros n N. apply in_seq in N. rewrite app_assoc. apply conv_causal. rewrite app_length. lia.
  - rewrite seq_from, map_map. apply map_ext_in. intros n N. rewrite app_length, <- app_assoc. f_equal. lia.
Qed.
Lemma during_length ir h x : length (during ir h x) = length x.
Proof. unfold during. rewrite map_length, seq_length. reflexivity. Qed.
Lemma during_quiet ir L h b : quiet L h -> zeros b -> (length ir <= L)%nat -> during ir h b = repeat 0 (length b).
Proof.
  intros Q Z Le. unfold during. rewrite (map_ext_in _ (fun _ => 0)). { generalize 0%nat. induction (length b) as [|n IH]; intros m; cbn; [reflexivity|]. rewrite IH. reflexivity. }
  intros n N. apply in_seq in N. apply (conv_quiet ir L); try assumption. lia.
Qed.
Lemma during_start ir x : during ir [] x = map (convolution ir x) (seq 0 (length x)).
Proof. reflexivity. Qed.

(** ** The engine *)
Section Node.
Context {E : Type}.
Variable size : nat.
Variable fresh : list R -> E.
Variable run : E -> list R -> E * list R.
Hypothesis engine : convolves size fresh run.
Variable L : nat.
Notation quantum := (list (chan R)).
Notation conv := (conv E).

Definition tracks (e : E) (ir h : list R) (tail : nat) : Prop :=
  exists bs, e = feed run (fresh ir) bs /\ Forall (fun b => length b = size) bs /\ recent L (concat bs) h /\ quiet tail (concat bs) /\ quiet tail h /\ (length ir <= L)%nat.
Definition next_tail (silent : bool) (tail : nat) : nat := if silent then (tail + size)%nat else 0%nat.
Lemma tracks_run e ir h tail b silent : tracks e ir h tail -> length b = size -> (silent = true -> zeros b) ->
  snd (run e b) = during ir h b /\ tracks (fst (run e b)) ir (h ++ b) (next_tail silent tail).
Proof.
  intros (bs & -> & F & Re & Q1 & Q2 & Le) Lb Z. split.
  - rewrite engine by (apply Forall_app; split; [exact F|constructor; [exact Lb|constructor]]). unfold during. rewrite Lb. apply map_ext_in. intros n N. apply in_seq in N. rewrite concat_app. cbn [concat]. rewrite app_nil_r. apply (conv_recent ir L); [exact Re|exact Le|lia].
  - exists (bs ++ [b]). split; [unfold feed; rewrite fold_left_app; reflexivity|]. split; [apply Forall_app; split; [exact F|constructor; [exact Lb|constructor]]|]. rewrite concat_app. cbn [concat]. rewrite app_nil_r. split; [apply recent_app; exact Re|].
    destruct silent; cbn [next_tail]; [|split; [intros i I; lia|split; [intros i I; lia|exact Le]]]. rewrite <- Lb. split; [apply quiet_app; auto|split; [apply quiet_app; auto|exact Le]].
Qed.
Lemma tracks_pause e ir h tail b : tracks e ir h tail -> (L <= tail)%nat -> zeros b -> during ir h b = repeat 0 (length b) /\ tracks e ir (h ++ b) tail.
Proof.
  intros (bs & -> & F & Re & Q1 & Q2 & Le) T Z. split; [apply (during_quiet ir tail); [exact Q2|exact Z|lia]|].
  assert (Q3 : quiet tail (h ++ b)) by (apply (quiet_less (tail + length b)); [apply quiet_app; assumption|lia]).
  exists bs. split; [reflexivity|]. split; [exact F|]. split; [intros i I; rewrite Q1, Q3 by lia; reflexivity|]. split; [exact Q1|]. split; [exact Q3|exact Le].
Qed.
Lemma tracks_fresh ir tail : (length ir <= L)%nat -> tracks (fresh ir) ir [] tail.
Proof. intros Le. exists []. split; [reflexivity|]. split; [constructor|]. split; [intros i I; reflexivity|]. split; [intros [|i] I; reflexivity|]. split; [intros [|i] I; reflexivity|exact Le]. Qed.

(** ** The node *)
(** what is known of the second engine of a mono response, which is used for stereo input only *)
Inductive habit := Mono | Stereo | Mixed.
Definition keeps (u : habit) (q : quantum) : Prop := match u with Mono => length q = 1%nat | Stereo => length q = 2%nat | Mixed => True end.
Definition good (u : habit) (irs : list (list R)) (st : conv) (l r : list R) : Prop :=
  c_channels st = length irs /\ c_length st = L /\
  match irs with
  | [a] => exists e0 e1, c_engines st = Some [e0; e1] /\ tracks e0 a l (c_tail st) /\ match u with Mono => l = r | Stereo => tracks e1 a r (c_tail st) | Mixed => True end
  | [a; b] => exists e0 e1, c_engines st = Some [e0; e1] /\ tracks e0 a l (c_tail st) /\ tracks e1 b r (c_tail st)
  | [a; b; c; d] => exists e0 e1 e2 e3, c_engines st = Some [e0; e1; e2; e3] /\ tracks e0 a l (c_tail st) /\ tracks e1 b l (c_tail st) /\ tracks e2 c r (c_tail st) /\ tracks e3 d r (c_tail st)
  | _ => False
  end.
(** the output during the next blocks [l'] and [r'] *)
Definition wet (irs : list (list R)) (l r l' r' : list R) (c : nat) : list R :=
  match irs, c with
  | [a], O => during a l l'
  | [a], _ => during a r r'
  | [a; b], O => during a l l'
  | [a; b], _ => during b r r'
  | [a; b; c; d], O => zip_mut Rplus (during a l l') (during c r r')
  | [a; b; c; d], _ => zip_mut Rplus (during b l l') (during d r r')
  | _, _ => []
  end.
Definition right_ok (u : habit) (irs : list (list R)) : Prop := u <> Mixed \/ (1 < length irs)%nat.

Lemma silent_zeros (q : quantum) c : proper size q -> is_silent q = true -> zeros (side c q).
Proof.
  intros (N & F) S. unfold is_silent in S. apply negb_true_iff in S.
  unfold side. set (x := nth _ q _). assert (X : In x q \/ x = mk_chan 0 []) by (unfold x; destruct (nth_in_or_default (if (length q <=? 1)%nat then 0%nat else c) q (mk_chan 0 [])); auto).
  destruct X as [X|X]; [|rewrite X; constructor]. apply (proj1 (Forall_forall _ _) F x X). destruct (Nat.eqb (c_name x) 0) eqn:Q; [apply Nat.eqb_eq; exact Q|].
  exfalso. apply not_true_iff_false in S. apply S. apply existsb_exists. exists x. split; [exact X|]. unfold chan_is_silent. rewrite Q. reflexivity.
Qed.
Lemma side_length (q : quantum) c : proper size q -> (c < 2)%nat -> length (side c q) = size.
Proof.
  intros (N & F) C. unfold side. assert (I : In (nth (if (length q <=? 1)%nat then 0%nat else c) q (mk_chan 0 [])) q) by (apply nth_In; destruct N as [->| ->]; cbn; lia). apply (proj1 (Forall_forall _ _) F _ I).
Qed.
Lemma repeat_zip n : zip_mut Rplus (repeat 0 n) (repeat 0 n) = repeat 0 n.
Proof. induction n as [|n IH]; cbn; [reflexivity|]. f_equal; [ring|exact IH]. Qed.

Lemma node_step u irs st l r s input output : good u irs st l r -> proper size input -> keeps u input -> output <> [] ->
  exists st' out b, conv_process exact size run st s input output = Ok (st', out, b) /\ good u irs st' (l ++ side 0 input) (r ++ side 1 input) /\
    side 0 out = wet irs l r (side 0 input) (side 1 input) 0 /\ (right_ok u irs -> side 1 out = wet irs l r (side 0 input) (side 1 input) 1).
Proof.
  intros (G1 & G2 & G) P K O. assert (L0 := side_length input 0 P ltac:(lia)). assert (L1 := side_length input 1 P ltac:(lia)).
  unfold conv_process. destruct (is_silent input && (c_length st <=? c_tail st)) eqn:Z.
  - apply andb_true_iff in Z. destruct Z as (Si & T). apply Nat.leb_le in T. rewrite G2 in T. assert (Z0 := silent_zeros input 0 P Si). assert (Z1 := silent_zeros input 1 P Si).
    destruct output as [|o output]; [contradiction|]. cbn [make_silent from_option bind]. eexists st, _, false. split; [reflexivity|].
    assert (Out : forall c, side c [silence_chan (sops_of exact) size] = repeat 0 size) by (intros [|c]; reflexivity). rewrite !Out.
    unfold good, wet. rewrite G1, G2.
    destruct irs as [|a [|b [|c [|d [|e irs]]]]]; try contradiction.
    + destruct G as (e0 & e1 & Ee & T0 & G). destruct (tracks_pause e0 a l _ (side 0 input) T0 T Z0) as (D0 & T0'). rewrite D0, L0. split; [|split; [reflexivity|]].
      * split; [reflexivity|]. split; [reflexivity|]. exists e0, e1. split; [exact Ee|]. split; [exact T0'|]. destruct u; [|apply tracks_pause; assumption|exact I]. cbn in K. rewrite G. f_equal. unfold side. rewrite K. reflexivity.
      * intros [X|X]; [|cbn in X; lia]. destruct u; [|destruct (tracks_pause e1 a r _ (side 1 input) G T Z1) as (D1 & _); rewrite D1, L1; reflexivity|contradiction].
        cbn in K. subst l. replace (side 1 input) with (side 0 input) by (unfold side; rewrite K; reflexivity). rewrite D0, L0. reflexivity.
    + destruct G as (e0 & e1 & Ee & T0 & T1). destruct (tracks_pause e0 a l _ (side 0 input) T0 T Z0) as (D0 & T0'). destruct (tracks_pause e1 b r _ (side 1 input) T1 T Z1) as (D1 & T1'). rewrite D0, D1, L0, L1. split; [|split; reflexivity].
      split; [reflexivity|]. split; [reflexivity|]. exists e0, e1. auto.
    + destruct G as (e0 & e1 & e2 & e3 & Ee & T0 & T1 & T2 & T3). destruct (tracks_pause e0 a l _ (side 0 input) T0 T Z0) as (D0 & T0'). destruct (tracks_pause e1 b l _ (side 0 input) T1 T Z0) as (D1 & T1').
      destruct (tracks_pause e2 c r _ (side 1 input) T2 T Z1) as (D2 & T2'). destruct (tracks_pause e3 d r _ (side 1 input) T3 T Z1) as (D3 & T3'). rewrite D0, D1, D2, D3, L0, L1, repeat_zip. split; [|split; reflexivity].
      split; [reflexivity|]. split; [reflexivity|]. exists e0, e1, e2, e3. auto 6.
  - clear Z. cbv zeta. fold (next_tail (is_silent input) (c_tail st)).
    assert (Run : forall e ir h c, (c < 2)%nat -> tracks e ir h (c_tail st) -> snd (run e (side c input)) = during ir h (side c input) /\ tracks (fst (run e (side c input))) ir (h ++ side c input) (next_tail (is_silent input) (c_tail st))).
    { intros e ir h c C T. apply tracks_run; [exact T|apply side_length; assumption|intros Si; apply silent_zeros; assumption]. }
    assert (Shape : (map c_val input = [side 0 input] /\ side 1 input = side 0 input /\ length input = 1%nat) \/ (map c_val input = [side 0 input; side 1 input] /\ length input = 2%nat)).
    { destruct P as ([N|N] & _); destruct input as [|x [|y [|z input]]]; try discriminate N; [left|right]; repeat split. }
    rewrite G1. destruct irs as [|a [|b [|c [|d [|e irs]]]]]; try contradiction.
    + destruct G as (e0 & e1 & Ee & T0 & G). rewrite Ee. destruct (Run e0 a l 0%nat ltac:(lia) T0) as (D0 & T0'). destruct Shape as [(Sh & Eq & Ln)|(Sh & Ln)]; rewrite Sh; cbn -[side Nat.add]; do 3 eexists; (split; [reflexivity|]).
      * split; [|split].
        -- split; [reflexivity|]. split; [exact G2|]. do 2 eexists. split; [reflexivity|]. split; [exact T0'|]. destruct u; [rewrite Eq, G; reflexivity|cbn in K; lia|exact I].
        -- exact D0.
        -- intros [X|X]; [|cbn in X; lia]. destruct u; [|cbn in K; lia|contradiction]. subst r. rewrite Eq. exact D0.
      * split; [|split].
        -- split; [reflexivity|]. split; [exact G2|]. do 2 eexists. split; [reflexivity|]. split; [exact T0'|]. destruct u; [cbn in K; lia| |exact I]. apply (Run e1 a r 1%nat ltac:(lia) G).
        -- exact D0.
        -- intros [X|X]; [|cbn in X; lia]. destruct u; [cbn in K; lia| |contradiction]. apply (Run e1 a r 1%nat ltac:(lia) G).
    + destruct G as (e0 & e1 & Ee & T0 & T1). rewrite Ee. destruct (Run e0 a l 0%nat ltac:(lia) T0) as (D0 & T0'). destruct (Run e1 b r 1%nat ltac:(lia) T1) as (D1 & T1'). destruct Shape as [(Sh & Eq & Ln)|(Sh & Ln)]; rewrite Sh; cbn -[side Nat.add]; do 3 eexists; (split; [reflexivity|]).
      * rewrite Eq in *. split; [|split; [exact D0|intros _; exact D1]]. split; [reflexivity|]. split; [exact G2|]. do 2 eexists. split; [reflexivity|]. split; [exact T0'|exact T1'].
      * split; [|split; [exact D0|intros _; exact D1]]. split; [reflexivity|]. split; [exact G2|]. do 2 eexists. split; [reflexivity|]. split; [exact T0'|exact T1'].
    + destruct G as (e0 & e1 & e2 & e3 & Ee & T0 & T1 & T2 & T3). rewrite Ee. destruct (Run e0 a l 0%nat ltac:(lia) T0) as (D0 & T0'). destruct (Run e1 b l 0%nat ltac:(lia) T1) as (D1 & T1'). destruct (Run e2 c r 1%nat ltac:(lia) T2) as (D2 & T2'). destruct (Run e3 d r 1%nat ltac:(lia) T3) as (D3 & T3').
      destruct Shape as [(Sh & Eq & Ln)|(Sh & Ln)]; rewrite Sh; cbn -[side Nat.add]; do 3 eexists; (split; [reflexivity|]).
      * rewrite Eq in *. split; [|split; [change (zip_mut Rplus (snd (run e0 (side 0 input))) (snd (run e2 (side 0 input))) = zip_mut Rplus (during a l (side 0 input)) (during c r (side 0 input))); rewrite D0, D2; reflexivity|intros _; change (zip_mut Rplus (snd (run e1 (side 0 input))) (snd (run e3 (side 0 input))) = zip_mut Rplus (during b l (side 0 input)) (during d r (side 0 input))); rewrite D1, D3; reflexivity]].
        split; [reflexivity|]. split; [exact G2|]. do 4 eexists. split; [reflexivity|]. split; [exact T0'|]. split; [exact T1'|]. split; [exact T2'|exact T3'].
      * split; [|split; [change (zip_mut Rplus (snd (run e0 (side 0 input))) (snd (run e2 (side 1 input))) = zip_mut Rplus (during a l (side 0 input)) (during c r (side 1 input))); rewrite D0, D2; reflexivity|intros _; change (zip_mut Rplus (snd (run e1 (side 0 input))) (snd (run e3 (side 1 input))) = zip_mut Rplus (during b l (side 0 input)) (during d r (side 1 input))); rewrite D1, D3; reflexivity]].
        split; [reflexivity|]. split; [exact G2|]. do 4 eexists. split; [reflexivity|]. split; [exact T0'|]. split; [exact T1'|]. split; [exact T2'|exact T3'].
Qed.

Lemma zip_app : forall (a a' b b' : list R), length a = length a' -> zip_mut Rplus (a ++ b) (a' ++ b') = zip_mut Rplus a a' ++ zip_mut Rplus b b'.
Proof. induction a as [|x a IH]; intros [|y a'] b b' H; try discriminate H; [reflexivity|]. cbn. f_equal. apply IH. injection H as H. exact H. Qed.
Lemma wet_app irs l r b b' x x' c : length b = length b' -> wet irs l r (b ++ x) (b' ++ x') c = wet irs l r b b' c ++ wet irs (l ++ b) (r ++ b') x x' c.
Proof.
  intros H. destruct irs as [|i1 [|i2 [|i3 [|i4 [|i5 irs]]]]]; cbn [wet]; destruct c; try reflexivity; rewrite ?during_app; try reflexivity; rewrite zip_app by (rewrite !during_length; exact H); reflexivity.
Qed.
Lemma wet_nil irs l r c : wet irs l r [] [] c = [].
Proof. destruct irs as [|i1 [|i2 [|i3 [|i4 [|i5 irs]]]]]; cbn [wet]; destruct c; reflexivity. Qed.
Definition ins (qs : list (nat * quantum * quantum)) : list quantum := map (fun q => snd (fst q)) qs.
Definition fit (u : habit) (q : nat * quantum * quantum) : Prop := proper size (snd (fst q)) /\ keeps u (snd (fst q)) /\ snd q <> [].

Lemma node_run u irs : forall qs st l r, good u irs st l r -> Forall (fit u) qs ->
  exists outs, conv_run exact size run st qs = Ok outs /\ length outs = length qs /\
    heard 0 (map fst outs) = wet irs l r (heard 0 (ins qs)) (heard 1 (ins qs)) 0 /\ (right_ok u irs -> heard 1 (map fst outs) = wet irs l r (heard 0 (ins qs)) (heard 1 (ins qs)) 1).
Proof.
  induction qs as [|((s & input) & output) qs IH]; intros st l r G F.
  - exists []. split; [reflexivity|]. split; [reflexivity|]. cbn. rewrite !wet_nil. split; [reflexivity|]. intros _. reflexivity.
  - apply Forall_cons_iff in F. destruct F as ((P & K & O) & F). cbn [fst snd] in *. destruct (node_step u irs st l r s input output G P K O) as (st' & out & b & E1 & G' & S0 & S1).
    destruct (IH st' _ _ G' F) as (outs & E2 & Ln & H0 & H1). exists ((out, b) :: outs). cbn [conv_run]. rewrite E1. cbn [bind fst snd]. rewrite E2. split; [reflexivity|]. split; [cbn; f_equal; exact Ln|].
    assert (Lb : length (side 0 input) = length (side 1 input)) by (rewrite !side_length by (assumption || lia); reflexivity).
    change (heard 0 (map fst ((out, b) :: outs))) with (side 0 out ++ heard 0 (map fst outs)). change (heard 1 (map fst ((out, b) :: outs))) with (side 1 out ++ heard 1 (map fst outs)).
    change (heard 0 (ins ((s, input, output) :: qs))) with (side 0 input ++ heard 0 (ins qs)). change (heard 1 (ins ((s, input, output) :: qs))) with (side 1 input ++ heard 1 (ins qs)).
    rewrite !wet_app by exact Lb. split; [f_equal; assumption|]. intros X. f_equal; auto.
Qed.
Lemma heard_length c qs u : (c < 2)%nat -> Forall (fit u) qs -> length (heard c (ins qs)) = (size * length qs)%nat.
Proof. intros C F. induction F as [|q qs (P & _) F IH]; [cbn; lia|]. change (heard c (ins (q :: qs))) with (side c (snd (fst q)) ++ heard c (ins qs)). rewrite app_length, IH, side_length by assumption. cbn. lia. Qed.
Lemma zip_map (f g : nat -> R) l : zip_mut Rplus (map f l) (map g l) = map (fun n => f n + g n) l.
Proof. induction l as [|x l IH]; cbn; [reflexivity|]. f_equal. exact IH. Qed.
Lemma wet_expected irs l r n c : length l = n -> length r = n -> existsb (Nat.eqb (length irs)) [1; 2; 4]%nat = true -> wet irs [] [] l r c = map (expected irs l r c) (seq 0 n).
Proof.
  intros L1 L2 Ch. destruct irs as [|i1 [|i2 [|i3 [|i4 [|i5 irs]]]]]; try discriminate Ch; destruct c; cbn [wet expected]; rewrite ?during_start, ?L1, ?L2, ?zip_map; reflexivity.
Qed.
End Node.

Definition exact_scale (normalize : bool) (rate : R) (len : nat) (chs : list (list R)) : R := if normalize then normalize_buffer exact rate len chs else 1.
Lemma set_buffer_good {E} size fresh (run : E -> list R -> E * list R) (engine : convolves size fresh run) u normalize rate len chs st :
  existsb (Nat.eqb (length chs)) [1; 2; 4]%nat = true -> Forall (fun c => length c = len) chs ->
  exists m, set_buffer exact fresh normalize rate rate len chs = Ok m /\ good size fresh run len u (map (map (fun x => x * exact_scale normalize rate len chs)) chs) (on_message st m) [] [].
Proof.
  intros Ch F. unfold set_buffer. cbn [v_eq exact]. unfold R_eq at 1. destruct (Req_EM_T rate rate) as [_|N]; [|contradiction]. cbn [check bind]. rewrite Ch. cbn [check bind].
  change (v_one exact) with 1. fold (exact_scale normalize rate len chs). set (k := exact_scale normalize rate len chs).
  assert (Le : forall c, In c chs -> (length (map (fun x : R => (x * k)%R) c) <= len)%nat) by (intros c C; rewrite map_length; rewrite (proj1 (Forall_forall _ _) F c C); apply le_n).
  destruct chs as [|i1 [|i2 [|i3 [|i4 [|i5 chs]]]]]; try discriminate Ch; cbn -[convolves]; (eexists; split; [reflexivity|]); unfold good; cbn [c_channels c_length c_engines on_message g_channels g_length g_engines length map c_tail]; (split; [reflexivity|]); (split; [reflexivity|]).
  - do 2 eexists. split; [reflexivity|]. split; [apply tracks_fresh; apply Le; cbn; auto|]. destruct u; [reflexivity|apply tracks_fresh; apply Le; cbn; auto|exact I].
  - do 2 eexists. split; [reflexivity|]. split; apply tracks_fresh; apply Le; cbn; auto.
  - do 4 eexists. split; [reflexivity|]. split; [|split; [|split]]; apply tracks_fresh; apply Le; cbn; auto.
Qed.

(** ** The normalization *)
Lemma fold_left_plus : forall l a, fold_left Rplus l a = a + fold_right Rplus 0 l.
Proof. induction l as [|x l IH]; intros a; cbn; [ring|]. rewrite IH. ring. Qed.
Lemma sum_concat : forall (ls : list (list R)), fold_right Rplus 0 (map (fun c => fold_right Rplus 0 (map (fun x => x * x) c)) ls) = fold_right Rplus 0 (map (fun x => x * x) (concat ls)).
Proof.
  induction ls as [|c ls IH]; cbn; [reflexivity|]. rewrite IH, map_app, fold_right_app. generalize (fold_right Rplus 0 (map (fun x => x * x) (concat ls))). intros y. induction c as [|x c IHc]; cbn; [ring|]. rewrite <- IHc. ring.
Qed.
Lemma power_is_rms chs len : v_sqrt exact (v_div exact (total exact (map (fun c => total exact (map (fun s => v_mul exact s s) c)) chs)) (v_of_Z exact (Z.of_nat (length chs * len)))) = rms chs len.
Proof.
  unfold rms. change (sqrt (total exact (map (fun c => total exact (map (fun s => s * s) c)) chs) / IZR (Z.of_nat (length chs * len))) = sqrt (fold_right Rplus 0 (map (fun x => x * x) (concat chs)) / INR (length chs * len))).
  rewrite <- INR_IZR_INZ. f_equal. f_equal. rewrite <- sum_concat. unfold total. change (v_add exact) with Rplus. change (v_zero exact) with 0. rewrite fold_left_plus, Rplus_0_l. f_equal. apply map_ext. intros c. rewrite fold_left_plus. ring.
Qed.
Lemma normalize_value rate len chs : normalize_buffer exact rate len chs =
  / Rmax (1 / 8000) (rms chs len) * (1 / 800) * (44100 / rate) * (if (length chs =? 4)%nat then 1 / 2 else 1).
Proof.
  unfold normalize_buffer. rewrite power_is_rms. cbn -[rms Nat.eqb]. unfold R_lt. destruct (Rlt_dec (rms chs len) (1 / 8000)) as [H|H]; [rewrite (Rmax_left (1 / 8000)) by lra|rewrite (Rmax_right (1 / 8000)) by lra]; destruct (length chs =? 4)%nat; unfold Rdiv; ring.
Qed.
