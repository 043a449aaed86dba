(** Ids of devices in the cubeb backend: proofs. *)
From Coq Require Import List ZArith Bool String Lia.
From Verif Require Import Common_Model Device_Model Cubeb_Model Cubeb_Spec Device_IdProofs.
Import ListNotations.
Open Scope Z_scope.

Section Ids.
Variable hash : kind -> string -> Z -> Z -> Z.

Lemma step_inr k d ds taken es : list_loop hash k (d :: ds) taken = Ok (inr es) ->
  exists name ch id es', described d = inr (name, ch) /\ unused 256 (hash k name ch) 0 taken = Ok id /\ list_loop hash k ds (id :: taken) = Ok (inr es') /\ es = mk_entry id (c_group d) k name :: es'.
Proof.
  cbn [list_loop]. destruct (described d) as [e|[name ch]]; [discriminate|]. destruct (unused 256 (hash k name ch) 0 taken) as [id| |] eqn:U; cbn [bind]; try discriminate.
  destruct (list_loop hash k ds (id :: taken)) as [[e|es']| |] eqn:L; cbn [bind]; try discriminate. intros E. injection E as <-. exists name, ch, id, es'. auto.
Qed.
Lemma described_inr d name ch : described d = inr (name, ch) -> c_name d = Some name /\ c_channels d = ch.
Proof. unfold described. destruct (c_name d); [|discriminate]. destruct ((0 <=? c_channels d) && (c_channels d <=? 65535)); [|discriminate]. intros E. injection E as <- <-. auto. Qed.
Lemma loop_fresh k : forall ds taken es, list_loop hash k ds taken = Ok (inr es) -> NoDup (map e_id es) /\ forall e, In e es -> ~ In (e_id e) taken /\ e_kind e = k /\ exists n c i, e_id e = hash k n c i.
Proof.
  induction ds as [|d ds IH]; intros taken es L; [cbn in L; injection L as <-; split; [constructor|intros e []]|].
  destruct (step_inr _ _ _ _ _ L) as (name & ch & id & es' & D & U & L' & ->). destruct (IH _ _ L') as [N F]. cbn [map e_id]. split.
  - constructor; [|exact N]. intros I. apply in_map_iff in I. destruct I as (e & E & I). apply (proj1 (F e I)). rewrite E. left. reflexivity.
  - intros e [<-|I]; cbn [e_id e_kind].
    + split; [exact (unused_fresh _ _ _ _ _ U)|split; [reflexivity|]]. clear -U. assert (G : forall m j, unused m (hash k name ch) j taken = Ok id -> exists i, id = hash k name ch i).
      { induction m as [|m IH]; intros j; cbn [unused]; [discriminate|]. destruct (existsb _ taken); [apply IH|]. intros E. injection E as <-. exists j. reflexivity. }
      destruct (G _ _ U) as [i E]. exists name, ch, i. exact E.
    + destruct (F e I) as (F1 & F2 & F3). split; [|split; [exact F2|exact F3]]. intros X. apply F1. right. exact X.
Qed.
Lemma loop_entries k : forall ds taken es, list_loop hash k ds taken = Ok (inr es) ->
  List.length es = List.length ds /\
  forall i d, nth_error ds i = Some d -> exists e, nth_error es i = Some e /\ e_kind e = k /\ e_group e = c_group d /\ c_name d = Some (e_label e) /\ find_loop hash k ds (e_id e) taken = Ok (inr (Some (c_devid d))).
Proof.
  induction ds as [|d ds IH]; intros taken es L; [cbn in L; injection L as <-; split; [reflexivity|]; intros [|i] d; discriminate|].
  destruct (step_inr _ _ _ _ _ L) as (name & ch & id & es' & D & U & L' & ->). destruct (IH _ _ L') as [N F]. split; [cbn [List.length]; rewrite N; reflexivity|].
  intros [|i] x E; cbn [nth_error] in *.
  - injection E as <-. eexists. split; [reflexivity|]. cbn [e_kind e_group e_label e_id]. split; [reflexivity|]. split; [reflexivity|]. split; [exact (proj1 (described_inr _ _ _ D))|].
    cbn [find_loop]. rewrite D, U. cbn [bind]. rewrite Z.eqb_refl. reflexivity.
  - destruct (F i x E) as (e & E1 & E2 & E3 & E4 & E5). exists e. split; [exact E1|]. split; [exact E2|]. split; [exact E3|]. split; [exact E4|].
    cbn [find_loop]. rewrite D, U. cbn [bind]. destruct (Z.eqb_spec id (e_id e)) as [X|X]; [|exact E5].
    exfalso. apply nth_error_In in E1. destruct (loop_fresh _ _ _ _ L') as [_ G]. apply (proj1 (G e E1)). left. exact X.
Qed.
Lemma loop_unknown k : forall ds taken es id, list_loop hash k ds taken = Ok (inr es) -> ~ In id (map e_id es) -> find_loop hash k ds id taken = Ok (inr None).
Proof.
  induction ds as [|d ds IH]; intros taken es id L N; [reflexivity|]. destruct (step_inr _ _ _ _ _ L) as (name & ch & this & es' & D & U & L' & ->).
  cbn [find_loop]. rewrite D, U. cbn [bind]. cbn [map e_id In] in N. destruct (Z.eqb_spec this id) as [X|X]; [exfalso; apply N; left; exact X|]. apply (IH _ es'); [exact L'|]. intros I. apply N. right. exact I.
Qed.

Lemma list_inr h l : list_devices hash h = Ok (inr l) ->
  exists ins outs es fs, c_in h = Some ins /\ c_out h = Some outs /\ list_loop hash AudioInput ins [] = Ok (inr es) /\ list_loop hash AudioOutput outs [] = Ok (inr fs) /\ l = es ++ fs.
Proof.
  unfold list_devices, list_kind. destruct (c_in h) as [ins|]; cbn [bind]; [|discriminate]. destruct (list_loop hash AudioInput ins []) as [[e|es]| |] eqn:A; cbn [bind]; try discriminate.
  destruct (c_out h) as [outs|]; cbn [bind]; [|discriminate]. destruct (list_loop hash AudioOutput outs []) as [[e|fs]| |] eqn:B; cbn [bind]; try discriminate. intros E. injection E as <-.
  exists ins, outs, es, fs. auto.
Qed.
Lemma distinct_of_kind h l k : list_devices hash h = Ok (inr l) -> NoDup (map e_id (filter (fun e => kind_eqb (e_kind e) k) l)).
Proof.
  intros L. destruct (list_inr h l L) as (ins & outs & es & fs & _ & _ & A & B & ->). destruct (loop_fresh _ _ _ _ A) as [NA FA]. destruct (loop_fresh _ _ _ _ B) as [NB FB].
  rewrite filter_app. assert (G : forall k' xs, (forall e, In e xs -> e_kind e = k') -> filter (fun e => kind_eqb (e_kind e) k) xs = if kind_eqb k' k then xs else []).
  { clear. intros k' xs F. induction xs as [|x xs IH]; [destruct (kind_eqb k' k); reflexivity|]. cbn [filter]. rewrite (F x (or_introl eq_refl)), IH by (intros e I; apply F; right; exact I). destruct (kind_eqb k' k); reflexivity. }
  rewrite (G AudioInput es) by (intros e I; apply FA; exact I). rewrite (G AudioOutput fs) by (intros e I; apply FB; exact I).
  destruct k; cbn [kind_eqb app map]; [constructor|rewrite app_nil_r; exact NA|exact NB].
Qed.
Lemma distinct h l : kinds_apart hash -> list_devices hash h = Ok (inr l) -> NoDup (map e_id l).
Proof.
  intros K L. destruct (list_inr h l L) as (ins & outs & es & fs & _ & _ & A & B & ->). destruct (loop_fresh _ _ _ _ A) as [NA FA]. destruct (loop_fresh _ _ _ _ B) as [NB FB].
  rewrite map_app. assert (G : forall x, In x (map e_id es) -> ~ In x (map e_id fs)).
  { intros x X Y. apply in_map_iff in X. apply in_map_iff in Y. destruct X as (e & E1 & E2). destruct Y as (f & F1 & F2).
    destruct (FA e E2) as (_ & _ & n & c & i & H1). destruct (FB f F2) as (_ & _ & n' & c' & i' & H2). apply (K n c i n' c' i'). congruence. }
  clear -NA NB G. induction (map e_id es) as [|x xs IH]; [exact NB|]. cbn [app]. apply NoDup_cons_iff in NA. destruct NA as [N1 N2]. constructor.
  - intros I. apply in_app_or in I. destruct I as [I|I]; [exact (N1 I)|exact (G x (or_introl eq_refl) I)].
  - apply IH; [exact N2|]. intros y Y. apply G. right. exact Y.
Qed.
Lemma entries h l : list_devices hash h = Ok (inr l) -> List.length l = List.length (cubeb_devices h) /\
  forall i k d, nth_error (cubeb_devices h) i = Some (k, d) -> exists e, nth_error l i = Some e /\ e_kind e = k /\ e_group e = c_group d /\ c_name d = Some (e_label e) /\ find_device hash h k (e_id e) = Ok (inr (Some (c_devid d))).
Proof.
  intros L. destruct (list_inr h l L) as (ins & outs & es & fs & H1 & H2 & A & B & ->). destruct (loop_entries _ _ _ _ A) as [NA FA]. destruct (loop_entries _ _ _ _ B) as [NB FB].
  unfold cubeb_devices. rewrite H1, H2. split; [rewrite !app_length, !map_length; lia|]. intros i k d E.
  destruct (Nat.lt_ge_cases i (List.length ins)) as [I|I].
  - rewrite nth_error_app1 in E by (rewrite map_length; exact I). rewrite nth_error_map in E. destruct (nth_error ins i) as [x|] eqn:X; [|discriminate]. cbn in E. injection E as <- <-.
    destruct (FA i x X) as (e & E1 & E2 & E3 & E4 & E5). exists e. split; [rewrite nth_error_app1; [exact E1|lia]|]. unfold find_device. rewrite H1. auto.
  - rewrite nth_error_app2 in E by (rewrite map_length; exact I). rewrite map_length, nth_error_map in E. destruct (nth_error outs (i - List.length ins)) as [x|] eqn:X; [|discriminate]. cbn in E. injection E as <- <-.
    destruct (FB _ x X) as (e & E1 & E2 & E3 & E4 & E5). exists e. split; [rewrite nth_error_app2 by lia; rewrite NA; exact E1|]. unfold find_device. rewrite H2. auto.
Qed.
Lemma unknown h l k id : list_devices hash h = Ok (inr l) -> (forall e, In e l -> e_kind e = k -> e_id e <> id) -> find_device hash h k id = Ok (inr None).
Proof.
  intros L N. destruct (list_inr h l L) as (ins & outs & es & fs & H1 & H2 & A & B & ->). destruct (loop_fresh _ _ _ _ A) as [_ FA]. destruct (loop_fresh _ _ _ _ B) as [_ FB]. unfold find_device. destruct k.
  - reflexivity.
  - rewrite H1. apply (loop_unknown _ _ _ es); [exact A|]. intros X. apply in_map_iff in X. destruct X as (e & E & I). exact (N e (in_or_app _ _ _ (or_introl I)) (proj1 (proj2 (FA e I))) E).
  - rewrite H2. apply (loop_unknown _ _ _ fs); [exact B|]. intros X. apply in_map_iff in X. destruct X as (e & E & I). exact (N e (in_or_app _ _ _ (or_intror I)) (proj1 (proj2 (FB e I))) E).
Qed.

Lemma unused_full f taken : forall m j, (forall r, unused m f j taken <> Ok r) -> forall i, j <= i < j + Z.of_nat m -> In (f i) taken.
Proof.
  induction m as [|m IH]; intros j U i I; [lia|]. cbn [unused] in U. destruct (existsb (Z.eqb (f j)) taken) eqn:E; [|exfalso; exact (U _ eq_refl)].
  destruct (Z.eq_dec i j) as [->|N]; [apply existsb_In; exact E|]. apply (IH (j + 1) U). lia.
Qed.
Lemma unused_ok k n c taken : indices_apart hash -> (List.length taken < 256)%nat -> exists id, unused 256 (hash k n c) 0 taken = Ok id.
Proof.
  intros A L. destruct (unused 256 (hash k n c) 0 taken) as [id| |] eqn:U; [exists id; reflexivity| |]; exfalso.
  all: assert (F : forall i, 0 <= i < 0 + Z.of_nat 256 -> In (hash k n c i) taken) by (apply (unused_full (hash k n c) taken 256 0); intros r; rewrite U; discriminate).
  all: assert (D : NoDup (map (fun i => hash k n c (Z.of_nat i)) (seq 0 256))).
  1,3: apply (NoDup_nth _ 0); intros i j I J; rewrite map_length, seq_length in I, J;
    rewrite (nth_indep _ 0 (hash k n c (Z.of_nat 0))) by (rewrite map_length, seq_length; exact I); rewrite (nth_indep (map _ _) 0 (hash k n c (Z.of_nat 0)) (n := j)) by (rewrite map_length, seq_length; exact J);
    rewrite !(map_nth (fun i => hash k n c (Z.of_nat i))), !seq_nth by assumption; intros X; apply A in X; lia.
  all: assert (N : (List.length (map (fun i => hash k n c (Z.of_nat i)) (seq 0 256)) <= List.length taken)%nat)
    by (apply NoDup_incl_length; [exact D|]; intros x X; apply in_map_iff in X; destruct X as (i & <- & I); apply in_seq in I; apply F; lia).
  all: rewrite map_length, seq_length in N; lia.
Qed.
Lemma loop_total k : indices_apart hash -> forall ds taken, (List.length taken + List.length ds <= 256)%nat -> exists r, list_loop hash k ds taken = Ok r /\
  ((forall d, In d ds -> c_name d <> None /\ 0 <= c_channels d <= 65535) -> exists es, r = inr es).
Proof.
  intros A. induction ds as [|d ds IH]; intros taken L; [eexists; split; [reflexivity|intros _; eexists; reflexivity]|]. cbn [List.length] in L. cbn [list_loop]. destruct (described d) as [e|[name ch]] eqn:D.
  - eexists. split; [reflexivity|]. intros F. exfalso. destruct (F d (or_introl eq_refl)) as [F1 F2]. unfold described in D. destruct (c_name d); [|exact (F1 eq_refl)].
    destruct (Z.leb_spec 0 (c_channels d)); [|lia]. destruct (Z.leb_spec (c_channels d) 65535); [|lia]. discriminate D.
  - destruct (unused_ok k name ch taken A ltac:(lia)) as [id U]. rewrite U. cbn [bind]. destruct (IH (id :: taken) ltac:(cbn [List.length]; lia)) as (r & R & G). rewrite R. cbn [bind]. eexists. split; [reflexivity|].
    intros F. destruct (G (fun x I => F x (or_intror I))) as [es ->]. eexists. reflexivity.
Qed.
Lemma total h : indices_apart hash -> few_devices h -> exists r, list_devices hash h = Ok r /\ (all_described h -> exists l, r = inr l).
Proof.
  intros A [F G]. unfold list_devices, list_kind. destruct (c_in h) as [ins|] eqn:I; cbn [bind]; [|eexists; split; [reflexivity|intros (X & _); exfalso; apply X, I]].
  destruct (loop_total AudioInput A ins [] (F ins eq_refl)) as (r & R & RF). rewrite R. cbn [bind]. destruct r as [e|es].
  - eexists. split; [reflexivity|]. intros (_ & _ & X). exfalso. destruct RF as [es E]; [|discriminate E]. intros d D. apply (X AudioInput). unfold cubeb_devices. rewrite I. apply in_or_app. left. apply in_map. exact D.
  - destruct (c_out h) as [outs|] eqn:O; cbn [bind]; [|eexists; split; [reflexivity|intros (_ & X & _); exfalso; apply X, O]].
    destruct (loop_total AudioOutput A outs [] (G outs eq_refl)) as (r & R' & RF'). rewrite R'. cbn [bind]. eexists. split; [reflexivity|]. intros (_ & _ & X). destruct RF' as [fs ->]; [|eexists; reflexivity].
    intros d D. apply (X AudioOutput). unfold cubeb_devices. rewrite O. apply in_or_app. right. apply in_map. exact D.
Qed.
End Ids.
