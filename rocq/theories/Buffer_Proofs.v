(** Copy-on-write buffers behave like values. *)
From Coq Require Import List Arith Bool ZArith Lia.
From Verif Require Import Float_Model Buffer_Model Buffer_Spec.
Import ListNotations.

(** ** Lists *)
Section Lists.
Context {A : Type}.
Lemma update_split : forall (l1 : list A) x l2 f, update (length l1) f (l1 ++ x :: l2) = l1 ++ f x :: l2.
Proof. induction l1 as [|y l1 IH]; intros; cbn; [reflexivity|rewrite IH; reflexivity]. Qed.
Lemma replace_split : forall (l1 : list A) x y l2, replace (length l1) y (l1 ++ x :: l2) = l1 ++ y :: l2.
Proof.
  intros. unfold replace. rewrite firstn_app, firstn_all, Nat.sub_diag. cbn [firstn]. rewrite app_nil_r.
  rewrite skipn_app, skipn_all2 by lia. replace (S (length l1) - length l1) with 1 by lia. reflexivity.
Qed.
Lemma update_replace : forall (l : list A) i y, i < length l -> update i (fun _ => y) l = replace i y l.
Proof.
  intros l i y H. destruct (nth_error l i) as [x|] eqn:E; [|apply nth_error_None in E; lia].
  apply nth_error_split in E. destruct E as (l1 & l2 & -> & <-). rewrite update_split, replace_split. reflexivity.
Qed.
Lemma replace_twice : forall (l : list A) i x y, i < length l -> replace i x (replace i y l) = replace i x l.
Proof.
  intros l i x y H. destruct (nth_error l i) as [z|] eqn:E; [|apply nth_error_None in E; lia].
  apply nth_error_split in E. destruct E as (l1 & l2 & -> & <-). rewrite !replace_split. reflexivity.
Qed.
Lemma replace_nth : forall (l : list A) i x, i < length l -> nth_error (replace i x l) i = Some x.
Proof.
  intros l i x H. destruct (nth_error l i) as [z|] eqn:E; [|apply nth_error_None in E; lia].
  apply nth_error_split in E. destruct E as (l1 & l2 & -> & <-). rewrite replace_split, nth_error_app2, Nat.sub_diag by lia. reflexivity.
Qed.
Lemma replace_other : forall (l : list A) i j x, i < length l -> i <> j -> nth_error (replace i x l) j = nth_error l j.
Proof.
  intros l i j x H N. destruct (nth_error l i) as [z|] eqn:E; [|apply nth_error_None in E; lia].
  apply nth_error_split in E. destruct E as (l1 & l2 & -> & <-). rewrite replace_split.
  destruct (Nat.lt_ge_cases j (length l1)); [rewrite !nth_error_app1 by lia; reflexivity|].
  rewrite !nth_error_app2 by lia. destruct (j - length l1) eqn:D; [lia|reflexivity].
Qed.
Lemma replace_length : forall (l : list A) i x, i < length l -> length (replace i x l) = length l.
Proof.
  intros l i x H. destruct (nth_error l i) as [z|] eqn:E; [|apply nth_error_None in E; lia].
  apply nth_error_split in E. destruct E as (l1 & l2 & -> & <-). rewrite replace_split, !app_length. reflexivity.
Qed.
Lemma replace_same : forall (l : list A) i x, nth_error l i = Some x -> replace i x l = l.
Proof. intros l i x E. apply nth_error_split in E. destruct E as (l1 & l2 & -> & <-). apply replace_split. Qed.
End Lists.

Lemma list_ext : forall (A : Type) (d : A) (l l' : list A), length l = length l' -> (forall j, j < length l -> nth j l d = nth j l' d) -> l = l'.
Proof. intros A d l l' H1 H2. apply (nth_ext l l' d d); assumption. Qed.
Lemma nth_map_seq : forall (A : Type) (f : nat -> A) n j d, j < n -> nth j (map f (seq 0 n)) d = f j.
Proof. intros. rewrite (nth_indep _ d (f 0)) by (rewrite map_length, seq_length; lia). rewrite map_nth, seq_nth by lia. reflexivity. Qed.

Lemma map_repeat : forall (A B : Type) (f : A -> B) x n, map f (repeat x n) = repeat (f x) n.
Proof. induction n; cbn; congruence. Qed.
Lemma nth_firstn : forall (A : Type) (l : list A) n j d, j < n -> nth j (firstn n l) d = nth j l d.
Proof. induction l as [|x l IH]; intros [|n] [|j] d H; cbn; try lia; try reflexivity. apply IH. lia. Qed.
Lemma nth_skipn : forall (A : Type) (l : list A) n j d, nth j (skipn n l) d = nth (n + j) l d.
Proof. induction l as [|x l IH]; intros [|n] j d; cbn; try reflexivity; [destruct j; reflexivity|apply IH]. Qed.

(** ** The copies *)
Lemma copy_to_ok : forall data source offset, copy_to (length data) source offset data = Ok (overwritten data source offset).
Proof.
  intros data source offset. unfold copy_to. cbv zeta. set (L := length data). set (o := Nat.min offset L). set (m := Nat.min (L - o) (length source)).
  unfold slice. rewrite (proj2 (Nat.leb_le 0 m)), (proj2 (Nat.leb_le m (length source))) by lia. cbn [andb bind]. rewrite Nat.sub_0_r. cbn [skipn].
  unfold copy_to_slice. assert (Lf : length (firstn m source) = m) by (apply firstn_length_le; lia).
  rewrite (proj2 (Nat.leb_le o (m + o))), (proj2 (Nat.leb_le (m + o) (length data))), (proj2 (Nat.eqb_eq _ (m + o - o))) by (unfold m, o, L in *; lia).
  cbn [andb]. f_equal. assert (Lo : length (firstn o data) = o) by (apply firstn_length_le; unfold o, L; lia).
  apply (list_ext _ f32_zero).
  - rewrite !app_length, skipn_length, Lf, Lo. unfold overwritten. rewrite map_length, seq_length. unfold m, o, L in *. lia.
  - intros j Hj. rewrite !app_length, skipn_length, Lf, Lo in Hj. unfold overwritten. rewrite nth_map_seq by (unfold m, o, L in *; lia).
    destruct (Nat.lt_ge_cases j o).
    + rewrite app_nth1 by lia. rewrite nth_firstn by lia. rewrite (proj2 (Nat.leb_gt offset j)) by (unfold o in *; lia). reflexivity.
    + rewrite app_nth2 by lia. rewrite Lo. destruct (Nat.lt_ge_cases j (o + m)).
      * rewrite app_nth1 by lia. rewrite nth_firstn by lia. assert (offset = o) by (unfold m, o, L in *; lia).
        rewrite (proj2 (Nat.leb_le offset j)), (proj2 (Nat.ltb_lt j _)) by lia. cbn [andb]. f_equal. lia.
      * rewrite app_nth2 by lia. rewrite Lf, nth_skipn. replace (m + o + (j - o - m)) with j by lia.
        destruct (offset <=? j) eqn:E1; [|reflexivity]. destruct (j <? offset + length source) eqn:E2; [|reflexivity].
        apply Nat.leb_le in E1. apply Nat.ltb_lt in E2. unfold m, o, L in *. lia.
Qed.

Lemma copy_from_ok : forall c destination k offset data, nth_error (c_channels c) k = Some data -> length data = c_length c ->
  copy_from c destination k offset = Ok (read_into destination data offset).
Proof.
  intros c destination k offset data Hk Hl. unfold copy_from. cbv zeta. rewrite <- Hl. set (L := length data). set (o := Nat.min offset L). set (m := Nat.min (L - o) (length destination)).
  assert (k < length (c_channels c)) by (apply nth_error_Some; congruence). rewrite (proj2 (Nat.ltb_lt _ _)) by assumption. cbn [check bind].
  unfold index. rewrite Hk. cbn [from_option bind].
  unfold slice. rewrite (proj2 (Nat.leb_le o (m + o))), (proj2 (Nat.leb_le (m + o) (length data))) by (unfold m, o, L in *; lia). cbn [andb bind].
  replace (m + o - o) with m by lia.
  assert (Lf : length (firstn m (skipn o data)) = m) by (apply firstn_length_le; rewrite skipn_length; unfold m, o, L in *; lia).
  unfold copy_to_slice. rewrite (proj2 (Nat.leb_le 0 m)), (proj2 (Nat.leb_le m (length destination))), (proj2 (Nat.eqb_eq _ (m - 0))) by (unfold m, o, L in *; lia).
  cbn [andb firstn app]. f_equal. apply (list_ext _ f32_zero).
  - rewrite !app_length, skipn_length, Lf. unfold read_into. rewrite map_length, seq_length. unfold m. lia.
  - intros j Hj. rewrite !app_length, skipn_length, Lf in Hj. unfold read_into. rewrite nth_map_seq by (unfold m in *; lia).
    destruct (Nat.lt_ge_cases j m).
    + rewrite app_nth1 by lia. rewrite nth_firstn by lia. rewrite nth_skipn. assert (offset = o) by (unfold m, o, L in *; lia).
      rewrite (proj2 (Nat.ltb_lt _ _)) by (unfold m, o, L in *; lia). f_equal. lia.
    + rewrite app_nth2 by lia. rewrite Lf, nth_skipn. replace (m + (j - m)) with j by lia.
      rewrite (proj2 (Nat.ltb_ge _ _)) by (unfold m, o, L in *; lia). reflexivity.
Qed.

(** ** The heap *)
Definition content_ok (c : content) : Prop := c_channels c <> [] /\ Forall (fun d => length d = c_length c) (c_channels c).
Definition addrs_ok (w : world) : Prop := Forall (fun a => a < length (cells w)) (addresses w).
Definition values_ok (vs : values) : Prop := Forall (fun v => match v with Some c => content_ok c | None => True end) vs.

Lemma addresses_split : forall w h1 b h2, handles w = h1 ++ Some b :: h2 ->
  addresses w = flat_map (fun h => match h with Some b => b_channels b | None => [] end) h1 ++ b_channels b ++
                flat_map (fun h => match h with Some b => b_channels b | None => [] end) h2.
Proof. intros w h1 b h2 E. unfold addresses. rewrite E, flat_map_app. reflexivity. Qed.

Lemma in_addresses : forall w b a, In (Some b) (handles w) -> In a (b_channels b) -> In a (addresses w).
Proof. intros w b a H1 H2. unfold addresses. apply in_flat_map. exists (Some b). split; assumption. Qed.

Lemma contents_ext : forall w1 w2 b, (forall a, In a (b_channels b) -> cell w1 a = cell w2 a) -> contents w1 b = contents w2 b.
Proof. intros w1 w2 b H. unfold contents. f_equal. apply map_ext_in. exact H. Qed.

Lemma handle_spec : forall w i, handle w i = match nth_error (handles w) i with Some (Some b) => Ok b | _ => Panic end.
Proof. reflexivity. Qed.
Lemma value_all : forall w i, value (all_contents w) i = match nth_error (handles w) i with Some (Some b) => Some (contents w b) | _ => None end.
Proof. intros. unfold value, all_contents. rewrite nth_error_map. destruct (nth_error (handles w) i) as [[b|]|]; reflexivity. Qed.

Lemma cell_app : forall w x a, a < length (cells w) -> nth a (cells w ++ x) [] = cell w a.
Proof. intros. unfold cell. apply app_nth1. assumption. Qed.

Lemma make_mut_ok : forall w i k f b a data', addrs_ok w -> nth_error (handles w) i = Some (Some b) -> nth_error (b_channels b) k = Some a ->
  f (cell w a) = Ok data' ->
  exists w' b', make_mut w i k f = Ok w' /\ addrs_ok w' /\ nth_error (handles w') i = Some (Some b') /\ b_rate b' = b_rate b /\
    contents w' b' = with_channel (contents w b) k data' /\
    all_contents w' = replace i (Some (with_channel (contents w b) k data')) (all_contents w) /\ length (handles w') = length (handles w).
Proof.
  intros w i k f b a data' Ok1 Hi Hk Hf. unfold make_mut. rewrite handle_spec, Hi. cbn [bind]. unfold index. rewrite Hk. cbn [from_option bind].
  pose proof Hi as Hi'. apply nth_error_split in Hi. destruct Hi as (h1 & h2 & Eh & Li). pose proof (addresses_split w h1 b h2 Eh) as Ea.
  pose proof Hk as Hk'. apply nth_error_split in Hk. destruct Hk as (c1 & c2 & Ec & Lk). rewrite Ec in Ea.
  assert (Ba : a < length (cells w)). { unfold addrs_ok in Ok1. rewrite Forall_forall in Ok1. apply Ok1. rewrite Ea. apply in_or_app. right. apply in_or_app. left. apply in_or_app. right. left. reflexivity. }
  assert (Hc : nth_error (cells w) a = Some (cell w a)) by (apply nth_error_nth'; exact Ba). rewrite Hc. cbn [from_option bind]. rewrite Hf. cbn [bind].
  assert (Ew : with_channel (contents w b) k data' = mk_content (map (cell w) c1 ++ data' :: map (cell w) c2) (b_rate b)).
  { unfold with_channel, contents. cbn [c_channels c_rate]. rewrite Ec, map_app. cbn [map]. rewrite <- Lk, <- (map_length (cell w) c1), replace_split. reflexivity. }
  destruct (strong_count w a =? 1) eqn:Es.
  - apply Nat.eqb_eq in Es. unfold strong_count in Es. rewrite Ea, !count_occ_app in Es. cbn [count_occ] in Es. destruct (Nat.eq_dec a a) as [_|n]; [|congruence].
    set (w' := mk_world (update a (fun _ => data') (cells w)) (handles w)).
    assert (Cw : forall x, x <> a -> cell w' x = cell w x).
    { intros x N. unfold cell, w'. cbn [cells]. rewrite update_replace by exact Ba.
      destruct (Nat.lt_ge_cases x (length (cells w))) as [B|B].
      - assert (E : nth_error (replace a data' (cells w)) x = nth_error (cells w) x) by (apply replace_other; [exact Ba|congruence]).
        pose proof (nth_error_nth' (cells w) [] B) as E1. rewrite E1 in E. apply nth_error_nth. exact E.
      - rewrite !nth_overflow; [reflexivity|lia|rewrite replace_length; lia]. }
    assert (Ca : cell w' a = data').
    { unfold cell, w'. cbn [cells]. rewrite update_replace by exact Ba. apply nth_error_nth. apply replace_nth. exact Ba. }
    assert (Eb : contents w' b = with_channel (contents w b) k data').
    { rewrite Ew. unfold contents. rewrite Ec, map_app. cbn [map]. rewrite Ca. f_equal. f_equal; [|f_equal]; apply map_ext_in; intros x Hx; apply Cw; intros ->.
      - apply (count_occ_In Nat.eq_dec) in Hx. lia.
      - apply (count_occ_In Nat.eq_dec) in Hx. lia. }
    exists w', b. split; [reflexivity|]. split; [|split; [exact Hi'|split; [reflexivity|split; [exact Eb|split; [|reflexivity]]]]].
    + unfold addrs_ok. change (addresses w') with (addresses w). change (cells w') with (update a (fun _ => data') (cells w)). rewrite update_replace, replace_length by exact Ba. exact Ok1.
    + unfold all_contents. cbn [handles w']. rewrite Eh, !map_app. cbn [map option_map]. rewrite <- Li, <- (map_length (option_map (contents w)) h1), replace_split.
      f_equal; [|f_equal; [f_equal; exact Eb|]]; apply map_ext_in; intros [b0|] H0; try reflexivity; cbn [option_map]; f_equal; apply contents_ext; intros x Hx; apply Cw; intros ->.
      * assert (Q : In a (flat_map (fun h => match h with Some b => b_channels b | None => [] end) h1)) by (apply in_flat_map; exists (Some b0); split; assumption).
        apply (count_occ_In Nat.eq_dec) in Q. lia.
      * assert (Q : In a (flat_map (fun h => match h with Some b => b_channels b | None => [] end) h2)) by (apply in_flat_map; exists (Some b0); split; assumption).
        apply (count_occ_In Nat.eq_dec) in Q. lia.
  - set (b' := mk_buffer (update k (fun _ => length (cells w)) (b_channels b)) (b_rate b)).
    set (w' := set_handle (mk_world (cells w ++ [data']) (handles w)) i (Some b')). cbn [alloc]. fold b' w'.
    assert (Eh' : handles w' = h1 ++ Some b' :: h2) by (unfold w', set_handle; cbn [handles]; rewrite Eh, <- Li, update_split; reflexivity).
    assert (Ec' : b_channels b' = c1 ++ length (cells w) :: c2) by (unfold b'; cbn [b_channels]; rewrite Ec, <- Lk, update_split; reflexivity).
    assert (Cw : forall x, x < length (cells w) -> cell w' x = cell w x) by (intros; unfold w', set_handle, cell; cbn [cells]; apply app_nth1; assumption).
    assert (Ca : cell w' (length (cells w)) = data') by (unfold w', set_handle, cell; cbn [cells]; rewrite app_nth2, Nat.sub_diag by lia; reflexivity).
    assert (Bd : forall b0 x, In (Some b0) (handles w) -> In x (b_channels b0) -> x < length (cells w)).
    { intros b0 x H0 Hx. unfold addrs_ok in Ok1. rewrite Forall_forall in Ok1. apply Ok1. eapply in_addresses; eassumption. }
    assert (Inb : In (Some b) (handles w)) by (rewrite Eh; apply in_or_app; right; left; reflexivity).
    assert (Eb : contents w' b' = with_channel (contents w b) k data').
    { rewrite Ew. unfold contents. rewrite Ec', map_app. cbn [map b_rate b']. rewrite Ca. f_equal.
      f_equal; [|f_equal]; apply map_ext_in; intros x Hx; apply Cw; apply (Bd b x Inb); rewrite Ec; apply in_or_app; [left|right; right]; exact Hx. }
    exists w', b'. split; [reflexivity|]. split; [|split; [|split; [reflexivity|split; [exact Eb|split]]]].
    + unfold addrs_ok. rewrite (addresses_split w' h1 b' h2 Eh'), Ec'. unfold addrs_ok in Ok1. rewrite Ea in Ok1.
      assert (Lc : length (cells w') = S (length (cells w))) by (unfold w', set_handle; cbn [cells]; rewrite app_length; cbn; lia). rewrite Lc.
      rewrite !Forall_app in *. destruct Ok1 as (O1 & (O2 & O3) & O4). apply Forall_cons_iff in O3. destruct O3 as [O3 O5]. repeat split; try (eapply Forall_impl; [|eassumption]; cbn; intros ? HH; lia).
      constructor; [lia|]. eapply Forall_impl; [|eassumption]. cbn. intros. lia.
    + rewrite Eh'. rewrite nth_error_app2, <- Li, Nat.sub_diag by lia. reflexivity.
    + unfold all_contents. rewrite Eh', Eh, !map_app. cbn [map option_map]. rewrite <- Li, <- (map_length (option_map (contents w)) h1), replace_split.
      f_equal; [|f_equal; [f_equal; exact Eb|]]; apply map_ext_in; intros [b0|] H0; try reflexivity; cbn [option_map]; f_equal; apply contents_ext; intros x Hx; apply Cw; apply (Bd b0 x); try exact Hx; rewrite Eh; apply in_or_app; [left|right; right]; exact H0.
    + rewrite Eh', Eh, !app_length. reflexivity.
Qed.

Lemma make_mut_fails : forall w i k f b a, addrs_ok w -> nth_error (handles w) i = Some (Some b) -> nth_error (b_channels b) k = Some a ->
  f (cell w a) = Panic -> make_mut w i k f = Panic.
Proof.
  intros w i k f b a Ok1 Hi Hk Hf. unfold make_mut. rewrite handle_spec, Hi. cbn [bind]. unfold index. rewrite Hk. cbn [from_option bind].
  assert (Ba : a < length (cells w)). { unfold addrs_ok in Ok1. rewrite Forall_forall in Ok1. apply Ok1. eapply in_addresses; [eapply nth_error_In, Hi|eapply nth_error_In, Hk]. }
  rewrite (nth_error_nth' (cells w) [] Ba). cbn [from_option bind]. fold (cell w a). rewrite Hf. reflexivity.
Qed.

Lemma mutate_all_ok : forall fs w i b pre ds ds', addrs_ok w -> nth_error (handles w) i = Some (Some b) ->
  c_channels (contents w b) = pre ++ ds -> length ds = length fs -> length ds' = length fs ->
  Forall2 (fun f p => f (fst p) = Ok (snd p)) fs (combine ds ds') ->
  exists w' b', mutate_all w i (length pre) fs = Ok w' /\ addrs_ok w' /\ nth_error (handles w') i = Some (Some b') /\
    all_contents w' = replace i (Some (mk_content (pre ++ ds') (b_rate b))) (all_contents w) /\ length (handles w') = length (handles w).
Proof.
  induction fs as [|f fs IH]; intros w i b pre ds ds' Ok1 Hi Hc L1 L2 F; destruct ds as [|d ds], ds' as [|d' ds']; try discriminate.
  - exists w, b. cbn. rewrite app_nil_r in *. split; [reflexivity|]. split; [exact Ok1|]. split; [exact Hi|]. split; [|reflexivity]. symmetry. apply replace_same.
    unfold all_contents. rewrite nth_error_map, Hi. cbn. f_equal. f_equal. rewrite <- Hc. reflexivity.
  - cbn [combine] in F. inversion F as [|? ? ? ? F1 F2]; subst. cbn [fst snd] in F1.
    unfold contents in Hc. cbn [c_channels] in Hc.
    assert (Hk : exists a, nth_error (b_channels b) (length pre) = Some a /\ cell w a = d).
    { assert (E : nth_error (map (cell w) (b_channels b)) (length pre) = Some d) by (rewrite Hc, nth_error_app2, Nat.sub_diag by lia; reflexivity).
      rewrite nth_error_map in E. destruct (nth_error (b_channels b) (length pre)) as [a|]; [|discriminate]. exists a. split; [reflexivity|]. inversion E. reflexivity. }
    destruct Hk as (a & Hk & Hd). rewrite <- Hd in F1.
    destruct (make_mut_ok w i (length pre) f b a d' Ok1 Hi Hk F1) as (w1 & b1 & E1 & O1 & H1 & R1 & C1 & A1 & L3).
    cbn [mutate_all]. rewrite E1. cbn [bind].
    assert (C1' : c_channels (contents w1 b1) = (pre ++ [d']) ++ ds).
    { rewrite C1. unfold with_channel, contents. cbn [c_channels]. rewrite Hc, replace_split, <- app_assoc. reflexivity. }
    destruct (IH w1 i b1 (pre ++ [d']) ds ds' O1 H1 C1') as (w' & b' & E2 & O2 & H2 & A2 & L4); [cbn in L1; lia|cbn in L2; lia|exact F2|].
    exists w', b'. rewrite app_length, Nat.add_1_r in E2. split; [exact E2|]. split; [exact O2|]. split; [exact H2|]. split; [|congruence].
    rewrite A2, A1, R1, <- app_assoc. apply replace_twice. unfold all_contents. rewrite map_length. apply nth_error_Some. congruence.
Qed.

Lemma alloc_all_ok : forall l w w' addrs, alloc_all w l = (w', addrs) ->
  cells w' = cells w ++ l /\ handles w' = handles w /\ addrs = seq (length (cells w)) (length l).
Proof.
  induction l as [|d l IH]; intros w w' addrs H; cbn [alloc_all alloc] in H.
  - inversion H; subst. rewrite app_nil_r. repeat split.
  - destruct (alloc_all (mk_world (cells w ++ [d]) (handles w)) l) as [w2 ad] eqn:E. inversion H; subst. destruct (IH _ _ _ E) as (E1 & E2 & E3). cbn [cells handles] in *.
    rewrite E1, E2, E3, <- app_assoc, app_length. cbn. rewrite Nat.add_1_r. repeat split.
Qed.

Lemma grow : forall w x h, addrs_ok w -> addrs_ok (mk_world (cells w ++ x) h) -> forall b, In (Some b) (handles w) -> contents (mk_world (cells w ++ x) h) b = contents w b.
Proof.
  intros w x h Ok1 _ b Hb. apply contents_ext. intros a Ha. apply cell_app. unfold addrs_ok in Ok1. rewrite Forall_forall in Ok1. apply Ok1. eapply in_addresses; eassumption.
Qed.
Lemma all_contents_grow : forall w x, addrs_ok w -> map (option_map (contents (mk_world (cells w ++ x) (handles w)))) (handles w) = all_contents w.
Proof.
  intros w x Ok1. unfold all_contents. apply map_ext_in. intros [b|] Hb; [|reflexivity]. cbn. f_equal. apply contents_ext. intros a Ha. apply cell_app.
  unfold addrs_ok in Ok1. rewrite Forall_forall in Ok1. apply Ok1. eapply in_addresses; eassumption.
Qed.
Lemma fresh_contents : forall w x h r, contents (mk_world (cells w ++ x) h) (mk_buffer (seq (length (cells w)) (length x)) r) = mk_content x r.
Proof.
  intros. unfold contents. cbn [b_channels b_rate]. f_equal. apply (list_ext _ []); [rewrite map_length, seq_length; reflexivity|].
  intros j Hj. rewrite map_length, seq_length in Hj. rewrite (nth_indep _ [] (cell (mk_world (cells w ++ x) h) 0)) by (rewrite map_length, seq_length; exact Hj).
  rewrite map_nth, seq_nth by exact Hj. unfold cell. cbn [cells]. rewrite app_nth2 by lia. f_equal. lia.
Qed.

Lemma addrs_add : forall w x b, addrs_ok w -> Forall (fun a => a < length (cells w) + length x) (b_channels b) ->
  addrs_ok (add_handle (mk_world (cells w ++ x) (handles w)) b).
Proof.
  intros w x b Ok1 H. unfold addrs_ok, addresses, add_handle in *. cbn [cells handles]. rewrite flat_map_app, app_length. cbn [flat_map]. rewrite app_nil_r.
  apply Forall_app. split; [|exact H]. eapply Forall_impl; [|exact Ok1]. cbn. intros. lia.
Qed.
Lemma contents_add : forall w x b, addrs_ok w -> all_contents (add_handle (mk_world (cells w ++ x) (handles w)) b) = all_contents w ++ [Some (contents (mk_world (cells w ++ x) (handles w)) b)].
Proof.
  intros w x b Ok1. unfold all_contents at 1, add_handle. cbn [handles]. rewrite map_app. cbn [map option_map]. f_equal. rewrite <- (all_contents_grow w x Ok1).
  apply map_ext. intros [b0|]; reflexivity.
Qed.

(** setting a handle, with new cells *)
Lemma addrs_set : forall w x i b, addrs_ok w -> (forall b', b = Some b' -> Forall (fun a => a < length (cells w) + length x) (b_channels b')) ->
  i < length (handles w) -> addrs_ok (set_handle (mk_world (cells w ++ x) (handles w)) i b).
Proof.
  intros w x i b Ok1 H Hi. destruct (nth_error (handles w) i) as [h|] eqn:E; [|apply nth_error_None in E; lia].
  apply nth_error_split in E. destruct E as (h1 & h2 & Eh & Li). unfold addrs_ok, addresses, set_handle in *. cbn [cells handles] in *. rewrite Eh in *.
  rewrite <- Li, update_split. rewrite !flat_map_app in *. cbn [flat_map] in *. rewrite !Forall_app in *. rewrite app_length. destruct Ok1 as (O1 & O2 & O3).
  repeat split; try (eapply Forall_impl; [|eassumption]; cbn; intros; lia). destruct b as [b'|]; [apply H; reflexivity|apply Forall_nil].
Qed.
Lemma contents_set : forall w x i b, addrs_ok w -> i < length (handles w) ->
  all_contents (set_handle (mk_world (cells w ++ x) (handles w)) i b) = replace i (option_map (contents (mk_world (cells w ++ x) (handles w))) b) (all_contents w).
Proof.
  intros w x i b Ok1 Hi. rewrite <- (all_contents_grow w x Ok1). unfold all_contents, set_handle. cbn [handles].
  destruct (nth_error (handles w) i) as [h|] eqn:E; [|apply nth_error_None in E; lia].
  apply nth_error_split in E. destruct E as (h1 & h2 & Eh & Li). rewrite Eh, <- Li, update_split, !map_app. cbn [map].
  rewrite <- (map_length (option_map (contents (mk_world (cells w ++ x) (h1 ++ h :: h2)))) h1), replace_split.
  destruct b; reflexivity.
Qed.

(** ** Splitting *)
Lemma split_all : forall (ds : list (list f32)) k, Forall (fun d => k <= length d) ds ->
  map_res (split_rest k) ds = Ok (map (skipn k) ds) /\ map_res (split_channel k) ds = Ok (map (firstn k) ds) /\
  Forall2 (fun f p => f (fst p) = Ok (snd p)) (repeat (split_channel k) (length ds)) (combine ds (map (firstn k) ds)).
Proof.
  induction ds as [|d ds IH]; intros k H; [split; [reflexivity|split; [reflexivity|constructor]]|].
  inversion H as [|? ? H1 H2]; subst. destruct (IH k H2) as (E1 & E2 & E3). cbn [map_res map repeat length combine].
  assert (S1 : split_rest k d = Ok (skipn k d)) by (unfold split_rest, split_at; rewrite (proj2 (Nat.leb_le _ _) H1); reflexivity).
  assert (S2 : split_channel k d = Ok (firstn k d)) by (unfold split_channel, split_at; rewrite (proj2 (Nat.leb_le _ _) H1); reflexivity).
  rewrite S1, S2, E1, E2. split; [reflexivity|]. split; [reflexivity|]. constructor; [exact S2|exact E3].
Qed.

Lemma extend_all : forall others ds, length ds = length others ->
  Forall2 (fun (f : list f32 -> res (list f32)) p => f (fst p) = Ok (snd p)) (map (fun other old => Ok (old ++ other)) others)
    (combine ds (map (fun p : list f32 * list f32 => fst p ++ snd p) (combine ds others))).
Proof. induction others as [|o others IH]; intros [|d ds] L; try discriminate; cbn; constructor; [reflexivity|apply IH; cbn in L; lia]. Qed.

(** ** Contents stay rectangular *)
Lemma content_ok_intro : forall c n, c_channels c <> [] -> Forall (fun d => length d = n) (c_channels c) -> content_ok c.
Proof.
  intros c n H F. split; [exact H|]. unfold c_length. destruct (c_channels c) as [|d ds]; [congruence|]. inversion F; subst. exact F.
Qed.

Lemma map_res_forall : forall (A B : Type) (f : A -> res B) (Q : B -> Prop) l l', map_res f l = Ok l' -> (forall x y, f x = Ok y -> Q y) -> Forall Q l' /\ length l' = length l.
Proof.
  induction l as [|x l IH]; intros l' H HQ; cbn in H; [inversion H; subst; split; [constructor|reflexivity]|].
  destruct (f x) as [y| |] eqn:E; try discriminate. cbn in H. destruct (map_res f l) as [ys| |] eqn:E2; try discriminate. inversion H; subst.
  destruct (IH ys eq_refl HQ). split; [constructor; [eapply HQ; exact E|assumption]|cbn; lia].
Qed.

Lemma resample_content_ok : forall c sr c', content_ok c -> resample c sr = Ok c' ->
  content_ok c' /\ c_rate c' = sr /\ length (c_channels c') = length (c_channels c).
Proof.
  intros c sr c' [Ne Hc] H. unfold resample in H. destruct (check _); try discriminate. cbn [bind] in H.
  destruct (nearly_equal _ _); [inversion H; subst; repeat split; try assumption|]. destruct (c_length c =? 0); [inversion H; subst; repeat split; try assumption|].
  destruct (map_res _ _) as [chs| |] eqn:E; try discriminate. inversion H; subst. cbn [c_channels c_rate].
  destruct (map_res_forall _ _ _ (fun d => length d = Z.to_nat (resampled_length (c_length c) (c_rate c) sr)) _ _ E) as [F L].
  { intros x y Hx. unfold resample_channel in Hx. apply (map_res_forall _ _ _ (fun _ => True)) in Hx; [|intros; exact I]. destruct Hx as [_ Hx]. rewrite seq_length in Hx. exact Hx. }
  split; [|split; [reflexivity|exact L]]. eapply content_ok_intro; [|exact F]. cbn. intros ->. apply Ne. destruct (c_channels c); [reflexivity|discriminate].
Qed.

Lemma overwritten_length : forall d s o, length (overwritten d s o) = length d.
Proof. intros. unfold overwritten. rewrite map_length, seq_length. reflexivity. Qed.

Lemma with_channel_ok : forall c k d data, content_ok c -> nth_error (c_channels c) k = Some d -> length data = length d -> content_ok (with_channel c k data).
Proof.
  intros c k d data [Ne F] Hk L. unfold with_channel. pose proof Hk as Hk'. apply nth_error_split in Hk. destruct Hk as (l1 & l2 & E & Lk).
  apply (content_ok_intro _ (c_length c)); cbn [c_channels]; rewrite E, <- Lk, replace_split; [destruct l1; discriminate|].
  rewrite E in F. rewrite Forall_app in *. destruct F as [F1 F2]. inversion F2; subst. split; [exact F1|constructor; [congruence|assumption]].
Qed.

Lemma values_replace : forall vs i v, values_ok vs -> i < length vs -> match v with Some c => content_ok c | None => True end -> values_ok (replace i v vs).
Proof.
  intros vs i v H Hi Hv. destruct (nth_error vs i) as [h|] eqn:E; [|apply nth_error_None in E; lia]. apply nth_error_split in E. destruct E as (h1 & h2 & -> & <-).
  rewrite replace_split. unfold values_ok in *. rewrite Forall_app in *. destruct H as [H1 H2]. inversion H2; subst. split; [exact H1|constructor; assumption].
Qed.
Lemma values_value : forall vs i c, values_ok vs -> value vs i = Some c -> content_ok c /\ i < length vs.
Proof.
  intros vs i c H E. unfold value in E. destruct (nth_error vs i) as [[c'|]|] eqn:E1; try discriminate. inversion E; subst. split; [|apply nth_error_Some; congruence].
  unfold values_ok in H. rewrite Forall_forall in H. apply (H (Some c)). eapply nth_error_In. exact E1.
Qed.

(** ** The operations *)
Definition agree (r : res (world * list f32)) (v : option (values * list f32)) : Prop :=
  match v with
  | Some (vs', out) => exists w', r = Ok (w', out) /\ addrs_ok w' /\ all_contents w' = vs' /\ values_ok vs'
  | None => r = Panic
  end.

Lemma resample_not_stuck : forall c sr, resample c sr <> Stuck.
Proof.
  intros c sr H. unfold resample in H. destruct (is_valid_sample_rate sr); cbn [check bind] in H; [|discriminate].
  destruct (nearly_equal _ _); [discriminate|]. destruct (c_length c =? 0); [discriminate|].
  assert (Q : forall l t, map_res (fun data => resample_channel data t) l <> Stuck).
  { induction l as [|d l IH]; intros t E; cbn in E; [discriminate|].
    assert (Qd : resample_channel d t <> Stuck).
    { unfold resample_channel. generalize (seq 0 (Z.to_nat t)). induction l0 as [|i l0 IH0]; cbn; [discriminate|].
      unfold resample_sample at 1. cbv zeta. unfold index. destruct (nth_error d (Z.to_nat (f64_to_usize _))); cbn; [|discriminate].
      destruct (nth_error d (Z.to_nat (Z.min _ _))); cbn; [|discriminate]. destruct (map_res _ l0); [discriminate|discriminate|congruence]. }
    destruct (resample_channel d t); cbn in E; [|discriminate|congruence]. destruct (map_res _ l) eqn:E2; try discriminate. apply (IH t). exact E2. }
  destruct (map_res _ _) eqn:E; try discriminate. eapply Q. exact E.
Qed.

Lemma bstep_agree : forall w o, addrs_ok w -> values_ok (all_contents w) -> agree (bstep w o) (vstep (all_contents w) o).
Proof.
  intros w o Ok1 Vok.
  assert (Len : length (all_contents w) = length (handles w)) by (unfold all_contents; rewrite map_length; reflexivity).
  assert (Chk : forall b k, nth_error (c_channels (contents w b)) k = option_map (cell w) (nth_error (b_channels b) k)) by (intros; unfold contents; cbn [c_channels]; apply nth_error_map).
  assert (W0 : w = mk_world (cells w ++ []) (handles w)) by (rewrite app_nil_r; destruct w; reflexivity).
  destruct o; cbn [bstep vstep agree]; try rewrite value_all; try rewrite handle_spec.
  - (* new *)
    destruct (is_valid_sample_rate sr); cbn [check bind andb]; [|reflexivity]. destruct (0 <? length); cbn [check bind andb]; [|reflexivity].
    unfold is_valid_number_of_channels. destruct (0 <? channels) eqn:Ec; cbn [check bind andb]; [|reflexivity]. destruct (channels <=? 32); cbn [check bind]; [|reflexivity].
    cbn [alloc]. eexists. split; [reflexivity|]. split; [|split].
    + apply addrs_add; [exact Ok1|]. cbn [b_channels]. apply Forall_forall. intros a Ha. apply repeat_spec in Ha. cbn. lia.
    + rewrite contents_add by exact Ok1. do 3 f_equal. unfold contents. cbn [b_channels b_rate]. rewrite map_repeat. unfold cell. cbn [cells]. rewrite app_nth2, Nat.sub_diag by lia. reflexivity.
    + unfold values_ok. apply Forall_app. split; [exact Vok|]. constructor; [|constructor]. apply Nat.ltb_lt in Ec.
      apply (content_ok_intro _ length); cbn [c_channels]; [destruct channels; [lia|discriminate]|]. apply Forall_forall. intros d Hd. apply repeat_spec in Hd. subst. apply repeat_length.
  - (* from *)
    destruct (is_valid_sample_rate sr); cbn [check bind andb]; [|reflexivity]. unfold is_valid_number_of_channels.
    destruct (0 <? length samples) eqn:E1; cbn [check bind andb]; [|reflexivity]. destruct (length samples <=? 32); cbn [check bind andb]; [|reflexivity].
    destruct (forallb _ samples) eqn:E2; cbn [check bind]; [|reflexivity]. destruct (alloc_all w samples) as [w1 addrs] eqn:E3.
    apply alloc_all_ok in E3. destruct E3 as (Q1 & Q2 & Q3). assert (W1 : w1 = mk_world (cells w ++ samples) (handles w)) by (rewrite <- Q1, <- Q2; destruct w1; reflexivity). subst w1 addrs.
    eexists. split; [reflexivity|]. split; [|split].
    + apply addrs_add; [exact Ok1|]. cbn [b_channels]. apply Forall_forall. intros a Ha. apply in_seq in Ha. lia.
    + rewrite contents_add by exact Ok1. rewrite fresh_contents. reflexivity.
    + unfold values_ok. apply Forall_app. split; [exact Vok|]. constructor; [|constructor]. apply Nat.ltb_lt in E1. apply (content_ok_intro _ (length (hd [] samples))); cbn [c_channels]; [destruct samples; [cbn in E1; lia|discriminate]|].
      apply Forall_forall. intros d Hd. rewrite forallb_forall in E2. apply Nat.eqb_eq. apply E2. exact Hd.
  - (* clone *)
    destruct (nth_error (handles w) i) as [[b|]|] eqn:Hi; cbn [bind]; try reflexivity. eexists. split; [reflexivity|].
    assert (Hb : Forall (fun a => a < length (cells w)) (b_channels b)).
    { apply Forall_forall. intros a Ha. unfold addrs_ok in Ok1. rewrite Forall_forall in Ok1. apply Ok1. eapply in_addresses; [eapply nth_error_In, Hi|exact Ha]. }
    split; [|split].
    + rewrite W0. apply addrs_add; [exact Ok1|]. cbn [length]. rewrite Nat.add_0_r. exact Hb.
    + rewrite W0 at 1. rewrite contents_add by exact Ok1. rewrite <- W0. reflexivity.
    + unfold values_ok. apply Forall_app. split; [exact Vok|]. constructor; [|constructor]. eapply (values_value _ i); [exact Vok|]. rewrite value_all, Hi. reflexivity.
  - (* drop *)
    destruct (nth_error (handles w) i) as [[b|]|] eqn:Hi; cbn [bind]; try reflexivity. assert (Bi : i < length (handles w)) by (apply nth_error_Some; congruence).
    eexists. split; [reflexivity|]. split; [|split].
    + rewrite W0. apply addrs_set; [exact Ok1|discriminate|exact Bi].
    + rewrite W0 at 1. rewrite contents_set; [reflexivity|exact Ok1|exact Bi].
    + apply values_replace; [exact Vok|lia|exact I].
  - (* copy_from *)
    destruct (nth_error (handles w) i) as [[b|]|] eqn:Hi; cbn [bind]; try reflexivity.
    assert (Cok : content_ok (contents w b)) by (eapply (values_value _ i); [exact Vok|rewrite value_all, Hi; reflexivity]).
    destruct (nth_error (c_channels (contents w b)) channel) as [data|] eqn:Hd.
    + rewrite (copy_from_ok _ _ _ _ data Hd); [|destruct Cok as [_ F]; rewrite Forall_forall in F; apply F; eapply nth_error_In; exact Hd].
      eexists. split; [reflexivity|]. split; [exact Ok1|split; [reflexivity|exact Vok]].
    + unfold copy_from. apply nth_error_None in Hd. rewrite (proj2 (Nat.ltb_ge _ _) Hd). reflexivity.
  - (* copy_to *)
    destruct (nth_error (handles w) i) as [[b|]|] eqn:Hi; cbn [bind]; try reflexivity. assert (Bi : i < length (handles w)) by (apply nth_error_Some; congruence).
    assert (Cok : content_ok (contents w b)) by (eapply (values_value _ i); [exact Vok|rewrite value_all, Hi; reflexivity]).
    rewrite Chk. destruct (nth_error (b_channels b) channel) as [a|] eqn:Hk; cbn [option_map].
    + rewrite (proj2 (Nat.ltb_lt _ _)) by (apply nth_error_Some; congruence). cbn [check bind].
      assert (Hd : nth_error (c_channels (contents w b)) channel = Some (cell w a)) by (rewrite Chk, Hk; reflexivity).
      assert (Hl : length (cell w a) = c_length (contents w b)) by (destruct Cok as [_ F]; rewrite Forall_forall in F; apply F; eapply nth_error_In; exact Hd).
      destruct (make_mut_ok w i channel (copy_to (c_length (contents w b)) source offset) b a (overwritten (cell w a) source offset) Ok1 Hi Hk) as (w' & b' & E & O & _ & _ & _ & A & _).
      { rewrite <- Hl. apply copy_to_ok. }
      rewrite E. cbn [bind]. eexists. split; [reflexivity|]. split; [exact O|]. split; [exact A|].
      apply values_replace; [exact Vok|lia|]. eapply with_channel_ok; [exact Cok|exact Hd|apply overwritten_length].
    + apply nth_error_None in Hk. rewrite (proj2 (Nat.ltb_ge _ _) Hk). reflexivity.
  - (* get *)
    destruct (nth_error (handles w) i) as [[b|]|] eqn:Hi; cbn [bind]; try reflexivity. unfold get_channel.
    destruct (nth_error (c_channels (contents w b)) channel) as [data|] eqn:Hd.
    + rewrite (proj2 (Nat.ltb_lt _ _)) by (apply nth_error_Some; congruence). cbn [check bind]. unfold index. rewrite Hd. cbn [from_option bind].
      eexists. split; [reflexivity|]. split; [exact Ok1|split; [reflexivity|exact Vok]].
    + apply nth_error_None in Hd. rewrite (proj2 (Nat.ltb_ge _ _) Hd). reflexivity.
  - (* set *)
    destruct (nth_error (handles w) i) as [[b|]|] eqn:Hi; cbn [bind]; try reflexivity. assert (Bi : i < length (handles w)) by (apply nth_error_Some; congruence).
    assert (Cok : content_ok (contents w b)) by (eapply (values_value _ i); [exact Vok|rewrite value_all, Hi; reflexivity]).
    rewrite Chk. destruct (nth_error (b_channels b) channel) as [a|] eqn:Hk; cbn [option_map].
    + rewrite (proj2 (Nat.ltb_lt _ _)) by (apply nth_error_Some; congruence). cbn [check bind].
      assert (Hd : nth_error (c_channels (contents w b)) channel = Some (cell w a)) by (rewrite Chk, Hk; reflexivity).
      assert (Cs : copy_to_slice (cell w a) 0 (length (cell w a)) data = if length data =? length (cell w a) then Ok data else Panic).
      { unfold copy_to_slice. rewrite Nat.sub_0_r, Nat.leb_refl. cbn [Nat.leb andb]. destruct (length data =? length (cell w a)); [|reflexivity]. rewrite skipn_all. cbn. rewrite app_nil_r. reflexivity. }
      destruct (length data =? length (cell w a)) eqn:El.
      * destruct (make_mut_ok w i channel (fun old => copy_to_slice old 0 (length old) data) b a data Ok1 Hi Hk Cs) as (w' & b' & E & O & _ & _ & _ & A & _).
        rewrite E. cbn [bind]. eexists. split; [reflexivity|]. split; [exact O|]. split; [exact A|].
        apply values_replace; [exact Vok|lia|]. apply Nat.eqb_eq in El. eapply with_channel_ok; [exact Cok|exact Hd|exact El].
      * rewrite (make_mut_fails w i channel _ b a Ok1 Hi Hk Cs). reflexivity.
    + apply nth_error_None in Hk. rewrite (proj2 (Nat.ltb_ge _ _) Hk). reflexivity.
  - (* extend *)
    rewrite value_all, handle_spec.
    destruct (nth_error (handles w) i) as [[b|]|] eqn:Hi; cbn [bind]; try reflexivity. assert (Bi : i < length (handles w)) by (apply nth_error_Some; congruence).
    destruct (nth_error (handles w) j) as [[b2|]|] eqn:Hj; cbn [bind]; try reflexivity.
    assert (Cok : content_ok (contents w b)) by (eapply (values_value _ i); [exact Vok|rewrite value_all, Hi; reflexivity]).
    assert (Cok2 : content_ok (contents w b2)) by (eapply (values_value _ j); [exact Vok|rewrite value_all, Hj; reflexivity]).
    destruct (negb (i =? j)); cbn [check bind andb]; [|reflexivity]. change (c_rate (contents w b)) with (b_rate b). change (c_rate (contents w b2)) with (b_rate b2).
    destruct (f32_eq (b_rate b) (b_rate b2)); cbn [check bind andb]; [|reflexivity].
    assert (L1 : length (c_channels (contents w b)) = length (b_channels b)) by (unfold contents; cbn; apply map_length).
    assert (L2 : length (c_channels (contents w b2)) = length (b_channels b2)) by (unfold contents; cbn; apply map_length). rewrite L1, L2.
    destruct (length (b_channels b) =? length (b_channels b2)) eqn:El; cbn [check bind]; [|reflexivity]. apply Nat.eqb_eq in El.
    set (ds := c_channels (contents w b)) in *. set (others := c_channels (contents w b2)) in *. set (ds' := map (fun p : list f32 * list f32 => fst p ++ snd p) (combine ds others)).
    destruct (mutate_all_ok (map (fun other old => Ok (old ++ other)) others) w i b [] ds ds' Ok1 Hi eq_refl) as (w' & b' & E & O & _ & A & _).
    { rewrite map_length. lia. }
    { unfold ds'. rewrite !map_length, combine_length. lia. }
    { apply extend_all. lia. }
    cbn [length app] in E, A. rewrite E. cbn [bind]. eexists. split; [reflexivity|]. split; [exact O|]. split; [exact A|].
    apply values_replace; [exact Vok|lia|]. apply (content_ok_intro _ (c_length (contents w b) + c_length (contents w b2))); cbn [c_channels].
    + destruct Cok as [Ne _]. fold ds in Ne. unfold ds'. destruct ds, others; try discriminate; try congruence. cbn in L1, L2. lia.
    + apply Forall_forall. intros d Hd. unfold ds' in Hd. apply in_map_iff in Hd. destruct Hd as ([x y] & <- & Hxy). cbn. rewrite app_length.
      destruct Cok as [_ F1], Cok2 as [_ F2]. rewrite Forall_forall in F1, F2. rewrite (F1 x), (F2 y); [reflexivity|eapply in_combine_r; exact Hxy|eapply in_combine_l; exact Hxy].
  - (* split_off *)
    destruct (nth_error (handles w) i) as [[b|]|] eqn:Hi; cbn [bind]; try reflexivity. assert (Bi : i < length (handles w)) by (apply nth_error_Some; congruence).
    assert (Cok : content_ok (contents w b)) by (eapply (values_value _ i); [exact Vok|rewrite value_all, Hi; reflexivity]).
    set (ds := c_channels (contents w b)) in *. assert (L1 : length ds = length (b_channels b)) by (unfold ds, contents; cbn; apply map_length).
    destruct Cok as [Ne F]. fold ds in Ne, F. destruct (index <=? c_length (contents w b)) eqn:Ek.
    + apply Nat.leb_le in Ek. assert (F' : Forall (fun d => index <= length d) ds) by (eapply Forall_impl; [|exact F]; cbn; intros; lia).
      destruct (split_all ds index F') as (S1 & _ & S3). rewrite S1. cbn [bind]. rewrite L1 in S3.
      destruct (mutate_all_ok (repeat (split_channel index) (length (b_channels b))) w i b [] ds (map (firstn index) ds) Ok1 Hi eq_refl) as (w1 & b1 & E & O & H1 & A & L3).
      { rewrite repeat_length. exact L1. } { rewrite map_length, repeat_length. exact L1. } { exact S3. }
      cbn [length app] in E, A. rewrite E. cbn [bind]. destruct (alloc_all w1 (map (skipn index) ds)) as [w2 addrs] eqn:E3.
      apply alloc_all_ok in E3. destruct E3 as (Q1 & Q2 & Q3). assert (W1 : w2 = mk_world (cells w1 ++ map (skipn index) ds) (handles w1)) by (rewrite <- Q1, <- Q2; destruct w2; reflexivity). subst w2 addrs.
      eexists. split; [reflexivity|]. split; [|split].
      * apply addrs_add; [exact O|]. cbn [b_channels]. apply Forall_forall. intros a Ha. apply in_seq in Ha. lia.
      * rewrite contents_add by exact O. rewrite fresh_contents, A. reflexivity.
      * unfold values_ok. apply Forall_app. split.
        { apply values_replace; [exact Vok|lia|]. apply (content_ok_intro _ index); cbn [c_channels]; [destruct ds; [congruence|discriminate]|].
          apply Forall_map. eapply Forall_impl; [|exact F']. intros d Hd. cbn in *. apply firstn_length_le. exact Hd. }
        { constructor; [|constructor]. apply (content_ok_intro _ (c_length (contents w b) - index)); cbn [c_channels]; [destruct ds; [congruence|discriminate]|].
          apply Forall_map. eapply Forall_impl; [|exact F]. intros d Hd. cbn in *. rewrite skipn_length. lia. }
    + apply Nat.leb_gt in Ek. destruct ds as [|d ds']; [congruence|]. cbn [map_res]. inversion F; subst. unfold split_rest at 1, split_at. rewrite (proj2 (Nat.leb_gt _ _)) by lia. reflexivity.
  - (* resample *)
    destruct (nth_error (handles w) i) as [[b|]|] eqn:Hi; cbn [bind]; try reflexivity. assert (Bi : i < length (handles w)) by (apply nth_error_Some; congruence).
    assert (Cok : content_ok (contents w b)) by (eapply (values_value _ i); [exact Vok|rewrite value_all, Hi; reflexivity]).
    destruct (resample (contents w b) sr) as [c'| |] eqn:Er; cbn [bind]; [|reflexivity|exfalso; eapply resample_not_stuck; exact Er].
    destruct (resample_content_ok _ _ _ Cok Er) as (Cok' & R & _).
    assert (Hb : Forall (fun a => a < length (cells w)) (b_channels b)).
    { apply Forall_forall. intros a Ha. unfold addrs_ok in Ok1. rewrite Forall_forall in Ok1. apply Ok1. eapply in_addresses; [eapply nth_error_In, Hi|exact Ha]. }
    destruct (nearly_equal (b_rate b) sr || (c_length (contents w b) =? 0)) eqn:Eq.
    + assert (Ec : c' = contents w (mk_buffer (b_channels b) sr)).
      { unfold resample in Er. destruct (check _); try discriminate. cbn [bind] in Er. change (c_rate (contents w b)) with (b_rate b) in Er.
        destruct (nearly_equal (b_rate b) sr); [inversion Er; reflexivity|]. cbn [orb] in Eq. rewrite Eq in Er. inversion Er; reflexivity. }
      eexists. split; [reflexivity|]. split; [|split].
      * rewrite W0. apply addrs_set; [exact Ok1| |exact Bi]. intros b' E. inversion E; subst. cbn [b_channels length]. rewrite Nat.add_0_r. exact Hb.
      * rewrite W0 at 1. rewrite contents_set; [|exact Ok1|exact Bi]. cbn [option_map]. rewrite <- W0, <- Ec. reflexivity.
      * apply values_replace; [exact Vok|lia|exact Cok'].
    + destruct (alloc_all w (c_channels c')) as [w1 addrs] eqn:E3. apply alloc_all_ok in E3. destruct E3 as (Q1 & Q2 & Q3).
      assert (W1 : w1 = mk_world (cells w ++ c_channels c') (handles w)) by (rewrite <- Q1, <- Q2; destruct w1; reflexivity). subst w1 addrs.
      eexists. split; [reflexivity|]. split; [|split].
      * apply addrs_set; [exact Ok1| |exact Bi]. intros b' E. inversion E; subst. cbn [b_channels]. apply Forall_forall. intros a Ha. apply in_seq in Ha. lia.
      * rewrite contents_set; [|exact Ok1|exact Bi]. cbn [option_map]. rewrite fresh_contents. rewrite <- R. destruct c'; reflexivity.
      * apply values_replace; [exact Vok|lia|exact Cok'].
Qed.

Lemma brun_agree : forall os w, addrs_ok w -> values_ok (all_contents w) ->
  match vrun (all_contents w) os with
  | Some (vs', outs) => exists w', brun w os = Ok (w', outs) /\ all_contents w' = vs' /\ addrs_ok w' /\ values_ok vs'
  | None => brun w os = Panic
  end.
Proof.
  induction os as [|o os IH]; intros w Ok1 Vok; cbn [vrun brun]; [exists w; auto|].
  pose proof (bstep_agree w o Ok1 Vok) as H. unfold agree in H. destruct (vstep (all_contents w) o) as [[vs1 out]|].
  - destruct H as (w1 & E & O & A & V). rewrite E. cbn [bind fst snd]. subst vs1. specialize (IH w1 O V). destruct (vrun (all_contents w1) os) as [[vs2 outs]|].
    + destruct IH as (w2 & E2 & A2 & O2 & V2). rewrite E2. cbn. exists w2. auto.
    + rewrite IH. reflexivity.
  - rewrite H. reflexivity.
Qed.
