(** Proofs of the exact-arithmetic symmetries, and of nearest-neighbour interpolation. *)
From Coq Require Import Reals Lra PeanoNat Bool Permutation ZifyBool ZifyNat FunctionalExtensionality.
From Verif Require Import Base Ops ModelCore ModelLinear ModelNearest ModelCubic.
From Verif Require Import Spec CoreLemmas TensorLemmas MethodLemmas SearchLemmas MethodChar GenLemmas.
From Verif Require Import RInst SpecReal RTensor R1D RChar Interpolators REval RCont RProofs.
Open Scope R_scope.

(** ** C20 *)
Lemma combination_nth a b u v k : length u = length v -> (k < length u)%nat ->
  nth k (combination a b u v) 0 = a * nth k u 0 + b * nth k v 0.
Proof.
  intros L H. unfold combination.
  rewrite (nth_indep _ _ ((fun p => a * fst p + b * snd p) (0, 0))) by (rewrite map_length, combine_length; lia).
  rewrite (map_nth (fun p : R * R => a * fst p + b * snd p)), combine_nth by auto. reflexivity.
Qed.

Lemma combination_entry a b u v dims idx : zlen u = zprod dims -> zlen v = zprod dims -> in_shape dims idx ->
  entry 0 dims (combination a b u v) idx = a * entry 0 dims u idx + b * entry 0 dims v idx.
Proof.
  intros Lu Lv H. assert (B := cindex_range H). unfold entry, zlen in *. apply combination_nth; lia.
Qed.

Lemma tenL_combination dims Ls a b u v : lfs dims Ls -> zlen u = zprod dims -> zlen v = zprod dims ->
  tenL Ls (entry 0 dims (combination a b u v)) = a * tenL Ls (entry 0 dims u) + b * tenL Ls (entry 0 dims v).
Proof.
  intros H Lu Lv.
  rewrite (@tenL_ext dims Ls _ (fun idx => a * entry 0 dims u idx + b * entry 0 dims v idx) H)
    by (intros; apply combination_entry; auto).
  rewrite (tenL_plus _ _ H), !(tenL_scal _ _ H). reflexivity.
Qed.

Theorem C20_proof_linear c c1 c2 a b u v axes dom1 dom2 dom ev1 ev2 ev x :
  multilinear c1 u axes dom1 ev1 -> multilinear c2 v axes dom2 ev2 ->
  multilinear c (combination a b u v) axes dom ev ->
  length x = length axes -> dom1 x -> dom2 x -> dom x ->
  exists r1 r2, ev1 x = Ok r1 /\ ev2 x = Ok r2 /\ ev x = Ok (a * r1 + b * r2).
Proof.
  intros H1 H2 H Lx D1 D2 D. destruct (multilinear_value H1) as (G & L1 & E1).
  destruct (multilinear_value H2) as (_ & L2 & E2). destruct (multilinear_value H) as (_ & _ & E).
  do 2 eexists. split; [apply E1; auto|]. split; [apply E2; auto|]. rewrite E by auto. f_equal.
  apply tenL_combination; auto. apply good_lin; auto.
Qed.

Theorem C20_proof_cubic c c1 c2 lin a b u v axes dom1 dom2 dom ev1 ev2 ev x :
  multicubic c1 lin u axes dom1 ev1 -> multicubic c2 lin v axes dom2 ev2 ->
  multicubic c lin (combination a b u v) axes dom ev ->
  length x = length axes -> dom1 x -> dom2 x -> dom x ->
  exists r1 r2, ev1 x = Ok r1 /\ ev2 x = Ok r2 /\ ev x = Ok (a * r1 + b * r2).
Proof.
  intros H1 H2 H Lx D1 D2 D. destruct (multicubic_value H1) as (G & L1 & E1).
  destruct (multicubic_value H2) as (_ & L2 & E2). destruct (multicubic_value H) as (_ & _ & E).
  do 2 eexists. split; [apply E1; auto|]. split; [apply E2; auto|]. rewrite E by auto. f_equal.
  apply tenL_combination; auto. apply good_cub; auto.
Qed.

(** ** C21 *)
Lemma rescaled_in_cell st a b v o : rescaled_axis st a b -> in_cell a v o -> in_cell b (fst st * v + snd st) o.
Proof.
  intros (Hs & En & Ec) (H1 & H2 & H3). split; [lia|]. split.
  - destruct H2; auto. right. rewrite Ec by lia. nra.
  - destruct H3; [left; lia|]. right. rewrite Ec by lia. nra.
Qed.

Lemma rescaled_lin1 st a b v f : good_axis 2 a -> good_axis 2 b -> rescaled_axis st a b ->
  lin1 b (fst st * v + snd st) f = lin1 a v f.
Proof.
  intros (Ha & Hna) (Hb & Hnb) S. destruct (in_cell_ex a Hna v) as (o & Ho).
  rewrite (lin1_eq Ha Hna f Ho), (lin1_eq Hb Hnb f (rescaled_in_cell S Ho)).
  destruct S as (Hs & En & Ec). destruct Ho as (Ho & _). unfold lin_piece, dd. rewrite !Ec by lia.
  assert (G := @axis_gap a Ha o ltac:(lia) ltac:(lia)). unfold gap in G. field. split; [lra|nra].
Qed.

Lemma rescaled_dd st a b f i : increasing_axis a -> rescaled_axis st a b -> (0 <= i)%Z -> (i + 1 < npts a)%Z ->
  dd (coord b) f i = dd (coord a) f i / fst st.
Proof.
  intros Ha (Hs & En & Ec) H0 H1. unfold dd. rewrite !Ec by lia.
  assert (G := @axis_gap a Ha i ltac:(lia) ltac:(lia)). unfold gap in G. field. split; [lra|nra].
Qed.

Lemma rescaled_gap st a b i : rescaled_axis st a b -> (0 <= i)%Z -> (i + 1 < npts a)%Z ->
  gap (coord b) i = fst st * gap (coord a) i.
Proof. intros (Hs & En & Ec) H0 H1. unfold gap. rewrite !Ec by lia. ring. Qed.

Lemma rescaled_mid st a b f i : increasing_axis a -> rescaled_axis st a b -> (1 <= i)%Z -> (i + 1 < npts a)%Z ->
  mid_slope (coord b) f i = mid_slope (coord a) f i / fst st.
Proof.
  intros Ha S H0 H1. unfold mid_slope.
  rewrite !(@rescaled_gap st a b) by (auto; lia). rewrite !(@rescaled_dd st a b f) by (auto; lia).
  assert (G := @axis_gap a Ha i ltac:(lia) ltac:(lia)).
  assert (G' := @axis_gap a Ha (i - 1) ltac:(lia) ltac:(lia)).
  destruct S as (Hs & _). field. repeat split; try lra; nra.
Qed.

Lemma rescaled_slope st a b f i : good_axis 4 a -> rescaled_axis st a b -> (0 <= i < npts a)%Z ->
  slope b f i = slope a f i / fst st.
Proof.
  intros (Ha & Hn) S Hi. assert (En : npts b = npts a) by apply S. assert (Hs : 0 < fst st) by apply S.
  unfold slope. rewrite En.
  destruct (Z.eqb_spec i 0) as [->|]; [|destruct (Z.eqb_spec i (npts a - 1)) as [->|]].
  - rewrite (@rescaled_mid st a b), (@rescaled_dd st a b) by (auto; lia). field. lra.
  - rewrite (@rescaled_mid st a b), (@rescaled_dd st a b) by (auto; lia). field. lra.
  - apply rescaled_mid; auto; lia.
Qed.

Lemma rescaled_herm st a b f j v : good_axis 4 a -> rescaled_axis st a b -> (0 <= j <= npts a - 2)%Z ->
  herm_piece b f j (fst st * v + snd st) = herm_piece a f j v.
Proof.
  intros Ha S Hj. unfold herm_piece. 
  rewrite !(@rescaled_slope st a b) by (auto; lia). rewrite !(@rescaled_gap st a b), !(@rescaled_dd st a b) by (auto; try apply Ha; lia).
  assert (G := @axis_gap a (proj1 Ha) j ltac:(lia) ltac:(lia)).
  destruct S as (Hs & En & Ec). rewrite !Ec by lia. field. split; lra.
Qed.

Lemma rescaled_cub1 lin st a b v f : good_axis 4 a -> good_axis 4 b -> rescaled_axis st a b ->
  cub1 lin b (fst st * v + snd st) f = cub1 lin a v f.
Proof.
  intros (Ha & Hna) (Hb & Hnb) S. 
  assert (En : npts b = npts a) by apply S. assert (Hs : 0 < fst st) by apply S.
  assert (E0 : coord b 0 = fst st * coord a 0 + snd st) by (apply S; lia).
  assert (E1 : coord b (npts b - 1) = fst st * coord a (npts a - 1) + snd st) by (rewrite En; apply S; lia).
  destruct (in_cell_ex a ltac:(lia) v) as (o & Ho).
  assert (Ho' := rescaled_in_cell S Ho).
  destruct (bool_dec lin true) as [El|El].
  - destruct (Rle_dec v (coord a 0)); [|destruct (Rle_dec (coord a (npts a - 1)) v)].
    + rewrite !cub1_low by (auto; rewrite ?E0; nra). rewrite E0.
      rewrite (rescaled_slope f (conj Ha Hna) S) by lia. field. lra.
    + rewrite !cub1_high by (auto; rewrite ?E1; nra). rewrite E1, En.
      rewrite (rescaled_slope f (conj Ha Hna) S) by lia. field. lra.
    + rewrite (@cub1_herm a Ha Hna lin f v o Ho) by (left; lra).
      rewrite (@cub1_herm b Hb Hnb lin f _ o Ho') by (left; rewrite E0, E1; nra).
      apply rescaled_herm; auto; try split; auto; apply Ho.
  - rewrite (@cub1_herm a Ha Hna lin f v o Ho) by (right; destruct lin; congruence).
    rewrite (@cub1_herm b Hb Hnb lin f _ o Ho') by (right; destruct lin; congruence).
    apply rescaled_herm; auto; try split; auto; apply Ho.
Qed.

Lemma rescaled_tenL FP (op : axis -> R -> (Z -> R) -> R) :
  (forall a x, good_axis FP a -> lf (npts a) (op a x)) ->
  (forall st a b v f, good_axis FP a -> good_axis FP b -> rescaled_axis st a b ->
     op b (fst st * v + snd st) f = op a v f) ->
  forall st axes axes' x x' V, Forall (good_axis FP) axes -> Forall (good_axis FP) axes' ->
  rescaled_grid st axes axes' x x' ->
  tenL (ops1 op axes' x') V = tenL (ops1 op axes x) V.
Proof.
  intros Hl Hr st axes axes' x x' V G. revert st axes' x x' V.
  induction G as [|a axes Ga G IH]; intros st axes' x x' V G' S.
  - destruct st, axes', x, x'; simpl in S; try contradiction. reflexivity.
  - destruct st as [|p st], axes' as [|b axes'], x as [|v x], x' as [|v' x']; simpl in S; try contradiction.
    destruct S as (S & -> & S'). inversion G' as [|? ? Gb G'']; subst.
    unfold ops1. cbn [combine map tenL fst snd]. rewrite (Hr p a b) by auto.
    apply (lf_ext_all _ _ (Hl a v Ga)). intros i. apply (IH st axes' x x'); auto.
Qed.

Lemma rescaled_npts st axes axes' x x' : rescaled_grid st axes axes' x x' ->
  map npts axes' = map npts axes /\ length x = length axes /\ length x' = length axes'.
Proof.
  revert st axes' x x'. induction axes as [|a axes IH]; intros [|p st] [|b axes'] [|v x] [|v' x'] S; simpl in S;
    try contradiction; simpl; auto.
  destruct S as ((_ & E & _) & _ & S). destruct (IH _ _ _ _ S) as (E1 & E2 & E3). rewrite E, E1. auto.
Qed.

Theorem C21_proof_linear c c' vals st axes axes' dom dom' eval eval' x x' :
  multilinear c vals axes dom eval -> multilinear c' vals axes' dom' eval' ->
  rescaled_grid st axes axes' x x' -> dom x -> dom' x' -> eval' x' = eval x.
Proof.
  intros H H' S D D'. destruct (multilinear_value H) as (G & _ & E).
  destruct (multilinear_value H') as (G' & _ & E'). destruct (rescaled_npts _ _ _ _ _ S) as (En & Lx & Lx').
  rewrite E, E' by auto. f_equal. rewrite En.
  apply (@rescaled_tenL 2 lin1) with (st := st); auto.
  - intros a t (Ha & Hn). apply lin1_lf; auto.
  - intros. apply rescaled_lin1; auto.
Qed.

Theorem C21_proof_cubic c c' lin vals st axes axes' dom dom' eval eval' x x' :
  multicubic c lin vals axes dom eval -> multicubic c' lin vals axes' dom' eval' ->
  rescaled_grid st axes axes' x x' -> dom x -> dom' x' -> eval' x' = eval x.
Proof.
  intros H H' S D D'. destruct (multicubic_value H) as (G & _ & E).
  destruct (multicubic_value H') as (G' & _ & E'). destruct (rescaled_npts _ _ _ _ _ S) as (En & Lx & Lx').
  rewrite E, E' by auto. f_equal. rewrite En.
  apply (@rescaled_tenL 4 (cub1 lin)) with (st := st); auto.
  - intros a t (Ha & Hn). apply cub1_lf; auto.
  - intros. apply rescaled_cub1; auto.
Qed.

(** ** C23 *)
Lemma reflected_in_cell a b v o : reflected_axis a b -> in_cell a v o -> in_cell b (- v) (npts a - 2 - o).
Proof.
  intros (En & Ec) (H1 & H2 & H3). split; [lia|]. split.
  - destruct H3; [left; lia|]. right. rewrite Ec by lia.
    replace (npts a - 1 - (npts a - 2 - o))%Z with (o + 1)%Z by lia. lra.
  - destruct H2; [left; lia|]. right. rewrite Ec by lia.
    replace (npts a - 1 - (npts a - 2 - o + 1))%Z with o by lia. lra.
Qed.

Lemma reflected_lin1 a b v f : good_axis 2 a -> good_axis 2 b -> reflected_axis a b ->
  lin1 b (- v) (fun i => f (npts a - 1 - i)%Z) = lin1 a v f.
Proof.
  intros (Ha & Hna) (Hb & Hnb) S. destruct (in_cell_ex a Hna v) as (o & Ho).
  rewrite (lin1_eq Ha Hna f Ho), (lin1_eq Hb Hnb _ (reflected_in_cell S Ho)).
  destruct S as (En & Ec). destruct Ho as (Ho & _). unfold lin_piece, dd. rewrite !Ec by lia.
  replace (npts a - 1 - (npts a - 2 - o))%Z with (o + 1)%Z by lia.
  replace (npts a - 1 - (npts a - 2 - o + 1))%Z with o by lia.
  assert (G := @axis_gap a Ha o ltac:(lia) ltac:(lia)). unfold gap in G. field. lra.
Qed.

Lemma reflected_gap a b i : reflected_axis a b -> (0 <= i)%Z -> (i + 1 < npts a)%Z ->
  gap (coord b) i = gap (coord a) (npts a - 2 - i).
Proof.
  intros (En & Ec) H0 H1. unfold gap. rewrite !Ec by lia.
  replace (npts a - 1 - (i + 1))%Z with (npts a - 2 - i)%Z by lia.
  replace (npts a - 2 - i + 1)%Z with (npts a - 1 - i)%Z by lia. ring.
Qed.

Lemma reflected_dd a b f i : increasing_axis a -> reflected_axis a b -> (0 <= i)%Z -> (i + 1 < npts a)%Z ->
  dd (coord b) (fun i => f (npts a - 1 - i)%Z) i = - dd (coord a) f (npts a - 2 - i).
Proof.
  intros Ha (En & Ec) H0 H1. unfold dd. rewrite !Ec by lia.
  assert (G := @axis_gap a Ha (npts a - 2 - i) ltac:(lia) ltac:(lia)). unfold gap in G.
  replace (npts a - 1 - (i + 1))%Z with (npts a - 2 - i)%Z by lia.
  replace (npts a - 2 - i + 1)%Z with (npts a - 1 - i)%Z in * by lia. field. lra.
Qed.

Lemma reflected_mid a b f i : increasing_axis a -> reflected_axis a b -> (1 <= i)%Z -> (i + 1 < npts a)%Z ->
  mid_slope (coord b) (fun i => f (npts a - 1 - i)%Z) i = - mid_slope (coord a) f (npts a - 1 - i).
Proof.
  intros Ha S H0 H1. unfold mid_slope.
  rewrite !(@reflected_gap a b) by (auto; lia). rewrite !(@reflected_dd a b f) by (auto; lia).
  assert (G := @axis_gap a Ha (npts a - 2 - i) ltac:(lia) ltac:(lia)).
  assert (G' := @axis_gap a Ha (npts a - 1 - i) ltac:(lia) ltac:(lia)).
  replace (npts a - 2 - (i - 1))%Z with (npts a - 1 - i)%Z by lia.
  replace (npts a - 1 - i - 1)%Z with (npts a - 2 - i)%Z by lia.
  field. repeat split; try lra; nra.
Qed.

Lemma reflected_slope a b f i : good_axis 4 a -> reflected_axis a b -> (0 <= i < npts a)%Z ->
  slope b (fun i => f (npts a - 1 - i)%Z) i = - slope a f (npts a - 1 - i).
Proof.
  intros (Ha & Hn) S Hi. assert (En : npts b = npts a) by apply S.
  unfold slope. rewrite En.
  destruct (Z.eqb_spec i 0) as [->|]; [|destruct (Z.eqb_spec i (npts a - 1)) as [->|]].
  - replace (npts a - 1 - 0 =? 0)%Z with false by lia. replace (npts a - 1 - 0 =? npts a - 1)%Z with true by lia.
    rewrite (@reflected_mid a b), (@reflected_dd a b) by (auto; lia).
    replace (npts a - 2 - 0)%Z with (npts a - 2)%Z by lia. replace (npts a - 1 - 1)%Z with (npts a - 2)%Z by lia. ring.
  - replace (npts a - 1 - (npts a - 1))%Z with 0%Z by lia. replace (0 =? 0)%Z with true by lia.
    rewrite (@reflected_mid a b), (@reflected_dd a b) by (auto; lia).
    replace (npts a - 2 - (npts a - 2))%Z with 0%Z by lia. replace (npts a - 1 - (npts a - 2))%Z with 1%Z by lia. ring.
  - replace (npts a - 1 - i =? 0)%Z with false by lia. replace (npts a - 1 - i =? npts a - 1)%Z with false by lia.
    apply reflected_mid; auto; lia.
Qed.

Lemma reflected_herm a b f j v : good_axis 4 a -> reflected_axis a b -> (0 <= j <= npts a - 2)%Z ->
  herm_piece b (fun i => f (npts a - 1 - i)%Z) (npts a - 2 - j) (- v) = herm_piece a f j v.
Proof.
  intros Ha S Hj. unfold herm_piece.
  rewrite !(@reflected_slope a b) by (auto; lia).
  rewrite !(@reflected_gap a b), !(@reflected_dd a b) by (auto; try apply Ha; lia).
  assert (G := @axis_gap a (proj1 Ha) j ltac:(lia) ltac:(lia)).
  destruct S as (En & Ec). rewrite !Ec by lia.
  replace (npts a - 2 - (npts a - 2 - j))%Z with j by lia.
  replace (npts a - 1 - (npts a - 2 - j))%Z with (j + 1)%Z by lia.
  replace (npts a - 1 - (npts a - 2 - j + 1))%Z with j by lia.
  unfold dd, gap in *. field. lra.
Qed.

Lemma reflected_cub1 lin a b v f : good_axis 4 a -> good_axis 4 b -> reflected_axis a b ->
  cub1 lin b (- v) (fun i => f (npts a - 1 - i)%Z) = cub1 lin a v f.
Proof.
  intros (Ha & Hna) (Hb & Hnb) S. 
  assert (En : npts b = npts a) by apply S.
  assert (E0 : coord b 0 = - coord a (npts a - 1)) by (rewrite (proj2 S) by lia; f_equal; f_equal; lia).
  assert (E1 : coord b (npts b - 1) = - coord a 0) by (rewrite (proj2 S) by lia; f_equal; f_equal; lia).
  destruct (in_cell_ex a ltac:(lia) v) as (o & Ho).
  assert (Ho' := reflected_in_cell S Ho).
  destruct (bool_dec lin true) as [El|El].
  - destruct (Rle_dec v (coord a 0)); [|destruct (Rle_dec (coord a (npts a - 1)) v)].
    + rewrite (@cub1_low a) by auto. rewrite (@cub1_high b) by (auto; lra). rewrite E1, En.
      rewrite (reflected_slope f (conj Ha Hna) S) by lia.
      replace (npts a - 1 - (npts a - 1))%Z with 0%Z by lia. ring.
    + rewrite (@cub1_high a) by auto. rewrite (@cub1_low b) by (auto; lra). rewrite E0.
      rewrite (reflected_slope f (conj Ha Hna) S) by lia.
      replace (npts a - 1 - 0)%Z with (npts a - 1)%Z by lia. ring.
    + rewrite (@cub1_herm a Ha Hna lin f v o Ho) by (left; lra).
      rewrite (@cub1_herm b Hb Hnb lin _ _ _ Ho') by (left; rewrite E0, E1; lra).
      apply reflected_herm; auto; try split; auto; apply Ho.
  - rewrite (@cub1_herm a Ha Hna lin f v o Ho) by (right; destruct lin; congruence).
    rewrite (@cub1_herm b Hb Hnb lin _ _ _ Ho') by (right; destruct lin; congruence).
    apply reflected_herm; auto; try split; auto; apply Ho.
Qed.

Lemma reflected_tenL FP (op : axis -> R -> (Z -> R) -> R) :
  (forall a x, good_axis FP a -> lf (npts a) (op a x)) ->
  (forall a b v f, good_axis FP a -> good_axis FP b -> same_axis a b -> op a v f = op b v f) ->
  (forall a b v f, good_axis FP a -> good_axis FP b -> reflected_axis a b ->
     op b (- v) (fun i => f (npts a - 1 - i)%Z) = op a v f) ->
  forall flips axes axes' x x' V V', Forall (good_axis FP) axes -> Forall (good_axis FP) axes' ->
  reflected_grid flips axes axes' x x' ->
  (forall idx, in_shape (map npts axes) idx -> V' idx = V (reflect_indices flips (map npts axes) idx)) ->
  tenL (ops1 op axes' x') V' = tenL (ops1 op axes x) V.
Proof.
  intros Hl Hs Hr flips axes axes' x x' V V' G. revert flips axes' x x' V V'.
  induction G as [|a axes Ga G IH]; intros flips axes' x x' V V' G' S HV.
  - destruct flips, axes', x, x'; simpl in S; try contradiction. unfold ops1. simpl. apply (HV []). constructor.
  - destruct flips as [|p flips], axes' as [|b axes'], x as [|v x], x' as [|v' x']; simpl in S; try contradiction.
    destruct S as (S & S'). inversion G' as [|? ? Gb G'']; subst.
    unfold ops1. cbn [combine map tenL fst snd]. fold (ops1 op axes x) (ops1 op axes' x').
    destruct p.
    + destruct S as (S & ->). assert (En : npts b = npts a) by apply S.
      rewrite <- (Hr a b) by auto.
      apply (lf_ext _ _ (Hl b (- v) Gb)). intros i Hi. apply (IH flips axes' x x'); auto.
      intros idx Hx. rewrite HV by (constructor; auto; lia). reflexivity.
    + destruct S as (S & ->). assert (En : npts a = npts b) by apply S.
      rewrite (Hs a b) by auto.
      apply (lf_ext _ _ (Hl b v Gb)). intros i Hi. apply (IH flips axes' x x'); auto.
      intros idx Hx. rewrite HV by (constructor; auto; lia). reflexivity.
Qed.

Lemma reflected_npts fl axes axes' x x' : reflected_grid fl axes axes' x x' ->
  map npts axes' = map npts axes /\ length x = length axes /\ length x' = length axes'.
Proof.
  revert fl axes' x x'. induction axes as [|a axes IH]; intros [|p st] [|b axes'] [|v x] [|v' x'] S; simpl in S;
    try contradiction; simpl; auto.
  destruct S as (S0 & S). destruct (IH _ _ _ _ S) as (E1 & E2 & E3). 
  assert (npts b = npts a) by (destruct p; destruct S0 as ((S0 & _) & _); auto). rewrite H, E1. auto.
Qed.

Theorem C23_proof_linear c c' vals vals' flips axes axes' dom dom' eval eval' x x' :
  multilinear c vals axes dom eval -> multilinear c' vals' axes' dom' eval' ->
  reflected_grid flips axes axes' x x' ->
  (forall idx, in_shape (map npts axes) idx ->
     entry 0 (map npts axes) vals' idx = entry 0 (map npts axes) vals (reflect_indices flips (map npts axes) idx)) ->
  dom x -> dom' x' -> eval' x' = eval x.
Proof.
  intros H H' S HV D D'. destruct (multilinear_value H) as (G & _ & E).
  destruct (multilinear_value H') as (G' & _ & E'). destruct (reflected_npts _ _ _ _ _ S) as (En & Lx & Lx').
  rewrite E, E' by auto. f_equal. rewrite En.
  apply (@reflected_tenL 2 lin1) with (flips := flips); auto.
  - intros a t (Ha & Hn). apply lin1_lf; auto.
  - intros. apply same_lin1; auto.
  - intros. apply reflected_lin1; auto.
Qed.

Theorem C23_proof_cubic c c' lin vals vals' flips axes axes' dom dom' eval eval' x x' :
  multicubic c lin vals axes dom eval -> multicubic c' lin vals' axes' dom' eval' ->
  reflected_grid flips axes axes' x x' ->
  (forall idx, in_shape (map npts axes) idx ->
     entry 0 (map npts axes) vals' idx = entry 0 (map npts axes) vals (reflect_indices flips (map npts axes) idx)) ->
  dom x -> dom' x' -> eval' x' = eval x.
Proof.
  intros H H' S HV D D'. destruct (multicubic_value H) as (G & _ & E).
  destruct (multicubic_value H') as (G' & _ & E'). destruct (reflected_npts _ _ _ _ _ S) as (En & Lx & Lx').
  rewrite E, E' by auto. f_equal. rewrite En.
  apply (@reflected_tenL 4 (cub1 lin)) with (flips := flips); auto.
  - intros a t (Ha & Hn). apply cub1_lf; auto.
  - intros. apply same_cub1; auto.
  - intros. apply reflected_cub1; auto.
Qed.
