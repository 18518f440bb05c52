(** Exact arithmetic: permutation of the axes, the fma feature, nearest neighbour. *)
From Coq Require Import Reals Lra PeanoNat Bool Permutation ZifyBool ZifyNat FunctionalExtensionality.
From Verif Require Import Base Ops ModelCore ModelLinear ModelNearest ModelCubic ModelOneDim.
From Verif Require Import Spec CoreLemmas TensorLemmas MethodLemmas SearchLemmas MethodChar GenLemmas GenProofs3.
From Verif Require Import RInst SpecReal RTensor R1D RChar Interpolators REval RCont RProofs RProofs2.
Open Scope R_scope.

(** ** C22 *)
Definition Rprod (l : list R) : R := fold_right Rmult 1 l.

Lemma Rprod_perm l l' : Permutation l l' -> Rprod l = Rprod l'.
Proof. induction 1; simpl; try congruence. ring. Qed.

Lemma Rsum_perm l l' : Permutation l l' -> Rsum l = Rsum l'.
Proof. induction 1; simpl; try congruence. ring. Qed.

Lemma map_nth_seq A (d : A) l : map (fun k => nth k l d) (seq 0 (length l)) = l.
Proof.
  apply nth_ext with (d := d) (d' := d); rewrite map_length, seq_length; auto.
  intros k Hk. rewrite (nth_indep _ d (nth 0 l d)) by (rewrite map_length, seq_length; auto).
  rewrite (map_nth (fun k => nth k l d)), seq_nth; auto.
Qed.

Lemma weight_prod d Ls idx : length idx = length Ls ->
  weight Ls idx = Rprod (map (fun k => nth k Ls d (delta (nth k idx 0%Z))) (seq 0 (length Ls))).
Proof.
  revert idx. induction Ls as [|L Ls IH]; intros [|i idx] H; try discriminate; auto.
  cbn [weight length seq map nth Rprod fold_right]. f_equal. rewrite <- seq_shift, map_map.
  apply IH. simpl in H; lia.
Qed.

Lemma permute_length A (d : A) p l : length (permute d p l) = length p.
Proof. apply map_length. Qed.

Lemma permute_nth A (d : A) p l k : (k < length p)%nat -> nth k (permute d p l) d = nth (nth k p 0%nat) l d.
Proof.
  intros H. unfold permute. rewrite (nth_indep _ d (nth 0 l d)) by (rewrite map_length; auto).
  apply (map_nth (fun k => nth k l d)).
Qed.

Lemma weight_permute d p Ls idx : Permutation p (seq 0 (length Ls)) -> length idx = length Ls ->
  weight (permute d p Ls) (permute 0%Z p idx) = weight Ls idx.
Proof.
  intros Hp L. assert (Lp := Permutation_length Hp). rewrite seq_length in Lp.
  rewrite (weight_prod d) by (rewrite !permute_length; auto).
  rewrite (weight_prod d Ls) by auto. rewrite permute_length.
  rewrite <- (Rprod_perm (Permutation_map (fun k => nth k Ls d (delta (nth k idx 0%Z))) Hp)).
  f_equal. rewrite <- (map_nth_seq 0%nat p) at 2. rewrite map_map. apply map_ext_in.
  intros k Hk. apply in_seq in Hk. rewrite !permute_nth by lia. reflexivity.
Qed.

Lemma permute_map A B (f : A -> B) d d' p l : Forall (fun k => (k < length l)%nat) p ->
  permute d' p (map f l) = map f (permute d p l).
Proof.
  intros H. unfold permute. rewrite map_map. apply map_ext_in. intros k Hk.
  rewrite Forall_forall in H. specialize (H k Hk).
  rewrite (nth_indep _ d' (f d)) by (rewrite map_length; auto). apply map_nth.
Qed.

Lemma perm_lt p n : Permutation p (seq 0 n) -> Forall (fun k => (k < n)%nat) p.
Proof.
  intros H. apply Forall_forall. intros k Hk. apply (Permutation_in _ H) in Hk. apply in_seq in Hk. lia.
Qed.

Lemma perm_in p n k : Permutation p (seq 0 n) -> (k < n)%nat -> In k p.
Proof. intros H Hk. apply (Permutation_in _ (Permutation_sym H)). apply in_seq. lia. Qed.

Lemma permute_inj p n (l l' : list Z) : Permutation p (seq 0 n) -> length l = n -> length l' = n ->
  permute 0%Z p l = permute 0%Z p l' -> l = l'.
Proof.
  intros Hp L L' E. apply nth_ext with (d := 0%Z) (d' := 0%Z); [congruence|]. intros k Hk. subst n.
  assert (I := perm_in Hp Hk). unfold permute in E. clear -E I.
  induction p as [|j p IH]; [contradiction|]. simpl in E. inversion E as [[E0 E1]].
  destruct I as [->|I]; auto.
Qed.

Lemma shape_permute p dims idx : Permutation p (seq 0 (length dims)) -> in_shape dims idx ->
  in_shape (permute 0%Z p dims) (permute 0%Z p idx).
Proof.
  intros Hp H. apply perm_lt in Hp. unfold in_shape, permute in *.
  induction p as [|k p IH]; simpl; constructor; inversion Hp; subst; auto.
  assert (Lx := Forall2_len H).
  clear -H H2 Lx. revert k H2. induction H; intros k Hk; simpl in *; [lia|].
  destruct k; auto. apply IHForall2; lia.
Qed.

Lemma all_idx_length dims : length (all_idx dims) = fold_right (fun d n => Z.to_nat d * n)%nat 1%nat dims.
Proof.
  induction dims as [|d dims IH]; simpl; auto. rewrite <- IH.
  assert (E : length (zseq d) = Z.to_nat d) by (unfold zseq; rewrite map_length, seq_length; auto).
  rewrite <- E. clear E IH. induction (zseq d) as [|i l IHl]; cbn [flat_map length Nat.mul]; auto.
  rewrite app_length, map_length, IHl. auto.
Qed.

Lemma nprod_perm l l' : Permutation l l' ->
  fold_right (fun d n => Z.to_nat d * n)%nat 1%nat l = fold_right (fun d n => Z.to_nat d * n)%nat 1%nat l'.
Proof. induction 1; simpl; try congruence. ring. Qed.

Lemma permute_perm A (d : A) p l : Permutation p (seq 0 (length l)) -> Permutation (permute d p l) l.
Proof.
  intros H. apply Permutation_trans with (map (fun k => nth k l d) (seq 0 (length l))).
  - unfold permute. apply Permutation_map; auto.
  - rewrite map_nth_seq. apply Permutation_refl.
Qed.

Lemma in_shape_length dims idx : in_shape dims idx -> length idx = length dims.
Proof. induction 1; simpl; auto. Qed.

Lemma all_idx_permute p dims : Permutation p (seq 0 (length dims)) ->
  Permutation (map (permute 0%Z p) (all_idx dims)) (all_idx (permute 0%Z p dims)).
Proof.
  intros Hp. apply NoDup_Permutation_bis.
  - assert (N := all_idx_nodup dims).
    assert (HI : forall idx, In idx (all_idx dims) -> length idx = length dims)
      by (intros idx Hx; apply in_all_idx in Hx; apply in_shape_length; auto).
    induction (all_idx dims) as [|i l IH]; simpl; constructor; inversion N; subst.
    + intros C. apply in_map_iff in C as (j & E & Hj). apply H1.
      rewrite (@permute_inj p (length dims) i j); auto.
      * apply HI; left; auto.
      * apply HI; right; auto.
    + apply IH; auto. intros; apply HI; right; auto.
  - rewrite map_length, !all_idx_length. rewrite (nprod_perm (permute_perm 0%Z dims Hp)). lia.
  - intros idx Hx. apply in_map_iff in Hx as (i & <- & Hi). apply in_all_idx in Hi. apply in_all_idx.
    apply shape_permute; auto.
Qed.

Lemma tenL_permute p dims Ls V V' d : Permutation p (seq 0 (length dims)) -> lfs dims Ls ->
  lfs (permute 0%Z p dims) (permute d p Ls) ->
  (forall idx, in_shape dims idx -> V' (permute 0%Z p idx) = V idx) ->
  tenL (permute d p Ls) V' = tenL Ls V.
Proof.
  intros Hp H H' HV. rewrite (tenL_sum _ H), (tenL_sum _ H').
  rewrite <- (Rsum_perm (Permutation_map (fun idx => weight (permute d p Ls) idx * V' idx) (all_idx_permute dims Hp))).
  rewrite map_map. apply Rsum_ext. intros idx Hi. apply in_all_idx in Hi.
  assert (LL : length Ls = length dims) by (symmetry; apply (Forall2_len H)).
  rewrite weight_permute; [rewrite HV by auto; auto|rewrite LL; auto|rewrite LL; apply in_shape_length; auto].
Qed.

Lemma ops1_permute op axes x p d : length x = length axes -> Permutation p (seq 0 (length axes)) ->
  ops1 op (permute no_axis p axes) (permute 0 p x) = permute d p (ops1 op axes x).
Proof.
  intros L Hp. apply perm_lt in Hp. unfold permute, ops1.
  induction p as [|k p IH]; simpl; auto. inversion Hp; subst. rewrite IH by auto. f_equal.
  fold (ops1 op axes x).
  rewrite (nth_indep _ _ (op no_axis 0)) by (unfold ops1; rewrite map_length, combine_length; lia).
  symmetry. unfold ops1. etransitivity; [apply (map_nth (fun q => op (fst q) (snd q)) (combine axes x) (no_axis, 0))|].
  rewrite combine_nth by auto. reflexivity.
Qed.

Lemma permuted_value FP (op : axis -> R -> (Z -> R) -> R) p axes x vals vals' :
  (forall axes x, length x = length axes -> Forall (good_axis FP) axes -> lfs (map npts axes) (ops1 op axes x)) ->
  Forall (good_axis FP) axes -> Forall (good_axis FP) (permute no_axis p axes) ->
  length x = length axes -> Permutation p (seq 0 (length axes)) ->
  (forall idx, in_shape (map npts axes) idx ->
     entry 0 (map npts (permute no_axis p axes)) vals' (permute 0%Z p idx) = entry 0 (map npts axes) vals idx) ->
  tenL (ops1 op (permute no_axis p axes) (permute 0 p x)) (entry 0 (map npts (permute no_axis p axes)) vals')
  = tenL (ops1 op axes x) (entry 0 (map npts axes) vals).
Proof.
  intros Hop G G' Lx Hp HV.
  rewrite (ops1_permute op axes x (fun _ => 0) Lx Hp).
  apply (@tenL_permute p (map npts axes)); auto.
  - rewrite map_length; auto.
  - rewrite (permute_map npts no_axis) by (apply perm_lt; auto). rewrite <- ops1_permute by auto.
    apply Hop; auto. rewrite !permute_length; auto.
Qed.

Theorem C22_proof_linear c c' p vals vals' axes dom dom' eval eval' x :
  Permutation p (seq 0 (length axes)) ->
  multilinear c vals axes dom eval -> multilinear c' vals' (permute no_axis p axes) dom' eval' ->
  (forall idx, in_shape (map npts axes) idx ->
     entry 0 (map npts (permute no_axis p axes)) vals' (permute 0%Z p idx) = entry 0 (map npts axes) vals idx) ->
  length x = length axes -> dom x -> dom' (permute 0 p x) -> eval' (permute 0 p x) = eval x.
Proof.
  intros Hp H H' HV Lx D D'. destruct (multilinear_value H) as (G & _ & E).
  destruct (multilinear_value H') as (G' & _ & E').
  rewrite E, E' by (auto; rewrite !permute_length; auto). f_equal.
  apply (@permuted_value 2); auto. intros. apply good_lin; auto.
Qed.

Theorem C22_proof_cubic c c' lin p vals vals' axes dom dom' eval eval' x :
  Permutation p (seq 0 (length axes)) ->
  multicubic c lin vals axes dom eval -> multicubic c' lin vals' (permute no_axis p axes) dom' eval' ->
  (forall idx, in_shape (map npts axes) idx ->
     entry 0 (map npts (permute no_axis p axes)) vals' (permute 0%Z p idx) = entry 0 (map npts axes) vals idx) ->
  length x = length axes -> dom x -> dom' (permute 0 p x) -> eval' (permute 0 p x) = eval x.
Proof.
  intros Hp H H' HV Lx D D'. destruct (multicubic_value H) as (G & _ & E).
  destruct (multicubic_value H') as (G' & _ & E').
  rewrite E, E' by (auto; rewrite !permute_length; auto). f_equal.
  apply (@permuted_value 4); auto. intros. apply good_cub; auto.
Qed.

(** ** C41 *)
Section Fma.
Variable ov : bool.
Notation c1 := (mkCfg true ov).
Notation c0 := (mkCfg false ov).

Lemma populate_fma : @populate R c1 = @populate R c0.
Proof.
  extensionality FP; extensionality origin; extensionality dimprod; extensionality vals; extensionality node.
  extensionality n. induction n as [|n IH]; auto. extensionality loc. cbn [populate]. rewrite IH. reflexivity.
Qed.

Lemma lin_node_fma : lin_node ROps c1 = lin_node ROps c0.
Proof.
  extensionality t. extensionality vs. destruct vs as [|a [|b [|]]]; simpl; auto. f_equal. ring.
Qed.

Lemma reg_dt_fma f : reg_dt ROps f = reg_dt ROps false.
Proof.
  extensionality s. extensionality xi. extensionality i. extensionality origin.
  unfold reg_dt. destruct f; auto. simpl.
  destruct (aget (r_steps s) i); simpl; auto. destruct (aget (r_starts s) i); simpl; auto.
  f_equal. f_equal. ring.
Qed.

Lemma hermite_fma : hermite ROps c1 = hermite ROps c0.
Proof. extensionality t; extensionality y0; extensionality dy; extensionality k0; extensionality k1.
  unfold hermite. cbn. ring. Qed.
Lemma centered_fma : centered_diff ROps c1 = centered_diff ROps c0.
Proof. extensionality y0; extensionality y1; extensionality y2; extensionality h0; extensionality h1.
  unfold centered_diff. cbn. ring. Qed.
Lemma natural_fma f : natural_k1 ROps f = natural_k1 ROps false.
Proof. extensionality dy; extensionality k0. unfold natural_k1. destruct f; simpl; auto; ring. Qed.
Lemma linear_ext_fma f : linear_ext ROps f = linear_ext ROps false.
Proof. extensionality y1; extensionality k1; extensionality t. unfold linear_ext. destruct f; simpl; auto; ring. Qed.

Lemma reg_inner_fma f : reg_inner ROps c1 f = reg_inner ROps c0 false.
Proof.
  extensionality lin; extensionality sat; extensionality t; extensionality vs.
  unfold reg_inner. rewrite hermite_fma. cbn [use_fma].
  rewrite (natural_fma true), (natural_fma f), (linear_ext_fma true). reflexivity.
Qed.

Lemma rect_inner_fma f : rect_inner ROps c1 f = rect_inner ROps c0 false.
Proof.
  extensionality lin; extensionality sat; extensionality x; extensionality cell; extensionality vs.
  unfold rect_inner. rewrite hermite_fma, !centered_fma. cbn [use_fma].
  rewrite (natural_fma f), (linear_ext_fma f). reflexivity.
Qed.

Lemma mlr_fma : mlr_interp_one ROps c1 = mlr_interp_one ROps c0.
Proof.
  extensionality s; extensionality x. unfold mlr_interp_one. cbn [use_fma].
  rewrite (reg_dt_fma true), lin_node_fma. reflexivity.
Qed.
Lemma mlrr_fma : mlrr_interp_one ROps c1 = mlrr_interp_one ROps c0.
Proof. extensionality m; extensionality s; extensionality x. unfold mlrr_interp_one. rewrite populate_fma, lin_node_fma. reflexivity. Qed.
Lemma mlc_fma : mlc_interp_one ROps c1 = mlc_interp_one ROps c0.
Proof. extensionality s; extensionality x. unfold mlc_interp_one. rewrite lin_node_fma. reflexivity. Qed.
Lemma mlcr_fma : mlcr_interp_one ROps c1 = mlcr_interp_one ROps c0.
Proof. extensionality m; extensionality s; extensionality x. unfold mlcr_interp_one. rewrite populate_fma, lin_node_fma. reflexivity. Qed.
Lemma nr_fma : nr_interp_one ROps c1 = nr_interp_one ROps c0.
Proof.
  extensionality s; extensionality x. unfold nr_interp_one. cbn [use_fma]. rewrite (reg_dt_fma true). reflexivity.
Qed.
Lemma nc_fma : nc_interp_one ROps c1 = nc_interp_one ROps c0.
Proof. reflexivity. Qed.
Lemma mcr_fma : mcr_interp_one ROps c1 = mcr_interp_one ROps c0.
Proof.
  extensionality s; extensionality x. unfold mcr_interp_one. cbn [use_fma].
  rewrite reg_inner_fma. reflexivity.
Qed.
Lemma mcrr_fma : mcrr_interp_one ROps c1 = mcrr_interp_one ROps c0.
Proof.
  extensionality m; extensionality s; extensionality x. unfold mcrr_interp_one. rewrite populate_fma, reg_inner_fma. reflexivity.
Qed.
Lemma crect_node_fma f : crect_node ROps c1 f = crect_node ROps c0 false.
Proof.
  extensionality lin; extensionality s; extensionality x; extensionality org; extensionality sats.
  unfold crect_node. rewrite rect_inner_fma. reflexivity.
Qed.
Lemma mcc_fma : mcc_interp_one ROps c1 = mcc_interp_one ROps c0.
Proof. extensionality s; extensionality x. unfold mcc_interp_one. rewrite crect_node_fma. reflexivity. Qed.
Lemma mccr_fma : mccr_interp_one ROps c1 = mccr_interp_one ROps c0.
Proof.
  extensionality m; extensionality s; extensionality x. unfold mccr_interp_one. cbn [use_fma].
  rewrite populate_fma, crect_node_fma. reflexivity.
Qed.

Lemma mlr_interpn_fma : mlr_interpn ROps c1 = mlr_interpn ROps c0.
Proof.
  extensionality a1; extensionality a2; extensionality a3; extensionality a4; extensionality a5; extensionality a6.
  unfold mlr_interpn, mlrr_interpn, mlr_interp, mlrr_interp. rewrite mlr_fma, mlrr_fma. reflexivity.
Qed.
Lemma mlc_interpn_fma : mlc_interpn ROps c1 = mlc_interpn ROps c0.
Proof.
  extensionality a1; extensionality a2; extensionality a3; extensionality a4.
  unfold mlc_interpn, mlcr_interpn, mlc_interp, mlcr_interp. rewrite mlc_fma, mlcr_fma. reflexivity.
Qed.
Lemma nr_interpn_fma : nr_interpn ROps c1 = nr_interpn ROps c0.
Proof.
  extensionality a1; extensionality a2; extensionality a3; extensionality a4; extensionality a5; extensionality a6.
  unfold nr_interpn, nr_interp. rewrite nr_fma. reflexivity.
Qed.
Lemma nc_interpn_fma : nc_interpn ROps c1 = nc_interpn ROps c0.
Proof. reflexivity. Qed.
Lemma mcr_interpn_fma : mcr_interpn ROps c1 = mcr_interpn ROps c0.
Proof.
  extensionality a1; extensionality a2; extensionality a3; extensionality a4; extensionality a5; extensionality a6; extensionality a7.
  unfold mcr_interpn, mcrr_interpn, mcr_interp, mcrr_interp. rewrite mcr_fma, mcrr_fma. reflexivity.
Qed.
Lemma mcc_interpn_fma : mcc_interpn ROps c1 = mcc_interpn ROps c0.
Proof.
  extensionality a1; extensionality a2; extensionality a3; extensionality a4; extensionality a5.
  unfold mcc_interpn, mccr_interpn, mcc_interp, mccr_interp. rewrite mcc_fma, mccr_fma. reflexivity.
Qed.

Lemma line_fma : line_through ROps c1 = line_through ROps c0.
Proof. extensionality g; extensionality l. unfold line_through. simpl. ring. Qed.
Lemma linear1_fma : linear1 ROps c1 = linear1 ROps c0.
Proof. extensionality a; extensionality l. unfold linear1. rewrite line_fma. reflexivity. Qed.
Lemma hold_last1_fma : hold_last1 ROps c1 = hold_last1 ROps c0.
Proof. extensionality a; extensionality l. unfold hold_last1. rewrite line_fma. reflexivity. Qed.
End Fma.

(** ** Nearest neighbour *)
Lemma nearest_1d a x o : good_axis 2 a -> in_cell a x o ->
  nearest_node a x (o + if Rle_dec ((x - coord a o) / (coord a (o + 1) - coord a o)) (1 / 2) then 0 else 1)%Z.
Proof.
  intros (Ha & Hn) (Ho & H1 & H2).
  assert (G := @axis_gap a Ha o ltac:(lia) ltac:(lia)). unfold gap in G.
  assert (LO : forall j, (0 <= j < npts a)%Z -> (j < o)%Z -> coord a j < coord a o <= x).
  { intros j Hj Hjo. destruct H1; [lia|]. split; auto. apply Ha; lia. }
  assert (HI : forall j, (0 <= j < npts a)%Z -> (o + 1 < j)%Z -> x <= coord a (o + 1) < coord a j).
  { intros j Hj Hjo. destruct H2; [lia|]. split; auto. apply Ha; lia. }
  destruct (Rle_dec _ _) as [Hle|Hgt].
  - assert (Hx : x - coord a o <= (coord a (o + 1) - coord a o) / 2).
    { replace (x - coord a o) with ((x - coord a o) / (coord a (o + 1) - coord a o) * (coord a (o + 1) - coord a o)) by (field; lra). nra. }
    rewrite Z.add_0_r. split; [lia|]. intros j Hj.
    destruct (Z.eq_dec j o) as [->|]; [split; [lra|lia]|].
    destruct (Z.eq_dec j (o + 1)) as [->|].
    + split; [|lia]. unfold Rabs. destruct (Rcase_abs _), (Rcase_abs _); lra.
    + destruct (Z_lt_le_dec j o) as [Hlt|Hge].
      * destruct (LO j Hj Hlt). unfold Rabs. destruct (Rcase_abs _), (Rcase_abs _); split; lra.
      * destruct (HI j Hj ltac:(lia)). split; [|lia]. unfold Rabs. destruct (Rcase_abs _), (Rcase_abs _); lra.
  - assert (Hx : (coord a (o + 1) - coord a o) / 2 < x - coord a o).
    { replace (x - coord a o) with ((x - coord a o) / (coord a (o + 1) - coord a o) * (coord a (o + 1) - coord a o)) by (field; lra). nra. }
    split; [lia|]. intros j Hj.
    destruct (Z.eq_dec j (o + 1)) as [->|]; [split; [lra|lia]|].
    destruct (Z.eq_dec j o) as [->|].
    + unfold Rabs. destruct (Rcase_abs _), (Rcase_abs _); split; lra.
    + destruct (Z_lt_le_dec j o) as [Hlt|Hge].
      * destruct (LO j Hj Hlt). unfold Rabs. destruct (Rcase_abs _), (Rcase_abs _); split; lra.
      * destruct (HI j Hj ltac:(lia)). split; [|lia]. unfold Rabs. destruct (Rcase_abs _), (Rcase_abs _); lra.
Qed.

Lemma nearest_unique a x i j : nearest_node a x i -> nearest_node a x j -> i = j.
Proof.
  intros (Hi & H) (Hj & H'). destruct (H j Hj) as (A & B). destruct (H' i Hi) as (A' & B').
  assert (E : Rabs (x - coord a i) = Rabs (x - coord a j)) by lra. specialize (B E). specialize (B' (eq_sym E)). lia.
Qed.

Lemma nearest_offset_R t : nearest_offset ROps t = if Rle_dec t (1 / 2) then 0%Z else 1%Z.
Proof.
  unfold nearest_offset, half. simpl. replace (1 / (1 + 1)) with (1 / 2) by field.
  destruct (Rle_dec t (1 / 2)); [rewrite (proj2 (Rleb_true _ _))|rewrite (proj2 (Rleb_false _ _))]; auto. lra.
Qed.

Theorem nearest_value c vals axes dom eval : nearest_nd c vals axes dom eval ->
  Forall (good_axis 2) axes /\ zlen vals = zprod (map npts axes) /\
  forall x, length x = length axes -> dom x ->
  exists idx, nearest_nodes axes x idx /\ eval x = Ok (entry 0 (map npts axes) vals idx).
Proof.
  intros [dims starts steps s Hi Hn|grids s Hi Hg Hn].
  - assert (I0 := Hi). destruct I0 as (I1 & I2 & I3 & I4 & _).
    assert (St := steps_mlr _ _ _ _ _ Hn).
    destruct (mlr_new_inv ROps Hi Hn) as (W & E). assert (W' := W). destruct W as (W0 & W1 & W2 & W3 & W4 & W5).
    rewrite E in W3, W4. cbn [r_dims r_vals r_starts r_steps] in W3, W4.
    assert (G : Forall (good_axis 2) (reg_axes dims starts steps)) by (apply reg_axes_good; auto).
    split; auto. rewrite reg_axes_npts by auto. split; auto.
    intros x Lx D. rewrite reg_axes_length in Lx by auto.
    rewrite (@nr_char _ ROps c _ x usize_converts_R W') by (rewrite E; auto). subst s.
    destruct (@fits_reg_cells isize_min (mkRegular dims starts steps vals) x ltac:(lia) Lx D) as (os & Eo & Lo & Ho).
    rewrite Eo. cbn [bind]. cbn [r_dims r_vals].
    eexists. split; [|reflexivity]. split; [rewrite reg_axes_length; auto|].
    split; [rewrite map_length, seq_length, reg_axes_length; auto|].
    intros k a Hk. destruct (nth_error_ax0 _ _ Hk) as (Ea & Hk'). rewrite reg_axes_length in Hk' by auto.
    rewrite reg_axes_nth in Ea by auto. subst a.
    rewrite (nth_map_seq (fun k => nr_node ROps c (mkRegular dims starts steps vals) x k (nth k os 0%Z))) by auto.
    unfold nr_node. rewrite nearest_offset_R. cbn [r_starts r_steps r_dims].
    assert (Hs : 0 < nth k steps 0) by (apply (Forall_nth_lt 0 St); lia).
    assert (Hd : (2 <= nth k dims 0)%Z) by (apply (Forall_nth_lt 0%Z W3); lia).
    assert (Hc := @reg_cell_R _ _ _ _ _ Hs Hd (Ho k (eq_ind_r (lt k) Hk' Lo))). cbn [r_starts r_steps r_dims] in Hc.
    assert (N := nearest_1d (conj (@reg_axis_inc _ _ _ Hs) Hd) Hc). cbn [coord] in N.
    replace (reg_dtp ROps (use_fma c) (nth k starts (fzero ROps)) (nth k steps (fzero ROps)) (nth k x (fzero ROps)) (nth k os 0%Z))
      with ((nth k x 0 - (nth k starts 0 + nth k steps 0 * IZR (nth k os 0%Z))) /
           (nth k starts 0 + nth k steps 0 * IZR (nth k os 0%Z + 1) - (nth k starts 0 + nth k steps 0 * IZR (nth k os 0%Z)))); auto.
    unfold reg_dtp, uf. simpl. rewrite plus_IZR. destruct (use_fma c); field; lra.
  - assert (I0 := Hi). destruct I0 as (I1 & I2 & _).
    destruct (mlc_new_inv ROps Hi Hn) as (W & E).
    assert (W' := W). destruct W as (W0 & W1 & W2 & W3 & W4).
    rewrite E in W2, W3. cbn [g_dims g_vals g_grids] in *.
    assert (G : Forall (good_axis 2) (rect_axes grids)) by (apply rect_axes_good; auto).
    split; auto. rewrite rect_axes_npts. split; auto.
    intros x Lx _. unfold rect_axes in Lx. rewrite map_length in Lx.
    rewrite (@nc_char _ ROps c _ x W') by (rewrite E; auto). subst s. cbn [g_dims g_vals g_grids].
    eexists. split; [|reflexivity]. split; [unfold rect_axes; rewrite map_length; auto|].
    split; [unfold rect_axes; rewrite !map_length, seq_length; auto|].
    intros k a Hk. destruct (nth_error_ax0 _ _ Hk) as (Ea & Hk'). unfold rect_axes in Hk'. rewrite map_length in Hk'.
    rewrite rect_axes_nth in Ea by auto. subst a.
    rewrite (nth_map_seq (nc_node ROps (mkRect grids (map zlen grids) vals) x)) by auto.
    unfold nc_node. rewrite nearest_offset_R. cbn [g_grids].
    assert (Gk : strictly_increasing (nth k grids [])) by (apply (Forall_nth_lt [] Hg); auto).
    assert (Hd : (2 <= zlen (nth k grids []))%Z) by (apply (Forall_nth_lt [] W2); auto).
    assert (N := nearest_1d (conj (list_axis_inc Gk) Hd) (rect_cell_R (nth k x 0) Gk Hd)). exact N.
Qed.

Lemma nearest_nodes_shape axes x idx : nearest_nodes axes x idx -> in_shape (map npts axes) idx.
Proof.
  intros (Lx & Li & H). clear Lx. revert idx x Li H.
  induction axes as [|a axes IH]; intros [|i idx] x Li H; try discriminate; simpl; constructor.
  - apply (H 0%nat a eq_refl).
  - apply (IH idx (tl x)); [simpl in Li; lia|]. intros k b Hk. specialize (H (S k) b Hk). simpl in H.
    destruct x; [|exact H]. destruct k; exact H.
Qed.

Lemma nearest_nodes_unique axes x i j : nearest_nodes axes x i -> nearest_nodes axes x j -> i = j.
Proof.
  intros (Lx & Li & H) (_ & Lj & H'). apply nth_ext with (d := 0%Z) (d' := 0%Z); [lia|].
  intros k Hk. rewrite Li in Hk. eapply nearest_unique; [apply H|apply H']; apply nth_error_nth' with (d := ax0); auto.
Qed.

Theorem C24_proof c vals axes dom eval x : nearest_nd c vals axes dom eval ->
  length x = length axes -> dom x ->
  (exists idx, nearest_nodes axes x idx) /\
  (forall idx, nearest_nodes axes x idx ->
     in_shape (map npts axes) idx /\ eval x = Ok (entry 0 (map npts axes) vals idx)).
Proof.
  intros H Lx D. destruct (nearest_value H) as (_ & _ & E). destruct (E x Lx D) as (i & Hi & Ei).
  split; [eauto|]. intros j Hj. split; [apply (nearest_nodes_shape Hj)|].
  rewrite Ei. do 2 f_equal. eapply nearest_nodes_unique; eauto.
Qed.

Lemma nearest_inside c vals axes dom eval x : nearest_nd c vals axes dom eval ->
  inside_grid axes x -> dom x.
Proof.
  intros [dims starts steps s Hi Hn|grids s Hi Hg Hn] Hx; try exact I.
  assert (I0 := Hi). destruct I0 as (I1 & I2 & I3 & I4).
  apply fits_weaken. apply (@inside_reg dims); auto.
  - eapply steps_mlr; eauto.
  - destruct (mlr_new_inv ROps Hi Hn) as (W & ->). apply (@wf_bounds 2 _ ltac:(lia) W).
Qed.

Lemma node_nearest FP axes idx : (1 <= FP)%Z -> Forall (good_axis FP) axes -> in_shape (map npts axes) idx ->
  nearest_nodes axes (node_pos axes idx) idx.
Proof.
  intros HF G Hi. destruct (node_inside HF G Hi) as (Lx & _). split; auto.
  split; [rewrite (in_shape_length Hi), map_length; auto|]. clear Lx.
  revert idx Hi. induction G as [|a axes (Ha & Hn) G IH]; intros idx Hi k b Hk; [destruct k; discriminate|].
  inversion Hi as [|? i ? is Hr His]; subst. destruct k as [|k]; simpl in *; [|apply IH; auto].
  inversion Hk; subst b. split; auto. intros j Hj. rewrite Rminus_diag_eq by auto. rewrite Rabs_R0.
  split; [apply Rabs_pos|]. intros E. symmetry in E. 
  destruct (Z_lt_le_dec j i) as [Hlt|]; [|lia]. exfalso.
  assert (coord a j < coord a i) by (apply Ha; lia).
  apply (Rabs_no_R0 (coord a i - coord a j)); lra.
Qed.

Theorem C03_proof_nearest c vals axes dom eval idx : nearest_nd c vals axes dom eval ->
  in_shape (map npts axes) idx ->
  eval (node_pos axes idx) = Ok (entry 0 (map npts axes) vals idx).
Proof.
  intros H Hi. destruct (nearest_value H) as (G & _ & _).
  assert (Hn := node_inside (FP := 2) ltac:(lia) G Hi).
  apply (@C24_proof _ _ _ _ _ _ H (proj1 Hn) (nearest_inside H Hn)). eapply node_nearest with (FP := 2%Z); eauto. lia.
Qed.

Lemma same_nearest axes axes' x idx : same_grid axes axes' -> nearest_nodes axes x idx -> nearest_nodes axes' x idx.
Proof.
  intros S (Lx & Li & H). assert (L := Forall2_len S). split; [lia|]. split; [lia|].
  intros k b Hk. destruct (nth_error_ax0 _ _ Hk) as (Eb & Hk').
  assert (Ha : nth_error axes k = Some (nth k axes ax0)) by (apply nth_error_nth'; lia).
  assert (Sk : same_axis (nth k axes ax0) b).
  { clear -S Eb Hk' L. subst b. revert k Hk'. induction S; intros k Hk; simpl in *; [lia|].
    destruct k; auto. apply IHS; lia. }
  destruct (H k _ Ha) as (Hr & Hm). destruct Sk as (En & Ec). split; [lia|]. intros j Hj.
  rewrite <- !Ec by lia. apply Hm. lia.
Qed.

Theorem same_grid_nearest c c' vals axes axes' dom dom' eval eval' x :
  nearest_nd c vals axes dom eval -> nearest_nd c' vals axes' dom' eval' ->
  same_grid axes axes' -> length x = length axes -> dom x -> dom' x -> eval x = eval' x.
Proof.
  intros H H' S Lx D D'. assert (L := Forall2_len S).
  destruct (@C24_proof _ _ _ _ _ _ H Lx D) as ((i & Hi) & E). destruct (@C24_proof _ _ _ _ _ x H' ltac:(lia) D') as (_ & E').
  destruct (E i Hi) as (_ & ->). destruct (E' i (same_nearest S Hi)) as (_ & ->).
  rewrite (same_grid_npts S). reflexivity.
Qed.

(** The result is a stored value, for every number type. *)
Lemma entry_In F (d : F) dims vals idx : in_shape dims idx -> zlen vals = zprod dims -> In (entry d dims vals idx) vals.
Proof. intros H E. apply nth_In. assert (B := cindex_range H). unfold zlen in E. lia. Qed.

Theorem C24_stored_reg F (o : Ops F) c dims starts steps vals s x r :
  usize_converts o -> reg_input c dims starts steps vals -> nr_new o c dims starts steps vals = Ok s ->
  length x = length dims -> nr_interp_one o c s x = Ok r -> In r vals.
Proof.
  intros Ht Hi Hn Lx H. destruct (mlr_new_inv o Hi Hn) as (W & E).
  rewrite (@nr_char _ o c s x Ht W) in H by (rewrite E; auto).
  apply bind_ok in H as (os & Ho & H). inversion H; subst r; clear H.
  assert (Hf := @reg_cells_foot _ o s x os W Ho).
  assert (Lo := mapM_length _ _ Ho). rewrite seq_length in Lo.
  destruct W as (W0 & W1 & W2 & W3 & W4 & W5). subst s. cbn [r_dims r_vals] in *.
  apply entry_In; auto. unfold in_shape.
  apply (@Forall2_nth_intro _ _ _ 0%Z 0%Z); [rewrite map_length, seq_length; auto|].
  intros k Hk. rewrite (nth_map_seq (fun k => nr_node o c (mkRegular dims starts steps vals) x k (nth k os 0%Z))) by auto.
  unfold nr_node. match goal with |- context [nearest_offset o ?t] => assert (R := nearest_offset_range o t) end.
  assert (B := @mapM_snoc_nth _ 0%Z _ _ _ Ho k Hk). 
  assert (D := Forall_nth_lt 0%Z W3 Hk). cbv beta in D.
  apply reg_cell_range in B; [|exact D]. cbn [r_dims] in B. lia.
Qed.

Theorem C24_stored_rect F (o : Ops F) c grids vals s x r :
  rect_input c grids vals -> nc_new o c grids vals = Ok s ->
  length x = length grids -> nc_interp_one o c s x = Ok r -> In r vals.
Proof.
  intros Hi Hn Lx H. destruct (mlc_new_inv o Hi Hn) as (W & E).
  rewrite (@nc_char _ o c s x W) in H by (rewrite E; auto). inversion H; subst r; clear H.
  destruct W as (W0 & W1 & W2 & W3 & W4). subst s. cbn [g_dims g_vals g_grids] in *.
  apply entry_In; auto. unfold in_shape.
  apply (@Forall2_nth_intro _ _ _ 0%Z 0%Z); [rewrite !map_length, seq_length; auto|].
  intros k Hk. rewrite map_length in Hk.
  rewrite (nth_map_seq (nc_node o (mkRect grids (map zlen grids) vals) x)) by auto.
  unfold nc_node. match goal with |- context [nearest_offset o ?t] => assert (R := nearest_offset_range o t) end.
  cbn [g_grids] in *.
  assert (D := Forall_nth_lt [] W2 Hk). cbv beta in D.
  assert (B := @rect_cell_range _ o (nth k grids []) (nth k x (fzero o)) D).
  rewrite (nth_indep _ 0%Z (zlen (@nil F))) by (rewrite map_length; auto). rewrite (map_nth zlen). lia.
Qed.

Theorem C01_cells c vals axes dom eval x : multilinear c vals axes dom eval ->
  length x = length axes -> exists os, in_cells axes x os.
Proof. intros H Lx. destruct (multilinear_value H) as (G & _). apply in_cells_ex; auto. Qed.

Theorem C07_proof c lin vals axes dom eval : multicubic c lin vals axes dom eval ->
  exists F, (forall x, length x = length axes -> dom x -> eval x = Ok (F x)) /\
    forall x, length x = length axes -> continuous_at (length axes) F x.
Proof. intros H. destruct (C08_proof H) as (F & E & C & _). exists F. auto. Qed.

Theorem C08_proof' c lin vals axes dom eval : multicubic c lin vals axes dom eval ->
  exists F, (forall x, length x = length axes -> dom x -> eval x = Ok (F x)) /\
    continuously_differentiable (length axes) F.
Proof. intros H. destruct (C08_proof H) as (F & E & _ & D). exists F. auto. Qed.

(** Nearest: rescaling and permutation. *)
Lemma rescaled_nearest st axes axes' x x' idx : rescaled_grid st axes axes' x x' ->
  nearest_nodes axes x idx -> nearest_nodes axes' x' idx.
Proof.
  intros S (Lx & Li & H). destruct (rescaled_npts _ _ _ _ _ S) as (En & _ & Lx').
  assert (L : length axes' = length axes) by (rewrite <- (map_length npts axes'), En, map_length; auto).
  split; auto. split; [lia|].
  clear Lx Lx' L En. revert st axes' x x' idx S Li H.
  induction axes as [|a axes IH]; intros [|p st] [|b axes'] [|v x] [|v' x'] idx S Li H k c Hk; simpl in S; try contradiction.
  - destruct k; discriminate.
  - destruct S as (S0 & -> & S). destruct idx as [|i idx]; [discriminate|].
    destruct k as [|k]; simpl in *.
    + inversion Hk; subst c. destruct (H 0%nat a eq_refl) as (Hr & Hm). simpl in Hr, Hm.
      destruct S0 as (Hs & En & Ec). split; [lia|]. intros j Hj. rewrite !Ec by lia.
      destruct (Hm j ltac:(lia)) as (H1 & H2).
      replace (fst p * v + snd p - (fst p * coord a i + snd p)) with (fst p * (v - coord a i)) by ring.
      replace (fst p * v + snd p - (fst p * coord a j + snd p)) with (fst p * (v - coord a j)) by ring.
      rewrite !Rabs_mult, (Rabs_right (fst p)) by lra. split; [nra|]. intros E. apply H2.
      apply Rmult_eq_reg_l in E; lra.
    + apply (IH st axes' x x' idx S ltac:(lia)); auto. intros k' b' Hk'. apply (H (Datatypes.S k') b' Hk').
Qed.

Theorem C21_proof_nearest c c' vals st axes axes' dom dom' eval eval' x x' :
  nearest_nd c vals axes dom eval -> nearest_nd c' vals axes' dom' eval' ->
  rescaled_grid st axes axes' x x' -> dom x -> dom' x' -> eval' x' = eval x.
Proof.
  intros H H' S D D'. destruct (rescaled_npts _ _ _ _ _ S) as (En & Lx & Lx').
  destruct (@C24_proof _ _ _ _ _ _ H Lx D) as ((i & Hi) & E). destruct (@C24_proof _ _ _ _ _ _ H' Lx' D') as (_ & E').
  destruct (E i Hi) as (_ & ->). destruct (E' i (@rescaled_nearest _ _ _ _ _ _ S Hi)) as (_ & ->).
  rewrite En. reflexivity.
Qed.

Theorem C22_proof_nearest c c' p vals vals' axes dom dom' eval eval' x :
  Permutation p (seq 0 (length axes)) ->
  nearest_nd c vals axes dom eval -> nearest_nd c' vals' (permute no_axis p axes) dom' eval' ->
  (forall idx, in_shape (map npts axes) idx ->
     entry 0 (map npts (permute no_axis p axes)) vals' (permute 0%Z p idx) = entry 0 (map npts axes) vals idx) ->
  length x = length axes -> dom x -> dom' (permute 0 p x) -> eval' (permute 0 p x) = eval x.
Proof.
  intros Hp H H' HV Lx D D'.
  destruct (@C24_proof _ _ _ _ _ _ H Lx D) as ((i & Hi) & E).
  assert (Lx' : length (permute 0 p x) = length (permute no_axis p axes)) by (rewrite !permute_length; auto).
  destruct (@C24_proof _ _ _ _ _ _ H' Lx' D') as (_ & E').
  destruct (E i Hi) as (Si & ->).
  assert (Hi' : nearest_nodes (permute no_axis p axes) (permute 0 p x) (permute 0%Z p i)).
  { destruct Hi as (_ & Li & Hi). split; auto. split; [rewrite !permute_length; auto|].
    intros k a Hk. destruct (nth_error_ax0 _ _ Hk) as (Ea & Hk'). rewrite permute_length in Hk'.
    rewrite !permute_nth by auto. change ax0 with no_axis in Ea.
    rewrite permute_nth in Ea by auto. subst a. apply Hi. apply nth_error_nth'.
    apply perm_lt in Hp. apply (Forall_nth_lt 0%nat Hp Hk'). }
  destruct (E' _ Hi') as (_ & ->). f_equal. apply HV; auto.
Qed.

Theorem C41_proof_one ov :
  mlr_interp_one ROps (mkCfg true ov) = mlr_interp_one ROps (mkCfg false ov) /\
  mlrr_interp_one ROps (mkCfg true ov) = mlrr_interp_one ROps (mkCfg false ov) /\
  mlc_interp_one ROps (mkCfg true ov) = mlc_interp_one ROps (mkCfg false ov) /\
  mlcr_interp_one ROps (mkCfg true ov) = mlcr_interp_one ROps (mkCfg false ov) /\
  nr_interp_one ROps (mkCfg true ov) = nr_interp_one ROps (mkCfg false ov) /\
  nc_interp_one ROps (mkCfg true ov) = nc_interp_one ROps (mkCfg false ov) /\
  mcr_interp_one ROps (mkCfg true ov) = mcr_interp_one ROps (mkCfg false ov) /\
  mcrr_interp_one ROps (mkCfg true ov) = mcrr_interp_one ROps (mkCfg false ov) /\
  mcc_interp_one ROps (mkCfg true ov) = mcc_interp_one ROps (mkCfg false ov) /\
  mccr_interp_one ROps (mkCfg true ov) = mccr_interp_one ROps (mkCfg false ov).
Proof.
  repeat split; auto using mlr_fma, mlrr_fma, mlc_fma, mlcr_fma, nr_fma, nc_fma, mcr_fma, mcrr_fma, mcc_fma, mccr_fma.
Qed.
Theorem C41_proof_interpn ov :
  mlr_interpn ROps (mkCfg true ov) = mlr_interpn ROps (mkCfg false ov) /\
  mlc_interpn ROps (mkCfg true ov) = mlc_interpn ROps (mkCfg false ov) /\
  nr_interpn ROps (mkCfg true ov) = nr_interpn ROps (mkCfg false ov) /\
  nc_interpn ROps (mkCfg true ov) = nc_interpn ROps (mkCfg false ov) /\
  mcr_interpn ROps (mkCfg true ov) = mcr_interpn ROps (mkCfg false ov) /\
  mcc_interpn ROps (mkCfg true ov) = mcc_interpn ROps (mkCfg false ov).
Proof.
  repeat split; auto using mlr_interpn_fma, mlc_interpn_fma, nr_interpn_fma, nc_interpn_fma, mcr_interpn_fma, mcc_interpn_fma.
Qed.
Theorem C41_proof_1d ov :
  linear1 ROps (mkCfg true ov) = linear1 ROps (mkCfg false ov) /\
  hold_last1 ROps (mkCfg true ov) = hold_last1 ROps (mkCfg false ov) /\
  r1_at ROps (mkCfg true ov) = r1_at ROps (mkCfg false ov) /\
  c1_at ROps (mkCfg true ov) = c1_at ROps (mkCfg false ov).
Proof. repeat split; auto using linear1_fma, hold_last1_fma. Qed.

Lemma same_grid_refl axes : same_grid axes axes.
Proof. induction axes; constructor; auto. split; auto. Qed.
