(** Proofs of the exact-arithmetic properties of the multilinear and multicubic
    interpolators. *)
From Coq Require Import Reals Lra PeanoNat Bool Permutation ZifyBool ZifyNat.
From Verif Require Import Base Ops ModelCore ModelLinear ModelNearest ModelCubic.
From Verif Require Import Spec CoreLemmas TensorLemmas MethodLemmas SearchLemmas MethodChar GenLemmas.
From Verif Require Import RInst SpecReal RTensor R1D RChar Interpolators REval RCont.
Open Scope R_scope.

(** ** Structure of cells *)
Lemma in_cells_cons a axes x0 x o os :
  in_cells (a :: axes) (x0 :: x) (o :: os) <-> in_cell a x0 o /\ in_cells axes x os.
Proof.
  split.
  - intros (L1 & L2 & H). simpl in L1, L2. split; [apply (H 0%nat a eq_refl)|].
    split; [lia|]. split; [lia|]. intros k b Hk. apply (H (S k) b Hk).
  - intros (H0 & L1 & L2 & H). split; [simpl; lia|]. split; [simpl; lia|].
    intros [|k] b Hk; simpl in *; [inversion Hk; subst; auto|]. apply H; auto.
Qed.

Lemma in_cells_ex axes x : length x = length axes -> Forall (good_axis 2) axes ->
  exists os, in_cells axes x os.
Proof.
  intros L H. revert x L. induction H as [|a axes (Ha & Hn) H IH]; intros x L.
  - destruct x; [|discriminate]. exists []. split; auto. split; auto. intros [|k] b Hk; discriminate.
  - destruct x as [|x0 x]; [discriminate|]. destruct (IH x ltac:(simpl in L; lia)) as (os & Ho).
    destruct (in_cell_ex a Hn x0) as (o & Hc). exists (o :: os). apply in_cells_cons; auto.
Qed.

(** ** C01 *)
Lemma corner_sum_cons V o os t ts :
  corner_sum V (o :: os) (t :: ts)
  = (1 - t) * corner_sum (fun idx => V (o :: idx)) os ts
    + t * corner_sum (fun idx => V ((o + 1)%Z :: idx)) os ts.
Proof.
  unfold corner_sum. simpl length. cbn [corners]. rewrite map_app, Rsum_app, !map_map.
  rewrite <- !Rsum_mult. f_equal; apply Rsum_ext; intros b _; cbn [corner_weight corner_index]; ring.
Qed.

Lemma lin_corner_sum axes x os V : Forall (good_axis 2) axes -> in_cells axes x os ->
  tenL (ops1 lin1 axes x) V = corner_sum V os (local_coords axes x os).
Proof.
  intros H. revert x os V. induction H as [|a axes (Ha & Hn) H IH]; intros x os V Hc;
    assert (Hc' := Hc); destruct Hc' as (L1 & L2 & _).
  - destruct x; [|discriminate]. destruct os; [|discriminate]. unfold corner_sum. simpl. ring.
  - destruct x as [|x0 x]; [discriminate|]. destruct os as [|o os]; [discriminate|].
    apply in_cells_cons in Hc as (Hc0 & Hc). cbn [local_coords]. rewrite corner_sum_cons.
    unfold ops1. cbn [combine map tenL fst snd]. fold (ops1 lin1 axes x).
    rewrite (lin1_weights Ha Hn _ Hc0). rewrite !(IH x os) by auto. reflexivity.
Qed.

Theorem C01_proof c vals axes dom eval x os : multilinear c vals axes dom eval ->
  in_cells axes x os -> dom x ->
  eval x = Ok (corner_sum (entry 0 (map npts axes) vals) os (local_coords axes x os)).
Proof.
  intros H Hc Hd. destruct (multilinear_value H) as (G & _ & E). rewrite E by (auto; apply Hc).
  f_equal. apply lin_corner_sum; auto.
Qed.

(** ** Reproduction *)
Lemma tenL_samples axes Ls vals f : lfs (map npts axes) Ls -> samples axes vals f ->
  tenL Ls (entry 0 (map npts axes) vals) = tenL Ls (fun idx => f (node_pos axes idx)).
Proof. intros H Hs. apply (tenL_ext _ _ H). intros idx Hi. apply Hs; auto. Qed.

Lemma ops1_exact (P : (R -> R) -> Prop) (op : axis -> R -> (Z -> R) -> R) axes x :
  length x = length axes ->
  (forall k a, nth_error axes k = Some a -> forall h, P h -> op a (nth k x 0) (fun i => h (coord a i)) = h (nth k x 0)) ->
  Forall2 (fun p L => forall h, P h -> L (fun i => h (coord (fst p) i)) = h (snd p))
     (combine axes x) (ops1 op axes x).
Proof.
  revert x. induction axes as [|a axes IH]; intros x L H; [constructor|].
  destruct x as [|x0 x]; [discriminate|]. simpl. constructor.
  - apply (H 0%nat a eq_refl).
  - apply IH; [simpl in L; lia|]. intros k b Hk. apply (H (S k) b Hk).
Qed.

Lemma lfs_axes axes Ls : lfs (map npts axes) Ls -> Forall2 (fun a L => lf (npts a) L) axes Ls.
Proof.
  revert Ls. induction axes; intros Ls H; inversion H; subst; constructor; auto.
Qed.

Lemma lf_ext_all d L f g : lf d L -> (forall i, f i = g i) -> L f = L g.
Proof. intros H E. apply (lf_ext _ _ H). auto. Qed.

Lemma good_nth (P : axis -> Prop) (axes : list axis) k a : Forall P axes -> nth_error axes k = Some a -> P a.
Proof. intros H Hk. rewrite Forall_forall in H. apply H. eapply nth_error_In; eauto. Qed.

Theorem C02_proof c vals axes dom eval f x : multilinear c vals axes dom eval ->
  affine_in_each (length axes) f -> samples axes vals f ->
  length x = length axes -> dom x -> eval x = Ok (f x).
Proof.
  intros H Hf Hs Lx Hd. destruct (multilinear_value H) as (G & _ & E). rewrite E by auto. f_equal.
  assert (HL := good_lin x Lx G). rewrite (tenL_samples HL Hs).
  apply (@tenL_exact (fun h => exists a b, forall t, h t = a + b * t)); auto.
  - apply lfs_axes; auto.
  - apply ops1_exact; auto. intros k a Hk h (u & v & Eh).
    destruct (good_nth _ G Hk) as (Ha & Hn).
    rewrite (lf_ext_all _ (fun i => u + v * coord a i) (lin1_lf Ha Hn _)) by auto.
    rewrite lin1_exact by auto. auto.
Qed.

Theorem C06_proof_quadratic c lin vals axes dom eval f x : multicubic c lin vals axes dom eval ->
  quadratic_in_each (length axes) f -> samples axes vals f ->
  length x = length axes -> dom x -> inside_grid axes x \/ lin = false -> eval x = Ok (f x).
Proof.
  intros H Hf Hs Lx Hd Hx. destruct (multicubic_value H) as (G & _ & E). rewrite E by auto. f_equal.
  assert (HL := good_cub lin x Lx G). rewrite (tenL_samples HL Hs).
  apply (@tenL_exact (fun h => exists a b c, forall t, h t = a + b * t + c * t * t)); auto.
  - apply lfs_axes; auto.
  - apply ops1_exact; auto. intros k a Hk h (u & v & w & Eh).
    destruct (good_nth _ G Hk) as (Ha & Hn).
    rewrite (lf_ext_all _ (fun i => u + v * coord a i + w * coord a i * coord a i) (cub1_lf Ha Hn lin _)) by auto.
    rewrite cub1_quad; auto. destruct Hx as [Hx|Hx]; auto. left. apply Hx; auto.
Qed.

Theorem C06_proof_affine c lin vals axes dom eval f x : multicubic c lin vals axes dom eval ->
  affine_in_each (length axes) f -> samples axes vals f ->
  length x = length axes -> dom x -> eval x = Ok (f x).
Proof.
  intros H Hf Hs Lx Hd. destruct (multicubic_value H) as (G & _ & E). rewrite E by auto. f_equal.
  assert (HL := good_cub lin x Lx G). rewrite (tenL_samples HL Hs).
  apply (@tenL_exact (fun h => exists a b, forall t, h t = a + b * t)); auto.
  - apply lfs_axes; auto.
  - apply ops1_exact; auto. intros k a Hk h (u & v & Eh).
    destruct (good_nth _ G Hk) as (Ha & Hn).
    rewrite (lf_ext_all _ (fun i => u + v * coord a i) (cub1_lf Ha Hn lin _)) by auto.
    rewrite cub1_affine by auto. auto.
Qed.

(** ** Points inside the grid can be evaluated *)
Lemma inside_reg dims starts steps x : length starts = length dims -> length steps = length dims ->
  steps_pos steps -> inside_grid (reg_axes dims starts steps) x ->
  Forall (fun d => (d <= isize_max)%Z) dims ->
  cell_fits (isize_min + 1) starts steps x.
Proof.
  intros L1 L2 Hs (Lx & Hx) Hd k Hk.
  rewrite reg_axes_length in Lx by auto.
  assert (Hk' : (k < length dims)%nat) by lia.
  assert (E := reg_axes_nth dims starts steps L1 L2 Hk').
  assert (Hh : 0 < nth k steps 0) by (apply (Forall_nth_lt 0 Hs); lia).
  assert (Hm : (nth k dims 0 <= isize_max)%Z) by (apply (Forall_nth_lt 0%Z Hd); lia).
  specialize (Hx k (nth k (reg_axes dims starts steps) ax0)).
  rewrite (nth_error_nth' _ ax0) in Hx by (rewrite reg_axes_length; auto).
  specialize (Hx eq_refl). rewrite E in Hx. cbn [coord npts] in Hx.
  set (h := nth k steps 0) in *. set (s := nth k starts 0) in *. set (v := nth k x 0) in *.
  set (q := (v - s) / h). assert (Eq : v = s + h * q) by (unfold q; field; lra).
  rewrite minus_IZR in Hx.
  assert (Q0 : 0 <= q) by nra. assert (Q1 : q <= IZR (nth k dims 0%Z) - 1) by nra.
  apply IZR_le in Hm. rewrite (plus_IZR isize_max). split; [|lra].
  apply Rle_trans with 0; auto. apply IZR_le. unfold isize_min. lia.
Qed.

Lemma fits_weaken starts steps x : cell_fits (isize_min + 1) starts steps x -> cell_fits isize_min starts steps x.
Proof.
  intros H k Hk. destruct (H k Hk) as (H1 & H2). split; auto. eapply Rle_trans; [|apply H1]. apply IZR_le. lia.
Qed.

Lemma wf_bounds FP (s : regular R) : (1 <= FP)%Z -> reg_wf FP s -> Forall (fun d => (d <= isize_max)%Z) (r_dims s).
Proof.
  intros HF (W0 & W1 & W2 & W3 & W4). apply Forall_forall. intros d Hd.
  apply (In_nth _ _ 0%Z) in Hd as (k & Hk & <-). eapply dims_bound; eauto.
  eapply Forall_le_1; eauto.
Qed.

Lemma multilinear_inside c vals axes dom eval x : multilinear c vals axes dom eval ->
  inside_grid axes x -> dom x.
Proof.
  intros [dims starts steps s Hi Hn|m dims starts steps s Hi Hn|grids s Hi Hg Hn|m grids s Hi Hg Hn] Hx;
    try exact I.
  - destruct Hi as (I1 & I2 & I3 & I4) eqn:EI. clear EI. apply fits_weaken. apply (@inside_reg dims); auto.
    + eapply steps_mlr; eauto.
    + destruct (mlr_new_inv ROps Hi Hn) as (W & ->). apply (@wf_bounds 2 _ ltac:(lia) W).
  - destruct Hi as (I1 & I2 & I3 & I4) eqn:EI. clear EI. apply fits_weaken. apply (@inside_reg dims); auto.
    + eapply steps_mlrr; eauto.
    + destruct (mlrr_new_inv ROps m Hi Hn) as (W & -> & _). apply (@wf_bounds 2 _ ltac:(lia) W).
Qed.

Lemma multicubic_inside c lin vals axes dom eval x : multicubic c lin vals axes dom eval ->
  inside_grid axes x -> dom x.
Proof.
  intros [dims starts steps s Hi Hn|m dims starts steps s Hi Hn|grids s Hi Hg Hn|m grids s Hi Hg Hn] Hx;
    try exact I.
  - destruct Hi as (I1 & I2 & I3 & I4) eqn:EI. clear EI. apply (@inside_reg dims); auto.
    + eapply steps_mcr; eauto.
    + destruct (mcr_new_inv ROps lin Hi Hn) as (W & ->). apply (@wf_bounds 4 _ ltac:(lia) W).
  - destruct Hi as (I1 & I2 & I3 & I4) eqn:EI. clear EI. apply (@inside_reg dims); auto.
    + eapply steps_mcrr; eauto.
    + destruct (mcrr_new_inv ROps m lin Hi Hn) as (W & -> & _). apply (@wf_bounds 4 _ ltac:(lia) W).
Qed.

Lemma node_inside FP axes idx : (1 <= FP)%Z -> Forall (good_axis FP) axes -> in_shape (map npts axes) idx ->
  inside_grid axes (node_pos axes idx).
Proof.
  intros HF H. revert idx. induction H as [|a axes (Ha & Hn) H IH]; intros idx Hi; inversion Hi; subst.
  - split; auto. intros [|k] b Hk; discriminate.
  - destruct (IH l' H4) as (L & Hx). split; [simpl; lia|]. intros [|k] b Hk; simpl in *.
    + inversion Hk; subst b. split; apply axis_le; auto; lia.
    + apply Hx; auto.
Qed.

(** ** C03 *)
Lemma ops1_select op axes idx : 
  (forall k a, nth_error axes k = Some a -> forall i f, (0 <= i < npts a)%Z -> op a (coord a i) f = f i) ->
  in_shape (map npts axes) idx ->
  Forall2 (fun L i => forall f, L f = f i) (ops1 op axes (node_pos axes idx)) idx.
Proof.
  revert idx. induction axes as [|a axes IH]; intros idx H Hi; inversion Hi; subst; simpl; constructor.
  - intros f. apply (H 0%nat a eq_refl). auto.
  - apply IH; auto. intros k b Hk. apply (H (S k) b Hk).
Qed.

Theorem C03_proof_linear c vals axes dom eval idx : multilinear c vals axes dom eval ->
  in_shape (map npts axes) idx ->
  eval (node_pos axes idx) = Ok (entry 0 (map npts axes) vals idx).
Proof.
  intros H Hi. destruct (multilinear_value H) as (G & _ & E).
  assert (Hn := node_inside (FP := 2) ltac:(lia) G Hi). assert (Lx := proj1 Hn).
  rewrite E by (auto; eapply multilinear_inside; eauto). f_equal.
  apply (tenL_select _ (good_lin _ Lx G)). apply ops1_select; auto.
  intros k a Hk i f Hr. destruct (good_nth _ G Hk) as (Ha & Hn2). apply lin1_node; auto.
Qed.

Theorem C03_proof_cubic c lin vals axes dom eval idx : multicubic c lin vals axes dom eval ->
  in_shape (map npts axes) idx ->
  eval (node_pos axes idx) = Ok (entry 0 (map npts axes) vals idx).
Proof.
  intros H Hi. destruct (multicubic_value H) as (G & _ & E).
  assert (Hn := node_inside (FP := 4) ltac:(lia) G Hi). assert (Lx := proj1 Hn).
  rewrite E by (auto; eapply multicubic_inside; eauto). f_equal.
  apply (tenL_select _ (good_cub lin _ Lx G)). apply ops1_select; auto.
  intros k a Hk i f Hr. destruct (good_nth _ G Hk) as (Ha & Hn2). apply cub1_node; auto.
Qed.

(** ** C04 *)
Lemma in_cells_inside axes x os : Forall (good_axis 2) axes -> in_cells axes x os -> inside_grid axes x ->
  forall k a, nth_error axes k = Some a ->
    coord a (nth k os 0%Z) <= nth k x 0 <= coord a (nth k os 0 + 1)%Z.
Proof.
  intros G (L1 & L2 & Hc) (_ & Hx) k a Hk. destruct (Hc k a Hk) as (H1 & H2 & H3).
  specialize (Hx k a Hk). split.
  - destruct H2 as [->|]; lra.
  - destruct H3 as [->|]; [|lra]. replace (npts a - 2 + 1)%Z with (npts a - 1)%Z by lia. lra.
Qed.

Lemma lin_bounds axes x os V m M : Forall (good_axis 2) axes -> in_cells axes x os ->
  (forall k a, nth_error axes k = Some a -> coord a (nth k os 0%Z) <= nth k x 0 <= coord a (nth k os 0 + 1)%Z) ->
  (forall b, In b (corners (length os)) -> m <= V (corner_index os b) <= M) ->
  m <= tenL (ops1 lin1 axes x) V <= M.
Proof.
  intros H. revert x os V. induction H as [|a axes (Ha & Hn) H IH]; intros x os V Hc Hx HV;
    assert (Hc' := Hc); destruct Hc' as (L1 & L2 & _).
  - destruct x; [|discriminate]. destruct os; [|discriminate]. apply (HV []). left; auto.
  - destruct x as [|x0 x]; [discriminate|]. destruct os as [|o os]; [discriminate|].
    apply in_cells_cons in Hc as (Hc0 & Hc).
    unfold ops1. cbn [combine map tenL fst snd]. fold (ops1 lin1 axes x).
    apply (@lin1_bounds a Ha Hn x0 _ o).
    + apply Hc0.
    + apply (Hx 0%nat a eq_refl).
    + intros i Hi. apply (IH x os (fun idx => V (i :: idx)) Hc).
      * intros k b Hk. apply (Hx (S k) b Hk).
      * intros b Hb. destruct (Z.eq_dec i o) as [->|Hne].
        { apply (HV (false :: b)). simpl. apply in_or_app. left. apply in_map; auto. }
        { replace i with (o + 1)%Z by lia.
          apply (HV (true :: b)). simpl. apply in_or_app. right. apply in_map; auto. }
Qed.

Theorem C04_proof c vals axes dom eval x os m M : multilinear c vals axes dom eval ->
  inside_grid axes x -> in_cells axes x os ->
  (forall b, In b (corners (length os)) -> m <= entry 0 (map npts axes) vals (corner_index os b) <= M) ->
  exists r, eval x = Ok r /\ m <= r <= M.
Proof.
  intros H Hx Hc HV. destruct (multilinear_value H) as (G & _ & E).
  eexists. split; [apply E; [apply Hx|eapply multilinear_inside; eauto]|].
  apply (lin_bounds (os := os)); auto. apply in_cells_inside; auto.
Qed.

Lemma corner_in_shape axes x os b : in_cells axes x os -> In b (corners (length os)) ->
  in_shape (map npts axes) (corner_index os b).
Proof.
  revert x os b. induction axes as [|a axes IH]; intros x os b Hc Hb;
    assert (Hc' := Hc); destruct Hc' as (L1 & L2 & _).
  - destruct os; [|discriminate]. constructor.
  - destruct x as [|x0 x]; [discriminate|]. destruct os as [|o os]; [discriminate|].
    apply in_cells_cons in Hc as (Hc0 & Hc). simpl in Hb.
    apply in_app_or in Hb as [Hb|Hb]; apply in_map_iff in Hb as (b' & <- & Hb); simpl; constructor;
      try (destruct Hc0; lia); eapply IH; eauto.
Qed.

Lemma cindex_range dims idx : in_shape dims idx -> (0 <= cindex dims idx < zprod dims)%Z.
Proof.
  induction 1 as [|d i ds is Hd H IH]; simpl; [lia|]. fold (zprod ds). nia.
Qed.

Lemma entry_in dims vals idx : in_shape dims idx -> zlen vals = zprod dims -> In (entry 0 dims vals idx) vals.
Proof. intros H E. apply nth_In. assert (R := cindex_range H). unfold zlen in E. lia. Qed.

Theorem C04_proof_global c vals axes dom eval x m M : multilinear c vals axes dom eval ->
  inside_grid axes x -> Forall (fun v => m <= v <= M) vals ->
  exists r, eval x = Ok r /\ m <= r <= M.
Proof.
  intros H Hx HV. destruct (multilinear_value H) as (G & Lv & E).
  destruct (in_cells_ex x (proj1 Hx) G) as (os & Hc).
  refine (@C04_proof c vals axes dom eval x os m M H Hx Hc _). intros b Hb. rewrite Forall_forall in HV. apply HV.
  apply entry_in; auto. eapply corner_in_shape; eauto.
Qed.

(** ** C05, C07, C08 *)
Lemma good_ops FP axes (op : axis -> op1) : Forall (good_axis FP) axes ->
  (forall a, good_axis FP a -> op_cont (npts a) (op a)) ->
  Forall2 op_cont (map npts axes) (map op axes).
Proof. intros H Ho. induction H; simpl; constructor; auto. Qed.

Theorem C05_proof c vals axes dom eval : multilinear c vals axes dom eval ->
  exists F, (forall x, length x = length axes -> dom x -> eval x = Ok (F x)) /\
    forall x, length x = length axes -> continuous_at (length axes) F x.
Proof.
  intros H. destruct (multilinear_value H) as (G & _ & E).
  exists (fun x => tenL (ops1 lin1 axes x) (entry 0 (map npts axes) vals)). split; auto.
  intros x Lx. eapply cont_ext; [auto|intros y _; rewrite ops1_app; reflexivity|].
  rewrite <- (map_length lin1 axes). apply (@tenL_continuous (map npts axes)).
  - apply (good_ops lin1 G). intros a (Ha & Hn). split; [intros; apply lin1_lf; auto|].
    intros. apply lin1_continuous; auto.
  - rewrite map_length. auto.
Qed.

Theorem C08_proof c lin vals axes dom eval : multicubic c lin vals axes dom eval ->
  exists F, (forall x, length x = length axes -> dom x -> eval x = Ok (F x)) /\
    (forall x, length x = length axes -> continuous_at (length axes) F x) /\
    continuously_differentiable (length axes) F.
Proof.
  intros H. destruct (multicubic_value H) as (G & _ & E).
  exists (fun x => tenL (app_ops (map (cub1 lin) axes) x) (entry 0 (map npts axes) vals)). 
  assert (HO : Forall2 op_cont (map npts axes) (map (cub1 lin) axes)).
  { apply (good_ops (cub1 lin) G). intros a (Ha & Hn). split; [intros; apply cub1_lf; auto|].
    intros. apply cub1_continuous; auto. }
  split; [|split].
  - intros x Lx Hd. rewrite <- ops1_app. auto.
  - intros x Lx. rewrite <- (map_length (cub1 lin) axes).
    apply (@tenL_continuous (map npts axes)); auto. rewrite map_length. auto.
  - rewrite <- (map_length (cub1 lin) axes).
    apply (@tenL_C1 (map npts axes) _ (map (cub1' lin) axes)).
    + clear -HO. induction HO as [|d op ds ops (Ho & _) HO IH]; constructor; auto.
    + rewrite !map_length. auto.
    + intros k Hk. rewrite map_length in Hk. cbv zeta.
      rewrite (nth_indep (map (cub1 lin) axes) _ (cub1 lin ax0)) by (rewrite map_length; auto).
      rewrite (nth_indep (map (cub1' lin) axes) _ (cub1' lin ax0)) by (rewrite map_length; auto).
      rewrite (nth_indep (map npts axes) _ (npts ax0)) by (rewrite map_length; auto).
      rewrite !map_nth.
      destruct (@good_nth (good_axis 4) axes k (nth k axes ax0) G (nth_error_nth' axes ax0 Hk)) as (Ha & Hn).
      split; [intros; apply cub1_lf'; auto|]. split; [intros; apply cub1_derivable; auto|].
      split; [intros; apply cub1_continuous; auto|intros; apply cub1_continuous'; auto].
Qed.

(** ** C09 *)
Definition parabola (a b c t : R) : R := a + b * t + c * t * t.

Lemma low_parabola_form a f : exists u v w, forall t, low_parabola a f t = parabola u v w t.
Proof.
  unfold low_parabola, parabola.
  set (q := (dd (coord a) f 1 - dd (coord a) f 0) / (coord a 2 - coord a 0)).
  exists (f 0%Z - coord a 0 * (dd (coord a) f 0 - coord a 1 * q)),
    (dd (coord a) f 0 - coord a 1 * q - coord a 0 * q), q.
  intros t. ring.
Qed.

Lemma high_parabola_form a f : exists u v w, forall t, high_parabola a f t = parabola u v w t.
Proof.
  unfold high_parabola, parabola.
  set (q := (dd (coord a) f (npts a - 2) - dd (coord a) f (npts a - 3)) / (coord a (npts a - 1) - coord a (npts a - 3))).
  exists (f (npts a - 1)%Z - coord a (npts a - 1) * (dd (coord a) f (npts a - 2) - coord a (npts a - 2) * q)),
    (dd (coord a) f (npts a - 2) - coord a (npts a - 2) * q - coord a (npts a - 1) * q), q.
  intros t. ring.
Qed.

(** The 1-D statement at the low end and at the high end. *)
Lemma cub1_low_shape lin a f : good_axis 4 a -> exists u v w,
  forall t, t <= coord a 1 ->
  cub1 lin a t f = if lin && (if Rlt_dec t (coord a 0) then true else false)
    then parabola u v w (coord a 0) + (v + 2 * w * coord a 0) * (t - coord a 0)
    else parabola u v w t.
Proof.
  intros (Ha & Hn). destruct (low_parabola_form a f) as (u & v & w & Ep).
  exists u, v, w. intros t Ht.
  assert (G0 : 0 < gap (coord a) 0) by (apply axis_gap; auto; lia).
  assert (G1 : 0 < gap (coord a) 1) by (apply axis_gap; auto; lia). unfold gap in *.
  simpl Z.add in *.
  assert (Hc : in_cell a t 0) by (split; [lia|]; split; [auto|right; exact Ht]).
  destruct lin; [destruct (Rlt_dec t (coord a 0)) as [Hlt|Hge]|]; cbn [andb].
  - rewrite cub1_low by (auto; lra).
    rewrite <- Ep. f_equal; [unfold low_parabola; ring|]. f_equal.
    assert (D1 := Ep (coord a 0)). assert (D2 := Ep (coord a 0 + 1)). assert (D3 := Ep (coord a 0 - 1)).
    assert (Ds : slope a f 0 = (low_parabola a f (coord a 0 + 1) - low_parabola a f (coord a 0 - 1)) / 2).
    { unfold slope, low_parabola. replace (0 =? 0)%Z with true by lia.
      unfold mid_slope, dd, gap. simpl Z.add. simpl Z.sub. simpl Z.add. field. lra. }
    rewrite Ds, D2, D3. unfold parabola. field.
  - rewrite (@cub1_herm a Ha Hn true f t 0 Hc).
    + rewrite herm_low by auto. apply Ep.
    + left. split; [lra|]. eapply Rle_trans; [exact Ht|]. apply axis_le; auto; lia.
  - rewrite (@cub1_herm a Ha Hn false f t 0 Hc) by auto. rewrite herm_low by auto. apply Ep.
Qed.

Lemma cub1_high_shape lin a f : good_axis 4 a -> exists u v w,
  forall t, coord a (npts a - 2) <= t ->
  cub1 lin a t f = if lin && (if Rlt_dec (coord a (npts a - 1)) t then true else false)
    then parabola u v w (coord a (npts a - 1)) + (v + 2 * w * coord a (npts a - 1)) * (t - coord a (npts a - 1))
    else parabola u v w t.
Proof.
  intros (Ha & Hn). destruct (high_parabola_form a f) as (u & v & w & Ep).
  exists u, v, w. intros t Ht.
  assert (G0 : 0 < gap (coord a) (npts a - 3)) by (apply axis_gap; auto; lia).
  assert (G1 : 0 < gap (coord a) (npts a - 2)) by (apply axis_gap; auto; lia). unfold gap in *.
  replace (npts a - 3 + 1)%Z with (npts a - 2)%Z in * by lia.
  replace (npts a - 2 + 1)%Z with (npts a - 1)%Z in * by lia.
  assert (Hc : in_cell a t (npts a - 2)) by (split; [lia|]; split; [right; exact Ht|auto]).
  set (e := coord a (npts a - 1)) in *.
  destruct lin; [destruct (Rlt_dec e t) as [Hlt|Hge]|]; cbn [andb].
  - rewrite cub1_high by (auto; fold e; lra). fold e.
    rewrite <- Ep. f_equal; [unfold high_parabola; fold e; ring|]. f_equal.
    assert (D2 := Ep (e + 1)). assert (D3 := Ep (e - 1)).
    assert (Ds : slope a f (npts a - 1) = (high_parabola a f (e + 1) - high_parabola a f (e - 1)) / 2).
    { unfold slope, high_parabola. replace (npts a - 1 =? 0)%Z with false by lia.
      rewrite Z.eqb_refl.
      unfold mid_slope, dd, gap. replace (npts a - 2 + 1)%Z with (npts a - 1)%Z in * by lia.
      replace (npts a - 2 - 1)%Z with (npts a - 3)%Z in * by lia.
      replace (npts a - 3 + 1)%Z with (npts a - 2)%Z in * by lia. fold e. field. lra. }
    rewrite Ds, D2, D3. unfold parabola. field.
  - rewrite (@cub1_herm a Ha Hn true f t (npts a - 2) Hc).
    + rewrite herm_high by auto. apply Ep.
    + left. fold e. split; [|lra]. eapply Rle_trans; [|exact Ht]. apply axis_le; auto; lia.
  - rewrite (@cub1_herm a Ha Hn false f t (npts a - 2) Hc) by auto. rewrite herm_high by auto. apply Ep.
Qed.

Lemma cub_line lin axes x k V : Forall (good_axis 4) axes -> length x = length axes ->
  (k < length axes)%nat ->
  exists f, forall t, tenL (ops1 (cub1 lin) axes (upd x k t)) V = cub1 lin (nth k axes ax0) t f.
Proof.
  intros G Lx Hk.
  destruct (@tenL_line (map npts axes) (map (cub1 lin) axes) x k V) as (f & Ef).
  - clear -G. induction G as [|a axes (Ha & Hn) G IH]; simpl; constructor; auto. intros; apply cub1_lf; auto.
  - rewrite map_length; auto.
  - rewrite map_length; auto.
  - exists f. intros t. rewrite ops1_app, Ef.
    rewrite (nth_indep (map (cub1 lin) axes) _ (cub1 lin ax0)) by (rewrite map_length; auto).
    rewrite map_nth. reflexivity.
Qed.

Lemma nth_error_ax0 axes k a : nth_error axes k = Some a -> nth k axes ax0 = a /\ (k < length axes)%nat.
Proof.
  intros H. split; [apply nth_error_nth; auto|]. apply nth_error_Some. congruence.
Qed.

Theorem C09_proof_low c lin vals axes dom eval x k a : multicubic c lin vals axes dom eval ->
  length x = length axes -> nth_error axes k = Some a ->
  exists u v w, forall t, t <= coord a 1 -> dom (upd x k t) ->
    (coord a 0 <= t \/ lin = false -> eval (upd x k t) = Ok (u + v * t + w * t * t)) /\
    (t <= coord a 0 -> lin = true -> eval (upd x k t)
       = Ok (u + v * coord a 0 + w * coord a 0 * coord a 0 + (v + 2 * w * coord a 0) * (t - coord a 0))).
Proof.
  intros H Lx Hk. destruct (multicubic_value H) as (G & _ & E).
  destruct (nth_error_ax0 _ _ Hk) as (En & Hk').
  destruct (cub_line lin x (entry 0 (map npts axes) vals) G Lx Hk') as (f & Ef). rewrite En in Ef.
  destruct (cub1_low_shape lin f (good_nth _ G Hk)) as (u & v & w & Es).
  exists u, v, w. intros t Ht Hd. rewrite E by (rewrite ?upd_length; auto). rewrite Ef, Es by auto.
  destruct (Rlt_dec t (coord a 0)); split; intros H1.
  - destruct H1 as [H1|H1]; [lra|]. rewrite H1. reflexivity.
  - intros ->. reflexivity.
  - rewrite andb_false_r. reflexivity.
  - intros _. rewrite andb_false_r. assert (t = coord a 0) by lra. subst t. unfold parabola. f_equal. ring.
Qed.

Theorem C09_proof_high c lin vals axes dom eval x k a : multicubic c lin vals axes dom eval ->
  length x = length axes -> nth_error axes k = Some a ->
  let e := coord a (npts a - 1) in
  exists u v w, forall t, coord a (npts a - 2) <= t -> dom (upd x k t) ->
    (t <= e \/ lin = false -> eval (upd x k t) = Ok (u + v * t + w * t * t)) /\
    (e <= t -> lin = true -> eval (upd x k t) = Ok (u + v * e + w * e * e + (v + 2 * w * e) * (t - e))).
Proof.
  intros H Lx Hk e. destruct (multicubic_value H) as (G & _ & E).
  destruct (nth_error_ax0 _ _ Hk) as (En & Hk').
  destruct (cub_line lin x (entry 0 (map npts axes) vals) G Lx Hk') as (f & Ef). rewrite En in Ef.
  destruct (cub1_high_shape lin f (good_nth _ G Hk)) as (u & v & w & Es).
  exists u, v, w. intros t Ht Hd. rewrite E by (rewrite ?upd_length; auto). rewrite Ef, Es by auto. fold e.
  destruct (Rlt_dec e t); split; intros H1.
  - destruct H1 as [H1|H1]; [lra|]. rewrite H1. reflexivity.
  - intros ->. reflexivity.
  - rewrite andb_false_r. reflexivity.
  - intros _. rewrite andb_false_r. assert (t = e) by lra. subst t. unfold parabola. f_equal. ring.
Qed.

(** ** Same grid, same result *)
Lemma same_axis_sym a b : same_axis a b -> same_axis b a.
Proof. intros (H1 & H2). split; auto. intros i Hi. symmetry. apply H2. lia. Qed.

Lemma same_in_cell a b x o : same_axis a b -> in_cell a x o -> in_cell b x o.
Proof.
  intros (E & Ec) (H1 & H2 & H3). split; [lia|]. split.
  - destruct H2; auto. right. rewrite <- Ec; auto; lia.
  - destruct H3; [left; lia|]. right. rewrite <- Ec; auto; lia.
Qed.

Lemma same_lin1 a b x f : good_axis 2 a -> good_axis 2 b -> same_axis a b -> lin1 a x f = lin1 b x f.
Proof.
  intros (Ha & Hna) (Hb & Hnb) S. destruct (in_cell_ex a Hna x) as (o & Ho).
  rewrite (lin1_eq Ha Hna f Ho), (lin1_eq Hb Hnb f (same_in_cell S Ho)).
  destruct S as (E & Ec). destruct Ho as (Ho & _). unfold lin_piece, dd. rewrite !Ec by lia. reflexivity.
Qed.

Lemma same_slope a b f i : (4 <= npts a)%Z -> same_axis a b -> (0 <= i < npts a)%Z -> slope a f i = slope b f i.
Proof.
  intros Hn (E & Ec) Hi. unfold slope, mid_slope, gap, dd. rewrite <- E.
  destruct (Z.eqb_spec i 0) as [->|]; [|destruct (Z.eqb_spec i (npts a - 1)) as [->|]];
    rewrite !Ec by lia; reflexivity.
Qed.

Lemma same_herm a b f j x : (4 <= npts a)%Z -> same_axis a b -> (0 <= j <= npts a - 2)%Z ->
  herm_piece a f j x = herm_piece b f j x.
Proof.
  intros Hn S Hj. unfold herm_piece, gap, dd. rewrite !(same_slope f Hn S) by lia.
  destruct S as (E & Ec). rewrite !Ec by lia. reflexivity.
Qed.

Lemma same_cub1 lin a b x f : good_axis 4 a -> good_axis 4 b -> same_axis a b -> cub1 lin a x f = cub1 lin b x f.
Proof.
  intros (Ha & Hna) (Hb & Hnb) S. 
  assert (E0 : coord a 0 = coord b 0) by (apply S; lia).
  assert (En : npts a = npts b) by apply S.
  assert (E1 : coord a (npts a - 1) = coord b (npts b - 1)) by (rewrite <- En; apply S; lia).
  destruct (in_cell_ex a ltac:(lia) x) as (o & Ho).
  assert (Ho' := same_in_cell S Ho).
  destruct (bool_dec lin true) as [El|El].
  - destruct (Rle_dec x (coord a 0)); [|destruct (Rle_dec (coord a (npts a - 1)) x)].
    + rewrite !cub1_low by (auto; lra). rewrite E0. rewrite (same_slope f Hna S) by lia. reflexivity.
    + rewrite !cub1_high by (auto; lra). rewrite <- E1, <- En. rewrite (same_slope f Hna S) by lia. reflexivity.
    + rewrite (@cub1_herm a Ha Hna lin f x o Ho) by (left; lra).
      rewrite (@cub1_herm b Hb Hnb lin f x o Ho') by (left; lra). apply same_herm; auto. apply Ho.
  - rewrite (@cub1_herm a Ha Hna lin f x o Ho) by (right; destruct lin; congruence).
    rewrite (@cub1_herm b Hb Hnb lin f x o Ho') by (right; destruct lin; congruence).
    apply same_herm; auto. apply Ho.
Qed.

Lemma tenL_ops_eq op op' axes axes' x V dims : 
  Forall2 (fun a b => forall t f, op a t f = op' b t f) axes axes' ->
  length x = length axes -> lfs dims (ops1 op axes x) ->
  tenL (ops1 op axes x) V = tenL (ops1 op' axes' x) V.
Proof.
  intros H. revert x V dims. induction H as [|a b axes axes' Hab H IH]; intros x V dims Lx HL.
  - destruct x; reflexivity.
  - destruct x as [|t x]; [discriminate|]. unfold ops1 in *. simpl in *.
    inversion HL as [|d L ds Ls HL0 HLs]; subst. rewrite <- Hab.
    apply (lf_ext _ _ HL0). intros i _. eapply IH; eauto.
Qed.

Lemma same_grid_npts axes axes' : same_grid axes axes' -> map npts axes = map npts axes'.
Proof. induction 1 as [|a b l l' (E & _)]; simpl; auto. f_equal; auto. Qed.

Lemma same_grid_good FP op axes axes' : 
  (forall a b t f, good_axis FP a -> good_axis FP b -> same_axis a b -> op a t f = op b t f) ->
  Forall (good_axis FP) axes -> Forall (good_axis FP) axes' -> same_grid axes axes' ->
  Forall2 (fun a b => forall (t : R) (f : Z -> R), (op a t f : R) = op b t f) axes axes'.
Proof.
  intros Ho H H' S. induction S as [|a b l l' Hab S IH]; constructor; inversion H; inversion H'; subst; auto.
Qed.

Theorem same_grid_linear c c' vals axes axes' dom dom' eval eval' x :
  multilinear c vals axes dom eval -> multilinear c' vals axes' dom' eval' ->
  same_grid axes axes' -> length x = length axes -> dom x -> dom' x -> eval x = eval' x.
Proof.
  intros H H' S Lx D D'. destruct (multilinear_value H) as (G & _ & E).
  destruct (multilinear_value H') as (G' & _ & E').
  rewrite E by auto. rewrite E' by (auto; rewrite <- (Forall2_len S); auto). f_equal.
  rewrite <- (same_grid_npts S). eapply tenL_ops_eq; eauto.
  - apply (same_grid_good lin1 same_lin1 G G' S).
  - apply good_lin; auto.
Qed.

Theorem same_grid_cubic c c' lin vals axes axes' dom dom' eval eval' x :
  multicubic c lin vals axes dom eval -> multicubic c' lin vals axes' dom' eval' ->
  same_grid axes axes' -> length x = length axes -> dom x -> dom' x -> eval x = eval' x.
Proof.
  intros H H' S Lx D D'. destruct (multicubic_value H) as (G & _ & E).
  destruct (multicubic_value H') as (G' & _ & E').
  rewrite E by auto. rewrite E' by (auto; rewrite <- (Forall2_len S); auto). f_equal.
  rewrite <- (same_grid_npts S). eapply tenL_ops_eq; eauto.
  - apply (same_grid_good (cub1 lin) (@same_cub1 lin) G G' S).
  - apply good_cub; auto.
Qed.

(** The flag has no effect inside. *)
Theorem C09_proof_inside c c' lin lin' vals axes dom dom' eval eval' x :
  multicubic c lin vals axes dom eval -> multicubic c' lin' vals axes dom' eval' ->
  inside_grid axes x -> eval x = eval' x.
Proof.
  intros H H' Hx. assert (D := multicubic_inside H Hx). assert (D' := multicubic_inside H' Hx).
  destruct (multicubic_value H) as (G & _ & E). destruct (multicubic_value H') as (_ & _ & E').
  rewrite E, E' by (auto; apply Hx). f_equal. clear -G Hx.
  set (V := entry 0 (map npts axes) vals). clearbody V. destruct Hx as (Lx & Hx).
  revert x V Lx Hx. induction G as [|a axes (Ha & Hn) G IH]; intros x V Lx Hx.
  - destruct x; [|discriminate]. reflexivity.
  - destruct x as [|t x]; [discriminate|]. unfold ops1. cbn [combine map tenL fst snd].
    destruct (in_cell_ex a ltac:(lia) t) as (j & Hj).
    assert (H0 := Hx 0%nat a eq_refl). cbn [nth] in H0.
    rewrite (@cub1_herm a Ha Hn lin _ t j Hj), (@cub1_herm a Ha Hn lin' _ t j Hj) by auto.
    rewrite <- !(@cub1_herm a Ha Hn lin' _ t j Hj) by auto.
    apply (lf_ext_all _ _ (cub1_lf Ha Hn lin' t)). intros i. apply IH.
    + simpl in Lx; lia.
    + intros k b Hk. apply (Hx (S k) b Hk).
Qed.
