(** Stability against errors in the data, monotonicity and slopes of the interpolants. *)
From Coq Require Import Reals Lra PeanoNat Bool ZifyBool ZifyNat.
From Verif Require Import Base Ops Spec CoreLemmas TensorLemmas SpecReal RTensor R1D RChar Interpolators REval RProofs RProofs2 RProofs3.
From Verif Require Import SpecApprox Approx1D Approx.
Unset Implicit Arguments.
Open Scope R_scope.

(** ** Errors in the data *)
Lemma within_nth e u v k : values_within e u v -> (k < length u)%nat -> Rabs (nth k u 0 - nth k v 0) <= e.
Proof.
  intros H. revert k. induction H; intros [|k] Hk; simpl in *; try lia; auto. apply IHForall2. lia.
Qed.

Lemma within_entry e u v dims idx : values_within e u v -> zlen u = zprod dims -> in_shape dims idx ->
  Rabs (entry 0 dims u idx - entry 0 dims v idx) <= e.
Proof.
  intros H L Hi. assert (B := cindex_range Hi). unfold entry. apply within_nth; auto. unfold zlen in L. lia.
Qed.

Lemma tenL_minus dims Ls V W : lfs dims Ls ->
  tenL Ls V - tenL Ls W = tenL Ls (fun idx => V idx - W idx).
Proof.
  intros H. rewrite (@tenL_ext dims Ls (fun idx => V idx - W idx) (fun idx => V idx + -1 * W idx) H)
    by (intros; ring).
  rewrite (tenL_plus _ _ H), (tenL_scal _ _ H). ring.
Qed.

Lemma lin_ops_norm axes x : Forall (good_axis 2) axes -> inside_grid axes x ->
  Forall2 (fun a L => forall v B, (forall i, (0 <= i < npts a)%Z -> Rabs (v i) <= B) -> Rabs (L v) <= 1 * B)
    axes (ops1 lin1 axes x).
Proof.
  intros G. revert x. induction G as [|a axes Ga G IH]; intros x Hx.
  - constructor.
  - destruct x as [|x0 x]; [destruct Hx; discriminate|]. apply inside_cons in Hx as (Hx0 & Hx).
    unfold ops1. cbn [combine map fst snd]. constructor; [|apply IH; auto].
    intros v B HB. apply lin1_norm; auto.
Qed.

Theorem lin_stable c c' u v axes dom dom' ev ev' x e :
  multilinear c u axes dom ev -> multilinear c' v axes dom' ev' -> inside_grid axes x ->
  values_within e u v ->
  exists r r', ev x = Ok r /\ ev' x = Ok r' /\ Rabs (r - r') <= e.
Proof.
  intros H H' Hx Hv. destruct (multilinear_value H) as (G & L & E). destruct (multilinear_value H') as (_ & L' & E').
  do 2 eexists. split; [apply E; [apply Hx|eapply multilinear_inside; eauto]|].
  split; [apply E'; [apply Hx|eapply multilinear_inside; eauto]|].
  rewrite (tenL_minus _ _ _ _ (good_lin x (proj1 Hx) G)).
  eapply Rle_trans; [apply (tenL_norm axes _ 1 _ e)|].
  - apply lin_ops_norm; auto.
  - intros idx Hi. apply within_entry; auto.
  - rewrite pow1. lra.
Qed.

Theorem cubic_stable c c' lin u v axes dom dom' ev ev' x e rho :
  multicubic c lin u axes dom ev -> multicubic c' lin v axes dom' ev' -> inside_grid axes x ->
  (forall a, In a axes -> spacing_ratio_at_most a rho) -> values_within e u v ->
  exists r r', ev x = Ok r /\ ev' x = Ok r' /\ Rabs (r - r') <= cubic_gain rho ^ length axes * e.
Proof.
  intros H H' Hx Hr Hv. destruct (multicubic_value H) as (G & L & E). destruct (multicubic_value H') as (_ & L' & E').
  do 2 eexists. split; [apply E; [apply Hx|eapply multicubic_inside; eauto]|].
  split; [apply E'; [apply Hx|eapply multicubic_inside; eauto]|].
  rewrite (tenL_minus _ _ _ _ (good_cub lin x (proj1 Hx) G)).
  apply tenL_norm; [apply cub_ops_norm; auto|]. intros idx Hi. apply within_entry; auto.
Qed.

Theorem nearest_stable c c' u v axes dom dom' ev ev' x e :
  nearest_nd c u axes dom ev -> nearest_nd c' v axes dom' ev' ->
  length x = length axes -> dom x -> dom' x -> values_within e u v ->
  exists r r', ev x = Ok r /\ ev' x = Ok r' /\ Rabs (r - r') <= e.
Proof.
  intros H H' Lx D D' Hv. destruct (nearest_value H) as (G & L & E). destruct (nearest_value H') as (_ & _ & E').
  destruct (E x Lx D) as (i & Hi & Er). destruct (E' x Lx D') as (j & Hj & Er').
  rewrite (nearest_nodes_unique Hj Hi) in Er'.
  do 2 eexists. split; [exact Er|]. split; [exact Er'|]. apply within_entry; auto.
  apply (nearest_nodes_shape Hi).
Qed.

(** ** Monotonicity along one axis *)
Definition nondec (n : Z) (v : Z -> R) : Prop := forall i, (0 <= i)%Z -> (i + 1 < n)%Z -> v i <= v (i + 1)%Z.

Lemma nondec_le n v : nondec n v -> forall i j, (0 <= i <= j)%Z -> (j < n)%Z -> v i <= v j.
Proof.
  intros H i j Hi Hj. replace j with (i + Z.of_nat (Z.to_nat (j - i)))%Z by lia.
  assert (B : (i + Z.of_nat (Z.to_nat (j - i)) < n)%Z) by lia. clear Hj. revert B.
  generalize (Z.to_nat (j - i)). induction n0 as [|m IH]; intros B; [rewrite Z.add_0_r; lra|].
  eapply Rle_trans; [apply IH; lia|]. replace (i + Z.of_nat (S m))%Z with (i + Z.of_nat m + 1)%Z by lia.
  apply H; lia.
Qed.

Lemma lin1_mono a v s t : good_axis 2 a -> nondec (npts a) v -> s <= t -> lin1 a s v <= lin1 a t v.
Proof.
  intros (Ha & Hn) Hv Hst.
  destruct (Rle_lt_or_eq_dec _ _ Hst) as [Hlt|Heq]; [|subst; lra].
  destruct (@in_cell_ex a Hn s) as (o & Ho). destruct (@in_cell_ex a Hn t) as (p & Hp).
  assert (D : forall i, (0 <= i <= npts a - 2)%Z -> 0 <= dd (coord a) v i).
  { intros i Hi. assert (G : 0 < gap (coord a) i) by (apply (axis_gap Ha); lia). unfold gap in G.
    unfold dd. apply Rmult_le_pos; [|left; apply Rinv_0_lt_compat; auto].
    assert (Q := Hv i ltac:(lia) ltac:(lia)). lra. }
  assert (Eq : forall i, (0 <= i <= npts a - 2)%Z ->
     v (i + 1)%Z = v i + dd (coord a) v i * (coord a (i + 1) - coord a i)).
  { intros i Hi. assert (G : 0 < gap (coord a) i) by (apply (axis_gap Ha); lia). unfold gap in G.
    unfold dd. field. lra. }
  rewrite (lin1_eq Ha Hn v Ho), (lin1_eq Ha Hn v Hp). destruct Ho as (O1 & O2 & O3). destruct Hp as (P1 & P2 & P3).
  destruct (Ztrichotomy o p) as [Hop|[Hop|Hop]].
  - destruct O3 as [-> | O3]; [lia|]. destruct P2 as [-> | P2]; [lia|].
    assert (U : lin_piece (coord a) v o s <= v (o + 1)%Z).
    { unfold lin_piece. rewrite (Eq o O1). assert (Q := D o O1). nra. }
    assert (W : v p <= lin_piece (coord a) v p t).
    { unfold lin_piece. assert (Q := D p P1). nra. }
    assert (X : v (o + 1)%Z <= v p) by (apply (nondec_le (npts a)); auto; lia). lra.
  - subst p. unfold lin_piece. assert (Q := D o O1). nra.
  - exfalso. destruct O2 as [-> | O2]; [lia|]. destruct P3 as [-> | P3]; [lia|].
    assert (coord a (p + 1) <= coord a o) by (apply (axis_le Ha); lia). lra.
Qed.

Lemma lin1_pos a x v w c : good_axis 2 a -> coord a 0 <= x <= coord a (npts a - 1) ->
  (forall i, (0 <= i < npts a)%Z -> v i <= w i + c) -> lin1 a x v <= lin1 a x w + c.
Proof.
  intros (Ha & Hn) Hx HE. destruct (@in_cell_ex a Hn x) as (o & Ho).
  assert (Hc : coord a o <= x <= coord a (o + 1)).
  { destruct Ho as (J1 & J2 & J3). split; [destruct J2 as [-> |]; lra|].
    destruct J3 as [-> |]; [|lra]. replace (npts a - 2 + 1)%Z with (npts a - 1)%Z by lia. lra. }
  destruct (local_point a Ha x o Ho Hc) as (_ & T & _).
  rewrite !(lin1_weights Ha Hn _ Ho). destruct Ho as (J & _).
  assert (Q1 := HE o ltac:(lia)). assert (Q2 := HE (o + 1)%Z ltac:(lia)).
  set (t := local_coord a x o) in *.
  replace ((1 - t) * w o + t * w (o + 1)%Z + c) with ((1 - t) * (w o + c) + t * (w (o + 1)%Z + c)) by ring.
  apply Rplus_le_compat; apply Rmult_le_compat_l; lra.
Qed.

Lemma in_shape_cons d ds i idx : in_shape (d :: ds) (i :: idx) <-> (0 <= i < d)%Z /\ in_shape ds idx.
Proof. split; [intros H; inversion H; auto|intros (H1 & H2); constructor; auto]. Qed.

Lemma tenL_pos axes x : Forall (good_axis 2) axes -> inside_grid axes x -> forall V W c,
  (forall idx, in_shape (map npts axes) idx -> V idx <= W idx + c) ->
  tenL (ops1 lin1 axes x) V <= tenL (ops1 lin1 axes x) W + c.
Proof.
  intros G. revert x. induction G as [|a axes Ga G IH]; intros x Hx V W c HV.
  - apply HV. constructor.
  - destruct x as [|x0 x]; [destruct Hx; discriminate|]. apply inside_cons in Hx as (Hx0 & Hx).
    unfold ops1. cbn [combine map tenL fst snd]. apply lin1_pos; auto. intros i Hi. apply IH; auto.
    intros idx Hs. apply HV. constructor; auto.
Qed.

(** The slice of the data along axis k, seen through the other axes, takes the steps of
    the data. *)
Lemma slice_step axes x k a : Forall (good_axis 2) axes -> inside_except axes k x -> nth_error axes k = Some a ->
  forall V c, (forall idx, in_shape (map npts axes) idx -> in_shape (map npts axes) (next_along k idx) ->
     V idx <= V (next_along k idx) + c (nth k idx 0%Z)) ->
  forall i, (0 <= i)%Z -> (i + 1 < npts a)%Z ->
  sliceV (ops1 lin1 axes x) k V i <= sliceV (ops1 lin1 axes x) k V (i + 1)%Z + c i.
Proof.
  intros G. revert x k. induction G as [|b axes Gb G IH]; intros x k Hx Hk V c HV; [destruct k; discriminate|].
  destruct Hx as (Lx & Hx). destruct x as [|x0 x]; [discriminate|]. simpl in Lx.
  unfold ops1. cbn [combine map fst snd]. fold (ops1 lin1 axes x).
  destruct k as [|k]; simpl in Hk.
  - injection Hk as ->. intros i Hi1 Hi2. cbn [sliceV]. apply tenL_pos; auto.
    + split; [lia|]. intros j d Hj. apply (Hx (S j) d); auto.
    + intros idx Hs. assert (Q := HV (i :: idx)). unfold next_along in Q. simpl in Q.
      apply Q; apply in_shape_cons; split; auto; lia.
  - intros i Hi1 Hi2. cbn [sliceV]. apply lin1_pos; auto; [apply (Hx 0%nat b); auto|].
    intros m Hm. refine (IH x k _ Hk (fun idx => V (m :: idx)) c _ i Hi1 Hi2).
    + split; [lia|]. intros j d Hj Hc. apply (Hx (S j) d); auto.
    + intros idx H1 H2. assert (Q := HV (m :: idx)). unfold next_along in *. simpl in Q.
      apply Q; apply in_shape_cons; split; auto.
Qed.

Lemma slice_step_up axes x k a : Forall (good_axis 2) axes -> inside_except axes k x -> nth_error axes k = Some a ->
  forall V c, (forall idx, in_shape (map npts axes) idx -> in_shape (map npts axes) (next_along k idx) ->
     V (next_along k idx) <= V idx + c (nth k idx 0%Z)) ->
  forall i, (0 <= i)%Z -> (i + 1 < npts a)%Z ->
  sliceV (ops1 lin1 axes x) k V (i + 1)%Z <= sliceV (ops1 lin1 axes x) k V i + c i.
Proof.
  intros G. revert x k. induction G as [|b axes Gb G IH]; intros x k Hx Hk V c HV; [destruct k; discriminate|].
  destruct Hx as (Lx & Hx). destruct x as [|x0 x]; [discriminate|]. simpl in Lx.
  unfold ops1. cbn [combine map fst snd]. fold (ops1 lin1 axes x).
  destruct k as [|k]; simpl in Hk.
  - injection Hk as ->. intros i Hi1 Hi2. cbn [sliceV]. apply tenL_pos; auto.
    + split; [lia|]. intros j d Hj. apply (Hx (S j) d); auto.
    + intros idx Hs. assert (Q := HV (i :: idx)). unfold next_along in Q. simpl in Q.
      apply Q; apply in_shape_cons; split; auto; lia.
  - intros i Hi1 Hi2. cbn [sliceV]. apply lin1_pos; auto; [apply (Hx 0%nat b); auto|].
    intros m Hm. refine (IH x k _ Hk (fun idx => V (m :: idx)) c _ i Hi1 Hi2).
    + split; [lia|]. intros j d Hj Hc. apply (Hx (S j) d); auto.
    + intros idx H1 H2. assert (Q := HV (m :: idx)). unfold next_along in *. simpl in Q.
      apply Q; apply in_shape_cons; split; auto.
Qed.

Lemma slice_nondec axes x k a : Forall (good_axis 2) axes -> inside_except axes k x -> nth_error axes k = Some a ->
  forall V, (forall idx, in_shape (map npts axes) idx -> in_shape (map npts axes) (next_along k idx) ->
     V idx <= V (next_along k idx)) ->
  nondec (npts a) (sliceV (ops1 lin1 axes x) k V).
Proof.
  intros G Hx Hk V HV i Hi1 Hi2.
  assert (Q := slice_step axes x k a G Hx Hk V (fun _ => 0)). cbv beta in Q.
  specialize (Q ltac:(intros idx A B; rewrite Rplus_0_r; auto) i Hi1 Hi2). lra.
Qed.

Lemma ops1_upd op axes x k a t : length x = length axes -> nth_error axes k = Some a ->
  ops1 op axes (upd x k t) = upd (ops1 op axes x) k (op a t).
Proof.
  revert x k. induction axes as [|b axes IH]; intros x k Lx Hk; [destruct k; discriminate|].
  destruct x as [|x0 x]; [discriminate|]. destruct k as [|k]; simpl in Hk.
  - injection Hk as ->. reflexivity.
  - unfold ops1 in *. cbn [upd combine map fst snd]. f_equal. apply IH; auto.
Qed.

Lemma lin_along axes x k a t V : Forall (good_axis 2) axes -> length x = length axes -> nth_error axes k = Some a ->
  tenL (ops1 lin1 axes (upd x k t)) V = lin1 a t (sliceV (ops1 lin1 axes x) k V).
Proof.
  intros G Lx Hk. rewrite (ops1_upd _ _ _ _ a) by auto.
  assert (Lk : (k < length axes)%nat) by (apply nth_error_Some; congruence).
  apply (tenL_slice V (good_lin x Lx G)) with (d := npts a).
  - rewrite ops1_length by auto. exact Lk.
  - destruct (good_nth _ G Hk) as (Ha & Hn). apply lin1_lf; auto.
Qed.

Theorem lin_monotone c vals axes dom eval x k t : multilinear c vals axes dom eval ->
  (k < length axes)%nat -> inside_except axes k x -> dom x -> dom (upd x k t) ->
  data_nondecreasing (map npts axes) vals k -> nth k x 0 <= t ->
  exists r r', eval x = Ok r /\ eval (upd x k t) = Ok r' /\ r <= r'.
Proof.
  intros H Hk Hx D D' Hd Ht. destruct (multilinear_value H) as (G & L & E).
  assert (Lx := proj1 Hx). assert (Ek := nth_error_nth' axes no_axis Hk). set (a := nth k axes no_axis) in *.
  do 2 eexists. split; [apply E; auto|]. split; [apply E; auto; rewrite len_upd; auto|].
  rewrite (lin_along axes x k a t _ G Lx Ek).
  rewrite <- (upd_self x k) at 1 by lia. rewrite (lin_along axes x k a _ _ G Lx Ek).
  apply lin1_mono; auto; [apply (good_nth _ G Ek)|]. apply (slice_nondec axes x k a G Hx Ek). exact Hd.
Qed.

(** ** Slopes *)
Lemma lin1_slope a v L s t : good_axis 2 a ->
  (forall i, (0 <= i)%Z -> (i + 1 < npts a)%Z -> Rabs (v (i + 1)%Z - v i) <= L * spacing a i) ->
  Rabs (lin1 a t v - lin1 a s v) <= L * Rabs (t - s).
Proof.
  intros Ga HL.
  assert (Gen : forall s t, s <= t -> Rabs (lin1 a t v - lin1 a s v) <= L * (t - s)).
  { clear s t. intros s t Hst. assert (Ga' := Ga). destruct Ga' as (Ha & Hn).
    assert (Sum : forall x sg, lin1 a x (fun i => sg * v i + L * coord a i) = sg * lin1 a x v + L * x).
    { intros x sg. destruct (lin1_lf Ha Hn x) as (P1 & P2 & P3).
      rewrite (P1 (fun i => sg * v i) (fun i => L * coord a i)), P2. f_equal.
      rewrite (P3 _ (fun i => 0 + L * coord a i)) by (intros; ring). rewrite lin1_exact by auto. ring. }
    assert (Up : forall sg, sg = 1 \/ sg = -1 -> sg * lin1 a s v + L * s <= sg * lin1 a t v + L * t).
    { intros sg Hsg. rewrite <- !Sum. apply lin1_mono; auto. intros i Hi1 Hi2.
      assert (Q := HL i Hi1 Hi2). apply Rabs_le_inv in Q. unfold spacing in Q. destruct Hsg as [-> | ->]; lra. }
    assert (U1 := Up 1 (or_introl eq_refl)). assert (U2 := Up (-1) (or_intror eq_refl)).
    apply Rabs_le. lra. }
  destruct (Rle_dec s t) as [H|H].
  - rewrite (Rabs_right (t - s)) by lra. apply Gen; auto.
  - rewrite (Rabs_left (t - s)) by lra. rewrite Rabs_minus_sym. eapply Rle_trans; [apply (Gen t s); lra|]. right. ring.
Qed.

Lemma lin_slope_val axes x k a t V L : Forall (good_axis 2) axes -> inside_except axes k x ->
  nth_error axes k = Some a ->
  (forall idx, in_shape (map npts axes) idx -> in_shape (map npts axes) (next_along k idx) ->
    Rabs (V (next_along k idx) - V idx) <= L * spacing a (nth k idx 0%Z)) ->
  Rabs (tenL (ops1 lin1 axes (upd x k t)) V - tenL (ops1 lin1 axes x) V) <= L * Rabs (t - nth k x 0).
Proof.
  intros G Hx Ek HV. assert (Lx := proj1 Hx).
  assert (Lk : (k < length axes)%nat) by (apply nth_error_Some; congruence).
  rewrite (lin_along axes x k a t _ G Lx Ek).
  rewrite <- (upd_self x k) at 2 by lia. rewrite (lin_along axes x k a _ _ G Lx Ek).
  apply lin1_slope; [apply (good_nth _ G Ek)|]. intros i Hi1 Hi2. apply Rabs_le.
  assert (A := slice_step axes x k a G Hx Ek V (fun i => L * spacing a i)).
  assert (B := slice_step_up axes x k a G Hx Ek V (fun i => L * spacing a i)). cbv beta in A, B.
  specialize (A ltac:(intros idx P Q; specialize (HV idx P Q); apply Rabs_le_inv in HV; lra) i Hi1 Hi2).
  specialize (B ltac:(intros idx P Q; specialize (HV idx P Q); apply Rabs_le_inv in HV; lra) i Hi1 Hi2).
  lra.
Qed.

Theorem lin_slope c vals axes dom eval x k t L : multilinear c vals axes dom eval ->
  (k < length axes)%nat -> inside_except axes k x -> dom x -> dom (upd x k t) ->
  data_slope_at_most axes vals k L ->
  exists r r', eval x = Ok r /\ eval (upd x k t) = Ok r' /\ Rabs (r' - r) <= L * Rabs (t - nth k x 0).
Proof.
  intros H Hk Hx D D' Hd. destruct (multilinear_value H) as (G & Lv & E).
  assert (Lx := proj1 Hx). assert (Ek := nth_error_nth' axes no_axis Hk).
  do 2 eexists. split; [apply E; auto|]. split; [apply E; auto; rewrite len_upd; auto|].
  apply (lin_slope_val axes x k _ t _ L G Hx Ek). exact Hd.
Qed.

Lemma inside_inside_except axes k x : inside_grid axes x -> inside_except axes k x.
Proof. intros (L & H). split; auto. Qed.

Lemma slopes_sum axes : forall F L x y, (forall k, (k < length axes)%nat -> slope_at_most axes F k (L k)) ->
  inside_grid axes x -> inside_grid axes y ->
  Rabs (F x - F y) <= sum_upto (length axes) (fun k => L k * Rabs (nth k x 0 - nth k y 0)).
Proof.
  induction axes as [|a axes IH]; intros F L x y HS Hx Hy.
  - destruct Hx as (Lx & _). destruct Hy as (Ly & _). destruct x; [|discriminate]. destruct y; [|discriminate].
    rewrite Rminus_diag_eq, Rabs_R0 by auto. unfold sum_upto. simpl. lra.
  - destruct x as [|x0 x]; [destruct Hx; discriminate|]. destruct y as [|y0 y]; [destruct Hy; discriminate|].
    apply inside_cons in Hx as (Hx0 & Hx). apply inside_cons in Hy as (Hy0 & Hy).
    simpl length. rewrite sum_upto_S. cbn [nth].
    replace (F (x0 :: x) - F (y0 :: y)) with ((F (x0 :: y) - F (y0 :: y)) + (F (x0 :: x) - F (x0 :: y))) by ring.
    eapply Rle_trans; [apply Rabs_triang|]. apply Rplus_le_compat.
    + apply (HS 0%nat ltac:(simpl; lia) (y0 :: y) x0); simpl; apply inside_cons; auto.
    + apply (IH (fun z => F (x0 :: z)) (fun k => L (S k))); auto.
      intros k Hk z t Hz Hz'. apply (HS (S k) ltac:(simpl; lia) (x0 :: z) t); apply inside_cons; auto.
Qed.

Theorem lin_lipschitz c vals axes dom eval x y L : multilinear c vals axes dom eval ->
  inside_grid axes x -> inside_grid axes y ->
  (forall k, (k < length axes)%nat -> data_slope_at_most axes vals k (L k)) ->
  exists r r', eval x = Ok r /\ eval y = Ok r' /\
    Rabs (r - r') <= sum_upto (length axes) (fun k => L k * Rabs (nth k x 0 - nth k y 0)).
Proof.
  intros H Hx Hy Hd. destruct (multilinear_value H) as (G & Lv & E).
  do 2 eexists. split; [apply E; [apply Hx|eapply multilinear_inside; eauto]|].
  split; [apply E; [apply Hy|eapply multilinear_inside; eauto]|].
  apply (slopes_sum axes (fun z => tenL (ops1 lin1 axes z) (entry 0 (map npts axes) vals)) L); auto.
  intros k Hk z t Hz Hz'. assert (Ek := nth_error_nth' axes no_axis Hk).
  apply (lin_slope_val axes z k _ t _ _ G (inside_inside_except _ _ _ Hz) Ek). apply Hd; auto.
Qed.

(** ** Nearest neighbour *)
Lemma nearest_mono a x y i j : increasing_axis a -> nearest_node a x i -> nearest_node a y j -> x <= y -> (i <= j)%Z.
Proof.
  intros Ha (Hi & Ni) (Hj & Nj) Hxy. destruct (Z_le_gt_dec i j) as [|N]; auto. exfalso.
  assert (C : coord a j < coord a i) by (apply Ha; lia).
  destruct (Ni j Hj) as (Ni1 & Ni2). destruct (Nj i Hi) as (Nj1 & _).
  assert (S : Rabs (x - coord a i) < Rabs (x - coord a j)).
  { destruct Ni1; auto. specialize (Ni2 H). lia. }
  clear Ni1 Ni2 Ni Nj. unfold Rabs in *. repeat destruct Rcase_abs; lra.
Qed.

Lemma shape_upd dims idx k i : in_shape dims idx -> (0 <= i < nth k dims 0)%Z -> in_shape dims (upd idx k i).
Proof.
  intros H. revert k. induction H as [|d j ds js Hd H IH]; intros [|k] Hi; simpl in *; try constructor; auto; try lia.
  apply IH. auto.
Qed.

Lemma nth_upd_sameZ (y : list Z) k t d : (k < length y)%nat -> nth k (upd y k t) d = t.
Proof. revert k. induction y; intros [|k] H; simpl in *; try lia; auto. apply IHy. lia. Qed.

Lemma upd_selfZ (y : list Z) k : (k < length y)%nat -> upd y k (nth k y 0%Z) = y.
Proof. revert k. induction y; intros [|k] H; simpl in *; try lia; auto. f_equal. apply IHy. lia. Qed.

Lemma upd_same_elsewhere (y z : list Z) k : length y = length z ->
  (forall j, (j < length y)%nat -> j <> k -> nth j y 0%Z = nth j z 0%Z) -> z = upd y k (nth k z 0%Z).
Proof.
  revert y k. induction z as [|b z IH]; intros y k L H; [destruct y; [destruct k; auto|discriminate]|].
  destruct y as [|a y]; [discriminate|]. simpl in L. destruct k as [|k]; simpl.
  - f_equal. apply nth_ext with (d := 0%Z) (d' := 0%Z); [lia|]. intros n Hn. symmetry. apply (H (S n)); simpl; lia.
  - f_equal; [symmetry; apply (H 0%nat); simpl; lia|]. apply IH; [lia|]. intros j Hj N. apply (H (S j)); simpl; lia.
Qed.

Theorem nearest_monotone c vals axes dom eval x k t : nearest_nd c vals axes dom eval ->
  (k < length axes)%nat -> length x = length axes -> dom x -> dom (upd x k t) ->
  data_nondecreasing (map npts axes) vals k -> nth k x 0 <= t ->
  exists r r', eval x = Ok r /\ eval (upd x k t) = Ok r' /\ r <= r'.
Proof.
  intros H Hk Lx D D' Hd Ht. destruct (nearest_value H) as (G & _ & E).
  destruct (E x Lx D) as (i & Hi & Er).
  destruct (E (upd x k t) ltac:(rewrite len_upd; auto) D') as (j & Hj & Er').
  do 2 eexists. split; [exact Er|]. split; [exact Er'|].
  assert (Si := nearest_nodes_shape Hi). assert (Sj := nearest_nodes_shape Hj).
  destruct Hi as (_ & Li & Hi). destruct Hj as (_ & Lj & Hj).
  assert (Ek := nth_error_nth' axes no_axis Hk). set (a := nth k axes no_axis) in *.
  assert (Ej : j = upd i k (nth k j 0%Z)).
  { apply upd_same_elsewhere; [lia|]. intros m Hm N.
    assert (Em := nth_error_nth' axes no_axis (n := m) ltac:(lia)).
    assert (Q := Hj m _ Em). rewrite nth_upd_other in Q by auto. eapply nearest_unique; [apply (Hi m _ Em)|exact Q]. }
  assert (M : (nth k i 0 <= nth k j 0)%Z).
  { eapply nearest_mono; [apply (good_nth _ G Ek)|apply (Hi k a Ek)| |exact Ht].
    assert (Q := Hj k a Ek). rewrite nth_upd_same in Q by lia. exact Q. }
  assert (Nk : nth k (map npts axes) 0%Z = npts a)
    by (change 0%Z with (npts no_axis); rewrite (map_nth npts); reflexivity).
  set (g := fun m => entry 0 (map npts axes) vals (upd i k m)).
  assert (ND : nondec (npts a) g).
  { intros m Hm1 Hm2. unfold g.
    assert (S1 : in_shape (map npts axes) (upd i k m)) by (apply shape_upd; auto; rewrite Nk; lia).
    assert (S2 : in_shape (map npts axes) (upd i k (m + 1)%Z)) by (apply shape_upd; auto; rewrite Nk; lia).
    assert (Q := Hd (upd i k m) S1). unfold next_along in Q. rewrite upd_upd, nth_upd_sameZ in Q by lia. auto. }
  assert (Q : g (nth k i 0%Z) <= g (nth k j 0%Z)).
  { apply (nondec_le (npts a) g ND).
    - split; [apply (Hi k a Ek)|exact M].
    - apply (Hj k a Ek). }
  unfold g in Q. rewrite upd_selfZ, <- Ej in Q by lia. exact Q.
Qed.
