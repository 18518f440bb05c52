(** The cubic interpolant is at most a stated factor steeper than its data. *)
From Coq Require Import Reals Lra PeanoNat Bool ZifyBool ZifyNat.
From Verif Require Import Base Ops Spec CoreLemmas TensorLemmas SpecReal RTensor R1D RChar Interpolators REval RProofs RProofs2 RProofs3.
From Verif Require Import SpecApprox Approx1D Approx Shape SpecSlope.
Unset Implicit Arguments.
Open Scope R_scope.

(** ** One axis *)
Section OneAxis.
Variables (a : axis) (f : Z -> R) (rho L : R).
Hypothesis Ha : increasing_axis a.
Hypothesis Hn : (4 <= npts a)%Z.
Hypothesis Hr : spacing_ratio_at_most a rho.
Hypothesis HL : forall i, (0 <= i <= npts a - 2)%Z -> Rabs (dd (coord a) f i) <= L.

Lemma L_pos : 0 <= L.
Proof using Hn HL. eapply Rle_trans; [apply Rabs_pos|apply (HL 0%Z); lia]. Qed.

Lemma ratio_one : 1 <= rho.
Proof using Ha Hn Hr.
  destruct (Hr 0%Z ltac:(lia) ltac:(lia)) as (R1 & R2).
  assert (0 < spacing a 0) by (apply (axis_gap Ha); lia).
  assert (0 < spacing a (0 + 1)) by (apply (axis_gap Ha); lia).
  destruct (Rle_dec 1 rho) as [|N]; auto. exfalso. nra.
Qed.

Lemma gain_range : 0 < rho -> 1 < cubic_slope_gain rho < 3.
Proof using.
  clear. intros H. unfold cubic_slope_gain.
  replace ((1 + 3 * rho) / (1 + rho)) with (1 + 2 * (rho / (1 + rho))) by (field; lra).
  assert (0 < / (1 + rho)) by (apply Rinv_0_lt_compat; lra).
  assert (0 < rho / (1 + rho)) by (apply Rmult_lt_0_compat; lra).
  assert (rho / (1 + rho) < 1) by (apply Rmult_lt_reg_r with (1 + rho); [lra|]; unfold Rdiv; rewrite Rmult_assoc, Rinv_l; lra).
  lra.
Qed.

(** A weighted mean of two slopes. *)
Lemma mean2 u v p q : 0 < u -> 0 < v -> Rabs p <= L -> Rabs q <= L -> Rabs ((u * p + v * q) / (u + v)) <= L.
Proof using.
  clear. intros U V P Q. assert (I : 0 < / (u + v)) by (apply Rinv_0_lt_compat; lra).
  unfold Rdiv. rewrite Rabs_mult, (Rabs_right (/ (u + v))) by lra.
  apply Rmult_le_reg_r with (u + v); [lra|]. rewrite Rmult_assoc, Rinv_l, Rmult_1_r by lra.
  apply Rabs_le_inv in P, Q. apply Rabs_le. nra.
Qed.

Lemma mid_at_most i : (1 <= i <= npts a - 2)%Z -> Rabs (mid_slope (coord a) f i) <= L.
Proof using Ha HL.
  intros Hi. unfold mid_slope. apply mean2; try (apply (axis_gap Ha); lia); apply HL; lia.
Qed.

(** Twice a slope less the weighted mean of it and a neighbour. *)
Lemma edge2 u v p q : 0 < u -> 0 < v -> u <= rho * v -> Rabs p <= L -> Rabs q <= L ->
  Rabs (2 * p - (u * q + v * p) / (u + v)) <= cubic_slope_gain rho * L.
Proof using.
  clear. intros U V UV P Q.
  assert (0 < rho) by nra.
  assert (I : 0 < / (u + v)) by (apply Rinv_0_lt_compat; lra).
  assert (E : 2 * p - (u * q + v * p) / (u + v) = p + (u / (u + v)) * (p - q)) by (field; lra).
  rewrite E. clear E. set (w := u / (u + v)).
  assert (W : 0 <= w <= rho / (1 + rho)).
  { unfold w. split; [apply Rmult_le_pos; lra|].
    apply Rmult_le_reg_r with ((u + v) * (1 + rho)); [apply Rmult_lt_0_compat; lra|].
    replace (u / (u + v) * ((u + v) * (1 + rho))) with (u * (1 + rho)) by (field; lra).
    replace (rho / (1 + rho) * ((u + v) * (1 + rho))) with (rho * (u + v)) by (field; lra). nra. }
  replace (cubic_slope_gain rho) with (1 + 2 * (rho / (1 + rho))) by (unfold cubic_slope_gain; field; lra).
  set (k := rho / (1 + rho)) in *. apply Rabs_le_inv in P, Q. apply Rabs_le.
  assert (w * L <= k * L) by (apply Rmult_le_compat_r; lra). nra.
Qed.

Lemma slope_low : Rabs (slope a f 0) <= cubic_slope_gain rho * L.
Proof using All.
  unfold slope. change (0 =? 0)%Z with true. cbv iota. unfold mid_slope. change (1 - 1)%Z with 0%Z.
  apply edge2; try (apply (axis_gap Ha); lia); try (apply HL; lia).
  destruct (Hr 0%Z ltac:(lia) ltac:(lia)) as (R1 & R2). exact R1.
Qed.

Lemma slope_high : Rabs (slope a f (npts a - 1)) <= cubic_slope_gain rho * L.
Proof using All.
  unfold slope. destruct (Z.eqb_spec (npts a - 1) 0); [lia|]. rewrite Z.eqb_refl. cbv iota. unfold mid_slope.
  rewrite (Rplus_comm (_ * _) (gap _ (npts a - 2) * _)), (Rplus_comm (gap _ _) (gap _ (npts a - 2))).
  apply edge2; try (apply (axis_gap Ha); lia); try (apply HL; lia).
  destruct (Hr (npts a - 2 - 1)%Z ltac:(lia) ltac:(lia)) as (R1 & R2).
  replace (npts a - 2 - 1 + 1)%Z with (npts a - 2)%Z in R2 by lia. exact R2.
Qed.

Lemma slope_inner i : (1 <= i <= npts a - 2)%Z -> Rabs (slope a f i) <= L.
Proof using Ha HL.
  intros Hi. unfold slope. destruct (Z.eqb_spec i 0); [lia|]. destruct (Z.eqb_spec i (npts a - 1)); [lia|].
  apply mid_at_most; auto.
Qed.

(** The derivative inside a cell. *)
Lemma cell_slope m0 m1 q t : 0 <= t <= 1 -> Rabs m0 <= L -> Rabs m1 <= L -> Rabs q <= L ->
  Rabs ((1 - t) * (1 - 3 * t) * m0 + t * (3 * t - 2) * m1 + 6 * t * (1 - t) * q) <= 2 * L.
Proof using.
  clear. intros T H0 H1 H2. assert (0 <= L) by (eapply Rle_trans; [apply Rabs_pos|exact H0]).
  eapply Rle_trans; [apply Rabs_triang|]. eapply Rle_trans; [apply Rplus_le_compat_r, Rabs_triang|].
  rewrite (Rabs_mult _ m0), (Rabs_mult _ m1), (Rabs_mult _ q).
  assert (A : Rabs ((1 - t) * (1 - 3 * t)) * Rabs m0 <= Rabs ((1 - t) * (1 - 3 * t)) * L)
    by (apply Rmult_le_compat_l; auto; apply Rabs_pos).
  assert (B : Rabs (t * (3 * t - 2)) * Rabs m1 <= Rabs (t * (3 * t - 2)) * L)
    by (apply Rmult_le_compat_l; auto; apply Rabs_pos).
  assert (C : Rabs (6 * t * (1 - t)) * Rabs q <= Rabs (6 * t * (1 - t)) * L)
    by (apply Rmult_le_compat_l; auto; apply Rabs_pos).
  assert (W : Rabs ((1 - t) * (1 - 3 * t)) + Rabs (t * (3 * t - 2)) + Rabs (6 * t * (1 - t)) <= 2).
  { rewrite (Rabs_right (6 * t * (1 - t))) by (apply Rle_ge; apply Rmult_le_pos; lra).
    assert (D : Rabs ((1 - t) * (1 - 3 * t)) = (1 - t) * Rabs (1 - 3 * t)) by (rewrite Rabs_mult, (Rabs_right (1 - t)); lra).
    assert (F : Rabs (t * (3 * t - 2)) = t * Rabs (3 * t - 2)) by (rewrite Rabs_mult, (Rabs_right t); lra).
    rewrite D, F. assert (S := Rle_0_sqr (t - / 2)). unfold Rsqr in S.
    unfold Rabs. repeat destruct Rcase_abs; nra. }
  apply Rmult_le_compat_r with (r := L) in W; auto. lra.
Qed.

Lemma between m0 m1 K t : 0 <= t <= 1 -> Rabs m0 <= K -> Rabs m1 <= K -> Rabs (m0 + t * (m1 - m0)) <= K.
Proof using. clear. intros T H0 H1. apply Rabs_le_inv in H0, H1. apply Rabs_le. nra. Qed.

Lemma herm_slope j x : (0 <= j <= npts a - 2)%Z -> coord a j <= x <= coord a (j + 1) ->
  Rabs (herm_piece' a f j x) <= cubic_slope_gain rho * L.
Proof using All.
  intros Hj Hx. assert (R1 := ratio_one). assert (LP := L_pos). assert (GR := gain_range ltac:(lra)).
  assert (G2 : 2 <= cubic_slope_gain rho).
  { unfold cubic_slope_gain. apply Rmult_le_reg_r with (1 + rho); [lra|].
    unfold Rdiv. rewrite Rmult_assoc, Rinv_l by lra. lra. }
  assert (W : 0 < gap (coord a) j) by (apply (axis_gap Ha); lia).
  set (t := (x - coord a j) / gap (coord a) j).
  assert (EX : x - coord a j = t * gap (coord a) j) by (unfold t; field; lra).
  assert (T : 0 <= t <= 1).
  { assert (0 <= t * gap (coord a) j <= 1 * gap (coord a) j) by (rewrite <- EX; unfold gap; lra).
    split; [apply Rmult_le_reg_r with (gap (coord a) j)|apply Rmult_le_reg_r with (gap (coord a) j)]; lra. }
  assert (E : herm_piece' a f j x = (1 - t) * (1 - 3 * t) * slope a f j + t * (3 * t - 2) * slope a f (j + 1)
     + 6 * t * (1 - t) * dd (coord a) f j).
  { unfold herm_piece'. rewrite EX. field. lra. }
  assert (Edge : forall m0 m1 q, m0 + m1 = 2 * q ->
    (1 - t) * (1 - 3 * t) * m0 + t * (3 * t - 2) * m1 + 6 * t * (1 - t) * q = m0 + t * (m1 - m0)).
  { intros m0 m1 q Q. replace q with ((m0 + m1) / 2) by lra. field. }
  rewrite E. clear E.
  destruct (Z.eq_dec j 0) as [J0|J0]; [|destruct (Z.eq_dec j (npts a - 2)) as [J1|J1]].
  - subst j. rewrite Edge.
    + assert (I := slope_inner (0 + 1) ltac:(lia)). apply between; auto; [apply slope_low|].
      eapply Rle_trans; [exact I|]. nra.
    + unfold slope. change (0 =? 0)%Z with true. change (0 + 1 =? 0)%Z with false. cbv iota.
      destruct (Z.eqb_spec (0 + 1) (npts a - 1)); [lia|]. change (0 + 1)%Z with 1%Z. lra.
  - subst j. replace (npts a - 2 + 1)%Z with (npts a - 1)%Z in * by lia. rewrite Edge.
    + assert (I := slope_inner (npts a - 2) ltac:(lia)). apply between; auto; [|apply slope_high].
      eapply Rle_trans; [exact I|]. nra.
    + unfold slope. destruct (Z.eqb_spec (npts a - 2) 0); [lia|]. destruct (Z.eqb_spec (npts a - 1) 0); [lia|].
      destruct (Z.eqb_spec (npts a - 2) (npts a - 1)); [lia|]. rewrite Z.eqb_refl. lra.
  - eapply Rle_trans; [apply cell_slope; auto; try (apply slope_inner; lia); apply HL; lia|].
    apply Rmult_le_compat_r; auto.
Qed.

Lemma cub1_slope_at lin x : (coord a 0 <= x <= coord a (npts a - 1) \/ lin = true) ->
  Rabs (cub1' lin a x f) <= cubic_slope_gain rho * L.
Proof using All.
  intros Hx. destruct (@cub_adm_ex a Hn lin x) as (j & Hj).
  rewrite (@cub1_eq' a Ha Hn lin x f j Hj). unfold cub_piece'.
  destruct (lin && (j =? -1)%Z) eqn:B1; [apply slope_low|].
  destruct (lin && (j =? npts a - 1)%Z) eqn:B2; [apply slope_high|].
  destruct Hj as (J1 & J2 & J3). unfold cub_lo, cub_hi in *.
  assert (J : (0 <= j <= npts a - 2)%Z) by (destruct lin; cbn [andb] in *; lia).
  apply herm_slope; auto. split.
  - destruct J2 as [-> | J2]; [|lra]. destruct lin; [lia|]. destruct Hx as [Hx|Hx]; [lra|discriminate].
  - destruct J3 as [-> | J3]; [|lra]. destruct lin; [lia|]. destruct Hx as [Hx|Hx]; [|discriminate].
    replace (npts a - 2 + 1)%Z with (npts a - 1)%Z by lia. lra.
Qed.

Lemma cub1_lipschitz lin s t :
  ((coord a 0 <= s <= coord a (npts a - 1) /\ coord a 0 <= t <= coord a (npts a - 1)) \/ lin = true) ->
  Rabs (cub1 lin a t f - cub1 lin a s f) <= cubic_slope_gain rho * L * Rabs (t - s).
Proof using All.
  intros [(Hs & Ht)|Hl].
  - apply (taylor0 (coord a 0) (coord a (npts a - 1)) (fun x => cub1 lin a x f) (fun x => cub1' lin a x f)); auto.
    + intros u _. apply cub1_derivable; auto.
    + intros u Hu. apply cub1_slope_at; auto.
  - apply (taylor0 (Rmin s t) (Rmax s t) (fun x => cub1 lin a x f) (fun x => cub1' lin a x f)).
    + intros u _. apply cub1_derivable; auto.
    + split; [apply Rmin_l|apply Rmax_l].
    + split; [apply Rmin_r|apply Rmax_r].
    + intros u _. apply cub1_slope_at; auto.
Qed.
End OneAxis.

(** ** Many axes *)
Lemma cub_along lin axes x k a t V : Forall (good_axis 4) axes -> length x = length axes -> nth_error axes k = Some a ->
  tenL (ops1 (cub1 lin) axes (upd x k t)) V = cub1 lin a t (sliceV (ops1 (cub1 lin) axes x) k V).
Proof.
  intros G Lx Hk. rewrite (ops1_upd _ _ _ _ a) by auto.
  assert (Lk : (k < length axes)%nat) by (apply nth_error_Some; congruence).
  apply (tenL_slice V (good_cub lin x Lx G)) with (d := npts a).
  - rewrite ops1_length by auto. exact Lk.
  - destruct (good_nth _ G Hk) as (Ha & Hn). apply cub1_lf; auto.
Qed.

Lemma lf_minus d M v w : lf d M -> M v - M w = M (fun i => v i - w i).
Proof.
  intros (P1 & P2 & P3). rewrite (P3 (fun i => v i - w i) (fun i => v i + -1 * w i)) by (intros; ring).
  rewrite P1, P2. ring.
Qed.

Lemma cub_slice_step lin rho axes x k a : Forall (good_axis 4) axes ->
  (forall b, In b axes -> spacing_ratio_at_most b rho) -> inside_except axes k x -> nth_error axes k = Some a ->
  forall V i c, (0 <= i)%Z -> (i + 1 < npts a)%Z ->
  (forall idx, in_shape (map npts axes) idx -> in_shape (map npts axes) (next_along k idx) -> nth k idx 0%Z = i ->
     Rabs (V (next_along k idx) - V idx) <= c) ->
  Rabs (sliceV (ops1 (cub1 lin) axes x) k V (i + 1)%Z - sliceV (ops1 (cub1 lin) axes x) k V i)
    <= cubic_gain rho ^ (length axes - 1) * c.
Proof.
  intros G. revert x k. induction G as [|b axes Gb G IH]; intros x k Hr Hx Hk V i c Hi1 Hi2 HV; [destruct k; discriminate|].
  destruct Hx as (Lx & Hx). destruct x as [|x0 x]; [discriminate|]. simpl in Lx.
  unfold ops1. cbn [combine map fst snd]. fold (ops1 (cub1 lin) axes x).
  replace (length (b :: axes) - 1)%nat with (length axes) by (simpl; lia).
  destruct k as [|k]; simpl in Hk.
  - injection Hk as ->. cbn [sliceV].
    rewrite (tenL_minus _ _ _ _ (good_cub lin x (eq_add_S _ _ Lx) G)). apply tenL_norm.
    + apply cub_ops_norm; auto; [|intros d Hd; apply Hr; right; auto].
      split; [lia|]. intros j d Hj. apply (Hx (S j) d); auto.
    + intros idx Hs. assert (Q := HV (i :: idx)). unfold next_along in Q. simpl in Q.
      apply Q; auto; apply in_shape_cons; split; auto; lia.
  - cbn [sliceV]. destruct Gb as (Hb & Nb).
    rewrite (lf_minus (npts b)) by (apply cub1_lf; auto).
    assert (Ne : (1 <= length axes)%nat) by (destruct axes; [destruct k; discriminate|simpl; lia]).
    replace (length axes) with (S (length axes - 1)) by lia. cbn [pow]. rewrite Rmult_assoc.
    apply cub1_norm; auto.
    + apply Hr. left. reflexivity.
    + apply (Hx 0%nat b); auto.
    + intros m Hm. apply IH; auto.
      * intros d Hd. apply Hr. right. auto.
      * split; [lia|]. intros j d Hj Hc. apply (Hx (S j) d); auto.
      * intros idx H1 H2 H3. assert (Q := HV (m :: idx)). unfold next_along in *. simpl in Q.
        apply Q; auto; apply in_shape_cons; split; auto.
Qed.

Lemma cub_slope_val lin rho axes x k a t V L : Forall (good_axis 4) axes ->
  (forall b, In b axes -> spacing_ratio_at_most b rho) -> inside_except axes k x -> nth_error axes k = Some a ->
  ((coord a 0 <= nth k x 0 <= coord a (npts a - 1) /\ coord a 0 <= t <= coord a (npts a - 1)) \/ lin = true) ->
  (forall idx, in_shape (map npts axes) idx -> in_shape (map npts axes) (next_along k idx) ->
    Rabs (V (next_along k idx) - V idx) <= L * spacing a (nth k idx 0%Z)) ->
  Rabs (tenL (ops1 (cub1 lin) axes (upd x k t)) V - tenL (ops1 (cub1 lin) axes x) V)
    <= cubic_slope_gain rho * (cubic_gain rho ^ (length axes - 1) * L) * Rabs (t - nth k x 0).
Proof.
  intros G Hr Hx Ek Hin HV. assert (Lx := proj1 Hx).
  assert (Lk : (k < length axes)%nat) by (apply nth_error_Some; congruence).
  rewrite (cub_along lin axes x k a t _ G Lx Ek).
  rewrite <- (upd_self x k) at 2 by lia. rewrite (cub_along lin axes x k a _ _ G Lx Ek).
  destruct (good_nth _ G Ek) as (Ha & Hn).
  apply cub1_lipschitz; auto; [apply Hr; eapply nth_error_In; eauto|].
  intros i Hi. assert (Gi : 0 < gap (coord a) i) by (apply (axis_gap Ha); lia).
  unfold dd. fold (gap (coord a) i). unfold Rdiv. rewrite Rabs_mult.
  assert (I : 0 < / gap (coord a) i) by (apply Rinv_0_lt_compat; auto).
  rewrite (Rabs_right (/ gap (coord a) i)) by lra.
  apply Rmult_le_reg_r with (gap (coord a) i); auto. rewrite Rmult_assoc, Rinv_l, Rmult_1_r, Rmult_assoc by lra.
  apply (cub_slice_step lin rho axes x k a G Hr Hx Ek V i); try lia.
  intros idx P Q E. specialize (HV idx P Q). rewrite E in HV. exact HV.
Qed.

Theorem cub_slope c lin vals axes dom eval x k t rho L : multicubic c lin vals axes dom eval ->
  (k < length axes)%nat -> inside_except axes k x -> dom x -> dom (upd x k t) ->
  (lin = true \/ inside_grid axes x /\ inside_grid axes (upd x k t)) ->
  (forall a, In a axes -> spacing_ratio_at_most a rho) -> data_slope_at_most axes vals k L ->
  exists r r', eval x = Ok r /\ eval (upd x k t) = Ok r' /\
    Rabs (r' - r) <= cubic_slope_gain rho * cubic_gain rho ^ (length axes - 1) * L * Rabs (t - nth k x 0).
Proof.
  intros H Hk Hx D D' Hin Hr Hd. destruct (multicubic_value H) as (G & Lv & E).
  assert (Lx := proj1 Hx). assert (Ek := nth_error_nth' axes no_axis Hk).
  do 2 eexists. split; [apply E; auto|]. split; [apply E; auto; rewrite len_upd; auto|].
  replace (cubic_slope_gain rho * cubic_gain rho ^ (length axes - 1) * L)
    with (cubic_slope_gain rho * (cubic_gain rho ^ (length axes - 1) * L)) by ring.
  apply (cub_slope_val lin rho axes x k _ t _ L G Hr Hx Ek); [|exact Hd].
  destruct Hin as [Hin|(I1 & I2)]; [auto|left]. split; [apply (proj2 I1 k); auto|].
  assert (Q := proj2 I2 k _ Ek). rewrite nth_upd_same in Q by lia. exact Q.
Qed.

Lemma cub_points_val lin rho axes vals x y L : Forall (good_axis 4) axes ->
  (forall b, In b axes -> spacing_ratio_at_most b rho) -> inside_grid axes x -> inside_grid axes y ->
  (forall k, (k < length axes)%nat -> data_slope_at_most axes vals k (L k)) ->
  Rabs (tenL (ops1 (cub1 lin) axes x) (entry 0 (map npts axes) vals) - tenL (ops1 (cub1 lin) axes y) (entry 0 (map npts axes) vals))
    <= cubic_slope_gain rho * cubic_gain rho ^ (length axes - 1) * sum_upto (length axes) (fun k => L k * Rabs (nth k x 0 - nth k y 0)).
Proof.
  intros G Hr Hx Hy Hd.
  set (K := cubic_slope_gain rho * cubic_gain rho ^ (length axes - 1)).
  assert (S := slopes_sum axes (fun z => tenL (ops1 (cub1 lin) axes z) (entry 0 (map npts axes) vals)) (fun k => K * L k) x y).
  cbv beta in S. eapply Rle_trans; [apply S; auto|].
  - intros k Hk z t Hz Hz'. assert (Ek := nth_error_nth' axes no_axis Hk). unfold K. rewrite !Rmult_assoc.
    rewrite <- (Rmult_assoc (cubic_gain _ ^ _)), <- Rmult_assoc.
    apply (cub_slope_val lin rho axes z k _ t _ (L k) G Hr (inside_inside_except _ _ _ Hz) Ek); [|exact (Hd k Hk)].
    left. split; [apply (proj2 Hz k); auto|].
    assert (Q := proj2 Hz' k _ Ek). rewrite nth_upd_same in Q; auto. rewrite (proj1 Hz). exact Hk.
  - right. rewrite <- sum_upto_scal. apply sum_upto_ext. intros k _. ring.
Qed.

Theorem cub_lipschitz c lin vals axes dom eval x y rho L : multicubic c lin vals axes dom eval ->
  inside_grid axes x -> inside_grid axes y ->
  (forall a, In a axes -> spacing_ratio_at_most a rho) ->
  (forall k, (k < length axes)%nat -> data_slope_at_most axes vals k (L k)) ->
  exists r r', eval x = Ok r /\ eval y = Ok r' /\
    Rabs (r - r') <= cubic_slope_gain rho * cubic_gain rho ^ (length axes - 1)
      * sum_upto (length axes) (fun k => L k * Rabs (nth k x 0 - nth k y 0)).
Proof.
  intros H Hx Hy Hr Hd. destruct (multicubic_value H) as (G & Lv & E).
  do 2 eexists. split; [apply E; [apply Hx|eapply multicubic_inside; eauto]|].
  split; [apply E; [apply Hy|eapply multicubic_inside; eauto]|].
  apply cub_points_val; auto.
Qed.
