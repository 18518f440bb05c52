(** The multilinear interpolant as a function of the grid coordinates (exact arithmetic). *)
From Coq Require Import Reals Lra PeanoNat Bool ZifyBool ZifyNat.
From Verif Require Import Base Ops Spec CoreLemmas TensorLemmas SpecReal RTensor R1D RChar Interpolators REval RProofs RProofs2 RProofs3.
From Verif Require Import SpecApprox Approx1D Approx Shape SpecExtrap Extrap1D Extrap SpecError SpecMoved.
Unset Implicit Arguments.
Open Scope R_scope.

(** ** One axis *)
Section One.
Variables (a b : axis) (d : R).
Hypotheses (Ga : good_axis 2 a) (Gb : good_axis 2 b) (Hd : nodes_within d a b).

(** Interpolating the same values on b at x is interpolating on a at a nearby point. *)
Lemma lin1_moved x v : exists y, lin1 b x v = lin1 a y v /\ Rabs (y - x) <= (1 + 2 * overshoot b x) * d.
Proof using All.
  destruct Ga as (Ha & Na). destruct Gb as (Hb & Nb). destruct Hd as (En & Hn).
  destruct (in_cell_ex b Nb x) as (o & Ho). set (t := local_coord b x o).
  assert (Hr : (0 <= o <= npts b - 2)%Z) by apply Ho.
  exists ((1 - t) * coord a o + t * coord a (o + 1)).
  assert (Gap : 0 < coord a (o + 1) - coord a o) by (apply (axis_gap Ha); lia).
  assert (Gbp : 0 < coord b (o + 1) - coord b o) by (apply (axis_gap Hb); lia).
  assert (Tl : o = 0%Z \/ 0 <= t).
  { destruct Ho as (_ & [L|L] & _); auto. right. unfold t, local_coord. apply Rmult_le_pos; [lra|].
    left. apply Rinv_0_lt_compat. lra. }
  assert (Th : o = (npts b - 2)%Z \/ t <= 1).
  { destruct Ho as (_ & _ & [L|L]); auto. right. unfold t, local_coord. apply Rmult_le_reg_r with (1 := Gbp).
    unfold Rdiv. rewrite Rmult_assoc, Rinv_l by lra. lra. }
  assert (Hy : in_cell a ((1 - t) * coord a o + t * coord a (o + 1)) o).
  { split; [lia|]. split.
    - destruct Tl as [|T]; auto. right. nra.
    - destruct Th as [|T]; [left; lia|]. right. nra. }
  split.
  - rewrite (lin1_weights Hb Nb v Ho). fold t. rewrite (lin1_weights Ha Na v Hy).
    replace (local_coord a ((1 - t) * coord a o + t * coord a (o + 1)) o) with t; [reflexivity|].
    unfold local_coord. field. lra.
  - assert (Ex : x = (1 - t) * coord b o + t * coord b (o + 1)) by (unfold t, local_coord; field; lra).
    assert (I1 : (0 <= o < npts a)%Z) by lia. assert (I2 : (0 <= o + 1 < npts a)%Z) by lia.
    assert (D1 := Hn o I1). assert (D2 := Hn (o + 1)%Z I2). apply Rabs_le_inv in D1. apply Rabs_le_inv in D2.
    assert (D0 : 0 <= d) by lra.
    assert (O0 := overshoot_nonneg b x).
    assert (W : Rabs (1 - t) + Rabs t <= 1 + 2 * overshoot b x).
    { assert (G0 := first_gap b Hb Nb). assert (G1 := last_gap b Hb Nb). unfold spacing in G0, G1.
      destruct (Rle_dec 0 t) as [T0|T0]; [destruct (Rle_dec t 1) as [T1|T1]|].
      - rewrite !Rabs_right by lra. lra.
      - destruct Th as [Eo|]; [|lra].
        assert (Q : t - 1 = (x - coord b (npts b - 1)) / spacing b (npts b - 2)).
        { unfold t, local_coord, spacing. rewrite Eo. replace (npts b - 2 + 1)%Z with (npts b - 1)%Z in * by lia. field. lra. }
        assert (Q1 : t - 1 <= overshoot b x) by (rewrite Q; unfold overshoot; eapply Rle_trans; [|apply Rmax_r]; apply Rmax_r).
        rewrite (Rabs_left (1 - t)), (Rabs_right t) by lra. lra.
      - destruct Tl as [Eo|]; [|lra].
        assert (Q : - t = (coord b 0 - x) / spacing b 0).
        { unfold t, local_coord, spacing. rewrite Eo. change (0 + 1)%Z with 1%Z in *. field. lra. }
        assert (Q1 : - t <= overshoot b x) by (rewrite Q; unfold overshoot; eapply Rle_trans; [|apply Rmax_r]; apply Rmax_l).
        rewrite (Rabs_right (1 - t)), (Rabs_left t) by lra. lra. }
    replace ((1 - t) * coord a o + t * coord a (o + 1) - x)
      with ((1 - t) * (coord a o - coord b o) + t * (coord a (o + 1) - coord b (o + 1))) by lra.
    eapply Rle_trans; [apply Rabs_triang|]. rewrite !Rabs_mult.
    apply Rle_trans with ((Rabs (1 - t) + Rabs t) * d); [|apply Rmult_le_compat_r; auto].
    rewrite Rmult_plus_distr_r. apply Rplus_le_compat; apply Rmult_le_compat_l; try apply Rabs_pos; apply Hn; lia.
Qed.

Lemma lin1_moved_error x v L :
  (forall i, (0 <= i)%Z -> (i + 1 < npts a)%Z -> Rabs (v (i + 1)%Z - v i) <= L * spacing a i) ->
  0 <= L -> Rabs (lin1 a x v - lin1 b x v) <= (1 + 2 * overshoot b x) * (L * d).
Proof using All.
  intros HL L0. destruct (lin1_moved x v) as (y & -> & Hy).
  eapply Rle_trans; [apply (lin1_slope a v L y x Ga HL)|].
  replace ((1 + 2 * overshoot b x) * (L * d)) with (L * ((1 + 2 * overshoot b x) * d)) by ring.
  apply Rmult_le_compat_l; auto. rewrite Rabs_minus_sym. exact Hy.
Qed.
End One.

(** ** All axes *)
Lemma moved_nonneg d a b : (1 <= npts a)%Z -> nodes_within d a b -> 0 <= d.
Proof. intros Hn (_ & H). eapply Rle_trans; [apply Rabs_pos|apply (H 0%Z); lia]. Qed.

Lemma prod_upto_nonneg n g : (forall k, (k < n)%nat -> 0 <= g k) -> 0 <= prod_upto n g.
Proof.
  revert g. induction n as [|n IH]; intros g H; [unfold prod_upto; simpl; lra|]. rewrite prod_upto_S.
  apply Rmult_le_pos; [apply H; lia|]. apply IH. intros k Hk. apply H. lia.
Qed.
Lemma prod_upto_le n g h : (forall k, (k < n)%nat -> 0 <= g k <= h k) -> prod_upto n g <= prod_upto n h.
Proof.
  revert g h. induction n as [|n IH]; intros g h H; [unfold prod_upto; simpl; lra|]. rewrite !prod_upto_S.
  apply Rmult_le_compat; [apply H; lia| |apply H; lia|apply IH; intros k Hk; apply H; lia].
  apply prod_upto_nonneg. intros k Hk. apply H. lia.
Qed.
Lemma prod_upto_ext n g h : (forall k, (k < n)%nat -> g k = h k) -> prod_upto n g = prod_upto n h.
Proof.
  revert g h. induction n as [|n IH]; intros g h H; [reflexivity|]. rewrite !prod_upto_S. rewrite (H 0%nat) by lia. f_equal.
  apply (IH (fun k => g (S k)) (fun k => h (S k))). intros k Hk. apply H. lia.
Qed.
Lemma prod_upto_ge_1 n g : (forall k, (k < n)%nat -> 1 <= g k) -> 1 <= prod_upto n g.
Proof.
  intros H. replace 1 with (prod_upto n (fun _ => 1)).
  - apply prod_upto_le. intros k Hk. specialize (H k Hk). lra.
  - clear. induction n as [|n IH]; [reflexivity|]. rewrite prod_upto_S, IH. ring.
Qed.

Lemma outside_nonneg axes x k : 0 <= outside_by axes x k.
Proof. apply overshoot_nonneg. Qed.

Lemma moved_val axes : Forall (good_axis 2) axes -> forall axes' x V d L, Forall (good_axis 2) axes' ->
  moved_grid d axes axes' -> length x = length axes ->
  (forall k, (k < length axes)%nat -> 0 <= L k) ->
  (forall k idx, (k < length axes)%nat -> in_shape (map npts axes) idx -> in_shape (map npts axes) (next_along k idx) ->
    Rabs (V (next_along k idx) - V idx) <= L k * spacing (nth k axes no_axis) (nth k idx 0%Z)) ->
  Rabs (tenL (ops1 lin1 axes x) V - tenL (ops1 lin1 axes' x) V)
    <= moved_factor axes axes' x * sum_upto (length axes) (fun k => L k * d k).
Proof.
  induction 1 as [|a axes Ga G IH]; intros axes' x V d L G' (HL & HM) Lx HL0 HV.
  - destruct axes'; [|discriminate]. destruct x; [|discriminate]. cbn [ops1 combine map tenL].
    rewrite Rminus_diag_eq, Rabs_R0 by auto. unfold moved_factor, prod_upto, sum_upto. simpl. lra.
  - destruct axes' as [|b axes']; [discriminate|]. destruct x as [|x0 x]; [discriminate|].
    inversion G' as [|? ? Gb G'']; subst. assert (Hab := HM 0%nat a b eq_refl eq_refl).
    simpl in HL, Lx. injection HL as HL. injection Lx as Lx.
    unfold ops1. cbn [combine map tenL fst snd]. fold (ops1 lin1 axes x). fold (ops1 lin1 axes' x).
    set (w := fun i => tenL (ops1 lin1 axes x) (fun idx => V (i :: idx))).
    set (w' := fun i => tenL (ops1 lin1 axes' x) (fun idx => V (i :: idx))).
    set (D := prod_upto (length axes) (fun k => 1 + 2 * Rmax (outside_by axes x k) (outside_by axes' x k))).
    set (m := Rmax (overshoot a x0) (overshoot b x0)).
    assert (EF : moved_factor (a :: axes) (b :: axes') (x0 :: x) = (1 + 2 * m) * D).
    { unfold moved_factor. cbn [length]. rewrite prod_upto_S. reflexivity. }
    cbn [length]. rewrite EF, sum_upto_S.
    assert (D1 : 1 <= D).
    { apply prod_upto_ge_1. intros k Hk. assert (O := outside_nonneg axes x k).
      assert (P := Rmax_l (outside_by axes x k) (outside_by axes' x k)). lra. }
    assert (Mb : 0 <= overshoot b x0 <= m) by (split; [apply overshoot_nonneg|apply Rmax_r]).
    assert (L0 : 0 <= L 0%nat) by (apply HL0; simpl; lia).
    assert (d0 : 0 <= d 0%nat) by (apply (moved_nonneg _ a b); auto; destruct Ga; lia).
    assert (E0 : forall i, (0 <= i < npts a)%Z -> Rabs (w i - w' i) <= D * sum_upto (length axes) (fun k => L (S k) * d (S k))).
    { intros i Hi. unfold w, w'. apply (IH axes' x (fun idx => V (i :: idx)) (fun k => d (S k)) (fun k => L (S k))); auto.
      - split; [lia|]. intros k a0 b0 Hka Hkb. apply (HM (S k) a0 b0 Hka Hkb).
      - intros k Hk. apply HL0. simpl. lia.
      - intros k idx Hk H1 H2. assert (Q := HV (S k) (i :: idx)). unfold next_along in *. simpl in Q.
        apply Q; [lia| |]; apply in_shape_cons; auto. }
    assert (S0 : forall i, (0 <= i)%Z -> (i + 1 < npts a)%Z -> Rabs (w (i + 1)%Z - w i) <= (D * L 0%nat) * spacing a i).
    { intros i H1 H2. unfold w. rewrite (tenL_minus _ _ _ _ (good_lin x Lx G)). rewrite Rmult_assoc.
      eapply Rle_trans; [apply (tenL_norm_any axes _ (fun k => 1 + 2 * outside_by axes x k) _ (L 0%nat * spacing a i))|].
      - apply ops1_shape; auto.
      - intros k a0 L1 Hk HkL. rewrite (ops1_nth_error _ _ _ _ _ _ Lx Hk HkL). clear L1 HkL.
        rewrite (outside_nth _ _ _ _ Hk). assert (Gk := good_nth _ G Hk).
        intros v B HB. apply lin1_norm_any; auto; apply Gk.
      - intros idx Hs. assert (Q := HV 0%nat (i :: idx)). unfold next_along in Q. simpl in Q. apply Q; [lia| |];
          apply in_shape_cons; split; auto; lia.
      - apply Rmult_le_compat_r.
        + apply Rmult_le_pos; auto. left. apply (axis_gap (proj1 Ga)); lia.
        + apply prod_upto_le. intros k Hk. assert (O := outside_nonneg axes x k).
          assert (P := Rmax_l (outside_by axes x k) (outside_by axes' x k)). lra. }
    replace (lin1 a x0 w - lin1 b x0 w') with ((lin1 a x0 w - lin1 b x0 w) + (lin1 b x0 w - lin1 b x0 w')) by ring.
    eapply Rle_trans; [apply Rabs_triang|]. rewrite Rmult_plus_distr_l. apply Rplus_le_compat.
    + eapply Rle_trans; [apply (lin1_moved_error a b (d 0%nat) Ga Gb Hab x0 w (D * L 0%nat) S0)|].
      * apply Rmult_le_pos; lra.
      * replace ((1 + 2 * m) * D * (L 0%nat * d 0%nat)) with ((1 + 2 * m) * (D * L 0%nat * d 0%nat)) by ring.
        apply Rmult_le_compat_r; [|lra]. apply Rmult_le_pos; auto. apply Rmult_le_pos; lra.
    + destruct (lin1_lf (proj1 Gb) (proj2 Gb) x0) as (P1 & P2 & P3).
      replace (lin1 b x0 w - lin1 b x0 w') with (lin1 b x0 (fun i => w i + -1 * w' i)) by (rewrite P1, P2; ring).
      rewrite Rmult_assoc.
      assert (Sn : 0 <= D * sum_upto (length axes) (fun k => L (S k) * d (S k))).
      { eapply Rle_trans; [apply Rabs_pos|apply (E0 0%Z)]. destruct Ga; lia. }
      eapply Rle_trans; [apply (lin1_norm_any b (proj1 Gb) (proj2 Gb) x0 _ (D * sum_upto (length axes) (fun k => L (S k) * d (S k))))|].
      * intros i Hi. replace (w i + -1 * w' i) with (w i - w' i) by ring. apply E0. destruct Hab as (En & _). lia.
      * apply Rmult_le_compat_r; auto. lra.
Qed.

Lemma moved_npts d axes axes' : moved_grid d axes axes' -> map npts axes' = map npts axes.
Proof.
  intros (Hl & HM). revert axes' d Hl HM. induction axes as [|a axes IH]; intros [|b axes'] d Hl HM; try discriminate; auto.
  cbn [map]. f_equal.
  - symmetry. apply (HM 0%nat a b); auto.
  - simpl in Hl. apply (IH axes' (fun k => d (S k))); [lia|]. intros k a0 b0 Ha Hb. apply (HM (S k) a0 b0 Ha Hb).
Qed.
Theorem moved_grid_linear c c' vals axes axes' (dom dom' : list R -> Prop) eval eval' x d L :
  multilinear c vals axes dom eval -> multilinear c' vals axes' dom' eval' -> moved_grid d axes axes' ->
  length x = length axes -> dom x -> dom' x ->
  (forall k, (k < length axes)%nat -> 0 <= L k /\ data_slope_at_most axes vals k (L k)) ->
  exists r r', eval x = Ok r /\ eval' x = Ok r' /\
    Rabs (r - r') <= moved_factor axes axes' x * sum_upto (length axes) (fun k => L k * d k).
Proof.
  intros H H' HM Lx Dx Dx' HL. destruct (multilinear_value H) as (G & Lv & E). destruct (multilinear_value H') as (G' & Lv' & E').
  assert (Lx' : length x = length axes') by (rewrite Lx; apply HM).
  eexists. eexists. split; [apply E; auto|]. split; [apply E'; auto|].
  rewrite (moved_npts d axes axes' HM). apply moved_val; auto.
  - intros k Hk. apply HL; auto.
  - intros k idx Hk. apply (proj2 (HL k Hk)).
Qed.

Lemma moved_factor_inside axes axes' x : Forall (good_axis 2) axes -> Forall (good_axis 2) axes' -> length axes = length axes' ->
  inside_grid axes x -> inside_grid axes' x -> moved_factor axes axes' x = 1.
Proof.
  intros G G' HL (Lx & H) (_ & H'). unfold moved_factor.
  assert (Z : forall k, (k < length axes)%nat -> 1 + 2 * Rmax (outside_by axes x k) (outside_by axes' x k) = 1).
  { intros k Hk. assert (Ek := nth_error_nth' axes no_axis Hk).
    assert (Hk' : (k < length axes')%nat) by lia. assert (Ek' := nth_error_nth' axes' no_axis Hk').
    rewrite (outside_nth _ _ _ _ Ek), (outside_nth _ _ _ _ Ek').
    destruct (good_nth _ G Ek) as (A & N). destruct (good_nth _ G' Ek') as (A' & N').
    rewrite !overshoot_inside by auto. rewrite Rmax_left by lra. ring. }
  transitivity (prod_upto (length axes) (fun _ => 1)).
  - apply prod_upto_ext. exact Z.
  - clear. generalize (length axes). induction n as [|n IH]; [reflexivity|]. rewrite prod_upto_S, IH. ring.
Qed.

Theorem moved_grid_linear_inside c c' vals axes axes' dom dom' eval eval' x d L :
  multilinear c vals axes dom eval -> multilinear c' vals axes' dom' eval' -> moved_grid d axes axes' ->
  inside_grid axes x -> inside_grid axes' x ->
  (forall k, (k < length axes)%nat -> 0 <= L k /\ data_slope_at_most axes vals k (L k)) ->
  exists r r', eval x = Ok r /\ eval' x = Ok r' /\ Rabs (r - r') <= sum_upto (length axes) (fun k => L k * d k).
Proof.
  intros H H' HM Hx Hx' HL. destruct (multilinear_value H) as (G & _). destruct (multilinear_value H') as (G' & _).
  destruct (moved_grid_linear c c' vals axes axes' dom dom' eval eval' x d L H H' HM (proj1 Hx)) as (r & r' & E & E' & B); auto.
  - eapply multilinear_inside; eauto.
  - eapply multilinear_inside; eauto.
  - exists r, r'. split; auto. split; auto. rewrite moved_factor_inside in B; auto; [lra|apply HM].
Qed.

(** ** Nearest: the chosen node is nearest on the moved grid up to twice the movement. *)
Lemma nearest_moved d a b x i : nodes_within d a b -> nearest_node b x i -> nearest_up_to (2 * d) a x i.
Proof.
  intros (En & H) (Hi & Hm). split; [lia|]. intros j Hj. destruct (Hm j ltac:(lia)) as (Q & _).
  assert (A := H i ltac:(lia)). assert (B := H j Hj). apply Rabs_le_inv in A. apply Rabs_le_inv in B.
  clear - Q A B. unfold Rabs in *. repeat destruct Rcase_abs; lra.
Qed.
Theorem moved_grid_nearest c vals axes axes' (dom : list R -> Prop) eval x d :
  nearest_nd c vals axes' dom eval -> moved_grid d axes axes' -> length x = length axes -> dom x ->
  exists idx, in_shape (map npts axes) idx /\ eval x = Ok (entry 0 (map npts axes) vals idx) /\
  forall k a, nth_error axes k = Some a -> nearest_up_to (2 * d k) a (nth k x 0) (nth k idx 0%Z).
Proof.
  intros H HM Lx Dx. destruct (nearest_value H) as (G & Lv & E).
  destruct (E x ltac:(rewrite Lx; apply HM) Dx) as (idx & Hi & Er). exists idx.
  rewrite (moved_npts d axes axes' HM) in Er. split; [rewrite <- (moved_npts d axes axes' HM); apply (nearest_nodes_shape Hi)|]. split; [exact Er|].
  intros k a Ha. destruct (nth_error axes' k) as [b|] eqn:Hb.
  - apply (nearest_moved (d k) a b); [apply (proj2 HM k a b Ha Hb)|]. destruct Hi as (_ & _ & Hi). apply (Hi k b Hb).
  - apply nth_error_None in Hb. assert (K : (k < length axes)%nat) by (apply nth_error_Some; rewrite Ha; discriminate). destruct HM as (HL & _). lia.
Qed.
