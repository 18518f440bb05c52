(** Stability and accuracy of the N-dimensional interpolators outside the grid. *)
From Coq Require Import Reals Lra PeanoNat Bool ZifyBool ZifyNat.
From Verif Require Import Base Ops Spec CoreLemmas TensorLemmas SpecReal RTensor R1D RChar Interpolators REval RProofs RProofs2 RProofs3.
From Verif Require Import SpecApprox Approx1D Approx Shape SpecExtrap Extrap1D.
Unset Implicit Arguments.
Open Scope R_scope.

Lemma prod_upto_S n g : prod_upto (S n) g = g O * prod_upto n (fun k => g (S k)).
Proof. unfold prod_upto. simpl. rewrite <- seq_shift, map_map. reflexivity. Qed.

Lemma tenL_norm_any axes : forall Ls g V E,
  Forall2 (fun a (L : (Z -> R) -> R) => True) axes Ls ->
  (forall k a L, nth_error axes k = Some a -> nth_error Ls k = Some L ->
    forall v B, (forall i, (0 <= i < npts a)%Z -> Rabs (v i) <= B) -> Rabs (L v) <= g k * B) ->
  (forall idx, in_shape (map npts axes) idx -> Rabs (V idx) <= E) ->
  Rabs (tenL Ls V) <= prod_upto (length axes) g * E.
Proof.
  induction axes as [|a axes IH]; intros Ls g V E HF HN HV; inversion HF as [|? L ? Ls' _ HF']; subst.
  - unfold prod_upto. simpl. rewrite Rmult_1_l. apply HV. constructor.
  - cbn [tenL length]. rewrite prod_upto_S, Rmult_assoc. apply (HN 0%nat a L eq_refl eq_refl).
    intros i Hi. apply (IH Ls' (fun k => g (S k))); auto.
    + intros k b L' Hb HL. exact (HN (S k) b L' Hb HL).
    + intros idx Hx. apply HV. constructor; auto.
Qed.

Lemma ops1_shape op axes x : length x = length axes -> Forall2 (fun a (L : (Z -> R) -> R) => True) axes (ops1 op axes x).
Proof.
  revert x. induction axes as [|a axes IH]; intros [|x0 x] HL; try discriminate; [constructor|].
  unfold ops1. cbn [combine map]. constructor; auto. apply IH. simpl in HL. lia.
Qed.

Lemma outside_nth axes x k a : nth_error axes k = Some a -> outside_by axes x k = overshoot a (nth k x 0).
Proof. intros Hk. unfold outside_by. rewrite (nth_error_nth axes k no_axis Hk). reflexivity. Qed.

Theorem lin_stable_any c c' vals vals' axes dom dom' eval eval' e x :
  multilinear c vals axes dom eval -> multilinear c' vals' axes dom' eval' ->
  values_within e vals vals' -> length x = length axes -> dom x -> dom' x ->
  exists r r', eval x = Ok r /\ eval' x = Ok r' /\
    Rabs (r - r') <= prod_upto (length axes) (fun k => 1 + 2 * outside_by axes x k) * e.
Proof.
  intros H H' HV Hx Dx Dx'. destruct (multilinear_value H) as (G & L & E). destruct (multilinear_value H') as (_ & L' & E').
  eexists. eexists. split; [apply E; auto|]. split; [apply E'; auto|].
  rewrite (tenL_minus _ _ _ _ (good_lin x Hx G)).
  apply (tenL_norm_any axes); [apply ops1_shape; auto| |intros idx Hi; apply within_entry; auto].
  intros k a L0 Hk HkL. rewrite (ops1_nth_error _ _ _ _ _ _ Hx Hk HkL). clear L0 HkL.
  rewrite (outside_nth _ _ _ _ Hk). assert (Gk := good_nth _ G Hk).
  intros v B HB. apply lin1_norm_any; auto; apply Gk.
Qed.

Theorem cubic_stable_any c c' lin vals vals' axes dom dom' eval eval' e x rho :
  multicubic c lin vals axes dom eval -> multicubic c' lin vals' axes dom' eval' ->
  values_within e vals vals' -> length x = length axes -> dom x -> dom' x ->
  (forall a, In a axes -> spacing_ratio_at_most a rho) ->
  exists r r', eval x = Ok r /\ eval' x = Ok r' /\
    Rabs (r - r') <= prod_upto (length axes) (fun k => cubic_reach_gain lin rho (outside_by axes x k)) * e.
Proof.
  intros H H' HV Hx Dx Dx' Hr. destruct (multicubic_value H) as (G & L & E). destruct (multicubic_value H') as (_ & L' & E').
  eexists. eexists. split; [apply E; auto|]. split; [apply E'; auto|].
  rewrite (tenL_minus _ _ _ _ (good_cub lin x Hx G)).
  apply (tenL_norm_any axes); [apply ops1_shape; auto| |intros idx Hi; apply within_entry; auto].
  intros k a L0 Hk HkL. rewrite (ops1_nth_error _ _ _ _ _ _ Hx Hk HkL). clear L0 HkL.
  rewrite (outside_nth _ _ _ _ Hk). assert (Gk := good_nth _ G Hk).
  intros v B HB. apply cub1_norm_any; auto; try apply Gk. apply Hr. eapply nth_error_In; eauto.
Qed.

(** ** Accuracy *)
Lemma reach_cons a axes x0 x y0 y : in_reach (a :: axes) (x0 :: x) (y0 :: y) <->
  Rmin (coord a 0) x0 <= y0 <= Rmax (coord a (npts a - 1)) x0 /\ in_reach axes x y.
Proof.
  split.
  - intros (L & H). split; [apply (H 0%nat a eq_refl)|]. split; [simpl in L; lia|].
    intros k b Hk. apply (H (S k) b Hk).
  - intros (H0 & L & H). split; [simpl; lia|]. intros [|k] b Hk; simpl in *; [inversion Hk; subst; auto|auto].
Qed.

Lemma reach_range a x s : coord a 0 <= s <= coord a (npts a - 1) -> Rmin (coord a 0) x <= s <= Rmax (coord a (npts a - 1)) x.
Proof. intros Hs. assert (A := Rmin_l (coord a 0) x). assert (B := Rmax_l (coord a (npts a - 1)) x). lra. Qed.
Lemma reach_self a x : Rmin (coord a 0) x <= x <= Rmax (coord a (npts a - 1)) x.
Proof. split; [apply Rmin_r|apply Rmax_r]. Qed.

Lemma in_reach_self axes x : length x = length axes -> in_reach axes x x.
Proof. intros HL. split; auto. intros k a _. apply reach_self. Qed.

Lemma reach_upd axes x y k a t : in_reach axes x y -> nth_error axes k = Some a ->
  Rmin (coord a 0) (nth k x 0) <= t <= Rmax (coord a (npts a - 1)) (nth k x 0) -> in_reach axes x (upd y k t).
Proof.
  intros (L & H) Hk Ht. split; [rewrite len_upd; auto|]. intros j b Hj.
  assert (Lk : (k < length axes)%nat) by (apply nth_error_Some; congruence).
  destruct (Nat.eq_dec j k) as [-> | N].
  - rewrite nth_upd_same by lia. congruence.
  - rewrite nth_upd_other by auto. auto.
Qed.

Lemma tenL_error_any axes : Forall increasing_axis axes -> forall Ls x f (e g : nat -> R),
  lfs (map npts axes) Ls -> length x = length axes ->
  (forall k a L, nth_error axes k = Some a -> nth_error Ls k = Some L ->
    (forall v E, (forall i, (0 <= i < npts a)%Z -> Rabs (v i) <= E) -> Rabs (L v) <= g k * E) /\
    (forall y, in_reach axes x y ->
       Rabs (L (fun i => f (upd y k (coord a i))) - f (upd y k (nth k x 0))) <= e k)) ->
  Rabs (tenL Ls (fun idx => f (node_pos axes idx)) - f x) <= compounded (length axes) g e.
Proof.
  induction 1 as [|a axes Ha Hi IH]; intros Ls x f e g HL Lx H.
  - inversion HL; subst. destruct x; [|discriminate]. simpl.
    rewrite Rminus_diag_eq, Rabs_R0 by auto. lra.
  - inversion HL as [|? L ? Ls' HLa HLr]; subst.
    destruct x as [|x0 x]; [discriminate|]. assert (Lx' : length x = length axes) by (simpl in Lx; lia).
    destruct (H 0%nat a L eq_refl eq_refl) as (HN & HE). cbn [compounded length tenL].
    set (C := compounded _ _ _).
    replace (L (fun i => tenL Ls' (fun idx => f (node_pos (a :: axes) (i :: idx)))) - f (x0 :: x))
      with ((L (fun i => f (coord a i :: x)) - f (x0 :: x))
        + L (fun i => tenL Ls' (fun idx => f (coord a i :: node_pos axes idx)) - f (coord a i :: x))).
    + eapply Rle_trans; [apply Rabs_triang|]. apply Rplus_le_compat.
      * apply (HE (x0 :: x)). apply in_reach_self; auto.
      * apply HN. intros i Hi0. apply (IH Ls' x (fun y => f (coord a i :: y))); auto.
        intros k b M Hb HM. destruct (H (S k) b M Hb HM) as (HN' & HE'). split; [exact HN'|].
        intros y Hy. apply (HE' (coord a i :: y)). apply reach_cons. split; auto.
        apply reach_range. apply axis_range; auto.
    + replace (L (fun i => tenL Ls' (fun idx => f (coord a i :: node_pos axes idx)) - f (coord a i :: x)))
        with (L (fun i => tenL Ls' (fun idx => f (node_pos (a :: axes) (i :: idx)))) - L (fun i => f (coord a i :: x))).
      * ring.
      * destruct HLa as (P1 & P2 & P3).
        rewrite (P3 (fun i => tenL Ls' (fun idx => f (coord a i :: node_pos axes idx)) - f (coord a i :: x)) (fun i => tenL Ls' (fun idx => f (node_pos (a :: axes) (i :: idx))) + -1 * f (coord a i :: x)))
          by (intros; simpl; ring).
        rewrite P1, P2. ring.
Qed.

Lemma compounded_prod n : forall g e, compounded n g e = sum_upto n (fun k => prod_upto k g * e k).
Proof.
  induction n as [|n IH]; intros g e; [reflexivity|]. rewrite sum_upto_S. cbn [compounded].
  rewrite IH, <- sum_upto_scal. f_equal; [unfold prod_upto; simpl; ring|].
  apply sum_upto_ext. intros k _. rewrite prod_upto_S. ring.
Qed.

Lemma lin_approx_val_any axes f x M h : Forall (good_axis 2) axes -> length x = length axes ->
  (forall k, (k < length axes)%nat -> second_derivative_reaching axes x f k (M k)) ->
  (forall k a, nth_error axes k = Some a -> spacing_at_most a (h k)) ->
  Rabs (tenL (ops1 lin1 axes x) (fun idx => f (node_pos axes idx)) - f x) <= sum_upto (length axes) (fun k =>
    prod_upto k (fun j => 1 + 2 * outside_by axes x j) * (M k * h k ^ 2 * linear_miss (outside_by axes x k))).
Proof.
  intros G Hx HM Hh. assert (HL := good_lin x Hx G). rewrite <- compounded_prod.
  apply (tenL_error_any axes (good_inc 2 axes G) _ _ _ _ _ HL Hx).
  intros k a L0 Hk HkL. rewrite (ops1_nth_error _ _ _ _ _ _ Hx Hk HkL). clear L0 HkL.
  rewrite (outside_nth _ _ _ _ Hk). assert (Gk := good_nth _ G Hk).
  assert (Lk : (k < length axes)%nat) by (apply nth_error_Some; congruence).
  split.
  - intros v B HB. apply lin1_norm_any; auto; apply Gk.
  - intros y Hy. destruct (HM k Lk) as (D1 & D2 & HD).
    assert (Ly : length y = length axes) by apply Hy.
    assert (In : forall s, Rmin (coord a 0) (nth k x 0) <= s <= Rmax (coord a (npts a - 1)) (nth k x 0) -> in_reach axes x (upd y k s))
      by (intros s Hs0; apply (reach_upd axes x y k a s Hy Hk); auto).
    apply (lin1_error_any a (proj1 Gk) (proj2 Gk) (nth k x 0) (Rmin (coord a 0) (nth k x 0)) (Rmax (coord a (npts a - 1)) (nth k x 0))
      (fun t => f (upd y k t)) (fun t => D1 (upd y k t)) (fun t => D2 (upd y k t)) (M k) (h k)).
    + split; [apply Rmin_l|apply Rmin_r].
    + split; [apply Rmax_l|apply Rmax_r].
    + intros s Hs0. apply partial_line; [lia|]. apply HD. auto.
    + intros s Hs0. apply partial_line; [lia|]. apply HD. auto.
    + intros s Hs0. apply HD. auto.
    + auto.
Qed.

Theorem lin_approx_any c vals axes dom eval f x M h :
  multilinear c vals axes dom eval -> samples axes vals f -> length x = length axes -> dom x ->
  (forall k, (k < length axes)%nat -> second_derivative_reaching axes x f k (M k)) ->
  (forall k a, nth_error axes k = Some a -> spacing_at_most a (h k)) ->
  exists r, eval x = Ok r /\ Rabs (r - f x) <= sum_upto (length axes) (fun k =>
    prod_upto k (fun j => 1 + 2 * outside_by axes x j) * (M k * h k ^ 2 * linear_miss (outside_by axes x k))).
Proof.
  intros H Hs Hx Dx HM Hh. destruct (multilinear_value H) as (G & _ & E).
  eexists. split; [apply E; auto|].
  rewrite (tenL_samples (good_lin x Hx G) Hs). apply lin_approx_val_any; auto.
Qed.

Lemma cubic_approx_val_any axes f x M h rho : Forall (good_axis 4) axes -> length x = length axes ->
  (forall k, (k < length axes)%nat -> third_derivative_reaching axes x f k (M k)) ->
  (forall k a, nth_error axes k = Some a -> spacing_at_most a (h k)) ->
  (forall a, In a axes -> spacing_ratio_at_most a rho) ->
  Rabs (tenL (ops1 (cub1 false) axes x) (fun idx => f (node_pos axes idx)) - f x) <= sum_upto (length axes) (fun k =>
    prod_upto k (fun j => cubic_reach_gain false rho (outside_by axes x j))
      * (M k * h k ^ 3 * cubic_miss (outside_by axes x k))).
Proof.
  intros G Hx HM Hh Hr. assert (HL := good_cub false x Hx G). rewrite <- compounded_prod.
  apply (tenL_error_any axes (good_inc 4 axes G) _ _ _ _ _ HL Hx).
  intros k a L0 Hk HkL. rewrite (ops1_nth_error _ _ _ _ _ _ Hx Hk HkL). clear L0 HkL.
  rewrite (outside_nth _ _ _ _ Hk). assert (Gk := good_nth _ G Hk).
  assert (Lk : (k < length axes)%nat) by (apply nth_error_Some; congruence).
  split.
  - intros v B HB. apply cub1_norm_any; auto; try apply Gk. apply Hr. eapply nth_error_In; eauto.
  - intros y Hy. destruct (HM k Lk) as (D1 & D2 & D3 & HD).
    assert (Ly : length y = length axes) by apply Hy.
    assert (In : forall s, Rmin (coord a 0) (nth k x 0) <= s <= Rmax (coord a (npts a - 1)) (nth k x 0) -> in_reach axes x (upd y k s))
      by (intros s Hs0; apply (reach_upd axes x y k a s Hy Hk); auto).
    apply (cub1_error_any a (proj1 Gk) (proj2 Gk) (nth k x 0) (Rmin (coord a 0) (nth k x 0)) (Rmax (coord a (npts a - 1)) (nth k x 0))
      (fun t => f (upd y k t)) (fun t => D1 (upd y k t)) (fun t => D2 (upd y k t)) (fun t => D3 (upd y k t)) (M k) (h k)).
    + split; [apply Rmin_l|apply Rmin_r].
    + split; [apply Rmax_l|apply Rmax_r].
    + intros s Hs0. apply partial_line; [lia|]. apply HD. auto.
    + intros s Hs0. apply partial_line; [lia|]. apply HD. auto.
    + intros s Hs0. apply partial_line; [lia|]. apply HD. auto.
    + intros s Hs0. apply HD. auto.
    + auto.
Qed.

Theorem cubic_approx_any c vals axes dom eval f x M h rho :
  multicubic c false vals axes dom eval -> samples axes vals f -> length x = length axes -> dom x ->
  (forall k, (k < length axes)%nat -> third_derivative_reaching axes x f k (M k)) ->
  (forall k a, nth_error axes k = Some a -> spacing_at_most a (h k)) ->
  (forall a, In a axes -> spacing_ratio_at_most a rho) ->
  exists r, eval x = Ok r /\ Rabs (r - f x) <= sum_upto (length axes) (fun k =>
    prod_upto k (fun j => cubic_reach_gain false rho (outside_by axes x j))
      * (M k * h k ^ 3 * cubic_miss (outside_by axes x k))).
Proof.
  intros H Hs Hx Dx HM Hh Hr. destruct (multicubic_value H) as (G & _ & E).
  eexists. split; [apply E; auto|].
  rewrite (tenL_samples (good_cub false x Hx G) Hs). apply cubic_approx_val_any; auto.
Qed.

Lemma cubic_approx_val_any_lin axes f x M N h rho : Forall (good_axis 4) axes -> length x = length axes ->
  (forall k, (k < length axes)%nat -> third_derivative_reaching axes x f k (M k)) ->
  (forall k, (k < length axes)%nat -> second_derivative_reaching axes x f k (N k)) ->
  (forall k a, nth_error axes k = Some a -> spacing_at_most a (h k)) ->
  (forall a, In a axes -> spacing_ratio_at_most a rho) ->
  Rabs (tenL (ops1 (cub1 true) axes x) (fun idx => f (node_pos axes idx)) - f x) <= sum_upto (length axes) (fun k =>
    prod_upto k (fun j => cubic_reach_gain true rho (outside_by axes x j))
      * (M k * h k ^ 3 * (7 / 48 + outside_by axes x k / 3) + N k * h k ^ 2 * (outside_by axes x k ^ 2 / 2))).
Proof.
  intros G Hx HM HN Hh Hr. assert (HL := good_cub true x Hx G). rewrite <- compounded_prod.
  apply (tenL_error_any axes (good_inc 4 axes G) _ _ _ _ _ HL Hx).
  intros k a L0 Hk HkL. rewrite (ops1_nth_error _ _ _ _ _ _ Hx Hk HkL). clear L0 HkL.
  rewrite (outside_nth _ _ _ _ Hk). assert (Gk := good_nth _ G Hk).
  assert (Lk : (k < length axes)%nat) by (apply nth_error_Some; congruence).
  split.
  - intros v B HB. apply cub1_norm_any; auto; try apply Gk. apply Hr. eapply nth_error_In; eauto.
  - intros y Hy. destruct (HM k Lk) as (D1 & D2 & D3 & HD). destruct (HN k Lk) as (E1 & E2 & HE).
    assert (Ly : length y = length axes) by apply Hy.
    assert (In : forall s, Rmin (coord a 0) (nth k x 0) <= s <= Rmax (coord a (npts a - 1)) (nth k x 0) -> in_reach axes x (upd y k s))
      by (intros s Hs0; apply (reach_upd axes x y k a s Hy Hk); auto).
    apply (cub1_error_any_lin a (proj1 Gk) (proj2 Gk) (nth k x 0) (Rmin (coord a 0) (nth k x 0)) (Rmax (coord a (npts a - 1)) (nth k x 0))
      (fun t => f (upd y k t)) (fun t => D1 (upd y k t)) (fun t => D2 (upd y k t)) (fun t => D3 (upd y k t)) (M k) (h k)) with
      (E1 := fun t => E1 (upd y k t)) (E2 := fun t => E2 (upd y k t)) (N := N k).
    + split; [apply Rmin_l|apply Rmin_r].
    + split; [apply Rmax_l|apply Rmax_r].
    + intros s Hs0. apply partial_line; [lia|]. apply HD. auto.
    + intros s Hs0. apply partial_line; [lia|]. apply HD. auto.
    + intros s Hs0. apply partial_line; [lia|]. apply HD. auto.
    + intros s Hs0. apply HD. auto.
    + auto.
    + intros s Hs0. apply partial_line; [lia|]. apply HE. auto.
    + intros s Hs0. apply partial_line; [lia|]. apply HE. auto.
    + intros s Hs0. apply HE. auto.
Qed.

Theorem cubic_approx_any_lin c vals axes dom eval f x M N h rho :
  multicubic c true vals axes dom eval -> samples axes vals f -> length x = length axes -> dom x ->
  (forall k, (k < length axes)%nat -> third_derivative_reaching axes x f k (M k)) ->
  (forall k, (k < length axes)%nat -> second_derivative_reaching axes x f k (N k)) ->
  (forall k a, nth_error axes k = Some a -> spacing_at_most a (h k)) ->
  (forall a, In a axes -> spacing_ratio_at_most a rho) ->
  exists r, eval x = Ok r /\ Rabs (r - f x) <= sum_upto (length axes) (fun k =>
    prod_upto k (fun j => cubic_reach_gain true rho (outside_by axes x j))
      * (M k * h k ^ 3 * (7 / 48 + outside_by axes x k / 3) + N k * h k ^ 2 * (outside_by axes x k ^ 2 / 2))).
Proof.
  intros H Hs Hx Dx HM HN Hh Hr. destruct (multicubic_value H) as (G & _ & E).
  eexists. split; [apply E; auto|].
  rewrite (tenL_samples (good_cub true x Hx G) Hs). apply cubic_approx_val_any_lin; auto.
Qed.

(** The size of the result. *)
Theorem lin_range_any c vals axes dom eval x E :
  multilinear c vals axes dom eval -> length x = length axes -> dom x -> Forall (fun v => Rabs v <= E) vals ->
  exists r, eval x = Ok r /\ Rabs r <= prod_upto (length axes) (fun k => 1 + 2 * outside_by axes x k) * E.
Proof.
  intros H Hx Dx HE. destruct (multilinear_value H) as (G & L & Ev).
  eexists. split; [apply Ev; auto|].
  apply (tenL_norm_any axes); [apply ops1_shape; auto| |intros idx Hi; rewrite Forall_forall in HE; apply HE; apply entry_in; auto].
  intros k a L0 Hk HkL. rewrite (ops1_nth_error _ _ _ _ _ _ Hx Hk HkL). clear L0 HkL.
  rewrite (outside_nth _ _ _ _ Hk). assert (Gk := good_nth _ G Hk).
  intros v B HB. apply lin1_norm_any; auto; apply Gk.
Qed.

Theorem cubic_range_any c lin vals axes dom eval x E rho :
  multicubic c lin vals axes dom eval -> length x = length axes -> dom x -> Forall (fun v => Rabs v <= E) vals ->
  (forall a, In a axes -> spacing_ratio_at_most a rho) ->
  exists r, eval x = Ok r /\ Rabs r <= prod_upto (length axes) (fun k => cubic_reach_gain lin rho (outside_by axes x k)) * E.
Proof.
  intros H Hx Dx HE Hr. destruct (multicubic_value H) as (G & L & Ev).
  eexists. split; [apply Ev; auto|].
  apply (tenL_norm_any axes); [apply ops1_shape; auto| |intros idx Hi; rewrite Forall_forall in HE; apply HE; apply entry_in; auto].
  intros k a L0 Hk HkL. rewrite (ops1_nth_error _ _ _ _ _ _ Hx Hk HkL). clear L0 HkL.
  rewrite (outside_nth _ _ _ _ Hk). assert (Gk := good_nth _ G Hk).
  intros v B HB. apply cub1_norm_any; auto; try apply Gk. apply Hr. eapply nth_error_In; eauto.
Qed.

Lemma overshoot_inside a x : increasing_axis a -> (2 <= npts a)%Z -> coord a 0 <= x <= coord a (npts a - 1) -> overshoot a x = 0.
Proof. intros Ha Hn H. apply overshoot_inside_0; auto. Qed.
