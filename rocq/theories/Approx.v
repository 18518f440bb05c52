(** The error of the N-dimensional interpolators on samples of a function. *)
From Coq Require Import Reals Lra PeanoNat Bool ZifyBool ZifyNat.
From Verif Require Import Base Ops Spec CoreLemmas TensorLemmas SpecReal RTensor R1D RChar Interpolators REval RProofs RProofs2 RProofs3.
From Verif Require Import SpecApprox Approx1D.
Unset Implicit Arguments.
Open Scope R_scope.

Fixpoint compounded (n : nat) (g e : nat -> R) : R :=
  match n with
  | O => 0
  | S m => e O + g O * compounded m (fun k => g (S k)) (fun k => e (S k))
  end.

Lemma inside_cons a axes y0 y : inside_grid (a :: axes) (y0 :: y) <->
  coord a 0 <= y0 <= coord a (npts a - 1) /\ inside_grid axes y.
Proof.
  split.
  - intros (L & H). split; [apply (H 0%nat a eq_refl)|]. split; [simpl in L; lia|].
    intros k b Hk. apply (H (S k) b Hk).
  - intros (H0 & L & H). split; [simpl; lia|]. intros [|k] b Hk; simpl in *; [inversion Hk; subst; auto|auto].
Qed.

Lemma tenL_error axes : Forall increasing_axis axes -> forall Ls x f (e g : nat -> R),
  lfs (map npts axes) Ls -> inside_grid axes x ->
  (forall k a L, nth_error axes k = Some a -> nth_error Ls k = Some L ->
    (forall v E, (forall i, (0 <= i < npts a)%Z -> Rabs (v i) <= E) -> Rabs (L v) <= g k * E) /\
    (forall y, inside_grid axes y ->
       Rabs (L (fun i => f (upd y k (coord a i))) - f (upd y k (nth k x 0))) <= e k)) ->
  Rabs (tenL Ls (fun idx => f (node_pos axes idx)) - f x) <= compounded (length axes) g e.
Proof.
  induction 1 as [|a axes Ha Hi IH]; intros Ls x f e g HL Hx H.
  - inversion HL; subst. destruct Hx as (Lx & _). destruct x; [|discriminate]. simpl.
    rewrite Rminus_diag_eq, Rabs_R0 by auto. lra.
  - inversion HL as [|? L ? Ls' HLa HLr]; subst.
    destruct x as [|x0 x]; [destruct Hx; discriminate|]. apply inside_cons in Hx as (Hx0 & Hx).
    destruct (H 0%nat a L eq_refl eq_refl) as (HN & HE). cbn [compounded length tenL].
    set (C := compounded _ _ _).
    replace (L (fun i => tenL Ls' (fun idx => f (node_pos (a :: axes) (i :: idx)))) - f (x0 :: x))
      with ((L (fun i => f (coord a i :: x)) - f (x0 :: x))
        + L (fun i => tenL Ls' (fun idx => f (coord a i :: node_pos axes idx)) - f (coord a i :: x))).
    + eapply Rle_trans; [apply Rabs_triang|]. apply Rplus_le_compat.
      * apply (HE (x0 :: x)). apply inside_cons; auto.
      * apply HN. intros i Hi0. apply (IH Ls' x (fun y => f (coord a i :: y))); auto.
        intros k b M Hb HM. destruct (H (S k) b M Hb HM) as (HN' & HE'). split; [exact HN'|].
        intros y Hy. apply (HE' (coord a i :: y)). apply inside_cons. split; auto. apply axis_range; auto.
    + replace (L (fun i => tenL Ls' (fun idx => f (coord a i :: node_pos axes idx)) - f (coord a i :: x)))
        with (L (fun i => tenL Ls' (fun idx => f (node_pos (a :: axes) (i :: idx)))) - L (fun i => f (coord a i :: x))).
      * ring.
      * destruct HLa as (P1 & P2 & P3).
        rewrite (P3 (fun i => tenL Ls' (fun idx => f (coord a i :: node_pos axes idx)) - f (coord a i :: x)) (fun i => tenL Ls' (fun idx => f (node_pos (a :: axes) (i :: idx))) + -1 * f (coord a i :: x)))
          by (intros; simpl; ring).
        rewrite P1, P2. ring.
Qed.

Lemma sum_upto_S n e : sum_upto (S n) e = e O + sum_upto n (fun k => e (S k)).
Proof. unfold sum_upto. simpl. rewrite <- seq_shift, map_map. reflexivity. Qed.

Lemma sum_upto_ext n e e' : (forall k, (k < n)%nat -> e k = e' k) -> sum_upto n e = sum_upto n e'.
Proof. intros H. unfold sum_upto. apply Rsum_ext. intros k Hk. apply in_seq in Hk. apply H. lia. Qed.

Lemma sum_upto_le n e e' : (forall k, (k < n)%nat -> e k <= e' k) -> sum_upto n e <= sum_upto n e'.
Proof.
  revert e e'. induction n; intros e e' H; [unfold sum_upto; simpl; lra|].
  rewrite !sum_upto_S. apply Rplus_le_compat; [apply H; lia|]. apply IHn. intros. apply H. lia.
Qed.

Lemma sum_upto_scal n c e : sum_upto n (fun k => c * e k) = c * sum_upto n e.
Proof. unfold sum_upto. apply Rsum_mult. Qed.

Lemma compounded_const n c : forall e, compounded n (fun _ => c) e = sum_upto n (fun k => c ^ k * e k).
Proof.
  induction n as [|n IH]; intros e; [reflexivity|]. rewrite sum_upto_S. cbn [compounded].
  rewrite IH, <- sum_upto_scal. simpl pow. rewrite Rmult_1_l. f_equal.
  apply sum_upto_ext. intros k _. ring.
Qed.

Lemma compounded_one n e : compounded n (fun _ => 1) e = sum_upto n e.
Proof. rewrite compounded_const. apply sum_upto_ext. intros. rewrite pow1. ring. Qed.

Lemma good_inc FP axes : Forall (good_axis FP) axes -> Forall increasing_axis axes.
Proof. intros H. eapply Forall_impl; [|exact H]. intros a (Ha & _). exact Ha. Qed.

Lemma ops1_nth_error op axes x k a L : length x = length axes -> nth_error axes k = Some a ->
  nth_error (ops1 op axes x) k = Some L -> L = op a (nth k x 0).
Proof.
  revert x k. induction axes as [|b axes IH]; intros x k Lx Ha HL; [destruct k; discriminate|].
  destruct x as [|x0 x]; [discriminate|]. destruct k as [|k]; simpl in *.
  - congruence.
  - eapply IH; eauto.
Qed.

Lemma lin1_norm a x v E : good_axis 2 a -> coord a 0 <= x <= coord a (npts a - 1) ->
  (forall i, (0 <= i < npts a)%Z -> Rabs (v i) <= E) -> Rabs (lin1 a x v) <= 1 * E.
Proof.
  intros (Ha & Hn) Hx HE. destruct (@in_cell_ex a Hn x) as (o & Ho). rewrite Rmult_1_l.
  apply Rabs_le. apply (@lin1_bounds a Ha Hn x v o).
  - apply Ho.
  - destruct Ho as (J1 & J2 & J3). split; [destruct J2 as [-> |]; lra|].
    destruct J3 as [-> |]; [|lra]. replace (npts a - 2 + 1)%Z with (npts a - 1)%Z by lia. lra.
  - intros i Hi. apply Rabs_le_inv. apply HE. destruct Ho. lia.
Qed.

Lemma upd_upd A (y : list A) k s t : upd (upd y k s) k t = upd y k t.
Proof. revert k. induction y; intros [|k]; simpl; auto. f_equal. auto. Qed.

Lemma nth_upd_same (y : list R) k t d : (k < length y)%nat -> nth k (upd y k t) d = t.
Proof. revert k. induction y; intros [|k] H; simpl in *; try lia; auto. apply IHy. lia. Qed.

Lemma nth_upd_other (y : list R) k j t d : j <> k -> nth j (upd y k t) d = nth j y d.
Proof. revert k j. induction y; intros [|k] [|j] H; simpl; auto; try lia. Qed.

Lemma upd_self (y : list R) k : (k < length y)%nat -> upd y k (nth k y 0) = y.
Proof. revert k. induction y; intros [|k] H; simpl in *; try lia; auto. f_equal. apply IHy. lia. Qed.

Lemma len_upd A (y : list A) k t : length (upd y k t) = length y.
Proof. revert k. induction y; intros [|k]; simpl; auto. Qed.

Lemma inside_upd axes y k a t : inside_grid axes y -> nth_error axes k = Some a ->
  coord a 0 <= t <= coord a (npts a - 1) -> inside_grid axes (upd y k t).
Proof.
  intros (L & H) Hk Ht. split; [rewrite len_upd; auto|]. intros j b Hj.
  assert (Lk : (k < length axes)%nat) by (apply nth_error_Some; congruence).
  destruct (Nat.eq_dec j k) as [-> | N].
  - rewrite nth_upd_same by lia. congruence.
  - rewrite nth_upd_other by auto. auto.
Qed.

(** Along a line the partial derivatives are derivatives. *)
Lemma partial_line F k y s D : (k < length y)%nat -> partial_derivative F k (upd y k s) D ->
  derivable_pt_lim (fun t => F (upd y k t)) s D.
Proof.
  unfold partial_derivative. intros Hk H. rewrite nth_upd_same in H by auto.
  intros eps He. destruct (H eps He) as (d & Hd). exists d. intros h Hh0 Hh.
  specialize (Hd h Hh0 Hh). rewrite !upd_upd in Hd. exact Hd.
Qed.

Lemma lin_approx_val axes f x os M : Forall (good_axis 2) axes ->
  inside_grid axes x -> in_cells axes x os ->
  (forall k, (k < length axes)%nat -> second_derivative_at_most axes f k (M k)) ->
  Rabs (tenL (ops1 lin1 axes x) (fun idx => f (node_pos axes idx)) - f x) <= sum_upto (length axes)
      (fun k => M k * spacing (nth k axes no_axis) (nth k os 0%Z) ^ 2 / 8).
Proof.
  intros G Hx Hc HM.
  assert (HL := good_lin x (proj1 Hx) G). rewrite <- compounded_one.
  apply (tenL_error axes (good_inc 2 axes G) _ _ _ _ _ HL Hx).
  intros k a L Hk HkL. rewrite (ops1_nth_error _ _ _ _ _ _ (proj1 Hx) Hk HkL). clear L HkL.
  assert (Gk := good_nth _ G Hk). assert (Hxk := proj2 Hx k a Hk).
  assert (Lk : (k < length axes)%nat) by (apply nth_error_Some; congruence).
  split.
  - intros v B HB. apply lin1_norm; auto.
  - intros y Hy. rewrite (nth_error_nth axes k no_axis Hk).
    assert (Ck := proj2 (proj2 Hc) k a Hk).
    assert (Cx := in_cells_inside G Hc Hx k Hk).
    destruct (HM k Lk) as (D1 & D2 & HD).
    assert (Ly : length y = length axes) by apply Hy.
    assert (In : forall s, coord a (nth k os 0%Z) <= s <= coord a (nth k os 0 + 1)%Z ->
       inside_grid axes (upd y k s)).
    { intros s Hs0. apply (inside_upd axes y k a s Hy Hk).
      destruct Gk as (Ga & Gn). destruct Ck as (C1 & _).
      assert (coord a 0 <= coord a (nth k os 0%Z)) by (apply (axis_le Ga); lia).
      assert (coord a (nth k os 0 + 1)%Z <= coord a (npts a - 1)) by (apply (axis_le Ga); lia). lra. }
    apply (lin1_error a (proj1 Gk) (proj2 Gk) (nth k x 0) (nth k os 0%Z) Ck Cx
      (fun t => f (upd y k t)) (fun t => D1 (upd y k t)) (fun t => D2 (upd y k t)) (M k)).
    + intros s Hs0. apply partial_line; [lia|]. apply HD. auto.
    + intros s Hs0. apply partial_line; [lia|]. apply HD. auto.
    + intros s Hs0. apply HD. auto.
Qed.

Theorem lin_approx c vals axes dom eval f x os M :
  multilinear c vals axes dom eval -> samples axes vals f ->
  inside_grid axes x -> in_cells axes x os ->
  (forall k, (k < length axes)%nat -> second_derivative_at_most axes f k (M k)) ->
  exists r, eval x = Ok r /\
    Rabs (r - f x) <= sum_upto (length axes)
      (fun k => M k * spacing (nth k axes no_axis) (nth k os 0%Z) ^ 2 / 8).
Proof.
  intros H Hs Hx Hc HM. destruct (multilinear_value H) as (G & _ & E).
  eexists. split; [apply E; [apply Hx|eapply multilinear_inside; eauto]|].
  rewrite (tenL_samples (good_lin x (proj1 Hx) G) Hs). apply lin_approx_val; auto.
Qed.

Lemma square_le u v : 0 <= u <= v -> u ^ 2 <= v ^ 2.
Proof. intros. apply pow_incr. lra. Qed.

Lemma lin_approx_val_grid axes f x M h : Forall (good_axis 2) axes -> inside_grid axes x ->
  (forall k, (k < length axes)%nat -> second_derivative_at_most axes f k (M k)) ->
  (forall k a, nth_error axes k = Some a -> spacing_at_most a (h k)) ->
  Rabs (tenL (ops1 lin1 axes x) (fun idx => f (node_pos axes idx)) - f x)
  <= sum_upto (length axes) (fun k => M k * h k ^ 2 / 8).
Proof.
  intros G Hx HM Hh.
  destruct (in_cells_ex x (proj1 Hx) G) as (os & Hc).
  eapply Rle_trans; [exact (lin_approx_val _ _ _ _ _ G Hx Hc HM)|].
  apply sum_upto_le. intros k Hk.
  assert (Ek := nth_error_nth' axes no_axis Hk). set (a := nth k axes no_axis) in *.
  assert (Ck := proj1 (proj2 (proj2 Hc) k a Ek)).
  assert (W : 0 < spacing a (nth k os 0%Z)) by (apply (axis_gap (proj1 (good_nth _ G Ek))); lia).
  assert (WH := Hh k a Ek _ Ck).
  assert (M0 : 0 <= M k).
  { destruct (HM k Hk) as (D1 & D2 & HD). eapply Rle_trans; [apply Rabs_pos|apply (HD x Hx)]. }
  assert (Q := square_le _ _ (conj (Rlt_le _ _ W) WH)).
  apply Rmult_le_compat_r; [lra|]. apply Rmult_le_compat_l; auto.
Qed.

Theorem lin_approx_grid c vals axes dom eval f x M h :
  multilinear c vals axes dom eval -> samples axes vals f -> inside_grid axes x ->
  (forall k, (k < length axes)%nat -> second_derivative_at_most axes f k (M k)) ->
  (forall k a, nth_error axes k = Some a -> spacing_at_most a (h k)) ->
  exists r, eval x = Ok r /\ Rabs (r - f x) <= sum_upto (length axes) (fun k => M k * h k ^ 2 / 8).
Proof.
  intros H Hs Hx HM Hh. destruct (multilinear_value H) as (G & _ & E).
  eexists. split; [apply E; [apply Hx|eapply multilinear_inside; eauto]|].
  rewrite (tenL_samples (good_lin x (proj1 Hx) G) Hs). apply lin_approx_val_grid; auto.
Qed.

(** Functions with bounded slopes *)
Lemma slope_nonneg axes f k a L x : increasing_axis a -> (2 <= npts a)%Z -> nth_error axes k = Some a ->
  inside_grid axes x -> slope_at_most axes f k L -> 0 <= L.
Proof.
  intros Ha Hn Hk Hx HL.
  assert (Lk : (k < length axes)%nat) by (apply nth_error_Some; congruence).
  assert (Lx : length x = length axes) by apply Hx.
  assert (C : coord a 0 < coord a (npts a - 1)) by (apply Ha; lia).
  assert (I0 := inside_upd axes x k a (coord a 0) Hx Hk ltac:(lra)).
  assert (I1 := inside_upd axes x k a (coord a (npts a - 1)) Hx Hk ltac:(lra)).
  assert (Q := HL (upd x k (coord a 0)) (coord a (npts a - 1)) I0). rewrite upd_upd in Q. specialize (Q I1).
  rewrite nth_upd_same in Q by lia. assert (P := Rabs_pos (f (upd x k (coord a (npts a - 1))) - f (upd x k (coord a 0)))).
  rewrite (Rabs_right (_ - coord a 0)) in Q by lra. nra.
Qed.

Theorem lin_approx_slope c vals axes dom eval f x L h :
  multilinear c vals axes dom eval -> samples axes vals f -> inside_grid axes x ->
  (forall k, (k < length axes)%nat -> slope_at_most axes f k (L k)) ->
  (forall k a, nth_error axes k = Some a -> spacing_at_most a (h k)) ->
  exists r, eval x = Ok r /\ Rabs (r - f x) <= sum_upto (length axes) (fun k => L k * h k / 2).
Proof.
  intros H Hs Hx HM Hh. destruct (multilinear_value H) as (G & _ & E).
  destruct (in_cells_ex x (proj1 Hx) G) as (os & Hc).
  eexists. split; [apply E; [apply Hx|eapply multilinear_inside; eauto]|].
  assert (HL := good_lin x (proj1 Hx) G). rewrite (tenL_samples HL Hs). rewrite <- compounded_one.
  apply (tenL_error axes (good_inc 2 axes G) _ _ _ _ _ HL Hx).
  intros k a L0 Hk HkL. rewrite (ops1_nth_error _ _ _ _ _ _ (proj1 Hx) Hk HkL). clear L0 HkL.
  assert (Gk := good_nth _ G Hk). assert (Hxk := proj2 Hx k a Hk).
  assert (Lk : (k < length axes)%nat) by (apply nth_error_Some; congruence).
  split.
  - intros v B HB. apply lin1_norm; auto.
  - intros y Hy. assert (Ck := proj2 (proj2 Hc) k a Hk).
    assert (Cx := in_cells_inside G Hc Hx k Hk).
    assert (Ly : length y = length axes) by apply Hy.
    assert (L0 := slope_nonneg axes f k a (L k) x (proj1 Gk) (proj2 Gk) Hk Hx (HM k Lk)).
    apply Rle_trans with (L k * spacing a (nth k os 0%Z) / 2).
    + apply (lin1_lipschitz a (proj1 Gk) (proj2 Gk) (nth k x 0) (nth k os 0%Z) Ck Cx (fun t => f (upd y k t))); auto.
      intros s Hs0.
      assert (In : inside_grid axes (upd y k s)).
      { apply (inside_upd axes y k a s Hy Hk). destruct Gk as (Ga & Gn). destruct Ck as (C1 & _).
        assert (coord a 0 <= coord a (nth k os 0%Z)) by (apply (axis_le Ga); lia).
        assert (coord a (nth k os 0 + 1)%Z <= coord a (npts a - 1)) by (apply (axis_le Ga); lia). lra. }
      assert (Q := HM k Lk (upd y k (nth k x 0)) s (inside_upd axes y k a _ Hy Hk Hxk)).
      rewrite upd_upd, nth_upd_same in Q by lia. apply Q. exact In.
    + assert (WH := Hh k a Hk _ (proj1 Ck)).
      apply Rmult_le_compat_r; [lra|]. apply Rmult_le_compat_l; auto.
Qed.

(** Any function: the error is at most the variation of the function over the cell. *)
Theorem lin_approx_cell c vals axes dom eval f x os e :
  multilinear c vals axes dom eval -> samples axes vals f ->
  inside_grid axes x -> in_cells axes x os ->
  (forall b, In b (corners (length os)) -> Rabs (f (node_pos axes (corner_index os b)) - f x) <= e) ->
  exists r, eval x = Ok r /\ Rabs (r - f x) <= e.
Proof.
  intros H Hs Hx Hc He.
  destruct (C04_proof (m := f x - e) (M := f x + e) H Hx Hc) as (r & Er & Hr).
  - intros b Hb. assert (Q := He b Hb). apply Rabs_le_inv in Q.
    rewrite (Hs _ (corner_in_shape _ Hc Hb)). lra.
  - exists r. split; auto. apply Rabs_le. lra.
Qed.

(** ** Nearest neighbour *)
Lemma near_distance a x i h f e : 0 <= f -> good_axis 2 a -> coord a 0 <= x <= coord a (npts a - 1) ->
  (forall j, (0 <= j < npts a)%Z -> Rabs (x - coord a i) <= f * Rabs (x - coord a j) + e) ->
  spacing_at_most a h -> Rabs (coord a i - x) <= f * (h / 2) + e.
Proof.
  intros Hf (Ha & Hn) Hx N Hh. destruct (@in_cell_ex a Hn x) as (o & Ho).
  assert (Hc : coord a o <= x <= coord a (o + 1)).
  { destruct Ho as (J1 & J2 & J3). split; [destruct J2 as [-> |]; lra|].
    destruct J3 as [-> |]; [|lra]. replace (npts a - 2 + 1)%Z with (npts a - 1)%Z by lia. lra. }
  assert (J := proj1 Ho). assert (W := Hh o J). unfold spacing in W.
  assert (N0 := N o ltac:(lia)). assert (N1 := N (o + 1)%Z ltac:(lia)).
  rewrite (Rabs_right (x - coord a o)) in N0 by lra.
  rewrite (Rabs_left1 (x - coord a (o + 1))) in N1 by lra.
  rewrite Rabs_minus_sym. destruct (Rle_or_lt (x - coord a o) (h / 2)) as [C|C].
  - assert (f * (x - coord a o) <= f * (h / 2)) by (apply Rmult_le_compat_l; lra). lra.
  - assert (f * - (x - coord a (o + 1)) <= f * (h / 2)) by (apply Rmult_le_compat_l; lra). lra.
Qed.
Lemma nearest_distance a x i h : good_axis 2 a -> coord a 0 <= x <= coord a (npts a - 1) ->
  nearest_node a x i -> spacing_at_most a h -> Rabs (coord a i - x) <= h / 2.
Proof.
  intros G Hx (_ & N) Hh. replace (h / 2) with (1 * (h / 2) + 0) by ring.
  apply (near_distance a x i h 1 0); auto; try lra. intros j Hj. destruct (N j Hj). lra.
Qed.

Lemma nth_error_sel (idx : list Z) k : (k < length idx)%nat ->
  nth_error (map (fun i (v : Z -> R) => v i) idx) k = Some (fun v => v (nth k idx 0%Z)).
Proof. revert k. induction idx; intros [|k] H; simpl in *; try lia; auto. apply IHidx. lia. Qed.

Lemma node_approx axes f x idx L d : Forall (good_axis 2) axes -> inside_grid axes x ->
  in_shape (map npts axes) idx ->
  (forall k, (k < length axes)%nat -> slope_at_most axes f k (L k)) ->
  (forall k a, nth_error axes k = Some a -> Rabs (coord a (nth k idx 0%Z) - nth k x 0) <= d k) ->
  Rabs (f (node_pos axes idx) - f x) <= sum_upto (length axes) (fun k => L k * d k).
Proof.
  intros G Hx Hsh HM Hd.
  set (Ls := map (fun i (v : Z -> R) => v i) idx).
  assert (HL : lfs (map npts axes) Ls).
  { unfold Ls, lfs. clear -Hsh. induction Hsh; simpl; constructor; auto. repeat split; auto. }
  assert (Sel : Forall2 (fun (M : (Z -> R) -> R) i => forall v, M v = v i) Ls idx).
  { unfold Ls. clear. induction idx; simpl; constructor; auto. }
  rewrite <- (tenL_select (fun idx => f (node_pos axes idx)) HL Sel). rewrite <- compounded_one.
  apply (tenL_error axes (good_inc 2 axes G) _ _ _ _ _ HL Hx).
  intros k a L0 Hk HkL.
  assert (Lk : (k < length axes)%nat) by (apply nth_error_Some; congruence).
  assert (Li : length idx = length axes).
  { rewrite <- (map_length npts axes). symmetry. clear -Hsh. induction Hsh; simpl; auto. }
  assert (Nk : (0 <= nth k idx 0 < npts a)%Z).
  { clear -Hsh Hk. revert k idx Hsh Hk. induction axes as [|b axes IH]; intros [|k] idx Hsh Hk; try discriminate;
      inversion Hsh; subst; simpl in *; [injection Hk as ->; auto|eapply IH; eauto]. }
  unfold Ls in HkL. rewrite nth_error_sel in HkL by lia. injection HkL as <-.
  assert (Gk := good_nth _ G Hk). assert (Hxk := proj2 Hx k a Hk).
  split.
  - intros v B HB. rewrite Rmult_1_l. apply HB. apply Nk.
  - intros y Hy. assert (Ly : length y = length axes) by apply Hy.
    assert (L0 := slope_nonneg axes f k a (L k) x (proj1 Gk) (proj2 Gk) Hk Hx (HM k Lk)).
    assert (Q := HM k Lk (upd y k (nth k x 0)) (coord a (nth k idx 0%Z)) (inside_upd axes y k a _ Hy Hk Hxk)).
    rewrite upd_upd, nth_upd_same in Q by lia.
    eapply Rle_trans; [apply Q|].
    + apply (inside_upd axes y k a _ Hy Hk). apply axis_range; [apply Gk|apply Nk].
    + apply Rmult_le_compat_l; auto.
Qed.

Theorem nearest_approx c vals axes dom eval f x L h :
  nearest_nd c vals axes dom eval -> samples axes vals f -> inside_grid axes x ->
  (forall k, (k < length axes)%nat -> slope_at_most axes f k (L k)) ->
  (forall k a, nth_error axes k = Some a -> spacing_at_most a (h k)) ->
  exists r, eval x = Ok r /\ Rabs (r - f x) <= sum_upto (length axes) (fun k => L k * h k / 2).
Proof.
  intros H Hs Hx HM Hh. destruct (nearest_value H) as (G & _ & E).
  destruct (E x (proj1 Hx) (nearest_inside H Hx)) as (idx & Hi & Er).
  eexists. split; [exact Er|]. assert (Hsh := nearest_nodes_shape Hi). rewrite (Hs _ Hsh).
  rewrite (sum_upto_ext _ _ (fun k => L k * (h k / 2))) by (intros; field).
  apply node_approx; auto. intros k a Hk. destruct Hi as (_ & _ & Hi).
  apply (nearest_distance a); auto; [exact (good_nth _ G Hk)|exact (proj2 Hx k a Hk)].
Qed.

Lemma cubic_approx_val lin axes f x M h rho : Forall (good_axis 4) axes -> inside_grid axes x ->
  (forall k, (k < length axes)%nat -> third_derivative_at_most axes f k (M k)) ->
  (forall k a, nth_error axes k = Some a -> spacing_at_most a (h k)) ->
  (forall a, In a axes -> spacing_ratio_at_most a rho) ->
  Rabs (tenL (ops1 (cub1 lin) axes x) (fun idx => f (node_pos axes idx)) - f x)
  <= sum_upto (length axes) (fun k => cubic_gain rho ^ k * (7 / 48 * M k * h k ^ 3)).
Proof.
  intros G Hx HM Hh Hrho. assert (HL := good_cub lin x (proj1 Hx) G). rewrite <- compounded_const.
  apply (tenL_error axes (good_inc 4 axes G) _ _ _ _ _ HL Hx).
  intros k a L Hk HkL. rewrite (ops1_nth_error _ _ _ _ _ _ (proj1 Hx) Hk HkL). clear L HkL.
  assert (Gk := good_nth _ G Hk). assert (Hxk := proj2 Hx k a Hk).
  assert (Lk : (k < length axes)%nat) by (apply nth_error_Some; congruence).
  split.
  - intros v B HB. apply cub1_norm; auto; try apply Gk. apply Hrho. eapply nth_error_In; eauto.
  - intros y Hy. destruct (HM k Lk) as (D1 & D2 & D3 & HD).
    assert (Ly : length y = length axes) by apply Hy.
    assert (In : forall s, coord a 0 <= s <= coord a (npts a - 1) -> inside_grid axes (upd y k s))
      by (intros s Hs0; apply (inside_upd axes y k a s Hy Hk); auto).
    apply (cub1_error a (proj1 Gk) (proj2 Gk) (fun t => f (upd y k t)) (fun t => D1 (upd y k t))
      (fun t => D2 (upd y k t)) (fun t => D3 (upd y k t)) (M k) (h k)); auto.
    + intros s Hs0. apply partial_line; [lia|]. apply HD. auto.
    + intros s Hs0. apply partial_line; [lia|]. apply HD. auto.
    + intros s Hs0. apply partial_line; [lia|]. apply HD. auto.
    + intros s Hs0. apply HD. auto.
Qed.

Theorem cubic_approx c lin vals axes dom eval f x M h rho :
  multicubic c lin vals axes dom eval -> samples axes vals f -> inside_grid axes x ->
  (forall k, (k < length axes)%nat -> third_derivative_at_most axes f k (M k)) ->
  (forall k a, nth_error axes k = Some a -> spacing_at_most a (h k)) ->
  (forall a, In a axes -> spacing_ratio_at_most a rho) ->
  exists r, eval x = Ok r /\
    Rabs (r - f x) <= sum_upto (length axes) (fun k => cubic_gain rho ^ k * (7 / 48 * M k * h k ^ 3)).
Proof.
  intros H Hs Hx HM Hh Hrho. destruct (multicubic_value H) as (G & _ & E).
  eexists. split; [apply E; [apply Hx|eapply multicubic_inside; eauto]|].
  rewrite (tenL_samples (good_cub lin x (proj1 Hx) G) Hs). apply cubic_approx_val; auto.
Qed.

(** The values of the cubic interpolator inside the grid. *)
Lemma tenL_norm axes Ls g V E : Forall2 (fun a L => forall v B, (forall i, (0 <= i < npts a)%Z -> Rabs (v i) <= B) ->
    Rabs (L v) <= g * B) axes Ls ->
  (forall idx, in_shape (map npts axes) idx -> Rabs (V idx) <= E) ->
  Rabs (tenL Ls V) <= g ^ length axes * E.
Proof.
  intros H. revert V E. induction H as [|a L axes Ls HL H IH]; intros V E HV; simpl.
  - rewrite Rmult_1_l. apply HV. constructor.
  - rewrite Rmult_assoc. apply HL. intros i Hi. apply IH. intros idx Hx. apply HV. constructor; auto.
Qed.

Lemma cub_ops_norm lin axes x rho : Forall (good_axis 4) axes -> inside_grid axes x ->
  (forall a, In a axes -> spacing_ratio_at_most a rho) ->
  Forall2 (fun a L => forall v B, (forall i, (0 <= i < npts a)%Z -> Rabs (v i) <= B) ->
    Rabs (L v) <= cubic_gain rho * B) axes (ops1 (cub1 lin) axes x).
Proof.
  intros G. revert x. induction G as [|a axes Ga G IH]; intros x Hx Hrho.
  - constructor.
  - destruct x as [|x0 x]; [destruct Hx; discriminate|]. apply inside_cons in Hx as (Hx0 & Hx).
    unfold ops1. cbn [combine map fst snd]. constructor.
    + intros v B HB. apply cub1_norm; auto; try apply Ga. apply Hrho. left; auto.
    + apply (IH x Hx (fun b Hb => Hrho b (or_intror Hb))).
Qed.

Theorem cubic_range c lin vals axes dom eval x E rho :
  multicubic c lin vals axes dom eval -> inside_grid axes x ->
  (forall a, In a axes -> spacing_ratio_at_most a rho) ->
  Forall (fun v => Rabs v <= E) vals ->
  exists r, eval x = Ok r /\ Rabs r <= cubic_gain rho ^ length axes * E.
Proof.
  intros H Hx Hrho HE. destruct (multicubic_value H) as (G & Lv & Ev).
  eexists. split; [apply Ev; [apply Hx|eapply multicubic_inside; eauto]|].
  apply tenL_norm.
  - apply cub_ops_norm; auto.
  - intros idx Hi. rewrite Forall_forall in HE. apply HE. apply entry_in; auto.
Qed.

(** Evenly spaced axes *)
Lemma reg_axes_spacing dims starts steps : length starts = length dims -> length steps = length dims ->
  forall k a, nth_error (reg_axes dims starts steps) k = Some a -> spacing_at_most a (nth k steps 0).
Proof.
  intros L1 L2 k a Hk o Ho. assert (Lk : (k < length dims)%nat).
  { rewrite <- (reg_axes_length dims starts steps L1 L2). apply nth_error_Some. congruence. }
  assert (E := nth_error_nth _ _ ax0 Hk). rewrite (reg_axes_nth dims starts steps L1 L2 Lk) in E. subst a.
  unfold spacing. cbn [coord]. rewrite plus_IZR. right. ring.
Qed.

Lemma reg_axes_ratio dims starts steps : length starts = length dims -> length steps = length dims ->
  forall a, In a (reg_axes dims starts steps) -> spacing_ratio_at_most a 1.
Proof.
  intros L1 L2 a Ha o Ho1 Ho2. apply In_nth_error in Ha as (k & Hk).
  assert (Lk : (k < length dims)%nat).
  { rewrite <- (reg_axes_length dims starts steps L1 L2). apply nth_error_Some. congruence. }
  assert (E := nth_error_nth _ _ ax0 Hk). rewrite (reg_axes_nth dims starts steps L1 L2 Lk) in E. subst a.
  unfold spacing. cbn [coord]. rewrite !plus_IZR. split; right; ring.
Qed.

(** ** Convergence under refinement *)
Lemma sum_upto_nonneg n K : (forall k, (k < n)%nat -> 0 <= K k) -> 0 <= sum_upto n K.
Proof.
  intros H. replace 0 with (sum_upto n (fun _ => 0)); [apply sum_upto_le; auto|].
  clear. induction n; [reflexivity|]. rewrite sum_upto_S. lra.
Qed.

Lemma small_spacing n K eps : 0 < eps -> (forall k, (k < n)%nat -> 0 <= K k) ->
  exists d, 0 < d <= 1 /\ d * sum_upto n K < eps.
Proof.
  intros He HK. assert (S := sum_upto_nonneg n K HK). set (s := sum_upto n K) in *.
  exists (Rmin 1 (eps / (s + 1))).
  assert (P : 0 < eps / (s + 1)) by (apply Rdiv_lt_0_compat; lra).
  assert (M1 := Rmin_l 1 (eps / (s + 1))). assert (M2 := Rmin_r 1 (eps / (s + 1))).
  assert (0 < Rmin 1 (eps / (s + 1))) by (apply Rmin_glb_lt; lra). split; [lra|].
  apply Rle_lt_trans with (eps / (s + 1) * s); [apply Rmult_le_compat_r; lra|].
  apply Rmult_lt_reg_r with (s + 1); [lra|].
  replace (eps / (s + 1) * s * (s + 1)) with (eps * s) by (field; lra). nra.
Qed.

Lemma small_power n K d p : 0 < d <= 1 -> (forall k, (k < n)%nat -> 0 <= K k) ->
  sum_upto n (fun k => K k * d ^ S p) <= d * sum_upto n K.
Proof.
  intros Hd HK. rewrite <- sum_upto_scal. apply sum_upto_le. intros k Hk.
  rewrite (Rmult_comm d). apply Rmult_le_compat_l; auto. simpl.
  assert (d ^ p <= 1) by (rewrite <- (pow1 p); apply pow_incr; lra).
  apply Rle_trans with (d * 1); [apply Rmult_le_compat_l; lra|lra].
Qed.

Theorem lin_converges n M eps : 0 < eps -> exists d, 0 < d /\
  forall c vals axes dom eval f x, multilinear c vals axes dom eval -> length axes = n ->
  samples axes vals f -> inside_grid axes x ->
  (forall k, (k < n)%nat -> second_derivative_at_most axes f k (M k)) ->
  (forall a, In a axes -> spacing_at_most a d) ->
  exists r, eval x = Ok r /\ Rabs (r - f x) < eps.
Proof.
  intros He. destruct (small_spacing n (fun k => Rabs (M k) / 8) eps He) as (d & Hd & Hs).
  { intros k _. assert (0 <= Rabs (M k)) by apply Rabs_pos. lra. }
  exists d. split; [lra|]. intros c vals axes dom eval f x H L Hf Hx HM Hh.
  rewrite <- L in HM.
  destruct (lin_approx_grid _ _ _ _ _ _ _ _ (fun _ => d) H Hf Hx HM) as (r & Er & Hr).
  { intros k a Hk. apply Hh. eapply nth_error_In; eauto. }
  exists r. split; auto. eapply Rle_lt_trans; [|exact Hs]. eapply Rle_trans; [|apply (small_power n _ d 1 Hd)].
  - eapply Rle_trans; [exact Hr|]. rewrite L. apply sum_upto_le. intros k _.
    assert (P := Rle_abs (M k)). assert (Q := pow2_ge_0 d). simpl in *. nra.
  - intros k _. assert (0 <= Rabs (M k)) by apply Rabs_pos. lra.
Qed.

Theorem nearest_converges n L eps : 0 < eps -> exists d, 0 < d /\
  forall c vals axes dom eval f x, nearest_nd c vals axes dom eval -> length axes = n ->
  samples axes vals f -> inside_grid axes x ->
  (forall k, (k < n)%nat -> slope_at_most axes f k (L k)) ->
  (forall a, In a axes -> spacing_at_most a d) ->
  exists r, eval x = Ok r /\ Rabs (r - f x) < eps.
Proof.
  intros He. destruct (small_spacing n (fun k => Rabs (L k) / 2) eps He) as (d & Hd & Hs).
  { intros k _. assert (0 <= Rabs (L k)) by apply Rabs_pos. lra. }
  exists d. split; [lra|]. intros c vals axes dom eval f x H Ln Hf Hx HM Hh.
  rewrite <- Ln in HM.
  destruct (nearest_approx _ _ _ _ _ _ _ _ (fun _ => d) H Hf Hx HM) as (r & Er & Hr).
  { intros k a Hk. apply Hh. eapply nth_error_In; eauto. }
  exists r. split; auto. eapply Rle_lt_trans; [|exact Hs]. eapply Rle_trans; [|apply (small_power n _ d 0 Hd)].
  - eapply Rle_trans; [exact Hr|]. rewrite Ln. apply sum_upto_le. intros k _.
    assert (P := Rle_abs (L k)). simpl. nra.
  - intros k _. assert (0 <= Rabs (L k)) by apply Rabs_pos. lra.
Qed.

Lemma cubic_gain_pos rho : 0 < rho -> 0 <= cubic_gain rho.
Proof.
  intros H. unfold cubic_gain. assert (0 < rho * rho / (2 * (1 + rho))) by (apply Rdiv_lt_0_compat; nra). lra.
Qed.

Theorem cubic_converges n M rho eps : 0 < eps -> 0 < rho -> exists d, 0 < d /\
  forall c lin vals axes dom eval f x, multicubic c lin vals axes dom eval -> length axes = n ->
  samples axes vals f -> inside_grid axes x ->
  (forall k, (k < n)%nat -> third_derivative_at_most axes f k (M k)) ->
  (forall a, In a axes -> spacing_at_most a d /\ spacing_ratio_at_most a rho) ->
  exists r, eval x = Ok r /\ Rabs (r - f x) < eps.
Proof.
  intros He Hp. set (K := fun k => cubic_gain rho ^ k * (7 / 48 * Rabs (M k))).
  assert (HK : forall k, (k < n)%nat -> 0 <= K k).
  { intros k _. unfold K. apply Rmult_le_pos; [apply pow_le, cubic_gain_pos; auto|].
    assert (0 <= Rabs (M k)) by apply Rabs_pos. lra. }
  destruct (small_spacing n K eps He HK) as (d & Hd & Hs).
  exists d. split; [lra|]. intros c lin vals axes dom eval f x H L Hf Hx HM Hh.
  rewrite <- L in HM.
  destruct (cubic_approx _ _ _ _ _ _ _ _ _ (fun _ => d) rho H Hf Hx HM) as (r & Er & Hr).
  { intros k a Hk. apply Hh. eapply nth_error_In; eauto. }
  { intros a Hk. apply Hh. auto. }
  exists r. split; auto. eapply Rle_lt_trans; [|exact Hs]. eapply Rle_trans; [|apply (small_power n _ d 2 Hd); auto].
  eapply Rle_trans; [exact Hr|]. rewrite L. apply sum_upto_le. intros k _. unfold K. rewrite (Rmult_assoc (cubic_gain rho ^ k)).
  apply Rmult_le_compat_l; [apply pow_le, cubic_gain_pos; auto|].
  apply Rmult_le_compat_r; [apply pow_le; lra|]. assert (P := Rle_abs (M k)). lra.
Qed.
