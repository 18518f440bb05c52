(** Nearest-neighbour interpolation in floating point: which node is chosen. *)
From Coq Require Import Reals Lra Lia List Bool ZifyBool ZifyNat PeanoNat.
From Flocq Require Import Core.Core IEEE754.BinarySingleNaN.
From Verif Require Import Base Ops FInst ModelCore ModelLinear ModelNearest Spec SpecOrder SpecIEEE SpecError.
From Verif Require Import CoreLemmas MethodLemmas MethodChar GenLemmas FLemmas UtilProofs FProofs FProofs2 FError.
From Verif Require Import RInst SpecReal RTensor R1D RChar Interpolators REval RProofs SpecApprox Approx.
Import ListNotations.
Unset Implicit Arguments.
Open Scope list_scope.
Open Scope R_scope.

Section B.
Variables prec emax : Z.
Context (Hp : Prec_gt_0 prec) (He : Prec_lt_emax prec emax).
Notation fl := (binary_float prec emax).
Notation o := (BOps Hp He).
Notation emin := (3 - emax - prec)%Z.
Notation fin x := (is_finite x = true).
Notation rnd := (rnd prec emax).
Notation small v := (@moderate prec emax v).
Notation u := (bpow radix2 (- prec)).

Section Node.
Hypothesis Hu : u <= / 64.

Lemma half_val : fin (half o) /\ B2R (half o) = / 2.
Proof using All.
  assert (P := prec_6 _ _ Hp He Hu). unfold half.
  assert (F1 : fin (fone o)) by (cbn [fone BOps]; apply is_finite_Bone).
  assert (V1 : B2R (fone o) = 1) by (cbn [fone BOps]; apply Bone_correct).
  assert (R2 : rnd 2 = 2).
  { apply (round_generic radix2 _ _ 2). change 2 with (bpow radix2 1). apply generic_format_bpow.
    unfold FLT_exp. unfold Prec_lt_emax, Prec_gt_0 in *. lia. }
  destruct (@rounds_bound _ _ Hp _ _ 1%Z (add_rounds Hp He (fone o) (fone o) F1 F1)) as (F2 & V2 & _).
  { unfold Prec_lt_emax, Prec_gt_0 in *. lia. } { rewrite V1. simpl. rewrite Rabs_right; lra. }
  rewrite V1 in V2. replace (1 + 1) with 2 in V2 by ring. rewrite R2 in V2.
  destruct (@rounds_bound _ _ Hp _ _ 0%Z (div_rounds Hp He (fone o) _ F1 ltac:(rewrite V2; lra))) as (F3 & V3 & _).
  { unfold Prec_lt_emax, Prec_gt_0 in *. lia. } { rewrite V1, V2. simpl. rewrite Rabs_right; lra. }
  split; [exact F3|]. rewrite V3, V1, V2.
  replace (1 / 2) with (bpow radix2 (-1)) by (simpl; lra). change (/ 2) with (bpow radix2 (-1)).
  apply (round_generic radix2 _ _ (bpow radix2 (-1))). apply generic_format_bpow.
  unfold FLT_exp. unfold Prec_lt_emax, Prec_gt_0 in *. lia.
Qed.

(** The comparison of the position with one half, in the cell [a, b]. *)
Lemma offset_near (a b x : fl) : small a -> small b -> fin x -> B2R a < B2R b ->
  let dt := fdiv o (fsub o x a) (fsub o b a) in
  (fle o dt (half o) = true -> Rabs (B2R x - B2R a) <= (1 + 8 * u) * Rabs (B2R x - B2R b)) /\
  (fle o dt (half o) = false -> Rabs (B2R x - B2R b) <= (1 + 8 * u) * Rabs (B2R x - B2R a)).
Proof using All.
  intros Sa Sb Fx Hab dt. assert (U := u_pos prec). destruct half_val as (Fh & Vh).
  destruct (small_sub _ _ Hp He b a Sb Sa) as (Fs & Vs).
  assert (Ps : 0 < rnd (B2R b - B2R a)).
  { assert (N := sub_nonzero _ _ Hp b a ltac:(lra)). assert (0 <= rnd (B2R b - B2R a)) by (apply rnd_nonneg; auto; lra). lra. }
  assert (Sr := sub_rounds Hp He x a Fx (proj1 Sa)).
  assert (Fac : forall d e, 0 <= d <= e -> d <= (1 + 8 * u) * e) by (intros; nra).
  assert (HN : forall h : fl, fin h -> Bleb (B754_infinity true) h = true /\ Bleb (B754_infinity false) h = false).
  { intros h Fv. destruct h as [[]| | |[]]; try discriminate; split; reflexivity. }
  destruct (Rle_or_lt (B2R x) (B2R a)) as [L|L].
  { assert (Q : fle o dt (half o) = true).
    { unfold dt. destruct Sr as [(Fr & Vr)|[(Er & Vr)|(Er & Vr)]].
      - assert (D := div_rounds Hp He _ (fsub o b a) Fr ltac:(rewrite Vs; lra)).
        apply (@rounds_le _ _ Hp He _ _ _ D Fh). rewrite Vr, Vs, Vh.
        assert (rnd (B2R x - B2R a) <= 0) by (apply rnd_nonpos; auto; lra).
        assert (0 < / rnd (B2R b - B2R a)) by (apply Rinv_0_lt_compat; auto). unfold Rdiv. nra.
      - exfalso. assert (rnd (B2R x - B2R a) <= 0) by (apply rnd_nonpos; auto; lra).
        assert (B := bpow_gt_0 radix2 emax). lra.
      - rewrite Er. cbn [fle fdiv BOps]. assert (T : 0 < B2R (fsub o b a)) by lra.
        destruct (fsub o b a) as [[]|[]| |[] m e Hme] eqn:E; try (simpl in T; lra); try discriminate.
        + exfalso. assert (B2R (B754_finite true m e Hme : fl) <= 0) by (apply sign_neg; reflexivity). lra.
        + apply (proj1 (HN _ Fh)). }
    rewrite Q. split; [intros _|discriminate]. apply Fac. rewrite !Rabs_left1 by lra. lra. }
  destruct (Rle_or_lt (B2R b) (B2R x)) as [M|M].
  { assert (Q : fle o dt (half o) = false).
    { unfold dt. destruct Sr as [(Fr & Vr)|[(Er & Vr)|(Er & Vr)]].
      - assert (D := div_rounds Hp He _ (fsub o b a) Fr ltac:(rewrite Vs; lra)).
        apply (@rounds_not_le _ _ Hp He _ _ (fone o) _ D).
        + cbn [fone BOps]; apply is_finite_Bone.
        + auto.
        + cbn [fone BOps]. rewrite Bone_correct, Vr, Vs.
          assert (rnd (B2R b - B2R a) <= rnd (B2R x - B2R a)) by (apply rnd_le; auto; lra).
          apply Rmult_le_reg_r with (rnd (B2R b - B2R a)); auto. unfold Rdiv. rewrite Rmult_assoc, Rinv_l by lra. lra.
        + cbn [fone BOps]. rewrite Bone_correct, Vh. lra.
      - rewrite Er. cbn [fle fdiv BOps]. assert (T : 0 < B2R (fsub o b a)) by lra.
        destruct (fsub o b a) as [[]|[]| |[] m e Hme] eqn:E; try (simpl in T; lra); try discriminate.
        + exfalso. assert (B2R (B754_finite true m e Hme : fl) <= 0) by (apply sign_neg; reflexivity). lra.
        + apply (proj2 (HN _ Fh)).
      - exfalso. assert (0 <= rnd (B2R x - B2R a)) by (apply rnd_nonneg; auto; lra).
        assert (B := bpow_gt_0 radix2 emax). lra. }
    rewrite Q. split; [discriminate|intros _]. apply Fac. rewrite !Rabs_pos_eq by lra. lra. }
  assert (Sx : small x).
  { split; auto. destruct Sa as (_ & Ba), Sb as (_ & Bb). apply Rabs_le_inv in Ba. apply Rabs_le_inv in Bb. apply Rabs_le. lra. }
  destruct (position_range _ _ Hp He a b x Sa Sb Sx ltac:(lra) Hab) as (F & V & _ & R1 & R2). fold dt in F, V.
  assert (G1 := rnd_rel prec emax Hp (B2R x - B2R a) ltac:(apply on_grid_sub; apply on_grid_fl; auto)).
  assert (G2 := rnd_rel prec emax Hp (B2R b - B2R a) ltac:(apply on_grid_sub; apply on_grid_fl; auto)).
  rewrite (Rabs_pos_eq (B2R x - B2R a)) in G1 by lra. rewrite (Rabs_pos_eq (B2R b - B2R a)) in G2 by lra.
  apply Rabs_le_inv in G1. apply Rabs_le_inv in G2.
  set (p := rnd (B2R x - B2R a)) in *. set (q := rnd (B2R b - B2R a)) in *.
  assert (Q1 : 0 <= p / q <= 1).
  { split; [apply Rmult_le_pos; [lra|left; apply Rinv_0_lt_compat; auto]|].
    apply Rmult_le_reg_r with q; auto. unfold Rdiv. rewrite Rmult_assoc, Rinv_l by lra. lra. }
  assert (Er := rnd_unit _ _ Hp He Hu (p / q) Q1). apply Rabs_le_inv in Er.
  assert (Pq : p = p / q * q) by (field; lra). set (r := p / q) in *.
  set (X := B2R x - B2R a) in *. set (H := B2R b - B2R a) in *.
  assert (EX : B2R x - B2R b = X - H) by (unfold X, H; ring). rewrite EX.
  assert (HX : 0 < X < H) by (unfold X, H; lra).
  rewrite (Rabs_pos_eq X) by lra. rewrite (Rabs_left1 (X - H)) by lra.
  split; intros C.
  - apply leb_fin in C; auto. rewrite V, Vh in C.
    assert (R : r <= / 2 + u / 2) by lra.
    assert (S1 : X * (1 - u) <= (/ 2 + u / 2) * (H * (1 + u))).
    { apply Rle_trans with p; [lra|]. rewrite Pq. apply Rmult_le_compat; lra. }
    assert (T1 : X * ((1 - u) * (2 + 8 * u)) <= H * ((1 + u) * (1 + u) * (1 + 4 * u))) by nra.
    assert (T2 : (1 + u) * (1 + u) * (1 + 4 * u) <= (1 - u) * (1 + 8 * u)) by nra.
    assert (T3 : X * ((1 - u) * (2 + 8 * u)) <= H * ((1 - u) * (1 + 8 * u))).
    { eapply Rle_trans; [exact T1|]. apply Rmult_le_compat_l; lra. }
    assert (T4 : X * (2 + 8 * u) <= H * (1 + 8 * u)).
    { apply Rmult_le_reg_r with (1 - u); lra. }
    lra.
  - assert (C' : ~ B2R dt <= / 2). { intros C'. rewrite <- Vh in C'. apply (leb_fin Hp He) in C'; auto. congruence. }
    rewrite V in C'.
    assert (R : / 2 - u / 2 <= r) by lra.
    assert (S1 : (/ 2 - u / 2) * (H * (1 - u)) <= X * (1 + u)).
    { apply Rle_trans with p; [|lra]. rewrite Pq. apply Rmult_le_compat; try lra. nra. }
    assert (T1 : H * ((1 - u) * (1 - u) * (1 + 4 * u)) <= X * ((1 + u) * (2 + 8 * u))) by nra.
    assert (T2 : 1 + u <= (1 - u) * (1 - u) * (1 + 4 * u)) by nra.
    assert (T3 : H * (1 + u) <= X * ((1 + u) * (2 + 8 * u))).
    { eapply Rle_trans; [|exact T1]. apply Rmult_le_compat_l; lra. }
    assert (T4 : H <= X * (2 + 8 * u)).
    { apply Rmult_le_reg_r with (1 + u); lra. }
    lra.
Qed.

Lemma rect_near (g : list fl) (x : fl) : increasing_grid o g -> (2 <= zlen g)%Z -> Forall (@moderate prec emax) g -> fin x ->
  let i := rect_cell o g x in
  nearest_up_to_factor (1 + 8 * u) (list_axis (map B2R g)) (B2R x) (i + nearest_offset o (rect_dtp o g x i))%Z.
Proof using All.
  intros I Hg S Fx i. assert (U := u_pos prec).
  assert (L : Z.of_nat (length g) = zlen g) by reflexivity.
  destruct (rect_cell_bracket _ _ Hp He g x I Hg) as (R & C1 & C2). fold i in R, C1, C2.
  assert (Li : (Z.to_nat i < length g)%nat) by lia. assert (Lj : (Z.to_nat (i + 1) < length g)%nat) by lia.
  assert (Ea := nth_error_nth_some _ g _ (fzero o) Li). assert (Eb := nth_error_nth_some _ g _ (fzero o) Lj).
  assert (Sa := Forall_nth_lt (fzero o) S Li). assert (Sb := Forall_nth_lt (fzero o) S Lj). simpl in Sa, Sb.
  assert (Inc : increasing_axis (list_axis (map B2R g))).
  { apply list_axis_inc. apply (increasing_B2R prec emax Hp He); auto.
    eapply Forall_impl; [|exact S]. intros v (Fv & _). exact Fv. }
  assert (Np : npts (list_axis (map (@B2R prec emax) g)) = zlen g) by apply zlen_map.
  assert (Co : forall j, coord (list_axis (map (@B2R prec emax) g)) j = B2R (gz o g j)).
  { intros j. unfold list_axis. cbn [coord]. unfold gz. apply (nth_B2R prec emax Hp He). }
  change (nth (Z.to_nat i) g (fzero o)) with (gz o g i) in *.
  change (nth (Z.to_nat (i + 1)) g (fzero o)) with (gz o g (i + 1)) in *.
  assert (Lab : B2R (gz o g i) < B2R (gz o g (i + 1))) by (rewrite <- !Co; apply Inc; rewrite ?Np; lia).
  destruct (offset_near _ _ x Sa Sb Fx Lab) as (O1 & O2).
  assert (La : (0 < i)%Z -> B2R (gz o g i) < B2R x).
  { intros Hi. apply (ltb_fin Hp He); [apply Sa|auto|]. apply C1; auto. }
  assert (Lb : (i < zlen g - 2)%Z -> B2R x <= B2R (gz o g (i + 1))).
  { intros Hi. specialize (C2 _ Hi Eb). apply Rnot_lt_le. intros C. apply (ltb_fin Hp He) in C; [congruence|apply Sb|auto]. }
  assert (Far : forall j, (0 <= j < zlen g)%Z ->
    Rabs (B2R x - B2R (gz o g i)) <= Rabs (B2R x - B2R (gz o g j)) \/
    Rabs (B2R x - B2R (gz o g (i + 1))) <= Rabs (B2R x - B2R (gz o g j))).
  { intros j Hj. destruct (Z_le_gt_dec j i) as [J|J].
    - left. destruct (Z.eq_dec j i) as [-> |]; [lra|].
      assert (B2R (gz o g j) < B2R (gz o g i)) by (rewrite <- !Co; apply Inc; rewrite ?Np; lia).
      specialize (La ltac:(lia)). rewrite !Rabs_pos_eq by lra. lra.
    - right. destruct (Z.eq_dec j (i + 1)) as [-> |]; [lra|].
      assert (B2R (gz o g (i + 1)) < B2R (gz o g j)) by (rewrite <- !Co; apply Inc; rewrite ?Np; lia).
      specialize (Lb ltac:(lia)). rewrite !Rabs_left1 by lra. lra. }
  split; [rewrite Np; assert (Ro := @nearest_offset_range fl o (rect_dtp o g x i)); lia|].
  intros j Hj. rewrite Np in Hj. rewrite !Co. specialize (Far j Hj).
  assert (Pj := Rabs_pos (B2R x - B2R (gz o g j))).
  assert (Pi := Rabs_pos (B2R x - B2R (gz o g i))).
  assert (Pi' := Rabs_pos (B2R x - B2R (gz o g (i + 1)))).
  assert (Mix : forall p q d, 0 <= d -> p <= d \/ q <= d -> p <= (1 + 8 * u) * q -> p <= (1 + 8 * u) * d).
  { intros p q d D0 [D|D] Q; [|apply Rle_trans with (1 := Q); apply Rmult_le_compat_l; lra].
    assert (0 <= u * d) by (apply Rmult_le_pos; lra). lra. }
  unfold nearest_offset, rect_dtp. fold i. destruct (fle o _ _) eqn:E.
  - rewrite Z.add_0_r. exact (Mix _ _ _ Pj Far (O1 eq_refl)).
  - exact (Mix _ _ _ Pj (proj1 (or_comm _ _) Far) (O2 eq_refl)).
Qed.
End Node.

Theorem nearest_rectilinear c (grids : list (list fl)) vals s x :
  let axes := rect_axes (map (map B2R) grids) in
  rect_input c grids vals -> nc_new o c grids vals = Ok s ->
  Forall (increasing_grid o) grids -> Forall (Forall moderate) grids ->
  length x = length grids -> Forall (fun v => fin v) x -> 64 * roundoff prec <= 1 ->
  exists idx, in_shape (map npts axes) idx /\ nc_interp_one o c s x = Ok (entry (fzero o) (map npts axes) vals idx) /\
  forall k a, nth_error axes k = Some a ->
    nearest_up_to_factor (1 + 8 * roundoff prec) a (nth k (map B2R x) 0) (nth k idx 0%Z).
Proof.
  intros axes Hi H I S Lx Fx Hu. unfold roundoff in *.
  destruct (mlc_new_inv _ Hi H) as (W & ->). assert (W' := W). destruct W' as (W0 & _ & W2 & W3). cbn [g_grids g_dims g_vals] in *.
  assert (Dm : map npts axes = map zlen grids).
  { unfold axes. rewrite rect_axes_npts, map_map. apply map_ext. intros g. apply zlen_map. }
  assert (La : length axes = length grids) by (rewrite <- (map_length npts), Dm, map_length; auto).
  exists (map (nc_node o (mkRect grids (map zlen grids) vals) x) (seq 0 (length grids))).
  assert (K : forall k a, nth_error axes k = Some a ->
    nearest_up_to_factor (1 + 8 * u) a (nth k (map B2R x) 0)
      (nth k (map (nc_node o (mkRect grids (map zlen grids) vals) x) (seq 0 (length grids))) 0%Z)).
  { intros k a Hk. assert (Lk : (k < length grids)%nat) by (rewrite <- La; apply nth_error_Some; congruence).
    rewrite nth_map_seq by auto.
    assert (Ea : a = list_axis (map B2R (nth k grids []))).
    { apply (nth_error_nth axes k ax0) in Hk. rewrite <- Hk. unfold axes.
      rewrite rect_axes_nth by (rewrite map_length; auto).
      rewrite (nth_indep (map (map (@B2R prec emax)) grids) [] (map (@B2R prec emax) [])) by (rewrite map_length; auto).
      rewrite (map_nth (map (@B2R prec emax))). reflexivity. }
    rewrite Ea. rewrite (nth_B2R prec emax Hp He).
    apply rect_near; try lra.
    - apply (Forall_nth_lt [] I Lk).
    - apply (Forall_nth_lt [] W2 Lk).
    - apply (Forall_nth_lt [] S Lk).
    - apply (Forall_nth_lt (fzero o) Fx). lia. }
  split; [|split; [|exact K]].
  - apply Forall2_nth_intro with (da := 0%Z) (db := 0%Z); [rewrite !map_length, seq_length; auto|].
    rewrite map_length. intros k Hk. destruct (K k (nth k axes ax0)) as (Rk & _); [apply nth_error_nth_some; auto|].
    rewrite (nth_indep (map npts axes) 0%Z (npts ax0)) by (rewrite map_length; auto). rewrite map_nth. exact Rk.
  - rewrite nc_char by auto. rewrite Dm. reflexivity.
Qed.

(** A node that is nearer than all others by more than the factor is the one chosen. *)
Theorem nearest_rectilinear_clear c (grids : list (list fl)) vals s x idx :
  let axes := rect_axes (map (map B2R) grids) in
  rect_input c grids vals -> nc_new o c grids vals = Ok s ->
  Forall (increasing_grid o) grids -> Forall (Forall moderate) grids ->
  length x = length grids -> Forall (fun v => fin v) x -> 64 * roundoff prec <= 1 ->
  in_shape (map npts axes) idx ->
  (forall k a j, nth_error axes k = Some a -> (0 <= j < npts a)%Z -> j <> nth k idx 0%Z ->
    (1 + 8 * roundoff prec) * Rabs (nth k (map B2R x) 0 - coord a (nth k idx 0%Z)) < Rabs (nth k (map B2R x) 0 - coord a j)) ->
  nc_interp_one o c s x = Ok (entry (fzero o) (map npts axes) vals idx).
Proof.
  intros axes Hi H I S Lx Fx Hu Hs Hc.
  destruct (nearest_rectilinear c grids vals s x Hi H I S Lx Fx Hu) as (idx' & Hs' & E & K). fold axes in Hs', E, K.
  rewrite E. do 2 f_equal.
  assert (L := Forall2_len _ _ _ _ _ Hs). assert (L' := Forall2_len _ _ _ _ _ Hs'). rewrite map_length in L, L'.
  apply nth_ext with (d := 0%Z) (d' := 0%Z); [lia|]. intros k Hk.
  assert (Ek : nth_error axes k = Some (nth k axes ax0)) by (apply nth_error_nth_some; lia).
  destruct (K _ _ Ek) as (R & Q). destruct (Z.eq_dec (nth k idx' 0%Z) (nth k idx 0%Z)) as [|N]; auto. exfalso.
  assert (Hj : (0 <= nth k idx 0 < npts (nth k axes ax0))%Z).
  { assert (T := Forall2_nth_lt _ _ _ _ _ k 0%Z 0%Z Hs ltac:(rewrite map_length; lia)).
    rewrite (nth_indep (map npts axes) 0%Z (npts ax0)) in T by (rewrite map_length; lia). rewrite map_nth in T. exact T. }
  specialize (Hc _ _ _ Ek R N). specialize (Q _ Hj). lra.
Qed.

Theorem nearest_regular c dims (starts steps vals : list fl) s (x : list fl) kappa :
  let axes := reg_axes dims (map B2R starts) (map B2R steps) in
  reg_input c dims starts steps vals -> nr_new o c dims starts steps vals = Ok s ->
  Forall (fun v => fin v) x -> axes_within prec emax kappa starts steps dims ->
  SpecReal.inside_grid axes (map B2R x) -> 504 * (roundoff prec * kappa) <= 1 -> (prec <= 64)%Z ->
  exists idx, in_shape (map npts axes) idx /\ nr_interp_one o c s x = Ok (entry (fzero o) (map npts axes) vals idx) /\
  forall k a, nth_error axes k = Some a ->
    nearest_up_to (16 * (roundoff prec * kappa) * B2R (nth k steps (fzero o))) a (nth k (map B2R x) 0) (nth k idx 0%Z).
Proof.
  intros axes Hi H Fx Ha Hx HE Hprec. unfold roundoff in *.
  destruct (float_regular_inv _ _ _ _ _ _ _ _ _ _ (float_regular_flat Hp He Hi H)) as (_ & P & _).
  destruct (mlr_new_inv _ Hi H) as (W & ->). assert (W' := W). destruct W' as (W0 & W1 & W2 & W3 & W4). cbn [r_dims r_starts r_steps r_vals] in *.
  assert (L1 : length (map (@B2R prec emax) starts) = length dims) by (rewrite map_length; auto).
  assert (L2 : length (map (@B2R prec emax) steps) = length dims) by (rewrite map_length; auto).
  assert (La := reg_axes_length _ _ _ L1 L2). assert (Dm := reg_axes_npts _ _ _ L1 L2). fold axes in La, Dm.
  assert (Lx : length x = length dims) by (rewrite <- La, <- (proj1 Hx), map_length; auto).
  set (st := fun k => nth k starts (fzero o)). set (sp := fun k => nth k steps (fzero o)).
  set (xx := fun k => nth k x (fzero o)). set (dd := fun k => nth k dims 0%Z).
  assert (NA : forall k, (k < length dims)%nat -> nth k axes ax0 = mkAxis (dd k) (fun i => B2R (st k) + B2R (sp k) * IZR i)).
  { intros k Hk. unfold axes. rewrite reg_axes_nth by auto. rewrite !(nth_B2R prec emax Hp He). reflexivity. }
  assert (AX : forall k, (k < length dims)%nat -> fin (st k) /\ fin (sp k) /\ fin (xx k) /\ 0 < B2R (sp k) /\ (2 <= dd k)%Z /\
    Rabs (B2R (st k)) <= kappa * B2R (sp k) /\ Rabs (B2R (st k) + B2R (sp k) * IZR (dd k - 1)) <= kappa * B2R (sp k) /\
    kappa * B2R (sp k) <= bpow radix2 (emax - 3) /\
    B2R (st k) <= B2R (xx k) <= B2R (st k) + B2R (sp k) * IZR (dd k - 1)).
  { intros k Hk.
    destruct (Ha k (st k) (sp k) (dd k)) as (F1 & F2 & H1 & H2 & H3); try (apply nth_error_nth_some; lia).
    split; [auto|]. split; [auto|]. split; [apply (Forall_nth_lt (fzero o) Fx); lia|].
    split. { assert (Q : flt o (fzero o) (sp k) = true) by (apply (Forall_nth_lt (fzero o) P); lia). apply ltb_fin in Q; auto. }
    split; [apply (Forall_nth_lt 0%Z W3 Hk)|]. split; [auto|]. split; [auto|]. split; [auto|].
    assert (R := proj2 Hx k (nth k axes ax0) ltac:(apply nth_error_nth_some; lia)).
    rewrite NA, (nth_B2R prec emax Hp He) in R by auto. cbn [coord npts] in R. fold (xx k) in R.
    change (IZR 0) with 0 in R. lra. }
  assert (CE : forall k, (k < length dims)%nat -> exists i, reg_cell o (st k) (sp k) (dd k) (xx k) = Ok i /\ (0 <= i <= dd k - 2)%Z /\
    - (6 * (u * kappa)) <= (B2R (xx k) - B2R (st k)) / B2R (sp k) - IZR i <= 1 + 6 * (u * kappa)).
  { intros k Hk. destruct (AX k Hk) as (F1 & F2 & F3 & P1 & D1 & B1 & B2 & B3 & R). eapply cell_ok; eauto. }
  destruct (mapM_total _ _ (fun k => reg_cell o (st k) (sp k) (dd k) (xx k)) (seq 0 (length dims))) as (os & Eos).
  { intros k Hk. apply in_seq in Hk. destruct (CE k ltac:(lia)) as (i & -> & _). eauto. }
  assert (Eos' : reg_cells o (mkRegular dims starts steps vals) x = Ok os) by exact Eos.
  exists (map (fun k => nr_node o c (mkRegular dims starts steps vals) x k (nth k os 0%Z)) (seq 0 (length dims))).
  assert (K : forall k a, nth_error axes k = Some a ->
    nearest_up_to (16 * (u * kappa) * B2R (nth k steps (fzero o))) a (nth k (map B2R x) 0)
      (nth k (map (fun k => nr_node o c (mkRegular dims starts steps vals) x k (nth k os 0%Z)) (seq 0 (length dims))) 0%Z)).
  { intros k a Hk. assert (Lk : (k < length dims)%nat) by (rewrite <- La; apply nth_error_Some; congruence).
    rewrite nth_map_seq by auto. apply (nth_error_nth axes k ax0) in Hk. rewrite NA in Hk by auto. subst a.
    rewrite (nth_B2R prec emax Hp He). fold (xx k). fold (sp k).
    destruct (AX k Lk) as (F1 & F2 & F3 & P1 & D1 & B1 & B2 & B3 & R).
    destruct (CE k Lk) as (i & Ei & Ri & Rt).
    assert (Ek := @mapM_snoc_nth _ 0%Z _ _ _ Eos k Lk). cbv beta in Ek. rewrite Ei in Ek. injection Ek as <-.
    destruct (reg_position_error prec emax Hp He (st k) (sp k) (xx k) (dd k) kappa) with (fma := use_fma c) (i := i) as (G1 & G2); auto.
    destruct (u_small prec emax Hp He (st k) (sp k) (xx k) (dd k) kappa) as (U2 & U64); auto.
    destruct (half_val U64) as (Fh & Vh). assert (U := u_pos prec).
    assert (E0 : 0 <= u * kappa) by lra.
    change (reg_pos prec emax (st k) (sp k) (xx k)) with ((B2R (xx k) - B2R (st k)) / B2R (sp k)) in *.
    set (T := (B2R (xx k) - B2R (st k)) / B2R (sp k)) in *. set (E := u * kappa) in *.
    assert (XT : B2R (xx k) = B2R (st k) + B2R (sp k) * T) by (unfold T; field; lra).
    assert (Di : forall j, Rabs (B2R (xx k) - (B2R (st k) + B2R (sp k) * IZR j)) = B2R (sp k) * Rabs (T - IZR j)).
    { intros j. rewrite XT. replace (_ - _) with (B2R (sp k) * (T - IZR j)) by ring. rewrite Rabs_mult, (Rabs_pos_eq (B2R (sp k))) by lra. auto. }
    unfold nr_node. cbn [r_starts r_steps r_dims]. change (nth k starts (fzero o)) with (st k). change (nth k steps (fzero o)) with (sp k).
    change (nth k x (fzero o)) with (xx k).
    set (dt := reg_dtp o (use_fma c) (st k) (sp k) (xx k) i) in *.
    assert (Ro := @nearest_offset_range fl o dt).
    split; [cbn [npts]; lia|]. intros j Hj. cbn [npts] in Hj. cbn [coord]. rewrite !Di.
    replace (B2R (sp k) * Rabs (T - IZR j) + 16 * E * B2R (sp k)) with (B2R (sp k) * (Rabs (T - IZR j) + 16 * E)) by ring.
    apply Rmult_le_compat_l; [lra|].
    apply Rabs_le_inv in G2.
    assert (J : (j <= i)%Z \/ (i + 1 <= j)%Z) by lia.
    assert (JR : IZR j <= IZR i \/ IZR i + 1 <= IZR j).
    { destruct J as [J|J]; [left; apply IZR_le; auto|right; rewrite <- plus_IZR; apply IZR_le; auto]. }
    unfold nearest_offset. destruct (fle o dt (half o)) eqn:C.
    - apply leb_fin in C; auto. rewrite Vh in C. rewrite Z.add_0_r.
      unfold Rabs; repeat destruct (Rcase_abs _); destruct JR; lra.
    - assert (C' : ~ B2R dt <= / 2). { intros C'. rewrite <- Vh in C'. apply (leb_fin Hp He) in C'; auto. congruence. }
      apply Rnot_le_lt in C'. rewrite plus_IZR.
      unfold Rabs; repeat destruct (Rcase_abs _); destruct JR; lra. }
  split; [|split; [|exact K]].
  - apply Forall2_nth_intro with (da := 0%Z) (db := 0%Z); [rewrite !map_length, seq_length; auto|].
    rewrite map_length. intros k Hk. destruct (K k (nth k axes ax0)) as (Rk & _); [apply nth_error_nth_some; auto|].
    rewrite (nth_indep (map npts axes) 0%Z (npts ax0)) by (rewrite map_length; auto). rewrite map_nth. exact Rk.
  - rewrite nr_char by (auto; apply usize_converts_B). rewrite Eos', Dm. reflexivity.
Qed.

Lemma nearby_value c_vals axes idx f x e L d y :
  Forall (good_axis 2) axes -> SpecReal.inside_grid axes x -> in_shape (map npts axes) idx ->
  samples_within e axes c_vals f -> y = entry 0 (map npts axes) c_vals idx ->
  (forall k, (k < length axes)%nat -> slope_at_most axes f k (L k)) ->
  (forall k a, nth_error axes k = Some a -> Rabs (coord a (nth k idx 0%Z) - nth k x 0) <= d k) ->
  Rabs (y - f x) <= e + sum_upto (length axes) (fun k => L k * d k).
Proof.
  intros G Hx Hi Hs -> HM Hd. assert (Q := node_approx axes f x idx L d G Hx Hi HM Hd). specialize (Hs idx Hi).
  apply Rabs_le_inv in Q. apply Rabs_le_inv in Hs. apply Rabs_le. lra.
Qed.

Theorem nearest_rectilinear_error c (grids : list (list fl)) vals s x f e L h :
  let axes := rect_axes (map (map B2R) grids) in
  rect_input c grids vals -> nc_new o c grids vals = Ok s ->
  Forall (increasing_grid o) grids -> Forall (Forall moderate) grids ->
  Forall (fun v => fin v) x -> SpecReal.inside_grid axes (map B2R x) -> 64 * roundoff prec <= 1 ->
  samples_within e axes (map B2R vals) f ->
  (forall k, (k < length axes)%nat -> slope_at_most axes f k (L k)) ->
  (forall k a, nth_error axes k = Some a -> spacing_at_most a (h k)) ->
  exists y, nc_interp_one o c s x = Ok y /\
  Rabs (B2R y - f (map B2R x)) <= e + sum_upto (length axes) (fun k => L k * ((1 / 2 + 4 * roundoff prec) * h k)).
Proof.
  intros axes Hi H I S Fx Hx Hu Hs HM Hh.
  assert (Lx : length x = length grids).
  { assert (Q := proj1 Hx). rewrite map_length in Q. rewrite Q. unfold axes, rect_axes. rewrite !map_length. auto. }
  destruct (nearest_rectilinear c grids vals s x Hi H I S Lx Fx Hu) as (idx & Hsh & E & K). fold axes in Hsh, E, K.
  destruct (mlc_new_inv _ Hi H) as (W & Es). rewrite Es in W. destruct W as (_ & _ & W2 & _). cbn [g_grids] in W2.
  assert (G : Forall (good_axis 2) axes).
  { unfold axes. apply rect_axes_good; unfold grids_ok; rewrite Forall_map.
    - rewrite Forall_forall in *. intros g Hg. apply (increasing_B2R prec emax Hp He); auto.
      eapply Forall_impl; [|exact (S g Hg)]. intros v (Fv & _). exact Fv.
    - eapply Forall_impl; [|exact W2]. intros g Hg. rewrite zlen_map. exact Hg. }
  eexists. split; [exact E|]. eapply nearby_value; eauto; [symmetry; apply entry_real|].
  intros k a Hk. assert (Gk := good_nth _ G Hk). destruct (K k a Hk) as (R & Q).
  replace ((1 / 2 + 4 * roundoff prec) * h k) with ((1 + 8 * roundoff prec) * (h k / 2) + 0) by field.
  apply (near_distance a _ _ (h k) (1 + 8 * roundoff prec) 0); auto.
  - unfold roundoff. assert (U := u_pos prec). lra.
  - apply (proj2 Hx k a Hk).
  - intros j Hj. specialize (Q j Hj). lra.
Qed.

Theorem nearest_regular_error c dims (starts steps vals : list fl) s (x : list fl) kappa f e L :
  let axes := reg_axes dims (map B2R starts) (map B2R steps) in
  reg_input c dims starts steps vals -> nr_new o c dims starts steps vals = Ok s ->
  Forall (fun v => fin v) x -> axes_within prec emax kappa starts steps dims ->
  SpecReal.inside_grid axes (map B2R x) -> 504 * (roundoff prec * kappa) <= 1 -> (prec <= 64)%Z ->
  samples_within e axes (map B2R vals) f ->
  (forall k, (k < length axes)%nat -> slope_at_most axes f k (L k)) ->
  exists y, nr_interp_one o c s x = Ok y /\
  Rabs (B2R y - f (map B2R x)) <=
    e + sum_upto (length axes) (fun k => L k * ((1 / 2 + 16 * (roundoff prec * kappa)) * B2R (nth k steps (fzero o)))).
Proof.
  intros axes Hi H Fx Ha Hx HE Hprec Hs HM.
  destruct (nearest_regular c dims starts steps vals s x kappa Hi H Fx Ha Hx HE Hprec) as (idx & Hsh & E & K). fold axes in Hsh, E, K.
  destruct (float_regular_inv _ _ _ _ _ _ _ _ _ _ (float_regular_flat Hp He Hi H)) as ((_ & W1 & W2 & W3 & _) & P & _).
  cbn [r_dims r_starts r_steps r_vals] in *.
  assert (L1 : length (map (@B2R prec emax) starts) = length dims) by (rewrite map_length; auto).
  assert (L2 : length (map (@B2R prec emax) steps) = length dims) by (rewrite map_length; auto).
  assert (G : Forall (good_axis 2) axes).
  { apply reg_axes_good; auto. rewrite Forall_map. apply Forall_nth. intros k d Hk. rewrite (nth_indep _ d (fzero o)) by auto.
    assert (Q := Forall_nth_lt (fzero o) P Hk). cbv beta in Q. apply ltb_fin in Q; auto.
    destruct (Ha k (nth k starts (fzero o)) (nth k steps (fzero o)) (nth k dims 0%Z)) as (_ & F2 & _); try (apply nth_error_nth_some; lia). auto. }
  eexists. split; [exact E|]. eapply nearby_value; eauto; [symmetry; apply entry_real|].
  intros k a Hk. assert (Gk := good_nth _ G Hk). destruct (K k a Hk) as (R & Q).
  set (w := B2R (nth k steps (fzero o))) in *.
  replace ((1 / 2 + 16 * (roundoff prec * kappa)) * w) with (1 * (w / 2) + 16 * (roundoff prec * kappa) * w) by field.
  apply (near_distance a _ _ w 1); auto; try lra.
  - apply (proj2 Hx k a Hk).
  - intros j Hj. specialize (Q j Hj). lra.
  - assert (Q' := reg_axes_spacing dims (map B2R starts) (map B2R steps) L1 L2 k a Hk).
    rewrite (nth_B2R prec emax Hp He) in Q'. exact Q'.
Qed.
End B.
