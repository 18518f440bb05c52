(** Rounding errors of the multicubic interpolators on rectilinear grids, at points that may lie
    outside the grid. *)
From Coq Require Import Reals Lra Lia List Bool ZifyBool ZifyNat PeanoNat.
From Flocq Require Import Core.Core IEEE754.BinarySingleNaN.
From Verif Require Import Base Ops FInst ModelCore ModelLinear ModelCubic Spec SpecOrder SpecIEEE SpecError SpecCubicError SpecExtrap SpecCubicReach.
From Verif Require Import CoreLemmas TensorLemmas MethodLemmas MethodChar GenLemmas FLemmas UtilProofs FProofs FProofs2 FError FNearest.
From Verif Require Import RInst SpecReal SpecApprox RTensor R1D RChar Approx1D Extrap1D Interpolators REval RProofs FCubic FCubicRect FCubicFar.
Import ListNotations.
Unset Implicit Arguments.
Open Scope list_scope.
Open Scope R_scope.

Lemma stretch_1 T lin : 1 <= T -> 1 <= T ^ (if lin : bool then 1 else 3).
Proof. intros H. apply pow_R1_Rle. exact H. Qed.
Lemma stretch_T T lin : 1 <= T -> T <= T ^ (if lin : bool then 1 else 3).
Proof.
  intros H. destruct lin; [rewrite pow_1; lra|]. rewrite <- (pow_1 T) at 1. apply Rle_pow; [exact H|lia].
Qed.

Lemma max_le a b c : Rmax a b <= c -> a <= c /\ b <= c.
Proof. intros H. split; (eapply Rle_trans; [|exact H]); [apply Rmax_l|apply Rmax_r]. Qed.

Section B.
Variables prec emax : Z.
Context (Hp : Prec_gt_0 prec) (He : Prec_lt_emax prec emax).
Notation fl := (binary_float prec emax).
Notation o := (BOps Hp He).
Notation emin := (3 - emax - prec)%Z.
Notation fin x := (is_finite x = true).
Notation rnd := (rnd prec emax).
Notation u := (bpow radix2 (- prec)).
Notation eta := (/ 2 * bpow radix2 emin).
Notation near := (near prec emax).
Notation small := (@moderate prec emax).
Notation rel := (rel prec emax).

(** Underflow stays negligible when everything is stretched. *)
Lemma eta_stretch s : s <= bpow radix2 (emax - 8) -> s * eta <= u * / 64.
Proof using Hp He.
  intros H. assert (N := eta_pos prec emax).
  apply Rle_trans with (bpow radix2 (emax - 8) * eta); [apply Rmult_le_compat_r; lra|]. right.
  change (/ 2) with (bpow radix2 (-1)). change (/ 64) with (bpow radix2 (-6)).
  rewrite <- !bpow_plus. f_equal. lia.
Qed.

Section Rho.
Variable rho : R.
Hypothesis R1 : 1 <= rho.
Hypothesis Hr : 14000 * (u * rho) <= 1.

Lemma fraction_far (n d : fl) v w T : fin n -> Rabs (B2R n - v) <= u * v -> 0 <= v -> v / w <= T -> 1 <= T -> T <= bpow radix2 (emax - 8) ->
  rel d w 1 -> fin (fdiv o n d) /\ Rabs (B2R (fdiv o n d) - v / w) <= 4 * u * T.
Proof using All.
  intros Fn Dn Hv Tw T1 TX Hd. destruct (rho_facts prec emax Hp He rho R1 Hr) as (U & A & U64 & N & N1 & X & N2).
  assert (B2 := rel_bounds prec emax Hp He rho R1 Hr _ _ _ Hd ltac:(lra)). destruct Hd as (Fd & Pw & Dd).
  assert (T0 : 0 <= v / w) by (apply Rmult_le_pos; [lra|left; apply Rinv_0_lt_compat; auto]).
  assert (E := quot_real (B2R n) (B2R d) v w (u * v) (1 * u) Pw ltac:(lra) Dn Dd ltac:(lra)).
  rewrite (Rabs_pos_eq v) in E by lra.
  replace (1002 / 1000 * ((u * v + 1 * u * v) / w)) with (501 / 250 * u * (v / w)) in E by (field; lra).
  set (r := v / w) in *. assert (UR : u * r <= u * T) by (apply Rmult_le_compat_l; lra).
  assert (UT : u * T <= / 14000 * T) by (apply Rmult_le_compat_r; lra).
  assert (UT1 : u * 1 <= u * T) by (apply Rmult_le_compat_l; lra).
  assert (Q : Rabs (B2R n / B2R d) <= 11 / 10 * T) by (apply Rabs_le_inv in E; apply Rabs_le; lra).
  assert (T' := rnd_abs prec emax Hp (B2R n / B2R d)).
  assert (X1 : bpow radix2 (emax - 1) = 128 * bpow radix2 (emax - 8)).
  { replace (emax - 1)%Z with (7 + (emax - 8))%Z by lia. rewrite bpow_plus. reflexivity. }
  destruct (div_ok prec emax Hp He n d Fn ltac:(lra)) as (F & V).
  { apply (rnd_lt prec emax Hp He). lra. }
  split; [exact F|]. rewrite V.
  replace (rnd (B2R n / B2R d) - r) with ((rnd (B2R n / B2R d) - B2R n / B2R d) + (B2R n / B2R d - r)) by ring.
  eapply Rle_trans; [apply abs_add; [exact T'|exact E]|].
  assert (T1' : u * Rabs (B2R n / B2R d) <= u * (11 / 10 * T)) by (apply Rmult_le_compat_l; lra). lra.
Qed.

Section Cell.
Variables (lin : bool) (B T : R).
Notation st := (T ^ (if lin then 1 else 3)).
Hypothesis B0 : 0 <= B.
Hypothesis T1 : 1 <= T.
Hypothesis HT : st <= bpow radix2 (emax - 8).
Hypothesis HB : st * (rho * B) <= bpow radix2 (emax - 8).
Notation near2 := (near (rho * B) (7 * u) (13 * eta)).

Lemma HB1 : rho * B <= bpow radix2 (emax - 8).
Proof using All.
  assert (S := stretch_1 T lin T1). assert (0 <= rho * B) by (apply Rmult_le_pos; lra).
  assert (1 * (rho * B) <= st * (rho * B)) by (apply Rmult_le_compat_r; lra). lra.
Qed.
Lemma T_top : T <= bpow radix2 (emax - 8).
Proof using T1 HT. eapply Rle_trans; [apply (stretch_T T lin T1)|exact HT]. Qed.
Lemma unit_st : unit_ok prec emax (st * (rho * B)) (7 * u) (st * (13 * eta)).
Proof using All.
  destruct (rho_facts prec emax Hp He rho R1 Hr) as (U & A & U64 & N & N1 & X & N2).
  assert (S := stretch_1 T lin T1). assert (ES := eta_stretch st HT).
  assert (0 <= rho * B) by (apply Rmult_le_pos; lra).
  repeat split; auto; try lra.
  - apply Rmult_le_pos; lra.
  - assert (1 * (13 * eta) <= st * (13 * eta)) by (apply Rmult_le_compat_r; lra). lra.
Qed.

(** The result of one step, from the end of the far lemmas. *)
Lemma far_result z v : near (st * (rho * B)) (7 * u) (st * (13 * eta)) z v 18 1200 ->
  fin z /\ Rabs (B2R z - v) <= st * (8400 * (u * rho) * B + 15600 * eta).
Proof using. intros (F & _ & D). split; [exact F|]. eapply Rle_trans; [exact D|]. lra. Qed.

Lemma hermite_st c th t y0 dy d k0 m0 k1 m1 : lin = false -> fin th -> 0 <= t <= T -> Rabs (B2R th - t) <= 4 * u * T ->
  fin y0 -> Rabs (B2R y0) <= B -> near2 dy d 2 6 ->
  near2 k0 m0 2 11 -> near2 k1 m1 6 46 -> Rabs (m0 - d) <= 2 * (rho * B) -> Rabs (m1 - d) <= 2 * (rho * B) ->
  near (st * (rho * B)) (7 * u) (st * (13 * eta)) (hermite o c th y0 dy k0 k1) (B2R y0 + t * (m0 + t * ((3 * d - 2 * m0 - m1) + t * (m0 + m1 - 2 * d)))) 18 1200.
Proof using All.
  intros Hl Ft Rt Dt Fy Hy Hd H0 H1 D0 D1. assert (US := unit_st). assert (X := HB1). assert (U := u_pos prec). assert (N := eta_pos prec emax). rewrite Hl in *. cbn [pow] in *. rewrite Rmult_1_r in *.
  assert (E1 : T * (T * T) * (rho * B) = T * (T * (T * (rho * B)))) by ring.
  assert (E2 : T * (T * T) * (13 * eta) = T * (T * (T * (13 * eta)))) by ring.
  rewrite E1, E2 in *.
  assert (BB : 1 * B <= rho * B) by (apply Rmult_le_compat_r; lra).
  apply Rabs_le_inv in D0, D1.
  assert (UT : 0 <= u * T) by (apply Rmult_le_pos; lra).
  apply (hermite_far prec emax Hp He (7 * u) T T1 (rho * B) (13 * eta)) with (tau := 1); auto; try lra; try (apply Rabs_le; lra).
  - split; [exact Ft|]. split; [rewrite Rabs_pos_eq; lra|]. split; lra.
  - apply near_val; auto. lra.
Qed.

Lemma linear_st fma th t y k m : lin = true -> fin th -> 1 <= t <= T -> Rabs (B2R th - t) <= 4 * u * T ->
  fin y -> Rabs (B2R y) <= B -> near2 k m 6 46 ->
  near (st * (rho * B)) (7 * u) (st * (13 * eta)) (linear_ext o fma y k th) (B2R y + m * (t - 1)) 18 1200.
Proof using All.
  intros Hl Ft Rt Dt Fy Hy Hk. assert (US := unit_st). assert (TT := T_top). assert (U := u_pos prec). assert (N := eta_pos prec emax).
  assert (X := HB1). rewrite Hl in *. rewrite pow_1 in *.
  assert (BB : 1 * B <= rho * B) by (apply Rmult_le_compat_r; lra).
  assert (UT : 0 <= u * T) by (apply Rmult_le_pos; lra).
  apply (linear_far prec emax Hp He (7 * u) T T1 (rho * B) (13 * eta)) with (tau := 1); auto; try lra.
  - rewrite Rabs_pos_eq; lra.
  - apply near_val; auto. lra.
Qed.

Variables (g0 g1 g2 g3 x v0 v1 v2 v3 : fl).
Hypothesis Sg0 : small g0. Hypothesis Sg1 : small g1. Hypothesis Sg2 : small g2. Hypothesis Sg3 : small g3. Hypothesis Sx : small x.
Hypothesis I01 : B2R g0 < B2R g1. Hypothesis I12 : B2R g1 < B2R g2. Hypothesis I23 : B2R g2 < B2R g3.
Hypothesis R01 : B2R g1 - B2R g0 <= rho * (B2R g2 - B2R g1) /\ B2R g2 - B2R g1 <= rho * (B2R g1 - B2R g0).
Hypothesis R12 : B2R g2 - B2R g1 <= rho * (B2R g3 - B2R g2) /\ B2R g3 - B2R g2 <= rho * (B2R g2 - B2R g1).
Hypothesis F0 : fin v0. Hypothesis F1 : fin v1. Hypothesis F2 : fin v2. Hypothesis F3 : fin v3.
Hypothesis H0 : Rabs (B2R v0) <= B. Hypothesis H1 : Rabs (B2R v1) <= B. Hypothesis H2 : Rabs (B2R v2) <= B. Hypothesis H3 : Rabs (B2R v3) <= B.

Definition sat_out (sat : saturation) : Prop :=
  match sat with
  | OutsideLow => B2R x <= B2R g0 /\ (B2R g1 - B2R x) / (B2R g1 - B2R g0) <= T
  | OutsideHigh => B2R g3 <= B2R x /\ (B2R x - B2R g2) / (B2R g3 - B2R g2) <= T
  | _ => False
  end.

Lemma place_far_up (a b : fl) : small a -> small b -> B2R a < B2R b -> B2R b <= B2R x -> (B2R x - B2R a) / (B2R b - B2R a) <= T ->
  let t := (B2R x - B2R a) / (B2R b - B2R a) in let th := fdiv o (fsub o x a) (fsub o b a) in
  fin th /\ 1 <= t <= T /\ Rabs (B2R th - t) <= 4 * u * T.
Proof using Hp He R1 Hr T1 HT Sx.
  intros Sa Sb Hab Hx Ht t th. destruct (small_sub prec emax Hp He x a Sx Sa) as (F & V).
  destruct (fraction_far (fsub o x a) (fsub o b a) (B2R x - B2R a) (B2R b - B2R a) T F) as (G & D); auto.
  - rewrite V. eapply Rle_trans; [apply (rnd_rel prec emax Hp); apply on_grid_sub; apply on_grid_fl|]. rewrite Rabs_pos_eq by lra. lra.
  - lra.
  - apply T_top.
  - apply (width prec emax Hp He rho R1 Hr); auto.
  - split; [exact G|]. split; [|exact D]. split; [|exact Ht]. unfold t.
    apply Rmult_le_reg_r with (B2R b - B2R a); [lra|]. unfold Rdiv. rewrite Rmult_assoc, Rinv_l by lra. lra.
Qed.
Lemma place_far_down (a b : fl) : small a -> small b -> B2R a < B2R b -> B2R x <= B2R a -> (B2R b - B2R x) / (B2R b - B2R a) <= T ->
  let t := (B2R b - B2R x) / (B2R b - B2R a) in let th := fdiv o (fneg o (fsub o x b)) (fsub o b a) in
  fin th /\ 1 <= t <= T /\ Rabs (B2R th - t) <= 4 * u * T.
Proof using Hp He R1 Hr T1 HT Sx.
  intros Sa Sb Hab Hx Ht t th. destruct (small_sub prec emax Hp He x b Sx Sb) as (F & V).
  destruct (fraction_far (fneg o (fsub o x b)) (fsub o b a) (B2R b - B2R x) (B2R b - B2R a) T) as (G & D); auto.
  - cbn [fneg BOps]. rewrite is_finite_Bopp. exact F.
  - cbn [fneg BOps]. rewrite B2R_Bopp. change (Bminus mode_NE x b) with (fsub o x b). rewrite V.
    match goal with |- Rabs (- ?a - (?b - ?c)) <= _ => replace (- a - (b - c)) with (- (a - (c - b))) by ring end. rewrite Rabs_Ropp.
    eapply Rle_trans; [apply (rnd_rel prec emax Hp); apply on_grid_sub; apply on_grid_fl|]. rewrite Rabs_left1 by lra. lra.
  - lra.
  - apply T_top.
  - apply (width prec emax Hp He rho R1 Hr); auto.
  - split; [exact G|]. split; [|exact D]. split; [|exact Ht]. unfold t.
    apply Rmult_le_reg_r with (B2R b - B2R a); [lra|]. unfold Rdiv. rewrite Rmult_assoc, Rinv_l by lra. lra.
Qed.

Lemma rect_far c fma sat : sat_out sat ->
  let r := rect_innerp o c fma lin sat x [g0; g1; g2; g3] [v0; v1; v2; v3] in
  fin r /\ Rabs (B2R r - rect_innerp ROps c fma lin sat (B2R x) [B2R g0; B2R g1; B2R g2; B2R g3] [B2R v0; B2R v1; B2R v2; B2R v3])
    <= st * (8400 * (u * rho) * B + 15600 * eta).
Proof using All.
  intros Hs. cbv zeta. apply far_result. assert (HB' := HB1).
  destruct (side2 prec emax Hp He rho R1 Hr B B0 HB') as (S1 & S2 & S3 & S4 & S5 & S6).
  assert (W0 := width prec emax Hp He rho R1 Hr g0 g1 Sg0 Sg1 I01). assert (W1 := width prec emax Hp He rho R1 Hr g1 g2 Sg1 Sg2 I12).
  assert (W2 := width prec emax Hp He rho R1 Hr g2 g3 Sg2 Sg3 I23).
  assert (O := one_rel prec emax Hp He rho R1 Hr).
  assert (O1 : / rho <= 1 <= rho). { split; [|lra]. rewrite <- Rinv_1. apply Rinv_le_contravar; lra. }
  destruct (ratio prec emax Hp He rho R1 Hr _ _ _ _ W1 W0 (proj2 R01) (proj1 R01)) as (Q10 & B10).
  destruct (ratio prec emax Hp He rho R1 Hr _ _ _ _ W1 W2 (proj1 R12) (proj2 R12)) as (Q12 & B12).
  destruct sat; cbn [sat_out] in Hs; try contradiction; unfold rect_innerp; cbn [rect_inner].
  - destruct Hs as (Hx & Ht). destruct (place_far_down g0 g1 Sg0 Sg1 I01 Hx Ht) as (Pf & Pt & Pd).
    assert (K0 := near_neg prec emax Hp He (rho * B) (7 * u) (13 * eta) _ _ _ _ (cdiff_near prec emax Hp He rho R1 Hr B B0 HB' c v0 v1 v2 _ _ _ _ O Q10 O1 B10 F0 F1 F2 H0 H1 H2)).
    destruct (cdiff_real prec emax Hp He rho R1 Hr B B0 HB' _ _ _ _ _ (proj1 O1) (proj1 B10) H0 H1 H2) as (_ & _ & C0). specialize (C0 eq_refl).
    apply Rabs_le_inv in C0.
    assert (D := diff2 prec emax Hp He rho R1 Hr B B0 HB' v0 v1 F0 F1 H0 H1). assert (K1 := natural2 prec emax Hp He rho R1 Hr B B0 HB' false _ _ _ _ D K0).
    destruct (Bool.bool_dec lin true) as [El|El].
    + assert (Q := linear_st fma _ _ v0 _ _ El Pf Pt Pd F0 H0 K1). rewrite El at 3 4.
      eapply near_eq; [exact Q|].
      unfold cdiff, linear_ext, centered_diff, natural_k1. cbn. destruct (use_fma c), fma; field; lra.
    + apply Bool.not_true_is_false in El. assert (Pt' : 0 <= (B2R g1 - B2R x) / (B2R g1 - B2R g0) <= T) by lra.
      assert (Q := hermite_st c _ _ v1 _ _ _ _ _ _ El Pf Pt' Pd F1 H1 D K0 K1 ltac:(apply Rabs_le; lra) ltac:(apply Rabs_le; lra)).
      rewrite El at 3 4. eapply near_eq; [exact Q|].
      unfold cdiff, hermite, centered_diff, natural_k1. cbn. destruct (use_fma c), fma; field; lra.
  - destruct Hs as (Hx & Ht). destruct (place_far_up g2 g3 Sg2 Sg3 I23 Hx Ht) as (Pf & Pt & Pd).
    assert (K0 := cdiff_near prec emax Hp He rho R1 Hr B B0 HB' c v1 v2 v3 _ _ _ _ Q12 O B12 O1 F1 F2 F3 H1 H2 H3).
    destruct (cdiff_real prec emax Hp He rho R1 Hr B B0 HB' _ _ _ _ _ (proj1 B12) (proj1 O1) H1 H2 H3) as (_ & C0 & _). specialize (C0 eq_refl).
    apply Rabs_le_inv in C0.
    assert (D := diff2 prec emax Hp He rho R1 Hr B B0 HB' v3 v2 F3 F2 H3 H2). assert (K1 := natural2 prec emax Hp He rho R1 Hr B B0 HB' false _ _ _ _ D K0).
    destruct (Bool.bool_dec lin true) as [El|El].
    + assert (Q := linear_st fma _ _ v3 _ _ El Pf Pt Pd F3 H3 K1). rewrite El at 3 4.
      eapply near_eq; [exact Q|].
      unfold cdiff, linear_ext, centered_diff, natural_k1. cbn. destruct (use_fma c), fma; field; lra.
    + apply Bool.not_true_is_false in El. assert (Pt' : 0 <= (B2R x - B2R g2) / (B2R g3 - B2R g2) <= T) by lra.
      assert (Q := hermite_st c _ _ v2 _ _ _ _ _ _ El Pf Pt' Pd F2 H2 D K0 K1 ltac:(apply Rabs_le; lra) ltac:(apply Rabs_le; lra)).
      rewrite El at 3 4. eapply near_eq; [exact Q|].
      unfold cdiff, hermite, centered_diff, natural_k1. cbn. destruct (use_fma c), fma; field; lra.
Qed.
End Cell.
End Rho.

(** ** One axis *)
Section Axis.
Variables (g : list fl) (x : fl) (rho D : R) (lin : bool).
Notation a := (list_axis (map (@B2R prec emax) g)).
Notation X := (B2R x).
Notation st := (cubic_stretch lin D).
Hypothesis Ig : increasing_grid o g.
Hypothesis Hg : (4 <= zlen g)%Z.
Hypothesis Sg : Forall (@moderate prec emax) g.
Hypothesis Sx : small x.
Hypothesis D0 : 0 <= D.
Hypothesis HD : overshoot a X <= D.
Hypothesis R1 : 1 <= rho.
Hypothesis Hr : 14000 * (u * rho) <= 1.
Hypothesis Hsp : spacing_ratio_at_most a rho.

Lemma inc_a : strictly_increasing (map (@B2R prec emax) g).
Proof using Ig Sg.
  apply (increasing_B2R prec emax Hp He); auto. eapply Forall_impl; [|exact Sg]. intros v (F & _). exact F.
Qed.
Lemma npts_a : npts a = zlen g.
Proof using. unfold list_axis. cbn [npts]. apply zlen_map. Qed.

Theorem crect_axis_far c fma vs B : 0 <= B -> st <= bpow radix2 (emax - 8) -> st * (rho * B) <= bpow radix2 (emax - 8) ->
  (forall i, fin (vs i) /\ Rabs (B2R (vs i)) <= B) ->
  let p := crect_cell o g x in
  let r := rect_innerp o c fma lin (snd p) x (cell4 o g (fst p)) [vs (fst p); vs (fst p + 1)%Z; vs (fst p + 2)%Z; vs (fst p + 3)%Z] in
  fin r /\ Rabs (B2R r - cub1 lin a X (fun i => B2R (vs i))) <= st * (8400 * (u * rho) * B + 15600 * eta).
Proof using All.
  intros B0 HT HB Hv p r. assert (SI := inc_a). assert (L := npts_a).
  assert (U := u_pos prec). assert (N := eta_pos prec emax).
  assert (S1 : 1 <= st) by (apply stretch_1; lra).
  assert (RB : 0 <= rho * B) by (apply Rmult_le_pos; lra).
  assert (UR : 0 <= u * rho) by (apply Rmult_le_pos; lra).
  assert (E0 : 0 <= 8400 * (u * rho) * B) by (apply Rmult_le_pos; lra).
  destruct (Rle_dec (coord a 0) X) as [Xl|Xl]; [destruct (Rle_dec X (coord a (npts a - 1))) as [Xh|Xh]|].
  { assert (HB' : rho * B <= bpow radix2 (emax - 8)).
    { assert (1 * (rho * B) <= st * (rho * B)) by (apply Rmult_le_compat_r; lra). lra. }
    destruct (crect_axis_error prec emax Hp He g x rho Ig Hg Sg (proj1 Sx) (conj Xl Xh) R1 Hr Hsp c fma lin vs B B0 HB' Hv) as (F & Er).
    split; [exact F|]. eapply Rle_trans; [exact Er|].
    rewrite <- (Rmult_1_l (8400 * (u * rho) * B + 15600 * eta)) at 1. apply Rmult_le_compat_r; lra. }
  all: assert (Hz : forall i, (0 <= i < zlen g)%Z -> small (gz o g i));
    [intros i Hi; unfold gz; apply (Forall_nth_lt (fzero o) Sg); unfold zlen in Hi; lia|].
  all: assert (CG := coord_gz prec emax Hp He g).
  all: assert (Hi : forall i j, (0 <= i < j)%Z -> (j < zlen g)%Z -> B2R (gz o g i) < B2R (gz o g j));
    [intros i j Hi Hj; rewrite <- !CG; unfold list_axis; cbn [coord]; apply sorted_nth; auto; try lia; rewrite map_length; unfold zlen in Hj; lia|].
  all: assert (Rt : forall i, (0 <= i)%Z -> (i + 2 < zlen g)%Z ->
     B2R (gz o g (i + 1)) - B2R (gz o g i) <= rho * (B2R (gz o g (i + 2)) - B2R (gz o g (i + 1))) /\
     B2R (gz o g (i + 2)) - B2R (gz o g (i + 1)) <= rho * (B2R (gz o g (i + 1)) - B2R (gz o g i)));
    [intros i Q0 Q1; assert (Q := Hsp i Q0 ltac:(rewrite L; lia)); unfold spacing in Q;
     replace (i + 1 + 1)%Z with (i + 2)%Z in Q by lia; rewrite !CG in Q; exact Q|].
  all: assert (Rg := @crect_cell_range _ o g x ltac:(lia)); fold p in Rg.
  all: assert (Rt2 := Rt (fst p + 1)%Z ltac:(lia) ltac:(lia));
    replace (fst p + 1 + 1)%Z with (fst p + 2)%Z in Rt2 by lia; replace (fst p + 1 + 2)%Z with (fst p + 3)%Z in Rt2 by lia.
  all: assert (Fin : sat_out (1 + D) (gz o g (fst p)) (gz o g (fst p + 1)) (gz o g (fst p + 2)) (gz o g (fst p + 3)) x (snd p) ->
     fin r /\ Rabs (B2R r - cub1 lin a X (fun i => B2R (vs i))) <= st * (8400 * (u * rho) * B + 15600 * eta));
    [intros Sat; destruct (rect_far rho R1 Hr lin B (1 + D) B0 ltac:(lra) HT HB (gz o g (fst p)) (gz o g (fst p + 1)) (gz o g (fst p + 2)) (gz o g (fst p + 3)) x
      (vs (fst p)) (vs (fst p + 1)%Z) (vs (fst p + 2)%Z) (vs (fst p + 3)%Z)
      (Hz (fst p) ltac:(lia)) (Hz (fst p + 1)%Z ltac:(lia)) (Hz (fst p + 2)%Z ltac:(lia)) (Hz (fst p + 3)%Z ltac:(lia)) Sx
      (Hi (fst p) (fst p + 1)%Z ltac:(lia) ltac:(lia)) (Hi (fst p + 1)%Z (fst p + 2)%Z ltac:(lia) ltac:(lia)) (Hi (fst p + 2)%Z (fst p + 3)%Z ltac:(lia) ltac:(lia))
      (Rt (fst p) ltac:(lia) ltac:(lia)) Rt2
      (proj1 (Hv _)) (proj1 (Hv _)) (proj1 (Hv _)) (proj1 (Hv _)) (proj2 (Hv _)) (proj2 (Hv _)) (proj2 (Hv _)) (proj2 (Hv _))
      c fma (snd p) Sat) as (F & Er);
     split; [exact F|];
     rewrite <- (@cub_rect_axis c fma lin (map B2R g) X (fun i => B2R (vs i)) SI) by (rewrite <- L in Hg; exact Hg);
     rewrite <- (crect_cell_float prec emax Hp He g x Sg (proj1 Sx)); fold p;
     assert (Gz : forall i, gz ROps (map B2R g) i = B2R (gz o g i)) by (intros i; rewrite <- CG; reflexivity);
     unfold cell4; rewrite !Gz; exact Er|].
  all: apply Fin; clear Fin.
  all: destruct (@pp_of_R (map B2R g) X SI) as (P0 & P1 & P2);
    rewrite <- (pp_of_float prec emax Hp He g x Sg (proj1 Sx)) in P0, P1, P2; change (zlen (map B2R g)) with (npts a) in *; rewrite L in *.
  all: unfold p, crect_cell; cbn [fst snd]; set (q := pp_of o g x) in *; unfold crect_sat.
  all: unfold overshoot in HD; rewrite L in HD; apply max_le in HD as (_ & HD); apply max_le in HD as (HD0 & HD1).
  - assert (Q : q = zlen g).
    { destruct (Z_lt_le_dec q (zlen g)); [|lia]. exfalso. assert (Y := P2 (zlen g - 1)%Z ltac:(lia)). apply Xh. exact Y. }
    rewrite Q. replace (zlen g - 2 =? -2)%Z with false by lia. replace (zlen g - 2 =? -1)%Z with false by lia. rewrite Z.eqb_refl. cbn [sat_out].
    replace (Z.min (Z.max (zlen g - 2) 0) (zlen g - 4)) with (zlen g - 4)%Z by lia.
    replace (zlen g - 4 + 3)%Z with (zlen g - 1)%Z by lia. replace (zlen g - 4 + 2)%Z with (zlen g - 2)%Z by lia.
    unfold spacing in HD1. replace (zlen g - 2 + 1)%Z with (zlen g - 1)%Z in HD1 by lia. rewrite !CG in *.
    assert (I := Hi (zlen g - 2)%Z (zlen g - 1)%Z ltac:(lia) ltac:(lia)).
    split; [lra|].
    replace ((X - B2R (gz o g (zlen g - 2))) / (B2R (gz o g (zlen g - 1)) - B2R (gz o g (zlen g - 2)))) with
      (1 + (X - B2R (gz o g (zlen g - 1))) / (B2R (gz o g (zlen g - 1)) - B2R (gz o g (zlen g - 2)))) by (field; lra). lra.
  - assert (Q : q = 0%Z).
    { destruct (Z.eq_dec q 0); auto. exfalso. assert (Y := P1 0%Z ltac:(lia)). apply Xl. left. exact Y. }
    rewrite Q. change (0 - 2 =? -2)%Z with true. cbv iota. cbn [sat_out].
    replace (Z.min (Z.max (0 - 2) 0) (zlen g - 4)) with 0%Z by lia. change (0 + 1)%Z with 1%Z.
    unfold spacing in HD0. change (0 + 1)%Z with 1%Z in HD0. rewrite !CG in *.
    assert (I := Hi 0%Z 1%Z ltac:(lia) ltac:(lia)).
    split; [lra|].
    replace ((B2R (gz o g 1) - X) / (B2R (gz o g 1) - B2R (gz o g 0))) with
      (1 + (B2R (gz o g 0) - X) / (B2R (gz o g 1) - B2R (gz o g 0))) by (field; lra). lra.
Qed.
End Axis.

Lemma gain_mono lin rho d D : 1 <= rho -> 0 <= d <= D -> cubic_reach_gain lin rho d <= cubic_reach_gain lin rho D.
Proof.
  intros R1 Hd. unfold cubic_reach_gain.
  assert (R2 : (2 + 2 * rho) * d <= (2 + 2 * rho) * D) by (apply Rmult_le_compat_l; lra).
  destruct lin; [lra|]. assert (d ^ 2 <= D ^ 2) by (apply pow_incr; lra).
  assert (2 * rho * d ^ 2 <= 2 * rho * D ^ 2) by (apply Rmult_le_compat_l; lra). lra.
Qed.
Lemma reach_gain_1 lin rho D : 1 <= rho -> 0 <= D -> 1 <= cubic_reach_gain lin rho D.
Proof.
  intros R1 D0. unfold cubic_reach_gain.
  assert (1 <= cubic_gain rho).
  { unfold cubic_gain. assert (0 <= rho * rho / (2 * (1 + rho))); [|lra].
    apply Rmult_le_pos; [apply Rmult_le_pos; lra|]. left. apply Rinv_0_lt_compat. lra. }
  assert (0 <= (2 + 2 * rho) * D) by (apply Rmult_le_pos; lra).
  destruct lin; [lra|]. assert (0 <= 2 * rho * D ^ 2) by (apply Rmult_le_pos; [lra|apply pow_le; lra]). lra.
Qed.

(** What [cubic_reach_values] says about the parameters. *)
Lemma reach_values_facts scale G gamma s n A vals : 1 <= scale -> 1 <= G -> 0 <= gamma -> 1 <= s ->
  cubic_reach_values prec emax scale G gamma s n A vals -> s <= bpow radix2 (emax - 8).
Proof using Hp He.
  intros S1 G1 Gm s1 (A0 & H & _). eapply Rle_trans; [|exact H].
  assert (0 <= gamma * s) by (apply Rmult_le_pos; lra).
  assert (P : 1 <= (G + gamma * s) ^ n) by (apply pow_R1_Rle; lra).
  assert (Q1 : 1 * s <= scale * s) by (apply Rmult_le_compat_r; lra).
  assert (Q2 : scale * s * 1 <= scale * s * (A + 1)) by (apply Rmult_le_compat_l; lra).
  assert (Q3 : 1 * (scale * s * (A + 1)) <= (G + gamma * s) ^ n * (scale * s * (A + 1))) by (apply Rmult_le_compat_r; lra). lra.
Qed.

(** ** The interpolators *)
Theorem cubic_far_rectilinear c lin grids vals eval x A rho D :
  float_cubic_rectilinear Hp He c lin grids vals eval ->
  Forall (increasing_grid o) grids -> Forall (Forall (@moderate prec emax)) grids ->
  length x = length grids -> Forall (@moderate prec emax) x -> outside_at_most (rect_axes (map (map (@B2R prec emax)) grids)) (map B2R x) D ->
  1 <= rho -> Forall (fun a => spacing_ratio_at_most a rho) (rect_axes (map (map (@B2R prec emax)) grids)) ->
  let gain := cubic_reach_gain lin rho D in let st := cubic_stretch lin D in
  cubic_reach_values prec emax rho gain (rectilinear_gamma prec rho) st (length grids) A vals ->
  14000 * INR (length grids) * (u * rho) <= 1 ->
  Forall (good_axis 4) (rect_axes (map (map (@B2R prec emax)) grids)) /\
  exists y, eval x = Ok y /\ fin y /\
  Rabs (B2R y - tenL (ops1 (cub1 lin) (rect_axes (map (map B2R) grids)) (map B2R x))
                     (entry 0 (map npts (rect_axes (map (map (@B2R prec emax)) grids))) (map B2R vals)))
   <= cubic_reach_error prec emax gain (rectilinear_gamma prec rho) st (length grids) A.
Proof.
  intros H I S Lx Fx (D0 & Ov) R1 Hsp gain st HVal HN.
  assert (G1 : 1 <= gain) by (apply reach_gain_1; auto).
  assert (s1 : 1 <= st) by (apply stretch_1; lra).
  assert (U := u_pos prec). assert (Eta := eta_pos prec emax).
  assert (UR : 0 <= u * rho) by (apply Rmult_le_pos; lra).
  assert (Gm : 0 <= rectilinear_gamma prec rho) by (unfold rectilinear_gamma, roundoff; lra).
  assert (HT : st <= bpow radix2 (emax - 8)) by (eapply reach_values_facts; [exact R1|exact G1|exact Gm|exact s1|exact HVal]).
  destruct HVal as (A0 & HA & Hv).
  destruct (float_cubic_rectilinear_inv prec emax Hp He _ _ _ _ _ H) as (W & fma & E).
  assert (W' := W). destruct W' as (W0 & _ & W2 & W3). cbn [g_grids g_dims g_vals] in *.
  assert (La : length (rect_axes (map (map (@B2R prec emax)) grids)) = length grids) by (unfold rect_axes; rewrite !map_length; auto).
  rewrite E by auto.
  assert (Good : Forall (good_axis 4) (rect_axes (map (map (@B2R prec emax)) grids))).
  { apply rect_axes_good; unfold grids_ok; rewrite Forall_map.
    - rewrite Forall_forall in *. intros g Hg. apply (increasing_B2R prec emax Hp He); auto.
      eapply Forall_impl; [|exact (S g Hg)]. intros v (Fv & _). exact Fv.
    - eapply Forall_impl; [|exact W2]. intros g Hg. rewrite zlen_map. exact Hg. }
  split; [exact Good|].
  eexists. split; [reflexivity|].
  assert (N1 : 1 <= INR (length grids)).
  { change 1 with (INR 1). apply le_INR. lia. }
  assert (Hr : 14000 * (u * rho) <= 1).
  { assert (1 * (u * rho) <= INR (length grids) * (u * rho)) by (apply Rmult_le_compat_r; lra). lra. }
  destruct (rho_facts prec emax Hp He rho R1 Hr) as (_ & _ & U64 & _ & _ & _ & Et).
  assert (Dm : map npts (rect_axes (map (map (@B2R prec emax)) grids)) = map zlen grids).
  { rewrite rect_axes_npts, map_map. apply map_ext. intros g. apply zlen_map. }
  assert (Lm : length (map B2R x) = length (rect_axes (map (map (@B2R prec emax)) grids))) by (rewrite map_length; lia).
  assert (LF := good_cub lin _ Lm Good). rewrite Dm in *.
  assert (LD : length (map zlen grids) = length grids) by apply map_length.
  set (axes := rect_axes (map (map (@B2R prec emax)) grids)) in *.
  assert (NA : forall k, (k < length grids)%nat -> nth k axes ax0 = list_axis (map B2R (nth k grids []))).
  { intros k Hk. unfold axes. rewrite rect_axes_nth by (rewrite map_length; auto).
    rewrite (nth_indep (map (map (@B2R prec emax)) grids) [] (map (@B2R prec emax) [])) by (rewrite map_length; auto). rewrite (map_nth (map (@B2R prec emax))). reflexivity. }
  set (xx := fun k => nth k x (fzero o)). set (gg := fun k => nth k grids []).
  assert (AX : forall k, (k < length grids)%nat -> increasing_grid o (gg k) /\ (4 <= zlen (gg k))%Z /\ Forall (@moderate prec emax) (gg k) /\ @moderate prec emax (xx k) /\
     overshoot (list_axis (map B2R (gg k))) (B2R (xx k)) <= D /\
     spacing_ratio_at_most (list_axis (map B2R (gg k))) rho).
  { intros k Hk. split; [apply (Forall_nth_lt [] I Hk)|]. split; [apply (Forall_nth_lt [] W2 Hk)|]. split; [apply (Forall_nth_lt [] S Hk)|].
    split; [apply (Forall_nth_lt (fzero o) Fx); lia|].
    assert (Rx := Ov k ltac:(lia)). unfold outside_by in Rx. change no_axis with ax0 in Rx.
    rewrite NA, (nth_B2R prec emax Hp He) in Rx by auto. split; [exact Rx|].
    unfold gg. rewrite <- NA by auto. apply (Forall_nth_lt ax0 Hsp). lia. }
  assert (Hnd : forall k, (k < length grids)%nat -> nth k (ops1 (cub1 lin) axes (map B2R x)) (fun _ => 0) = cub1 lin (list_axis (map B2R (gg k))) (B2R (xx k))).
  { intros k Hk. rewrite ops1_nth by (rewrite ?map_length; lia). rewrite NA by auto. rewrite (nth_B2R prec emax Hp He). reflexivity. }
  assert (ES := eta_stretch st HT).
  assert (NW : INR (length grids) * (st * (15600 * eta)) <= 1).
  { assert (e2 : u * 1 <= u * rho) by (apply Rmult_le_compat_l; lra).
    assert (INR (length grids) * (st * (15600 * eta)) <= INR (length grids) * (14000 * (u * rho))) by (apply Rmult_le_compat_l; lra). lra. }
  assert (gs0 : 0 <= rectilinear_gamma prec rho * st) by (apply Rmult_le_pos; lra).
  assert (g0 : 0 < gain + rectilinear_gamma prec rho * st) by lra.
  assert (rs : 0 < rho * st) by (apply Rmult_lt_0_compat; lra).
  set (os := map fst (crect_cells o (mkRect grids (map zlen grids) vals) x)).
  destruct (tens4_error prec emax Hp He (map zlen grids) os (entry (fzero o) (map zlen grids) vals) (ops1 (cub1 lin) axes (map B2R x))
     (mcc_nd o c fma lin (mkRect grids (map zlen grids) vals) x) gain (rectilinear_gamma prec rho * st) (st * (15600 * eta)) A (bpow radix2 (emax - 8) / (rho * st)))
     with (k := length (map (@zlen fl) grids)) (suf := @nil Z) as (F & Er & _ & _).
  - exact LF.
  - intros idx. apply (entry_bound prec emax Hp He); auto.
  - exact G1.
  - exact gs0.
  - apply Rmult_le_pos; lra.
  - intros k f M Hk Hf. rewrite LD in Hk. rewrite Hnd by auto. destruct (AX k Hk) as (X1 & X2 & X3 & X4 & X5 & X6).
    assert (M0 : 0 <= M) by (eapply Rle_trans; [apply Rabs_pos|apply (Hf 0%Z)]).
    eapply Rle_trans; [apply (cub1_norm_any (list_axis (map B2R (gg k))) (list_axis_inc (inc_a (gg k) X1 X3)) ltac:(rewrite npts_a; exact X2) rho X6) with (E := M); intros i _; apply Hf|].
    apply Rmult_le_compat_r; [exact M0|]. apply gain_mono; auto. split; [apply overshoot_nonneg|exact X5].
  - intros k vs B Hk HB Hvs. rewrite LD in Hk. cbv zeta. rewrite Hnd by auto. unfold mcc_nd. cbn [g_grids]. cbv zeta.
    destruct (AX k Hk) as (X1 & X2 & X3 & X4 & X5 & X6).
    assert (HB' : st * (rho * B) <= bpow radix2 (emax - 8)).
    { destruct HB as (_ & HB). apply Rmult_le_compat_l with (r := rho * st) in HB; [|lra].
      replace (rho * st * (bpow radix2 (emax - 8) / (rho * st))) with (bpow radix2 (emax - 8)) in HB by (field; lra).
      replace (st * (rho * B)) with (rho * st * B) by ring. exact HB. }
    destruct (crect_axis_far (gg k) (xx k) rho D lin X1 X2 X3 X4 D0 X5 R1 Hr X6 c fma vs B (proj1 HB) HT HB' Hvs) as (F & Er).
    replace (nth k os 0%Z) with (fst (crect_cell o (gg k) (xx k))).
    + split; [exact F|]. eapply Rle_trans; [exact Er|]. unfold rectilinear_gamma, roundoff. fold st. lra.
    + unfold os. rewrite nth_map_fst, crect_cells_nth by (cbn [g_grids]; lia). reflexivity.
  - rewrite LD. apply Rmult_le_reg_r with (rho * st); [lra|].
    replace (bpow radix2 (emax - 8) / (rho * st) * (rho * st)) with (bpow radix2 (emax - 8)) by (field; lra).
    eapply Rle_trans; [|exact HA]. rewrite Rmult_assoc. apply Rmult_le_compat_l; [left; apply pow_lt; auto|].
    rewrite (Rmult_comm (rho * st) (A + 1)). apply Rmult_le_compat_r; lra.
  - lia.
  - rewrite LD in F, Er. split; [exact F|].
    assert (LO : length (ops1 (cub1 lin) axes (map B2R x)) = length grids) by (rewrite ops1_length by auto; lia).
    replace (firstn (length grids) (ops1 (cub1 lin) axes (map B2R x))) with (ops1 (cub1 lin) axes (map B2R x)) in Er by (rewrite <- LO, firstn_all; reflexivity).
    rewrite (tenL_ext _ (fun idx => B2R (entry (fzero o) (map zlen grids) vals (idx ++ []))) LF).
    2:{ intros idx _. rewrite app_nil_r. apply (entry_real prec emax Hp He). }
    unfold cubic_reach_error. rewrite Nat.sub_1_r. eapply Rle_trans; [exact Er|].
    apply Rmult_le_compat_l; [apply Rmult_le_pos; [lra|left; apply pow_lt; auto]|]. unfold underflow.
    replace (rectilinear_gamma prec rho * st * A + st * (15600 * eta)) with (st * (rectilinear_gamma prec rho * A + 15600 * eta)) by ring.
    apply Rmult_le_compat_l; lra.
Qed.
End B.
