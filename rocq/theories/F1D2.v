(** One-dimensional interpolation in floating point against exact arithmetic and against smooth
    functions. *)
From Coq Require Import Reals Lra Lia List Bool ZifyBool ZifyNat PeanoNat.
From Flocq Require Import Core.Core IEEE754.BinarySingleNaN.
From Verif Require Import Base Ops FInst ModelCore ModelOneDim Spec SpecOrder SpecIEEE.
From Verif Require Import CoreLemmas FLemmas FProofs2 MethodChar FError.
From Verif Require Import RInst SpecReal RTensor R1D RChar Interpolators Spec1D OneDimProofs SpecError SpecFloat1D F1D.
From Verif Require Import SpecApprox Approx1D.
Import ListNotations.
Unset Implicit Arguments.
Open Scope list_scope.
Open Scope R_scope.

(** Linear1D in exact arithmetic. *)
Lemma grid1_linear c vals a dom at_ x : grid1 c vals a dom at_ -> dom x ->
  linear1 ROps c at_ x = Ok (lin1 a x (val_at vals)).
Proof.
  intros H D. destruct (@grid1_at c vals a dom at_ x H D) as (N & (Ia & Na) & i & e & A & C & X).
  unfold linear1. rewrite A. cbn [bind]. f_equal.
  rewrite (@lin1_weights a Ia Na x (val_at vals) i C). unfold local_coord, line_through. cbn [sx0 sy0 sx1 sy1].
  assert (P : 0 < coord a (i + 1) - coord a i).
  { destruct C as (Ci & _). assert (Q := Ia i (i + 1)%Z ltac:(lia) ltac:(lia)). lra. }
  destruct (use_fma c); cbn [fmuladd fsub fdiv fmul fadd ROps]; field; lra.
Qed.
Lemma grid1_hold c vals a dom at_ x : grid1 c vals a dom at_ -> dom x ->
  coord a 0 <= x <= coord a (npts a - 1) -> hold_last1 ROps c at_ x = Ok (lin1 a x (val_at vals)).
Proof. intros H D Hx. rewrite (C30_proof_inside H D Hx). exact (grid1_linear c vals a dom at_ x H D). Qed.

(** Samples of a smooth function, with errors. *)
Lemma smooth1 a x vr f D1 D2 e M W : increasing_axis a -> (2 <= npts a)%Z -> coord a 0 <= x <= coord a (npts a - 1) ->
  (forall i, (0 <= i < npts a)%Z -> Rabs (val_at vr i - f (coord a i)) <= e) ->
  (forall s, coord a 0 <= s <= coord a (npts a - 1) -> derivable_pt_lim f s (D1 s)) ->
  (forall s, coord a 0 <= s <= coord a (npts a - 1) -> derivable_pt_lim D1 s (D2 s)) ->
  (forall s, coord a 0 <= s <= coord a (npts a - 1) -> Rabs (D2 s) <= M) ->
  widths_within W a -> Rabs (lin1 a x (val_at vr) - f x) <= e + M * W ^ 2 / 8.
Proof.
  intros Ia Na Hx He H1 H2 HM HW. destruct (in_cell_ex a Na x) as (i & Ci).
  assert (Hc : coord a i <= x <= coord a (i + 1)).
  { destruct Ci as (Ri & [-> |C1] & [C2|C2]); split; try lra.
    - replace (0 + 1)%Z with (npts a - 1)%Z by lia. lra.
    - subst i. replace (npts a - 2 + 1)%Z with (npts a - 1)%Z by lia. lra. }
  assert (Ri := proj1 Ci).
  assert (L0 := axis_le Ia (i := 0%Z) (j := i) ltac:(lia) ltac:(lia)).
  assert (L1 := axis_le Ia (i := (i + 1)%Z) (j := (npts a - 1)%Z) ltac:(lia) ltac:(lia)).
  assert (Q := lin1_error a Ia Na x i Ci Hc f D1 D2 M ltac:(intros; apply H1; lra) ltac:(intros; apply H2; lra) ltac:(intros; apply HM; lra)).
  assert (M0 : 0 <= M) by (eapply Rle_trans; [apply Rabs_pos|apply (HM x); lra]).
  assert (Wi := HW i ltac:(lia)). assert (Gi := Ia i (i + 1)%Z ltac:(lia) ltac:(lia)).
  assert (S2 : spacing a i ^ 2 <= W ^ 2). { unfold spacing. apply pow_incr. lra. }
  assert (E : Rabs (lin1 a x (val_at vr) - lin1 a x (fun i => f (coord a i))) <= e).
  { rewrite !(@lin1_weights a Ia Na x _ i Ci).
    set (t := local_coord a x i).
    assert (T : 0 <= t <= 1).
    { unfold t, local_coord. assert (P : 0 < coord a (i + 1) - coord a i) by lra.
      split; [apply Rmult_le_pos; [lra|left; apply Rinv_0_lt_compat; auto]|].
      apply Rmult_le_reg_r with (coord a (i + 1) - coord a i); auto. unfold Rdiv. rewrite Rmult_assoc, Rinv_l, Rmult_1_r by lra. lra. }
    replace (_ - _) with ((1 - t) * (val_at vr i - f (coord a i)) + t * (val_at vr (i + 1) - f (coord a (i + 1)))) by ring.
    apply Rle_trans with ((1 - t) * e + t * e); [|lra].
    apply abs_add; apply abs_mul; try (rewrite Rabs_pos_eq; lra); apply He; lia. }
  replace (lin1 a x (val_at vr) - f x) with ((lin1 a x (val_at vr) - lin1 a x (fun i => f (coord a i))) + (lin1 a x (fun i => f (coord a i)) - f x)) by ring.
  apply abs_add; auto. eapply Rle_trans; [exact Q|].
  assert (M * spacing a i ^ 2 <= M * W ^ 2) by (apply Rmult_le_compat_l; auto). lra.
Qed.

Section B.
Variables prec emax : Z.
Context (Hp : Prec_gt_0 prec) (He : Prec_lt_emax prec emax).
Notation fl := (binary_float prec emax).
Notation o := (BOps Hp He).
Notation fin x := (is_finite x = true).

Theorem C68_proof_rectilinear c (grid vals : list fl) g x A S W rho :
  let a := list_axis (map B2R grid) in
  64 * roundoff prec <= 1 -> (zlen vals <= isize_max)%Z -> increasing_grid o grid -> Forall moderate grid -> moderate x ->
  c1_new grid vals = Ok g -> bounded_values prec emax A vals -> slopes_within S a (map B2R vals) -> widths_within W a ->
  0 <= rho -> near_axis rho a (B2R x) -> S <= bpow radix2 (emax - 2) -> 2 * A + S * rho <= bpow radix2 (emax - 2) ->
  forall c' dom at_, grid1 c' (map B2R vals) a dom at_ -> dom (B2R x) ->
  exists y r, linear1 o c (c1_at o c g) x = Ok y /\ fin y /\ linear1 ROps c' at_ (B2R x) = Ok r /\
    Rabs (B2R y - r) <= line_error prec emax A S W rho.
Proof.
  intros a Hu Hn Hi Hm Sx Hg Hv HS HW R0 HR BS BA c' dom at_ H1 Dx. unfold roundoff in Hu.
  destruct (linear1_rect prec emax Hp He c grid vals g x ltac:(lra) Hn Hi Hm (proj1 Sx) Hg A S W rho Sx Hv HS HW R0 HR BS BA) as (y & E & F & R).
  exists y. eexists. split; [exact E|]. split; [exact F|]. split; [exact (grid1_linear _ _ _ _ _ _ H1 Dx)|exact R].
Qed.

Theorem C68_proof_regular c (start h x : fl) vals g kappa A S :
  let a := mkAxis (zlen vals) (fun i => B2R start + B2R h * IZR i) in
  (2 <= zlen vals <= isize_max)%Z -> 0 < B2R h -> axis_within prec emax kappa start h (zlen vals) -> fin x ->
  coord a 0 <= B2R x <= coord a (npts a - 1) -> r1_new o c start h vals = Ok g ->
  bounded_values prec emax A vals -> slopes_within S a (map B2R vals) -> S <= bpow radix2 (emax - 3) ->
  504 * (roundoff prec * kappa) <= 1 -> (prec <= 64)%Z ->
  forall c' dom at_, grid1 c' (map B2R vals) a dom at_ -> dom (B2R x) ->
  exists y z r, linear1 o c (r1_at o c g) x = Ok y /\ hold_last1 o c (r1_at o c g) x = Ok z /\
    fin y /\ fin z /\ linear1 ROps c' at_ (B2R x) = Ok r /\
    Rabs (B2R y - r) <= regular_line_error prec emax kappa A (B2R h) /\
    Rabs (B2R z - r) <= regular_line_error prec emax kappa A (B2R h).
Proof.
  intros a Hn Ph Ha Fx Hx Hg Hv HS BS HE Hprec c' dom at_ H1 Dx.
  destruct (linear1_reg prec emax Hp He c start h x vals g kappa Hn Ph Ha Fx HE Hprec Hx Hg A S Hv HS BS) as ((y & E & F & R) & (z & E' & F' & R')).
  exists y, z. eexists. split; [exact E|]. split; [exact E'|]. split; [exact F|]. split; [exact F'|].
  split; [exact (grid1_linear _ _ _ _ _ _ H1 Dx)|]. split; [exact R|exact R'].
Qed.

Theorem C70_proof_rectilinear c (grid vals : list fl) g x A S W f D1 D2 e M :
  let a := list_axis (map B2R grid) in
  64 * roundoff prec <= 1 -> (zlen vals <= isize_max)%Z -> increasing_grid o grid -> Forall moderate grid -> fin x ->
  c1_new grid vals = Ok g -> bounded_values prec emax A vals -> slopes_within S a (map B2R vals) -> widths_within W a ->
  S <= bpow radix2 (emax - 2) -> coord a 0 <= B2R x <= coord a (npts a - 1) ->
  (forall i, (0 <= i < npts a)%Z -> Rabs (val_at (map B2R vals) i - f (coord a i)) <= e) ->
  (forall s, coord a 0 <= s <= coord a (npts a - 1) -> derivable_pt_lim f s (D1 s)) ->
  (forall s, coord a 0 <= s <= coord a (npts a - 1) -> derivable_pt_lim D1 s (D2 s)) ->
  (forall s, coord a 0 <= s <= coord a (npts a - 1) -> Rabs (D2 s) <= M) ->
  exists y, linear1 o c (c1_at o c g) x = Ok y /\ hold_last1 o c (c1_at o c g) x = Ok y /\ fin y /\
    Rabs (B2R y - f (B2R x)) <= line_error prec emax A S W 0 + e + M * W ^ 2 / 8.
Proof.
  intros a Hu Hn Hi Hm Fx Hg Hv HS HW BS Hx He' H1 H2 HM. unfold roundoff in Hu.
  assert (Hl : (2 <= zlen grid)%Z).
  { unfold c1_new in Hg. destruct (_ || _) eqn:Ec; [discriminate|]. unfold zlen. lia. }
  destruct (rect1_axis prec emax Hp He grid Hi Hm) as (Ia & Na & Ca). fold a in Ia, Na, Ca.
  assert (ZL : Z.of_nat (length grid) = zlen grid) by reflexivity.
  assert (Sx : moderate x).
  { split; auto. rewrite !Ca in Hx. rewrite Na in Hx.
    destruct (Forall_nth_lt (fzero o) Hm (k := Z.to_nat 0) ltac:(lia)) as (_ & B0).
    destruct (Forall_nth_lt (fzero o) Hm (k := Z.to_nat (zlen grid - 1)) ltac:(lia)) as (_ & B1).
    apply Rabs_le_inv in B0. apply Rabs_le_inv in B1. apply Rabs_le. lra. }
  assert (X2 : bpow radix2 (emax - 2) = 4 * bpow radix2 (emax - 4)).
  { replace (emax - 2)%Z with (2 + (emax - 4))%Z by lia. rewrite bpow_plus. reflexivity. }
  assert (A1 : 0 <= A <= bpow radix2 (emax - 4)) by apply Hv.
  destruct (linear1_rect prec emax Hp He c grid vals g x ltac:(lra) Hn Hi Hm Fx Hg A S W 0 Sx Hv HS HW ltac:(lra)
    ltac:(fold a; unfold near_axis; lra) BS ltac:(lra)) as (y & E & F & R).
  exists y. split; [exact E|]. split; [rewrite (hold1_rect_inside prec emax Hp He c grid vals g x Hn Hi Hm Fx Hg Hx); exact E|].
  split; [exact F|]. fold a in R.
  assert (Q := smooth1 a (B2R x) (map B2R vals) f D1 D2 e M W Ia ltac:(lia) Hx He' H1 H2 HM HW).
  replace (B2R y - f (B2R x)) with ((B2R y - lin1 a (B2R x) (val_at (map B2R vals))) + (lin1 a (B2R x) (val_at (map B2R vals)) - f (B2R x))) by ring.
  eapply Rle_trans; [apply abs_add; [exact R|exact Q]|]. lra.
Qed.

Theorem C70_proof_regular c (start h x : fl) vals g kappa A S f D1 D2 e M :
  let a := mkAxis (zlen vals) (fun i => B2R start + B2R h * IZR i) in
  (2 <= zlen vals <= isize_max)%Z -> 0 < B2R h -> axis_within prec emax kappa start h (zlen vals) -> fin x ->
  coord a 0 <= B2R x <= coord a (npts a - 1) -> r1_new o c start h vals = Ok g ->
  bounded_values prec emax A vals -> slopes_within S a (map B2R vals) -> S <= bpow radix2 (emax - 3) ->
  504 * (roundoff prec * kappa) <= 1 -> (prec <= 64)%Z ->
  (forall i, (0 <= i < npts a)%Z -> Rabs (val_at (map B2R vals) i - f (coord a i)) <= e) ->
  (forall s, coord a 0 <= s <= coord a (npts a - 1) -> derivable_pt_lim f s (D1 s)) ->
  (forall s, coord a 0 <= s <= coord a (npts a - 1) -> derivable_pt_lim D1 s (D2 s)) ->
  (forall s, coord a 0 <= s <= coord a (npts a - 1) -> Rabs (D2 s) <= M) ->
  exists y z, linear1 o c (r1_at o c g) x = Ok y /\ hold_last1 o c (r1_at o c g) x = Ok z /\ fin y /\ fin z /\
    Rabs (B2R y - f (B2R x)) <= regular_line_error prec emax kappa A (B2R h) + e + M * B2R h ^ 2 / 8 /\
    Rabs (B2R z - f (B2R x)) <= regular_line_error prec emax kappa A (B2R h) + e + M * B2R h ^ 2 / 8.
Proof.
  intros a Hn Ph Ha Fx Hx Hg Hv HS BS HE Hprec He' H1 H2 HM.
  destruct (linear1_reg prec emax Hp He c start h x vals g kappa Hn Ph Ha Fx HE Hprec Hx Hg A S Hv HS BS) as ((y & E & F & R) & (z & E' & F' & R')).
  exists y, z. split; [exact E|]. split; [exact E'|]. split; [exact F|]. split; [exact F'|].
  assert (HW : widths_within (B2R h) a).
  { intros i _. unfold a. cbn [coord]. rewrite plus_IZR. lra. }
  assert (Ia : increasing_axis a) by (apply reg_axis_inc; auto).
  assert (Q := smooth1 a (B2R x) (map B2R vals) f D1 D2 e M (B2R h) Ia ltac:(cbn [npts a]; unfold a; cbn [npts]; lia) Hx He' H1 H2 HM HW).
  fold a in R, R'.
  split.
  - replace (B2R y - f (B2R x)) with ((B2R y - lin1 a (B2R x) (val_at (map B2R vals))) + (lin1 a (B2R x) (val_at (map B2R vals)) - f (B2R x))) by ring.
    eapply Rle_trans; [apply abs_add; [exact R|exact Q]|]. lra.
  - replace (B2R z - f (B2R x)) with ((B2R z - lin1 a (B2R x) (val_at (map B2R vals))) + (lin1 a (B2R x) (val_at (map B2R vals)) - f (B2R x))) by ring.
    eapply Rle_trans; [apply abs_add; [exact R'|exact Q]|]. lra.
Qed.
End B.
