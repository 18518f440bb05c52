(** Properties C91 and C92: which stored values a result depends on, and that missing values show. *)
From Coq Require Import Reals Lra PeanoNat Bool Lia List String.
From Flocq Require Import Core.Core IEEE754.BinarySingleNaN.
From Verif Require Import Base Ops FInst ModelCore ModelLinear ModelCubic ModelOneDim ModelPython Spec SpecOrder SpecIEEE SpecCubicError SpecPython SpecDetect SpecPixel SpecMonotone SpecMissing.
From Verif Require Import GenLemmas FLemmas FProofs FProofs2 FMissing ExampleData.
From Verif Require Import PropertiesExact PropertiesFloat PropertiesFloat1D PropertiesPython PropertiesMonotone.
Import ListNotations.
Open Scope string_scope.
Open Scope Z_scope.
Unset Implicit Arguments.

(** * C91: no missing value is hidden. Multilinear interpolation: every corner of the cell counts. *)
Theorem C91_rectilinear :
  forall prec emax (Hp : Prec_gt_0 prec) (He : Prec_lt_emax prec emax), let o := BOps Hp He in
  forall c (grids : list (list (binary_float prec emax))) vals eval x y cells idx,
  float_rectilinear Hp He c grids vals eval -> Forall (increasing_grid o) grids ->
  rectilinear_cells o grids x cells -> corner cells idx -> eval x = Ok y ->
  carries (entry (fzero o) (map zlen grids) vals idx) y.
Proof. exact rectilinear_carries. Qed.
Theorem C91_regular :
  forall prec emax (Hp : Prec_gt_0 prec) (He : Prec_lt_emax prec emax), let o := BOps Hp He in
  forall c dims (starts steps vals : list (binary_float prec emax)) eval x y cells idx,
  float_regular Hp He c dims starts steps vals eval ->
  regular_cells Hp He dims starts steps x cells -> corner cells idx -> eval x = Ok y ->
  carries (entry (fzero o) dims vals idx) y.
Proof. exact regular_carries. Qed.
(** Multicubic interpolation: the corners of the cell and the grid points next to it. *)
Theorem C91_cubic_rectilinear :
  forall prec emax (Hp : Prec_gt_0 prec) (He : Prec_lt_emax prec emax), let o := BOps Hp He in
  forall c lin (grids : list (list (binary_float prec emax))) vals eval x y cells idx,
  float_cubic_rectilinear Hp He c lin grids vals eval -> Forall (increasing_grid o) grids ->
  rectilinear_cells o grids x cells -> around (map zlen grids) cells idx -> eval x = Ok y ->
  carries (entry (fzero o) (map zlen grids) vals idx) y.
Proof. exact cubic_rectilinear_carries. Qed.
Theorem C91_cubic_regular :
  forall prec emax (Hp : Prec_gt_0 prec) (He : Prec_lt_emax prec emax), let o := BOps Hp He in
  forall c lin dims (starts steps vals : list (binary_float prec emax)) eval x y cells idx,
  float_cubic_regular Hp He c lin dims starts steps vals eval ->
  regular_cells Hp He dims starts steps x cells -> (ovf_checks c = true \/ not_lowest Hp He starts steps x) ->
  around dims cells idx -> eval x = Ok y ->
  carries (entry (fzero o) dims vals idx) y.
Proof. exact cubic_regular_carries. Qed.
(** Linear1D. *)
Theorem C91_one_dim_rectilinear :
  forall prec emax (Hp : Prec_gt_0 prec) (He : Prec_lt_emax prec emax), let o := BOps Hp He in
  forall c (grid vals : list (binary_float prec emax)) g i y0 y1 x y,
  zlen vals <= isize_max -> increasing_grid o grid -> c1_new grid vals = Ok g -> bracketing_cell o x grid i ->
  nth_error vals (Z.to_nat i) = Some y0 -> nth_error vals (Z.to_nat (i + 1)) = Some y1 ->
  linear1 o c (c1_at o c g) x = Ok y -> carries y0 y /\ carries y1 y.
Proof. exact line_rect_carries. Qed.
Theorem C91_one_dim_regular :
  forall prec emax (Hp : Prec_gt_0 prec) (He : Prec_lt_emax prec emax), let o := BOps Hp He in
  forall c (start h : binary_float prec emax) vals g i y0 y1 x y,
  2 <= zlen vals <= isize_max -> r1_new o c start h vals = Ok g -> computed_cell Hp He start h x (zlen vals) i ->
  nth_error vals (Z.to_nat i) = Some y0 -> nth_error vals (Z.to_nat (i + 1)) = Some y1 ->
  linear1 o c (r1_at o c g) x = Ok y -> carries y0 y /\ carries y1 y.
Proof. exact line_reg_carries. Qed.
(** The Python function on grids that are not evenly spaced. *)
Theorem C91_python_linear :
  forall prec emax (Hp : Prec_gt_0 prec) (He : Prec_lt_emax prec emax), let o := BOps Hp He in
  forall c obs grids vals o0 lin assume atol,
  let gs := map nd_data grids in let xs := map nd_data obs in
  good_call 2 o0 obs grids vals -> (1 <= length grids <= 8)%nat -> Forall (increasing_grid o) gs ->
  assume = false -> ~ Forall (evenly_spaced o) gs ->
  exists r, fst (py_interpn o c obs grids vals "linear" None lin assume false atol) = Ret r /\
  nd_shape r = nd_shape o0 /\ length (nd_data r) = length (nd_data o0) /\
  forall j y cells idx, nth_error (nd_data r) j = Some y ->
  rectilinear_cells o gs (point_of (fzero o) xs j) cells -> corner cells idx ->
  carries (entry (fzero o) (map zlen gs) (nd_data vals) idx) y.
Proof. exact python_linear_carries. Qed.
Theorem C91_python_cubic :
  forall prec emax (Hp : Prec_gt_0 prec) (He : Prec_lt_emax prec emax), let o := BOps Hp He in
  forall c obs grids vals o0 lin assume atol,
  let gs := map nd_data grids in let xs := map nd_data obs in
  good_call 4 o0 obs grids vals -> (1 <= length grids <= 8)%nat -> Forall (increasing_grid o) gs ->
  assume = false -> ~ Forall (evenly_spaced o) gs ->
  exists r, fst (py_interpn o c obs grids vals "cubic" None lin assume false atol) = Ret r /\
  nd_shape r = nd_shape o0 /\ length (nd_data r) = length (nd_data o0) /\
  forall j y cells idx, nth_error (nd_data r) j = Some y ->
  rectilinear_cells o gs (point_of (fzero o) xs j) cells -> around (map zlen gs) cells idx ->
  carries (entry (fzero o) (map zlen gs) (nd_data vals) idx) y.
Proof. exact python_cubic_carries. Qed.

(** * C92: nothing else matters. Two interpolators whose values agree at those grid points give the
    same result, success or failure, bit for bit. *)
Theorem C92_rectilinear :
  forall prec emax (Hp : Prec_gt_0 prec) (He : Prec_lt_emax prec emax), let o := BOps Hp He in
  forall c (grids : list (list (binary_float prec emax))) vals vals' eval eval' x cells,
  two_rectilinear Hp He c grids vals vals' eval eval' -> Forall (increasing_grid o) grids ->
  rectilinear_cells o grids x cells ->
  (forall idx, corner cells idx -> entry (fzero o) (map zlen grids) vals idx = entry (fzero o) (map zlen grids) vals' idx) ->
  eval x = eval' x.
Proof. exact rectilinear_only. Qed.
Theorem C92_regular :
  forall prec emax (Hp : Prec_gt_0 prec) (He : Prec_lt_emax prec emax), let o := BOps Hp He in
  forall c dims (starts steps vals vals' : list (binary_float prec emax)) eval eval' x cells,
  two_regular Hp He c dims starts steps vals vals' eval eval' ->
  regular_cells Hp He dims starts steps x cells ->
  (forall idx, corner cells idx -> entry (fzero o) dims vals idx = entry (fzero o) dims vals' idx) ->
  eval x = eval' x.
Proof. exact regular_only. Qed.
Theorem C92_cubic_rectilinear :
  forall prec emax (Hp : Prec_gt_0 prec) (He : Prec_lt_emax prec emax), let o := BOps Hp He in
  forall c lin (grids : list (list (binary_float prec emax))) vals vals' eval eval' x cells,
  two_cubic_rectilinear Hp He c lin grids vals vals' eval eval' -> Forall (increasing_grid o) grids ->
  rectilinear_cells o grids x cells ->
  (forall idx, around (map zlen grids) cells idx -> entry (fzero o) (map zlen grids) vals idx = entry (fzero o) (map zlen grids) vals' idx) ->
  eval x = eval' x.
Proof. exact cubic_rectilinear_only. Qed.
Theorem C92_cubic_regular :
  forall prec emax (Hp : Prec_gt_0 prec) (He : Prec_lt_emax prec emax), let o := BOps Hp He in
  forall c lin dims (starts steps vals vals' : list (binary_float prec emax)) eval eval' x cells,
  two_cubic_regular Hp He c lin dims starts steps vals vals' eval eval' ->
  regular_cells Hp He dims starts steps x cells -> (ovf_checks c = true \/ not_lowest Hp He starts steps x) ->
  (forall idx, around dims cells idx -> entry (fzero o) dims vals idx = entry (fzero o) dims vals' idx) ->
  eval x = eval' x.
Proof. exact cubic_regular_only. Qed.

(** ** Examples *)
Definition nan64 : f64 := B754_nan.
Definition inf64 : f64 := B754_infinity false.
Lemma bracket_by (g : list f64) x (i : Z) a b : (0 <= i <= zlen g - 2) ->
  nth_error g (Z.to_nat i) = Some a -> nth_error g (Z.to_nat (i + 1)) = Some b ->
  orb (i =? 0) (flt F64Ops a x) = true -> orb (i =? zlen g - 2) (negb (flt F64Ops b x)) = true -> bracketing_cell F64Ops x g i.
Proof.
  intros R Ea Eb Ha Hb. split; [exact R|]. split.
  - intros a' Hi Ea'. rewrite Ea in Ea'. injection Ea' as <-. apply orb_true_iff in Ha as [Ha|Ha]; [lia|exact Ha].
  - intros b' Hi Eb'. rewrite Eb in Eb'. injection Eb' as <-. apply orb_true_iff in Hb as [Hb|Hb]; [lia|]. apply negb_true_iff in Hb. exact Hb.
Qed.
Lemma cells_two (g h : list f64) x y i j : bracketing_cell F64Ops x g i -> bracketing_cell F64Ops y h j ->
  rectilinear_cells F64Ops [g; h] [x; y] [i; j].
Proof.
  intros B1 B2. split; [reflexivity|]. split; [reflexivity|]. intros [|[|k]] g' v z Eg Ev Ez; cbn [nth_error] in Eg, Ev, Ez.
  - injection Eg as <-. injection Ev as <-. injection Ez as <-. exact B1.
  - injection Eg as <-. injection Ev as <-. injection Ez as <-. exact B2.
  - destruct k; discriminate Ez.
Qed.
(** Four points along the last axis, five along the first; NaN at index (3, 1), infinity at (0, 3). *)
Definition miss_g1 : list f64 := [z64 0; tenth; z64 1; z64 3; z64 4].
Definition miss_grids : list (list f64) := [miss_g1; mono_grid].
Definition miss_vals : list f64 := [z64 1; z64 2; z64 3; inf64;  z64 4; z64 5; z64 6; z64 7;  tenth; z64 9; z64 1; z64 2;
  z64 3; nan64; z64 3; z64 5;  z64 6; z64 1; tenth; z64 8].
Definition whole_vals : list f64 := [z64 1; z64 2; z64 3; z64 1;  z64 4; z64 5; z64 6; z64 7;  tenth; z64 9; z64 1; z64 2;
  z64 3; z64 2; z64 3; z64 5;  z64 6; z64 1; tenth; z64 8].
Lemma miss_inc : Forall (increasing_grid F64Ops) miss_grids.
Proof. apply Forall_cons; [inc_grid|]. apply Forall_cons; [exact mono_inc|apply Forall_nil]. Qed.
(** The point (2, 1/2): cell 2 of the first axis and cell 1 of the second. *)
Definition miss_x : list f64 := [z64 2; f64_lit 1 (-1)].
Lemma miss_cells : rectilinear_cells F64Ops miss_grids miss_x [2; 1].
Proof.
  apply cells_two.
  - apply (bracket_by miss_g1 (z64 2) 2 (z64 1) (z64 3)); [vm_compute; split; discriminate|reflexivity|reflexivity|vm_compute; reflexivity|vm_compute; reflexivity].
  - apply (bracket_by mono_grid (f64_lit 1 (-1)) 1 tenth (z64 1)); [vm_compute; split; discriminate|reflexivity|reflexivity|vm_compute; reflexivity|vm_compute; reflexivity].
Qed.
(** The NaN at (3, 1) is a corner of that cell. *)
Example C91_rectilinear_ex : exists s y, mlc_new F64Ops plain miss_grids miss_vals = Ok s /\
  mlc_interp_one F64Ops plain s miss_x = Ok y /\ y = nan64.
Proof.
  destruct (@is_ok_ex _ (mlc_new F64Ops plain miss_grids miss_vals)) as (s & E); [vm_compute; reflexivity|].
  assert (I : rect_input plain miss_grids miss_vals) by rect_ok.
  destruct (@is_ok_ex _ (mlc_interp_one F64Ops plain s miss_x)) as (y & Y).
  { assert (Q : match mlc_new F64Ops plain miss_grids miss_vals with Ok s => is_ok (mlc_interp_one F64Ops plain s miss_x) | _ => false end = true) by (vm_compute; reflexivity).
    rewrite E in Q. exact Q. }
  exists s, y. split; [exact E|]. split; [exact Y|].
  destruct (C91_rectilinear _ _ Hp64 He64 plain miss_grids miss_vals (mlc_interp_one F64Ops plain s) miss_x y [2; 1] [3; 1]
    (float_rectilinear_flat Hp64 He64 I E) miss_inc miss_cells ltac:(repeat constructor; lia) Y) as (_ & H).
  apply H. reflexivity.
Qed.
(** The cubic result at (1/20, 1/2), cell (0, 1), needs the infinite value at (0, 3), which is not a corner of
    the cell: it is not finite. *)
Definition miss_x2 : list f64 := [f64_lit 1 (-5); f64_lit 1 (-1)].
Lemma miss_cells2 : rectilinear_cells F64Ops miss_grids miss_x2 [0; 1].
Proof.
  apply cells_two.
  - apply (bracket_by miss_g1 (f64_lit 1 (-5)) 0 (z64 0) tenth); [vm_compute; split; discriminate|reflexivity|reflexivity|vm_compute; reflexivity|vm_compute; reflexivity].
  - apply (bracket_by mono_grid (f64_lit 1 (-1)) 1 tenth (z64 1)); [vm_compute; split; discriminate|reflexivity|reflexivity|vm_compute; reflexivity|vm_compute; reflexivity].
Qed.
Example C91_cubic_rectilinear_ex lin : exists s y, mcc_new F64Ops fused miss_grids miss_vals lin = Ok s /\
  mcc_interp_one F64Ops fused s miss_x2 = Ok y /\ is_finite y = false.
Proof.
  destruct (@is_ok_ex _ (mcc_new F64Ops fused miss_grids miss_vals lin)) as (s & E); [destruct lin; vm_compute; reflexivity|].
  assert (I : rect_input fused miss_grids miss_vals) by rect_ok.
  destruct (@is_ok_ex _ (mcc_interp_one F64Ops fused s miss_x2)) as (y & Y).
  { assert (Q : match mcc_new F64Ops fused miss_grids miss_vals lin with Ok s => is_ok (mcc_interp_one F64Ops fused s miss_x2) | _ => false end = true) by (destruct lin; vm_compute; reflexivity).
    rewrite E in Q. exact Q. }
  exists s, y. split; [exact E|]. split; [exact Y|].
  destruct (C91_cubic_rectilinear _ _ Hp64 He64 fused lin miss_grids miss_vals (mcc_interp_one F64Ops fused s) miss_x2 y [0; 1] [0; 3]
    (float_cubic_rectilinear_flat Hp64 He64 fused lin miss_grids miss_vals s I E) miss_inc miss_cells2 ltac:(split; repeat constructor; vm_compute; discriminate) Y) as (H & _).
  destruct (is_finite y) eqn:F; [|reflexivity]. specialize (H eq_refl). discriminate H.
Qed.
(** There the NaN at (3, 1) is too far away to matter: with it replaced by 2 the result is the same. *)
Definition far_vals : list f64 := [z64 1; z64 2; z64 3; inf64;  z64 4; z64 5; z64 6; z64 7;  tenth; z64 9; z64 1; z64 2;
  z64 3; z64 2; z64 3; z64 5;  z64 6; z64 1; tenth; z64 8].
Lemma around_pair d0 d1 c0 c1 idx : around [d0; d1] [c0; c1] idx -> exists i j, idx = [i; j] /\ 0 <= i < d0 /\ 0 <= j < d1 /\ c0 - 1 <= i <= c0 + 2 /\ c1 - 1 <= j <= c1 + 2.
Proof.
  intros (S & A). inversion S as [|? i ? l S1 S2]. subst. inversion S2 as [|? j ? l' S3 S4]. subst. inversion S4. subst.
  inversion A as [|? ? ? ? A1 A2]. subst. inversion A2 as [|? ? ? ? A3 A4]. subst. exists i, j. auto.
Qed.
Lemma corner_pair c0 c1 idx : corner [c0; c1] idx -> exists i j, idx = [i; j] /\ c0 <= i <= c0 + 1 /\ c1 <= j <= c1 + 1.
Proof.
  intros A. inversion A as [|? i ? l A1 A2]. subst. inversion A2 as [|? j ? l' A3 A4]. subst. inversion A4. subst. exists i, j. auto.
Qed.
Example C92_cubic_rectilinear_ex lin : exists s s', mccr_new F64Ops plain 8 miss_grids miss_vals lin = Ok s /\ mccr_new F64Ops plain 8 miss_grids far_vals lin = Ok s' /\
  mccr_interp_one F64Ops plain 8 s miss_x2 = mccr_interp_one F64Ops plain 8 s' miss_x2.
Proof.
  destruct (@is_ok_ex _ (mccr_new F64Ops plain 8 miss_grids miss_vals lin)) as (s & E); [destruct lin; vm_compute; reflexivity|].
  destruct (@is_ok_ex _ (mccr_new F64Ops plain 8 miss_grids far_vals lin)) as (s' & E'); [destruct lin; vm_compute; reflexivity|].
  assert (I : rect_input plain miss_grids miss_vals) by rect_ok. assert (I' : rect_input plain miss_grids far_vals) by rect_ok.
  exists s, s'. split; [exact E|]. split; [exact E'|].
  apply (C92_cubic_rectilinear _ _ Hp64 He64 plain lin miss_grids miss_vals far_vals (mccr_interp_one F64Ops plain 8 s) (mccr_interp_one F64Ops plain 8 s') miss_x2 [0; 1]
    (two_cubic_rectilinear_recursive Hp64 He64 plain lin miss_grids miss_vals far_vals 8 s s' I I' E E') miss_inc miss_cells2).
  intros idx A. apply around_pair in A as (i & j & -> & Hi & Hj & Ai & Aj). change (zlen miss_g1) with 5 in *. change (zlen mono_grid) with 4 in *.
  assert (i = 0 \/ i = 1 \/ i = 2) as [->|[->| ->]] by lia; assert (j = 0 \/ j = 1 \/ j = 2 \/ j = 3) as [->|[->|[->| ->]]] by lia; reflexivity.
Qed.
(** The linear result at the same point does not need the infinite value. *)
Example C92_rectilinear_ex : exists s s', mlc_new F64Ops fused miss_grids miss_vals = Ok s /\ mlc_new F64Ops fused miss_grids whole_vals = Ok s' /\
  mlc_interp_one F64Ops fused s miss_x2 = mlc_interp_one F64Ops fused s' miss_x2 /\ fin_at (mlc_interp_one F64Ops fused s) miss_x2 = true.
Proof.
  destruct (@is_ok_ex _ (mlc_new F64Ops fused miss_grids miss_vals)) as (s & E); [vm_compute; reflexivity|].
  destruct (@is_ok_ex _ (mlc_new F64Ops fused miss_grids whole_vals)) as (s' & E'); [vm_compute; reflexivity|].
  assert (I : rect_input fused miss_grids miss_vals) by rect_ok. assert (I' : rect_input fused miss_grids whole_vals) by rect_ok.
  exists s, s'. split; [exact E|]. split; [exact E'|]. split.
  - apply (C92_rectilinear _ _ Hp64 He64 fused miss_grids miss_vals whole_vals (mlc_interp_one F64Ops fused s) (mlc_interp_one F64Ops fused s') miss_x2 [0; 1]
      (two_rectilinear_flat Hp64 He64 fused miss_grids miss_vals whole_vals s s' I I' E E') miss_inc miss_cells2).
    intros idx A. apply corner_pair in A as (i & j & -> & Ai & Aj).
    assert (i = 0 \/ i = 1) as [->| ->] by lia; assert (j = 1 \/ j = 2) as [->| ->] by lia; reflexivity.
  - assert (Q : match mlc_new F64Ops fused miss_grids miss_vals with Ok s => fin_at (mlc_interp_one F64Ops fused s) miss_x2 | _ => false end = true) by (vm_compute; reflexivity).
    rewrite E in Q. exact Q.
Qed.
(** Regular axes 0, 1/2, 1, ... : the point 5/8 is in cell 1. *)
Definition half : f64 := f64_lit 1 (-1).
Lemma half_cells d : 3 <= d <= 1024 -> regular_cells Hp64 He64 [d] [z64 0] [half] [f64_lit 5 (-3)] [1].
Proof.
  intros Hd. split; [reflexivity|]. split; [reflexivity|]. intros [|k] d' st h v j Ed Es Eh Ev Ej; cbn [nth_error] in *; [|destruct k; discriminate Ej].
  injection Ed as <-. injection Es as <-. injection Eh as <-. injection Ev as <-. injection Ej as <-.
  assert (H : B2R half = (/ 2)%R) by (unfold half; real_lit).
  apply C90_pixel_cell; [lia| |reflexivity|lia|rewrite H; split; real_lit].
  split; [reflexivity|]. split; [real_lit|]. split; [reflexivity|]. split; [|change (2 ^ 53) with 9007199254740992; lia].
  exists (-1). split; [|lia]. rewrite H. reflexivity.
Qed.
Example C91_regular_ex : exists s y, mlr_new F64Ops plain [4] [z64 0] [half] [z64 3; nan64; z64 1; z64 5] = Ok s /\
  mlr_interp_one F64Ops plain s [f64_lit 5 (-3)] = Ok y /\ y = nan64.
Proof.
  destruct (@is_ok_ex _ (mlr_new F64Ops plain [4] [z64 0] [half] [z64 3; nan64; z64 1; z64 5])) as (s & E); [vm_compute; reflexivity|].
  assert (I : reg_input plain [4] [z64 0] [half] [z64 3; nan64; z64 1; z64 5]) by reg_ok.
  destruct (@is_ok_ex _ (mlr_interp_one F64Ops plain s [f64_lit 5 (-3)])) as (y & Y).
  { assert (Q : match mlr_new F64Ops plain [4] [z64 0] [half] [z64 3; nan64; z64 1; z64 5] with Ok s => is_ok (mlr_interp_one F64Ops plain s [f64_lit 5 (-3)]) | _ => false end = true) by (vm_compute; reflexivity).
    rewrite E in Q. exact Q. }
  exists s, y. split; [exact E|]. split; [exact Y|].
  destruct (C91_regular _ _ Hp64 He64 plain [4] _ _ _ (mlr_interp_one F64Ops plain s) _ y [1] [1]
    (float_regular_flat Hp64 He64 I E) (half_cells 4 ltac:(lia)) ltac:(repeat constructor; lia) Y) as (_ & H).
  apply H. reflexivity.
Qed.
Example C91_cubic_regular_ex lin : exists s y, mcr_new F64Ops plain [5] [z64 0] [half] [nan64; z64 3; z64 1; z64 5; z64 2] lin = Ok s /\
  mcr_interp_one F64Ops plain s [f64_lit 5 (-3)] = Ok y /\ y = nan64.
Proof.
  set (n := mcr_new F64Ops plain [5] [z64 0] [half] [nan64; z64 3; z64 1; z64 5; z64 2] lin).
  destruct (@is_ok_ex _ n) as (s & E); [destruct lin; vm_compute; reflexivity|].
  assert (I : reg_input plain [5] [z64 0] [half] [nan64; z64 3; z64 1; z64 5; z64 2]) by reg_ok.
  destruct (@is_ok_ex _ (mcr_interp_one F64Ops plain s [f64_lit 5 (-3)])) as (y & Y).
  { assert (Q : match n with Ok s => is_ok (mcr_interp_one F64Ops plain s [f64_lit 5 (-3)]) | _ => false end = true) by (destruct lin; vm_compute; reflexivity).
    rewrite E in Q. exact Q. }
  exists s, y. split; [exact E|]. split; [exact Y|].
  destruct (C91_cubic_regular _ _ Hp64 He64 plain lin [5] _ _ _ (mcr_interp_one F64Ops plain s) _ y [1] [0]
    (float_cubic_regular_flat Hp64 He64 plain lin [5] _ _ _ s I E) (half_cells 5 ltac:(lia)) (or_introl eq_refl) ltac:(split; repeat constructor; vm_compute; discriminate) Y) as (_ & H).
  apply H. reflexivity.
Qed.
Lemma half_low : not_lowest Hp64 He64 [z64 0] [half] [f64_lit 5 (-3)].
Proof.
  intros [|k] st h v Es Eh Ev; cbn [nth_error] in *; [|destruct k; discriminate Ev].
  injection Es as <-. injection Eh as <-. injection Ev as <-.
  destruct (half_cells 5 ltac:(lia)) as (_ & _ & C). assert (Q := C 0%nat 5 _ _ _ 1 eq_refl eq_refl eq_refl eq_refl eq_refl).
  assert (R : forall q, 1 = Z.min (Z.max q 0) (5 - 2) -> isize_min < q) by (unfold isize_min; intros; lia).
  apply R. exact Q.
Qed.
(** The last of the five points is not next to cell 1. *)
Example C92_cubic_regular_ex lin : exists s s', mcr_new F64Ops fused [5] [z64 0] [half] [z64 4; z64 3; z64 1; z64 5; z64 2] lin = Ok s /\
  mcr_new F64Ops fused [5] [z64 0] [half] [z64 4; z64 3; z64 1; z64 5; nan64] lin = Ok s' /\
  mcr_interp_one F64Ops fused s [f64_lit 5 (-3)] = mcr_interp_one F64Ops fused s' [f64_lit 5 (-3)].
Proof.
  destruct (@is_ok_ex _ (mcr_new F64Ops fused [5] [z64 0] [half] [z64 4; z64 3; z64 1; z64 5; z64 2] lin)) as (s & E); [destruct lin; vm_compute; reflexivity|].
  destruct (@is_ok_ex _ (mcr_new F64Ops fused [5] [z64 0] [half] [z64 4; z64 3; z64 1; z64 5; nan64] lin)) as (s' & E'); [destruct lin; vm_compute; reflexivity|].
  assert (I : reg_input fused [5] [z64 0] [half] [z64 4; z64 3; z64 1; z64 5; z64 2]) by reg_ok.
  assert (I' : reg_input fused [5] [z64 0] [half] [z64 4; z64 3; z64 1; z64 5; nan64]) by reg_ok.
  exists s, s'. split; [exact E|]. split; [exact E'|].
  apply (C92_cubic_regular _ _ Hp64 He64 fused lin [5] _ _ _ _ (mcr_interp_one F64Ops fused s) (mcr_interp_one F64Ops fused s') _ [1]
    (two_cubic_regular_flat Hp64 He64 fused lin [5] _ _ _ _ s s' I I' E E') (half_cells 5 ltac:(lia)) (or_intror half_low)).
  intros idx (S & A). inversion S as [|? i ? l S1 S2]. subst. inversion S2. subst. inversion A as [|? ? ? ? A1 A2]. subst.
  assert (i = 0 \/ i = 1 \/ i = 2 \/ i = 3) as [->|[->|[->| ->]]] by lia; reflexivity.
Qed.
Example C92_regular_ex : exists s s', mlrr_new F64Ops plain 8 [4] [z64 0] [half] [z64 3; z64 2; z64 1; z64 5] = Ok s /\
  mlrr_new F64Ops plain 8 [4] [z64 0] [half] [nan64; z64 2; z64 1; inf64] = Ok s' /\
  mlrr_interp_one F64Ops plain 8 s [f64_lit 5 (-3)] = mlrr_interp_one F64Ops plain 8 s' [f64_lit 5 (-3)].
Proof.
  destruct (@is_ok_ex _ (mlrr_new F64Ops plain 8 [4] [z64 0] [half] [z64 3; z64 2; z64 1; z64 5])) as (s & E); [vm_compute; reflexivity|].
  destruct (@is_ok_ex _ (mlrr_new F64Ops plain 8 [4] [z64 0] [half] [nan64; z64 2; z64 1; inf64])) as (s' & E'); [vm_compute; reflexivity|].
  assert (I : reg_input plain [4] [z64 0] [half] [z64 3; z64 2; z64 1; z64 5]) by reg_ok.
  assert (I' : reg_input plain [4] [z64 0] [half] [nan64; z64 2; z64 1; inf64]) by reg_ok.
  exists s, s'. split; [exact E|]. split; [exact E'|].
  apply (C92_regular _ _ Hp64 He64 plain [4] _ _ _ _ (mlrr_interp_one F64Ops plain 8 s) (mlrr_interp_one F64Ops plain 8 s') _ [1]
    (two_regular_recursive Hp64 He64 plain [4] _ _ _ _ 8 s s' I I' E E') (half_cells 4 ltac:(lia))).
  intros idx A. inversion A as [|? i ? l A1 A2]. subst. inversion A2. subst.
  assert (i = 1 \/ i = 2) as [->| ->] by lia; reflexivity.
Qed.
Example C91_one_dim_ex : exists g y, c1_new mono_grid [z64 1; z64 2; inf64; z64 3] = Ok g /\
  linear1 F64Ops plain (c1_at F64Ops plain g) half = Ok y /\ is_finite y = false.
Proof.
  destruct (@is_ok_ex _ (c1_new mono_grid [z64 1; z64 2; inf64; z64 3])) as (g & E); [vm_compute; reflexivity|].
  destruct (@is_ok_ex _ (linear1 F64Ops plain (c1_at F64Ops plain g) half)) as (y & Y).
  { assert (Q : match c1_new mono_grid [z64 1; z64 2; inf64; z64 3] with Ok g => is_ok (linear1 F64Ops plain (c1_at F64Ops plain g) half) | _ => false end = true) by (vm_compute; reflexivity).
    rewrite E in Q. exact Q. }
  exists g, y. split; [exact E|]. split; [exact Y|].
  assert (B : bracketing_cell F64Ops half mono_grid 1).
  { apply (bracket_by mono_grid half 1 tenth (z64 1)); [vm_compute; split; discriminate|reflexivity|reflexivity|vm_compute; reflexivity|vm_compute; reflexivity]. }
  assert (Lv : zlen [z64 1; z64 2; inf64; z64 3] <= isize_max) by (vm_compute; discriminate).
  destruct (C91_one_dim_rectilinear 53 1024 Hp64 He64 plain mono_grid [z64 1; z64 2; inf64; z64 3] g 1 (z64 2) inf64 half y Lv mono_inc E
    B eq_refl eq_refl Y) as (_ & H & _).
  destruct (is_finite y) eqn:F; [|reflexivity]. specialize (H eq_refl). discriminate H.
Qed.
Example C91_one_dim_regular_ex : exists g y, r1_new F64Ops plain (z64 0) half [z64 1; z64 2; nan64; z64 3] = Ok g /\
  linear1 F64Ops plain (r1_at F64Ops plain g) (f64_lit 5 (-3)) = Ok y /\ y = nan64.
Proof.
  destruct (@is_ok_ex _ (r1_new F64Ops plain (z64 0) half [z64 1; z64 2; nan64; z64 3])) as (g & E); [vm_compute; reflexivity|].
  destruct (@is_ok_ex _ (linear1 F64Ops plain (r1_at F64Ops plain g) (f64_lit 5 (-3)))) as (y & Y).
  { assert (Q : match r1_new F64Ops plain (z64 0) half [z64 1; z64 2; nan64; z64 3] with Ok g => is_ok (linear1 F64Ops plain (r1_at F64Ops plain g) (f64_lit 5 (-3))) | _ => false end = true) by (vm_compute; reflexivity).
    rewrite E in Q. exact Q. }
  exists g, y. split; [exact E|]. split; [exact Y|].
  destruct (half_cells 4 ltac:(lia)) as (_ & _ & C).
  assert (Lv : 2 <= zlen [z64 1; z64 2; nan64; z64 3] <= isize_max) by (vm_compute; split; discriminate).
  destruct (C91_one_dim_regular 53 1024 Hp64 He64 plain (z64 0) half [z64 1; z64 2; nan64; z64 3] g 1 (z64 2) nan64 (f64_lit 5 (-3)) y Lv E
    (C 0%nat 4 _ _ _ 1 eq_refl eq_refl eq_refl eq_refl eq_refl) eq_refl eq_refl Y) as (_ & _ & H).
  apply H. reflexivity.
Qed.
(** The Python function, called with the data and the two points above. *)
Definition q_obs : list (ndarray f64) := [mkNd [2]%nat [z64 2; f64_lit 1 (-5)]; mkNd [2]%nat [half; half]].
Definition q_grids : list (ndarray f64) := map arr miss_grids.
Lemma q_uneven : ~ Forall (evenly_spaced F64Ops) (map nd_data q_grids).
Proof.
  intros H. apply Forall_cons_iff in H as (H & _).
  assert (E := H 1%nat _ _ _ _ eq_refl eq_refl eq_refl eq_refl). destruct E as (E & _). vm_compute in E. discriminate E.
Qed.
Lemma q_call k : (k <= 4)%nat -> good_call k (mkNd [2]%nat [z64 2; f64_lit 1 (-5)]) q_obs q_grids (arr miss_vals).
Proof.
  intros Hk. split; [reflexivity|]. split; [reflexivity|]. split; [repeat constructor|].
  split; [apply Forall_cons; [simpl; lia|apply Forall_cons; [simpl; lia|apply Forall_nil]]|]. split; [reflexivity|vm_compute; discriminate].
Qed.
Example C91_python_linear_ex : exists r ya yb,
  fst (py_interpn F64Ops plain q_obs q_grids (arr miss_vals) "linear" None true false false (z64 0)) = Ret r /\
  nd_shape r = [2]%nat /\ nd_data r = [ya; yb] /\ ya = nan64.
Proof.
  destruct (C91_python_linear 53 1024 Hp64 He64 plain q_obs q_grids (arr miss_vals) _ true false (z64 0) (q_call 2 ltac:(lia)) ltac:(simpl; lia) miss_inc eq_refl q_uneven)
    as (r & E & S & L & H).
  change (length (nd_data r) = 2%nat) in L.
  destruct (nd_data r) as [|ya [|yb [|yd l]]] eqn:D; try (exfalso; cbn [length] in L; lia).
  exists r, ya, yb. split; [exact E|]. split; [exact S|]. split; [exact D|].
  destruct (H 0%nat ya [2; 1] [3; 1] eq_refl miss_cells ltac:(repeat constructor; lia)) as (_ & H').
  apply H'. reflexivity.
Qed.
Example C91_python_cubic_ex : exists r ya yb,
  fst (py_interpn F64Ops plain q_obs q_grids (arr miss_vals) "cubic" None true false false (z64 0)) = Ret r /\
  nd_shape r = [2]%nat /\ nd_data r = [ya; yb] /\ ya = nan64 /\ is_finite yb = false.
Proof.
  destruct (C91_python_cubic 53 1024 Hp64 He64 plain q_obs q_grids (arr miss_vals) _ true false (z64 0) (q_call 4 ltac:(lia)) ltac:(simpl; lia) miss_inc eq_refl q_uneven)
    as (r & E & S & L & H).
  change (length (nd_data r) = 2%nat) in L.
  destruct (nd_data r) as [|ya [|yb [|yd l]]] eqn:D; try (exfalso; cbn [length] in L; lia).
  exists r, ya, yb. split; [exact E|]. split; [exact S|]. split; [exact D|]. split.
  - destruct (H 0%nat ya [2; 1] [3; 1] eq_refl miss_cells ltac:(split; repeat constructor; vm_compute; discriminate)) as (_ & H').
    apply H'. reflexivity.
  - destruct (H 1%nat yb [0; 1] [0; 3] eq_refl miss_cells2 ltac:(split; repeat constructor; vm_compute; discriminate)) as (H' & _).
    destruct (is_finite yb) eqn:F; [|reflexivity]. specialize (H' eq_refl). discriminate H'.
Qed.

(** ** Where it does not hold
    A weight of zero does not hide a value either: the point 1 is a grid point with the value 5, and the
    NaN at the other end of its cell makes the result NaN. So C01 and C22 need finite neighbours. *)
Theorem C91_grid_point_refuted :
  exists s g, mlc_new F64Ops plain [mono_grid] [z64 4; nan64; z64 5; z64 2] = Ok s /\ c1_new mono_grid [z64 4; nan64; z64 5; z64 2] = Ok g /\
  nan_result (mlc_interp_one F64Ops plain s [z64 1]) = true /\ nan_result (linear1 F64Ops plain (c1_at F64Ops plain g) (z64 1)) = true.
Proof.
  destruct (@is_ok_ex _ (mlc_new F64Ops plain [mono_grid] [z64 4; nan64; z64 5; z64 2])) as (s & E); [vm_compute; reflexivity|].
  destruct (@is_ok_ex _ (c1_new mono_grid [z64 4; nan64; z64 5; z64 2])) as (g & G); [vm_compute; reflexivity|].
  exists s, g. split; [exact E|]. split; [exact G|].
  assert (Q : match mlc_new F64Ops plain [mono_grid] [z64 4; nan64; z64 5; z64 2], c1_new mono_grid [z64 4; nan64; z64 5; z64 2] with Ok s, Ok g =>
     andb (nan_result (mlc_interp_one F64Ops plain s [z64 1])) (nan_result (linear1 F64Ops plain (c1_at F64Ops plain g) (z64 1))) | _, _ => false end = true) by (vm_compute; reflexivity).
  rewrite E, G in Q. apply andb_true_iff in Q. exact Q.
Qed.

Print Assumptions C91_rectilinear.
Print Assumptions C91_regular.
Print Assumptions C91_cubic_rectilinear.
Print Assumptions C91_cubic_regular.
Print Assumptions C91_one_dim_rectilinear.
Print Assumptions C91_one_dim_regular.
Print Assumptions C91_python_linear.
Print Assumptions C91_python_cubic.
Print Assumptions C91_grid_point_refuted.
Print Assumptions C92_rectilinear.
Print Assumptions C92_regular.
Print Assumptions C92_cubic_rectilinear.
Print Assumptions C92_cubic_regular.
