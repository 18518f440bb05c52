(** Property C90: within one cell the result does not turn back along the last axis. *)
From Coq Require Import Reals Lra PeanoNat Bool Lia List String.
From Flocq Require Import Core.Core IEEE754.BinarySingleNaN.
From Verif Require Import Base Ops FInst ModelCore ModelLinear ModelOneDim ModelPython Spec SpecOrder SpecIEEE SpecPython SpecDetect SpecPixel SpecMonotone.
From Verif Require Import GenLemmas FLemmas FProofs FProofs2 FMono ExampleData.
From Verif Require Import PropertiesExact PropertiesFloat PropertiesPython.
Import ListNotations.
Open Scope string_scope.
Open Scope R_scope.
Unset Implicit Arguments.

(** * C90: three points that differ in the last coordinate only and lie in the same cell of the last
    axis. Whatever the data, finite results at them are in rising or in falling order. *)
Theorem C90_rectilinear :
  forall prec emax (Hp : Prec_gt_0 prec) (He : Prec_lt_emax prec emax), let o := BOps Hp He in
  forall c (grids : list (list (binary_float prec emax))) vals eval p g i xa xb xc ya yb yc,
  float_rectilinear Hp He c grids vals eval -> length grids = S (length p) -> nth_error grids (length p) = Some g ->
  increasing_grid o g -> Forall (fun x => bracketing_cell o x g i) [xa; xb; xc] -> B2R xa <= B2R xb <= B2R xc ->
  eval (p ++ [xa])%list = Ok ya -> eval (p ++ [xb])%list = Ok yb -> eval (p ++ [xc])%list = Ok yc ->
  is_finite ya = true -> is_finite yb = true -> is_finite yc = true ->
  rising ya yb yc \/ falling ya yb yc.
Proof. exact rectilinear_monotone. Qed.
Theorem C90_regular :
  forall prec emax (Hp : Prec_gt_0 prec) (He : Prec_lt_emax prec emax),
  forall c dims (starts steps vals : list (binary_float prec emax)) eval p start h d i xa xb xc ya yb yc,
  float_regular Hp He c dims starts steps vals eval -> length dims = S (length p) ->
  nth_error starts (length p) = Some start -> nth_error steps (length p) = Some h -> nth_error dims (length p) = Some d ->
  Forall (fun x => computed_cell Hp He start h x d i) [xa; xb; xc] -> B2R xa <= B2R xb <= B2R xc ->
  eval (p ++ [xa])%list = Ok ya -> eval (p ++ [xb])%list = Ok yb -> eval (p ++ [xc])%list = Ok yc ->
  is_finite ya = true -> is_finite yb = true -> is_finite yc = true ->
  rising ya yb yc \/ falling ya yb yc.
Proof. exact regular_monotone. Qed.
(** On axes that start at 0 with a power of two as step the computed cell is the true one. *)
Theorem C90_pixel_cell :
  forall prec emax (Hp : Prec_gt_0 prec) (He : Prec_lt_emax prec emax),
  forall (start h x : binary_float prec emax) d i, (2 <= prec)%Z -> pixel_axis prec emax start h d -> is_finite x = true ->
  (0 <= i <= d - 2)%Z -> B2R h * IZR i <= B2R x < B2R h * IZR (i + 1) -> computed_cell Hp He start h x d i.
Proof. exact pixel_cell. Qed.
(** Linear1D: the order is that of the two values of the cell. *)
Theorem C90_one_dim_rectilinear :
  forall prec emax (Hp : Prec_gt_0 prec) (He : Prec_lt_emax prec emax), let o := BOps Hp He in
  forall c (grid vals : list (binary_float prec emax)) g i y0 y1 xa xb xc ya yb yc,
  (zlen vals <= isize_max)%Z -> increasing_grid o grid -> c1_new grid vals = Ok g ->
  Forall (fun x => bracketing_cell o x grid i) [xa; xb; xc] -> B2R xa <= B2R xb <= B2R xc ->
  nth_error vals (Z.to_nat i) = Some y0 -> nth_error vals (Z.to_nat (i + 1)) = Some y1 ->
  linear1 o c (c1_at o c g) xa = Ok ya -> linear1 o c (c1_at o c g) xb = Ok yb -> linear1 o c (c1_at o c g) xc = Ok yc ->
  is_finite ya = true -> is_finite yb = true -> is_finite yc = true ->
  (B2R y0 <= B2R y1 -> rising ya yb yc) /\ (B2R y1 <= B2R y0 -> falling ya yb yc).
Proof. exact line_rect_monotone. Qed.
Theorem C90_one_dim_regular :
  forall prec emax (Hp : Prec_gt_0 prec) (He : Prec_lt_emax prec emax), let o := BOps Hp He in
  forall c (start h : binary_float prec emax) vals g i y0 y1 xa xb xc ya yb yc,
  (2 <= zlen vals <= isize_max)%Z -> flt o (fzero o) h = true -> r1_new o c start h vals = Ok g ->
  Forall (fun x => computed_cell Hp He start h x (zlen vals) i) [xa; xb; xc] -> B2R xa <= B2R xb <= B2R xc ->
  nth_error vals (Z.to_nat i) = Some y0 -> nth_error vals (Z.to_nat (i + 1)) = Some y1 ->
  linear1 o c (r1_at o c g) xa = Ok ya -> linear1 o c (r1_at o c g) xb = Ok yb -> linear1 o c (r1_at o c g) xc = Ok yc ->
  is_finite ya = true -> is_finite yb = true -> is_finite yc = true ->
  (B2R y0 <= B2R y1 -> rising ya yb yc) /\ (B2R y1 <= B2R y0 -> falling ya yb yc).
Proof. exact line_reg_monotone. Qed.
(** The Python function on grids that are not evenly spaced: any three of the observation points. *)
Theorem C90_python :
  forall prec emax (Hp : Prec_gt_0 prec) (He : Prec_lt_emax prec emax), let o := BOps Hp He in
  forall c obs grids vals o0 lin assume atol,
  let gs := map nd_data grids in let xs := map nd_data obs in
  good_call 2 o0 obs grids vals -> (1 <= length grids <= 8)%nat -> Forall (increasing_grid o) gs ->
  assume = false -> ~ Forall (evenly_spaced o) gs ->
  exists r, fst (py_interpn o c obs grids vals "linear" None lin assume false atol) = Ret r /\
  nd_shape r = nd_shape o0 /\ length (nd_data r) = length (nd_data o0) /\
  forall ja jb jc p g i xa xb xc ya yb yc,
  point_of (fzero o) xs ja = (p ++ [xa])%list -> point_of (fzero o) xs jb = (p ++ [xb])%list -> point_of (fzero o) xs jc = (p ++ [xc])%list ->
  nth_error gs (length p) = Some g -> Forall (fun x => bracketing_cell o x g i) [xa; xb; xc] -> B2R xa <= B2R xb <= B2R xc ->
  nth_error (nd_data r) ja = Some ya -> nth_error (nd_data r) jb = Some yb -> nth_error (nd_data r) jc = Some yc ->
  is_finite ya = true -> is_finite yb = true -> is_finite yc = true -> rising ya yb yc \/ falling ya yb yc.
Proof. exact python_monotone. Qed.

(** ** Examples *)
Definition mono_grid : list f64 := [z64 0; tenth; z64 1; z64 3].
Definition mono_vals : list f64 := [z64 4; tenth; z64 5; z64 2].
Lemma mono_inc : increasing_grid F64Ops mono_grid.
Proof. inc_grid. Qed.
Definition xs3 : list f64 := [f64_lit 1 (-2); f64_lit 3 (-2); z64 1].
Lemma xs3_cell : Forall (fun x => bracketing_cell F64Ops x mono_grid 1) xs3.
Proof.
  assert (B : forallb (fun x => andb (flt F64Ops tenth x) (negb (flt F64Ops (z64 1) x))) xs3 = true) by (vm_compute; reflexivity).
  rewrite forallb_forall in B. apply Forall_forall. intros x Hx. specialize (B x Hx). apply andb_true_iff in B as (B1 & B2). apply negb_true_iff in B2.
  split; [vm_compute; split; discriminate|]. split.
  - intros a _ Ea. change (Some tenth = Some a) in Ea. injection Ea as <-. exact B1.
  - intros b _ Eb. change (Some (z64 1) = Some b) in Eb. injection Eb as <-. exact B2.
Qed.
Lemma xs3_order : B2R (f64_lit 1 (-2)) <= B2R (f64_lit 3 (-2)) <= B2R (z64 1).
Proof. split; real_lit. Qed.
(** Two axes; rows of the values are for the first one. *)
Definition mono_grids : list (list f64) := [[z64 0; z64 2]; mono_grid].
Definition mono_vals2 : list f64 := (mono_vals ++ [z64 7; z64 1; tenth; z64 0])%list.
Definition fin_at (eval : list f64 -> outcome f64) (x : list f64) : bool := match eval x with Ok y => is_finite y | _ => false end.
Lemma fin_at_ex eval x : fin_at eval x = true -> exists y, eval x = Ok y /\ is_finite y = true.
Proof. unfold fin_at. destruct (eval x); try discriminate. eauto. Qed.
Example C90_rectilinear_ex : exists s ya yb yc, mlc_new F64Ops fused mono_grids mono_vals2 = Ok s /\
  mlc_interp_one F64Ops fused s [tenth; f64_lit 1 (-2)] = Ok ya /\ mlc_interp_one F64Ops fused s [tenth; f64_lit 3 (-2)] = Ok yb /\
  mlc_interp_one F64Ops fused s [tenth; z64 1] = Ok yc /\ (rising ya yb yc \/ falling ya yb yc).
Proof.
  destruct (@is_ok_ex _ (mlc_new F64Ops fused mono_grids mono_vals2)) as (s & E); [vm_compute; reflexivity|].
  assert (I : rect_input fused mono_grids mono_vals2) by rect_ok.
  assert (Q : match mlc_new F64Ops fused mono_grids mono_vals2 with
     Ok s => forallb (fun x => fin_at (mlc_interp_one F64Ops fused s) [tenth; x]) xs3 | _ => false end = true) by (vm_compute; reflexivity).
  rewrite E in Q. rewrite forallb_forall in Q.
  destruct (fin_at_ex _ _ (Q (f64_lit 1 (-2)) ltac:(left; reflexivity))) as (ya & Ya & Fa).
  destruct (fin_at_ex _ _ (Q (f64_lit 3 (-2)) ltac:(right; left; reflexivity))) as (yb & Yb & Fb).
  destruct (fin_at_ex _ _ (Q (z64 1) ltac:(right; right; left; reflexivity))) as (yc & Yc & Fc).
  exists s, ya, yb, yc. repeat (split; [assumption|]).
  exact (C90_rectilinear _ _ Hp64 He64 fused mono_grids mono_vals2 (mlc_interp_one F64Ops fused s) [tenth] mono_grid 1 _ _ _ ya yb yc
    (float_rectilinear_flat Hp64 He64 I E) eq_refl eq_refl mono_inc xs3_cell xs3_order Ya Yb Yc Fa Fb Fc).
Qed.
Example C90_one_dim_rectilinear_ex : exists g ya yb yc, c1_new mono_grid mono_vals = Ok g /\
  linear1 F64Ops plain (c1_at F64Ops plain g) (f64_lit 1 (-2)) = Ok ya /\ linear1 F64Ops plain (c1_at F64Ops plain g) (f64_lit 3 (-2)) = Ok yb /\
  linear1 F64Ops plain (c1_at F64Ops plain g) (z64 1) = Ok yc /\ rising ya yb yc.
Proof.
  destruct (@is_ok_ex _ (c1_new mono_grid mono_vals)) as (g & E); [vm_compute; reflexivity|].
  assert (Q : match c1_new mono_grid mono_vals with
     Ok g => forallb (fun x => fin_at (fun x => linear1 F64Ops plain (c1_at F64Ops plain g) (nth 0 x tenth)) [x]) xs3 | _ => false end = true) by (vm_compute; reflexivity).
  rewrite E in Q. rewrite forallb_forall in Q.
  destruct (fin_at_ex _ _ (Q (f64_lit 1 (-2)) ltac:(left; reflexivity))) as (ya & Ya & Fa).
  destruct (fin_at_ex _ _ (Q (f64_lit 3 (-2)) ltac:(right; left; reflexivity))) as (yb & Yb & Fb).
  destruct (fin_at_ex _ _ (Q (z64 1) ltac:(right; right; left; reflexivity))) as (yc & Yc & Fc). cbn [nth] in Ya, Yb, Yc.
  exists g, ya, yb, yc. repeat (split; [assumption|]).
  destruct (C90_one_dim_rectilinear _ _ Hp64 He64 plain mono_grid mono_vals g 1 tenth (z64 5) _ _ _ ya yb yc
    ltac:(vm_compute; discriminate) mono_inc E xs3_cell xs3_order eq_refl eq_refl Ya Yb Yc Fa Fb Fc) as (H & _).
  apply H. unfold tenth. real_lit.
Qed.
(** A regular axis 0, 1/2, 1: points in its second cell. *)
Lemma half_pixel : pixel_axis 53 1024 (z64 0) (f64_lit 1 (-1)) 3.
Proof.
  split; [reflexivity|]. split; [real_lit|]. split; [reflexivity|]. split; [|lia].
  exists (-1)%Z. split; [|lia]. change (bpow radix2 (-1)) with (/ 2). real_lit.
Qed.
Lemma half_cell : Forall (fun x => computed_cell Hp64 He64 (z64 0) (f64_lit 1 (-1)) x 3 1) [f64_lit 1 (-1); f64_lit 5 (-3); f64_lit 7 (-3)].
Proof.
  assert (H : B2R (f64_lit 1 (-1)) = / 2) by real_lit.
  repeat (apply Forall_cons; [apply C90_pixel_cell; [lia|exact half_pixel|reflexivity|lia|rewrite H; split; real_lit]|]). apply Forall_nil.
Qed.
Lemma half_order : B2R (f64_lit 1 (-1)) <= B2R (f64_lit 5 (-3)) <= B2R (f64_lit 7 (-3)).
Proof. split; real_lit. Qed.
Definition reg3_vals : list f64 := [z64 4; tenth; z64 5; z64 2; z64 7; z64 1].
Example C90_regular_ex : exists s ya yb yc, mlr_new F64Ops plain [2; 3]%Z [z64 1; z64 0] [tenth; f64_lit 1 (-1)] reg3_vals = Ok s /\
  mlr_interp_one F64Ops plain s [z64 1; f64_lit 1 (-1)] = Ok ya /\ mlr_interp_one F64Ops plain s [z64 1; f64_lit 5 (-3)] = Ok yb /\
  mlr_interp_one F64Ops plain s [z64 1; f64_lit 7 (-3)] = Ok yc /\ (rising ya yb yc \/ falling ya yb yc).
Proof.
  destruct (@is_ok_ex _ (mlr_new F64Ops plain [2; 3]%Z [z64 1; z64 0] [tenth; f64_lit 1 (-1)] reg3_vals)) as (s & E); [vm_compute; reflexivity|].
  assert (I : reg_input plain [2; 3]%Z [z64 1; z64 0] [tenth; f64_lit 1 (-1)] reg3_vals) by reg_ok.
  assert (Q : match mlr_new F64Ops plain [2; 3]%Z [z64 1; z64 0] [tenth; f64_lit 1 (-1)] reg3_vals with
     Ok s => forallb (fun x => fin_at (mlr_interp_one F64Ops plain s) [z64 1; x]) [f64_lit 1 (-1); f64_lit 5 (-3); f64_lit 7 (-3)] | _ => false end = true) by (vm_compute; reflexivity).
  rewrite E in Q. rewrite forallb_forall in Q.
  destruct (fin_at_ex _ _ (Q (f64_lit 1 (-1)) ltac:(left; reflexivity))) as (ya & Ya & Fa).
  destruct (fin_at_ex _ _ (Q (f64_lit 5 (-3)) ltac:(right; left; reflexivity))) as (yb & Yb & Fb).
  destruct (fin_at_ex _ _ (Q (f64_lit 7 (-3)) ltac:(right; right; left; reflexivity))) as (yc & Yc & Fc).
  exists s, ya, yb, yc. repeat (split; [assumption|]).
  exact (C90_regular _ _ Hp64 He64 plain _ _ _ reg3_vals (mlr_interp_one F64Ops plain s) [z64 1] _ _ 3 1 _ _ _ ya yb yc
    (float_regular_flat Hp64 He64 I E) eq_refl eq_refl eq_refl eq_refl half_cell half_order Ya Yb Yc Fa Fb Fc).
Qed.
Example C90_one_dim_regular_ex : exists g ya yb yc, r1_new F64Ops fused (z64 0) (f64_lit 1 (-1)) [z64 1; z64 7; tenth] = Ok g /\
  linear1 F64Ops fused (r1_at F64Ops fused g) (f64_lit 1 (-1)) = Ok ya /\ linear1 F64Ops fused (r1_at F64Ops fused g) (f64_lit 5 (-3)) = Ok yb /\
  linear1 F64Ops fused (r1_at F64Ops fused g) (f64_lit 7 (-3)) = Ok yc /\ falling ya yb yc.
Proof.
  destruct (@is_ok_ex _ (r1_new F64Ops fused (z64 0) (f64_lit 1 (-1)) [z64 1; z64 7; tenth])) as (g & E); [vm_compute; reflexivity|].
  assert (Q : match r1_new F64Ops fused (z64 0) (f64_lit 1 (-1)) [z64 1; z64 7; tenth] with
     Ok g => forallb (fun x => fin_at (fun x => linear1 F64Ops fused (r1_at F64Ops fused g) (nth 0 x tenth)) [x]) [f64_lit 1 (-1); f64_lit 5 (-3); f64_lit 7 (-3)] | _ => false end = true) by (vm_compute; reflexivity).
  rewrite E in Q. rewrite forallb_forall in Q.
  destruct (fin_at_ex _ _ (Q (f64_lit 1 (-1)) ltac:(left; reflexivity))) as (ya & Ya & Fa).
  destruct (fin_at_ex _ _ (Q (f64_lit 5 (-3)) ltac:(right; left; reflexivity))) as (yb & Yb & Fb).
  destruct (fin_at_ex _ _ (Q (f64_lit 7 (-3)) ltac:(right; right; left; reflexivity))) as (yc & Yc & Fc). cbn [nth] in Ya, Yb, Yc.
  exists g, ya, yb, yc. repeat (split; [assumption|]).
  destruct (C90_one_dim_regular _ _ Hp64 He64 fused (z64 0) (f64_lit 1 (-1)) [z64 1; z64 7; tenth] g 1 (z64 7) tenth _ _ _ ya yb yc
    ltac:(vm_compute; split; discriminate) ltac:(vm_compute; reflexivity) E half_cell half_order eq_refl eq_refl Ya Yb Yc Fa Fb Fc) as (_ & H).
  apply H. unfold tenth. real_lit.
Qed.
(** Three observations with the same first coordinate. *)
Definition m_obs : list (ndarray f64) := [mkNd [3]%nat [tenth; tenth; tenth]; mkNd [3]%nat xs3].
Definition m_grids : list (ndarray f64) := map arr mono_grids.
Example C90_python_ex : exists r ya yb yc,
  fst (py_interpn F64Ops plain m_obs m_grids (arr mono_vals2) "linear" None true false false (z64 0)) = Ret r /\
  nd_shape r = [3]%nat /\ nd_data r = [ya; yb; yc] /\ (rising ya yb yc \/ falling ya yb yc).
Proof.
  assert (C : good_call 2 (mkNd [3]%nat [tenth; tenth; tenth]) m_obs m_grids (arr mono_vals2)).
  { split; [reflexivity|]. split; [reflexivity|]. split; [repeat constructor|]. split; [repeat constructor|]. split; [reflexivity|vm_compute; discriminate]. }
  assert (U : ~ Forall (evenly_spaced F64Ops) (map nd_data m_grids)).
  { intros H. apply Forall_cons_iff in H as (_ & H). apply Forall_cons_iff in H as (H & _).
    assert (E := H 1%nat _ _ _ _ eq_refl eq_refl eq_refl eq_refl). destruct E as (E & _). vm_compute in E. discriminate E. }
  assert (I : Forall (increasing_grid F64Ops) (map nd_data m_grids)).
  { apply Forall_cons; [inc_grid|]. apply Forall_cons; [exact mono_inc|apply Forall_nil]. }
  destruct (C90_python 53 1024 Hp64 He64 plain m_obs m_grids (arr mono_vals2) _ true false (z64 0) C ltac:(simpl; lia) I eq_refl U) as (r & E & S & L & H).
  assert (Q : match fst (py_interpn F64Ops plain m_obs m_grids (arr mono_vals2) "linear" None true false false (z64 0)) with
     Ret r => forallb (fun y => is_finite y) (nd_data r) | _ => false end = true) by (vm_compute; reflexivity).
  assert (E' : fst (py_interpn F64Ops plain m_obs m_grids (arr mono_vals2) "linear" None true false false (z64 0)) = Ret r) by exact E.
  rewrite E' in Q. rewrite forallb_forall in Q. change (length (nd_data r) = 3%nat) in L.
  destruct (nd_data r) as [|ya [|yb [|yc [|yd l]]]] eqn:D; try (exfalso; cbn [length] in L; lia).
  exists r, ya, yb, yc. split; [exact E'|]. split; [exact S|]. split; [exact D|].
  apply (H 0%nat 1%nat 2%nat [tenth] mono_grid 1%Z (f64_lit 1 (-2)) (f64_lit 3 (-2)) (z64 1)); try reflexivity.
  - exact xs3_cell.
  - exact xs3_order.
  - apply Q. apply (eq_ind_r (fun l => In ya l) (x := [ya; yb; yc])); [|exact D]. left. reflexivity.
  - apply Q. apply (eq_ind_r (fun l => In yb l) (x := [ya; yb; yc])); [|exact D]. right. left. reflexivity.
  - apply Q. apply (eq_ind_r (fun l => In yc l) (x := [ya; yb; yc])); [|exact D]. right. right. left. reflexivity.
Qed.

(** ** Where it does not hold
    From one cell to the next: the values -2^-54, 1 - 2^-53, 1 - 2^-53 never decrease, but the result at
    the second grid point is 1, more than at the points after it. *)
Definition turn_grid : list f64 := [z64 0; z64 1; z64 3].
Definition turn_vals : list f64 := [f64_lit (-1) (-54); f64_lit 9007199254740991 (-53); f64_lit 9007199254740991 (-53)].
Theorem C90_across_cells_refuted :
  (B2R (nth 0 turn_vals (z64 0)) < B2R (nth 1 turn_vals (z64 0)) /\ nth 1 turn_vals (z64 0) = nth 2 turn_vals (z64 0)) /\
  exists s g, mlc_new F64Ops plain [turn_grid] turn_vals = Ok s /\ c1_new turn_grid turn_vals = Ok g /\
  ok_is (mlc_interp_one F64Ops plain s [z64 1]) (z64 1) = true /\
  ok_is (mlc_interp_one F64Ops plain s [z64 2]) (f64_lit 9007199254740991 (-53)) = true /\
  ok_is (linear1 F64Ops plain (c1_at F64Ops plain g) (z64 1)) (z64 1) = true /\
  ok_is (linear1 F64Ops plain (c1_at F64Ops plain g) (z64 2)) (f64_lit 9007199254740991 (-53)) = true.
Proof.
  split; [split; [cbn [nth turn_vals]; real_lit|reflexivity]|].
  destruct (@is_ok_ex _ (mlc_new F64Ops plain [turn_grid] turn_vals)) as (s & E); [vm_compute; reflexivity|].
  destruct (@is_ok_ex _ (c1_new turn_grid turn_vals)) as (g & G); [vm_compute; reflexivity|].
  exists s, g. split; [exact E|]. split; [exact G|].
  assert (Q : match mlc_new F64Ops plain [turn_grid] turn_vals, c1_new turn_grid turn_vals with Ok s, Ok g =>
     andb (andb (ok_is (mlc_interp_one F64Ops plain s [z64 1]) (z64 1)) (ok_is (mlc_interp_one F64Ops plain s [z64 2]) (f64_lit 9007199254740991 (-53))))
     (andb (ok_is (linear1 F64Ops plain (c1_at F64Ops plain g) (z64 1)) (z64 1)) (ok_is (linear1 F64Ops plain (c1_at F64Ops plain g) (z64 2)) (f64_lit 9007199254740991 (-53))))
     | _, _ => false end = true) by (vm_compute; reflexivity).
  rewrite E, G in Q. apply andb_true_iff in Q as (Q1 & Q2). apply andb_true_iff in Q1 as (Q1 & Q3). apply andb_true_iff in Q2 as (Q2 & Q4). auto.
Qed.
(** Along another axis: at the points (0, 1), (1, 1), (2, 1) of one cell the results are 1 - 2^-53, 1 and
    1 - 2^-53. *)
Theorem C90_other_axis_refuted :
  exists s, mlc_new F64Ops plain [[z64 0; z64 2]; [z64 0; z64 1]]
    [f64_lit (-1) (-53); f64_lit 9007199254740991 (-53); z64 0; f64_lit 9007199254740991 (-53)] = Ok s /\
  ok_is (mlc_interp_one F64Ops plain s [z64 0; z64 1]) (f64_lit 9007199254740991 (-53)) = true /\
  ok_is (mlc_interp_one F64Ops plain s [z64 1; z64 1]) (z64 1) = true /\
  ok_is (mlc_interp_one F64Ops plain s [z64 2; z64 1]) (f64_lit 9007199254740991 (-53)) = true.
Proof.
  set (n := mlc_new F64Ops plain [[z64 0; z64 2]; [z64 0; z64 1]] [f64_lit (-1) (-53); f64_lit 9007199254740991 (-53); z64 0; f64_lit 9007199254740991 (-53)]).
  destruct (@is_ok_ex _ n) as (s & E); [vm_compute; reflexivity|]. exists s. split; [exact E|].
  assert (Q : match n with Ok s =>
     andb (ok_is (mlc_interp_one F64Ops plain s [z64 0; z64 1]) (f64_lit 9007199254740991 (-53)))
     (andb (ok_is (mlc_interp_one F64Ops plain s [z64 1; z64 1]) (z64 1)) (ok_is (mlc_interp_one F64Ops plain s [z64 2; z64 1]) (f64_lit 9007199254740991 (-53))))
     | _ => false end = true) by (vm_compute; reflexivity).
  rewrite E in Q. apply andb_true_iff in Q as (Q1 & Q2). apply andb_true_iff in Q2 as (Q2 & Q3). auto.
Qed.

Print Assumptions C90_rectilinear.
Print Assumptions C90_regular.
Print Assumptions C90_pixel_cell.
Print Assumptions C90_one_dim_rectilinear.
Print Assumptions C90_one_dim_regular.
Print Assumptions C90_python.
Print Assumptions C90_across_cells_refuted.
Print Assumptions C90_other_axis_refuted.
