(** Accuracy of floating-point interpolation of a smooth function: rounding, error of the samples
    and interpolation error together. *)
From Coq Require Import Reals Lra PeanoNat Bool Lia List.
From Flocq Require Import Core.Core IEEE754.BinarySingleNaN.
From Verif Require Import Base Ops RInst FInst ModelCore ModelLinear Spec SpecOrder SpecIEEE SpecError SpecReal Interpolators SpecApprox.
From Verif Require Import GenLemmas FLemmas FProofs FProofs2 FError2 FApprox RChar ExampleData ExampleReal.
From Verif Require Import PropertiesFloat PropertiesError PropertiesApprox.
Import ListNotations.
Open Scope R_scope.
Unset Implicit Arguments.

(** * C55: inside the grid, the result computed in floating point from samples of a function that
    are accurate to [e] differs from the function by at most the rounding error of C45, plus [e],
    plus the interpolation error of C51. *)
Theorem C55_rectilinear :
  forall prec emax (Hp : Prec_gt_0 prec) (He : Prec_lt_emax prec emax), let o := BOps Hp He in
  forall c (grids : list (list (binary_float prec emax))) vals eval x A f e M h,
  let axes := rect_axes (map (map B2R) grids) in
  float_rectilinear Hp He c grids vals eval ->
  Forall (increasing_grid o) grids -> Forall (Forall moderate) grids ->
  Forall (fun v => is_finite v = true) x -> SpecReal.inside_grid axes (map B2R x) ->
  bounded_values prec emax A vals -> 126 * INR (length grids) * roundoff prec <= 1 ->
  samples_within e axes (map B2R vals) f ->
  (forall k, (k < length axes)%nat -> second_derivative_at_most axes f k (M k)) ->
  (forall k a, nth_error axes k = Some a -> spacing_at_most a (h k)) ->
  exists y, eval x = Ok y /\ is_finite y = true /\
  Rabs (B2R y - f (map B2R x)) <= rectilinear_error prec emax (length grids) A + e
    + sum_upto (length axes) (fun k => M k * h k ^ 2 / 8).
Proof. intros prec emax Hp He o. exact (C55_proof_rectilinear prec emax Hp He). Qed.
(** On a regular grid the spacing is the step. *)
Theorem C55_regular :
  forall prec emax (Hp : Prec_gt_0 prec) (He : Prec_lt_emax prec emax),
  forall c dims (starts steps vals : list (binary_float prec emax)) eval x A kappa f e M,
  let axes := reg_axes dims (map B2R starts) (map B2R steps) in
  float_regular Hp He c dims starts steps vals eval ->
  Forall (fun v => is_finite v = true) x -> axes_within prec emax kappa starts steps dims ->
  SpecReal.inside_grid axes (map B2R x) ->
  bounded_values prec emax A vals -> 504 * INR (length dims) * (roundoff prec * kappa) <= 1 -> (prec <= 64)%Z ->
  samples_within e axes (map B2R vals) f ->
  (forall k, (k < length axes)%nat -> second_derivative_at_most axes f k (M k)) ->
  exists y, eval x = Ok y /\ is_finite y = true /\
  Rabs (B2R y - f (map B2R x)) <= regular_error prec emax (length dims) kappa A + e
    + sum_upto (length axes) (fun k => M k * B2R (nth k steps (B754_zero false)) ^ 2 / 8).
Proof. exact C55_proof_regular. Qed.

(** x^2 + y^2 = 73/16 at (3/4, 2). On the uneven grid one of the six samples is off by 1/4. *)
Definition bowl_rect : list f64 := [z64 1; z64 9; f64_lit 5 (-2); z64 9; z64 5; z64 13].
Definition bowl_reg : list f64 := [z64 1; z64 9; f64_lit 5 (-2); f64_lit 37 (-2); z64 2; z64 10].
Lemma bowl_rect_real : map B2R bowl_rect = [1; 9; 5 / 4; 9; 5; 13].
Proof. unfold bowl_rect. cbn [map]. repeat (apply f_equal2); try reflexivity; real_lit. Qed.
Lemma bowl_reg_real : map B2R bowl_reg = [1; 9; 5 / 4; 37 / 4; 2; 10].
Proof. unfold bowl_reg. cbn [map]. repeat (apply f_equal2); try reflexivity; real_lit. Qed.
Lemma bowl_second axes k : length axes = 2%nat -> (k < 2)%nat -> second_derivative_at_most axes bowl k 2.
Proof.
  intros La Hk. exists (fun x => 2 * nth k x 0), (fun _ => 2). intros x (Lx & _). rewrite La in Lx.
  destruct x as [|u [|v [|]]]; try discriminate.
  destruct k as [|[|k]]; [| |lia]; unfold partial_derivative, bowl; simpl.
  - split; [apply (poly_derivable _ (v ^ 2) 0 1 0); [intros; simpl; ring|ring]|].
    split; [apply (poly_derivable _ 0 2 0 0); [intros; simpl; ring|ring]|rewrite Rabs_right; lra].
  - split; [apply (poly_derivable _ (u ^ 2) 0 1 0); [intros; simpl; ring|ring]|].
    split; [apply (poly_derivable _ 0 2 0 0); [intros; simpl; ring|ring]|rewrite Rabs_right; lra].
Qed.
Ltac each_node2 := let idx := fresh in let Hi := fresh in intros idx Hi;
  inversion Hi as [|? i ? ? Hi0 Hi']; subst; inversion Hi' as [|? j ? ? Hj0 Hj']; subst;
  inversion Hj'; subst; simpl in Hi0, Hj0; unfold zlen in Hi0, Hj0; simpl in Hi0, Hj0;
  assert (Ei : (i = 0 \/ i = 1 \/ i = 2)%Z) by lia; assert (Ej : (j = 0 \/ j = 1)%Z) by lia;
  destruct Ei as [-> | [-> | ->]], Ej as [-> | ->]; unfold entry, bowl; simpl.
Lemma bowl_rect_samples : samples_within (1 / 4) (rect_axes (map (map B2R) lin_grids)) (map B2R bowl_rect) bowl.
Proof. rewrite lin_grids_real, bowl_rect_real. each_node2; apply Rabs_le; lra. Qed.
Lemma bowl_reg_samples : samples_within 0 (reg_axes lin_dims (map B2R lin_starts) (map B2R lin_steps)) (map B2R bowl_reg) bowl.
Proof. rewrite lin_starts_real, lin_steps_real, bowl_reg_real. each_node2; apply Rabs_le; lra. Qed.
Lemma bowl_bounded vals : vals = bowl_rect \/ vals = bowl_reg -> bounded_values 53 1024 13 vals.
Proof.
  intros Hv. split.
  - split; [lra|]. apply Rle_trans with (bpow radix2 4); [simpl; lra|]. apply bpow_le. lia.
  - destruct Hv as [-> | ->]; unfold bowl_rect, bowl_reg;
      repeat (apply Forall_cons; [split; [reflexivity|apply Rabs_le; real_lit]|]); apply Forall_nil.
Qed.
Definition bowl_g : rectilinear f64 := mkRect lin_grids [3%Z; 2%Z] bowl_rect.
Definition bowl_s : regular f64 := mkRegular lin_dims lin_starts lin_steps bowl_reg.
Lemma bowl_rinput : rect_input plain lin_grids bowl_rect.
Proof. rect_ok. Qed.
Lemma bowl_input : reg_input plain lin_dims lin_starts lin_steps bowl_reg.
Proof. reg_ok. Qed.
Lemma bowl_gnew : mlc_new F64Ops plain lin_grids bowl_rect = Ok bowl_g.
Proof.
  destruct (@is_ok_ex _ (mlc_new F64Ops plain lin_grids bowl_rect)) as (s & E); [vm_compute; reflexivity|].
  rewrite E. destruct (mlc_new_inv F64Ops bowl_rinput E) as (_ & ->). reflexivity.
Qed.
Lemma bowl_snew : mlr_new F64Ops plain lin_dims lin_starts lin_steps bowl_reg = Ok bowl_s.
Proof.
  destruct (@is_ok_ex _ (mlr_new F64Ops plain lin_dims lin_starts lin_steps bowl_reg)) as (s & E); [vm_compute; reflexivity|].
  rewrite E. destruct (mlr_new_inv F64Ops bowl_input E) as (_ & ->). reflexivity.
Qed.
Lemma bowl_frect : float_rectilinear Hp64 He64 plain lin_grids bowl_rect (mlc_interp_one F64Ops plain bowl_g).
Proof. apply float_rectilinear_flat; [apply bowl_rinput|apply bowl_gnew]. Qed.
Lemma bowl_freg : float_regular Hp64 He64 plain lin_dims lin_starts lin_steps bowl_reg (mlr_interp_one F64Ops plain bowl_s).
Proof. apply float_regular_flat; [apply bowl_input|apply bowl_snew]. Qed.
Example C55_ex :
  (exists y, mlc_interp_one F64Ops plain bowl_g err_x = Ok y /\ is_finite y = true /\ Rabs (B2R y - 73 / 16) <= 30 / 16) /\
  (exists y, mlr_interp_one F64Ops plain bowl_s err_x = Ok y /\ is_finite y = true /\ Rabs (B2R y - 73 / 16) <= 18 / 16).
Proof.
  assert (U := roundoff_64). assert (F : bowl (map B2R err_x) = 73 / 16) by (rewrite err_x_real; unfold bowl; simpl; field).
  split.
  - destruct (C55_rectilinear _ _ Hp64 He64 plain lin_grids bowl_rect _ err_x 13 bowl (1 / 4) (fun _ => 2)
      (fun k => match k with O => 3 / 2 | _ => 2 end) bowl_frect lin_inc lin_mod fin_err_x rect_inside_ex
      (bowl_bounded _ (or_introl eq_refl)) ltac:(simpl; lra) bowl_rect_samples) as (y & E & Fy & B).
    + intros k Hk. apply bowl_second; auto.
    + rewrite lin_grids_real. intros k a Hk. destruct k as [|[|k]]; [| |destruct k; discriminate]; injection Hk as <-;
        intros j Hj; unfold spacing, list_axis, zlen in *; simpl in *.
      * assert (Ej : (j = 0 \/ j = 1)%Z) by lia. destruct Ej as [-> | ->]; simpl; lra.
      * assert (Ej : (j = 0)%Z) by lia. rewrite Ej. simpl. lra.
    + exists y. split; [exact E|]. split; [exact Fy|]. rewrite F in B. eapply Rle_trans; [exact B|].
      unfold rectilinear_error, sum_upto. simpl length. simpl INR. assert (Q := err_small 416 ltac:(lra)). simpl. lra.
  - destruct (C55_regular _ _ Hp64 He64 plain lin_dims lin_starts lin_steps bowl_reg _ err_x 13 2 bowl 0 (fun _ => 2)
      bowl_freg fin_err_x lin_within reg_inside_ex
      (bowl_bounded _ (or_intror eq_refl)) ltac:(simpl; lra) ltac:(lia) bowl_reg_samples) as (y & E & Fy & B).
    + intros k Hk. apply bowl_second; auto.
    + exists y. split; [exact E|]. split; [exact Fy|]. rewrite F in B. eapply Rle_trans; [exact B|].
      change (length (reg_axes _ _ _)) with 2%nat. change (length lin_dims) with 2%nat.
      unfold regular_error, sum_upto. assert (Q := err_small 3000 ltac:(lra)).
      assert (S0 : B2R (nth 0 lin_steps (B754_zero false)) = 1 / 2) by (cbn [nth lin_steps]; real_lit).
      assert (S1 : B2R (nth 1 lin_steps (B754_zero false)) = 2) by (cbn [nth lin_steps]; real_lit).
      assert (S3 : Rsum (map (fun k => 2 * B2R (nth k lin_steps (B754_zero false)) ^ 2 / 8) (seq 0 2)) = 17 / 16)
        by (cbn [seq map]; rewrite S0, S1; unfold Rsum; simpl; field).
      assert (S2 : 0 <= underflow 53 1024) by (unfold underflow; assert (P := bpow_ge_0 radix2 (3 - 1024 - 53)); lra).
      match goal with |- context [Rsum ?l] => replace (Rsum l) with (17 / 16) by (symmetry; exact S3) end. simpl.
      assert (underflow 53 1024 <= / 1000000000000) by (assert (0 <= roundoff 53) by apply bpow_ge_0; nra).
      lra.
Qed.
Print Assumptions C55_rectilinear.
Print Assumptions C55_regular.
