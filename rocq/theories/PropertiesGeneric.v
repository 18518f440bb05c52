(** Properties that hold for every number type and rounding: C11-C19 and C37.
    Every theorem is followed by a concrete binary64 case that meets its hypotheses. *)
From Coq Require Import PeanoNat.
From Flocq Require Import IEEE754.BinarySingleNaN.
From Verif Require Import Base Ops FInst ModelCore ModelLinear ModelNearest ModelCubic ModelOneDim Spec.
From Verif Require Import CoreLemmas MethodLemmas MethodChar GenLemmas GenProofs GenProofs2 GenProofs3 SizeProofs BatchTotal ExampleData.
Open Scope string_scope.
Open Scope Z_scope.

(** * C11: flattened and recursive evaluators *)
Theorem C11_linear_regular :
  forall F (o : Ops F) c dims starts steps vals maxdims s x,
  usize_converts o -> use_fma c = false -> reg_input c dims starts steps vals ->
  (length dims <= maxdims)%nat -> length x = length dims ->
  mlr_new o c dims starts steps vals = Ok s ->
  mlr_interp_one o c s x = mlrr_interp_one o c maxdims s x.
Proof. intros; eapply flat_rec_reg_linear; eauto. Qed.
Example C11_linear_regular_ex :
  mlr_interp_one F64Ops plain lin_s lin_pt = mlrr_interp_one F64Ops plain 8 lin_s lin_pt
  /\ is_ok (mlr_interp_one F64Ops plain lin_s lin_pt) = true.
Proof.
  split; [|vm_compute; reflexivity].
  eapply C11_linear_regular; [apply usize_converts_f64|reflexivity|apply lin_input|le_ok|reflexivity|apply lin_new].
Qed.
Print Assumptions C11_linear_regular.

Theorem C11_linear_regular_new :
  forall F (o : Ops F) c dims starts steps vals maxdims,
  (1 <= length dims <= maxdims)%nat -> length starts = length dims -> length steps = length dims ->
  mlr_new o c dims starts steps vals = mlrr_new o c maxdims dims starts steps vals.
Proof. intros; apply new_flat_rec_reg_linear; auto. Qed.
Example C11_linear_regular_new_ex : mlrr_new F64Ops plain 2 lin_dims lin_starts lin_steps lin_vals = Ok lin_s.
Proof. rewrite <- C11_linear_regular_new; [apply lin_new|split; le_ok|reflexivity|reflexivity]. Qed.
Print Assumptions C11_linear_regular_new.

Theorem C11_linear_regular_interpn :
  forall F (o : Ops F) c dims starts steps vals obs out,
  usize_converts o -> use_fma c = false -> 
  length starts = length dims -> length steps = length dims -> length obs = length dims ->
  zlen vals <= isize_max -> (ovf_checks c = true \/ zprod dims < two64) ->
  mlr_interpn o c dims starts steps vals obs out = mlrr_interpn o c dims starts steps vals obs out.
Proof. intros; apply interpn_flat_rec_reg_linear; auto. Qed.
Example C11_linear_regular_interpn_ex :
  mlr_interpn F64Ops release lin_dims lin_starts lin_steps lin_vals [[z64 1; z64 2]; [z64 0; z64 9]] [z64 5; z64 5]
  = mlrr_interpn F64Ops release lin_dims lin_starts lin_steps lin_vals [[z64 1; z64 2]; [z64 0; z64 9]] [z64 5; z64 5].
Proof.
  apply C11_linear_regular_interpn; try reflexivity; try (apply usize_converts_f64); try (vm_compute; discriminate); right; vm_compute; reflexivity.
Qed.
Print Assumptions C11_linear_regular_interpn.

Theorem C11_linear_rectilinear :
  forall F (o : Ops F) c grids vals maxdims s x,
  rect_input c grids vals ->
  (length grids <= maxdims)%nat -> length x = length grids ->
  mlc_new o c grids vals = Ok s ->
  mlc_interp_one o c s x = mlcr_interp_one o c maxdims s x.
Proof. intros; eapply flat_rec_rect_linear; eauto. Qed.
Example C11_linear_rectilinear_ex :
  mlc_interp_one F64Ops plain lin_g lin_pt = mlcr_interp_one F64Ops plain 8 lin_g lin_pt
  /\ is_ok (mlc_interp_one F64Ops plain lin_g lin_pt) = true.
Proof.
  split; [|vm_compute; reflexivity].
  eapply C11_linear_rectilinear; [apply lin_rinput|le_ok|reflexivity|apply lin_gnew].
Qed.
Print Assumptions C11_linear_rectilinear.

Theorem C11_linear_rectilinear_new :
  forall F (o : Ops F) c grids vals maxdims,
  (1 <= length grids <= maxdims)%nat ->
  mlc_new o c grids vals = mlcr_new o c maxdims grids vals.
Proof. intros; apply new_flat_rec_rect_linear; auto. Qed.
Example C11_linear_rectilinear_new_ex : mlcr_new F64Ops plain 2 lin_grids lin_vals = Ok lin_g.
Proof. rewrite <- C11_linear_rectilinear_new; [apply lin_gnew|split; le_ok]. Qed.
Print Assumptions C11_linear_rectilinear_new.

Theorem C11_linear_rectilinear_interpn :
  forall F (o : Ops F) c grids vals obs out,
  length obs = length grids ->
  zlen vals <= isize_max -> (ovf_checks c = true \/ zprod (map zlen grids) < two64) ->
  mlc_interpn o c grids vals obs out = mlcr_interpn o c grids vals obs out.
Proof. intros; apply interpn_flat_rec_rect_linear; auto. Qed.
Example C11_linear_rectilinear_interpn_ex :
  mlc_interpn F64Ops release lin_grids lin_vals [[z64 1; z64 2]; [z64 0; z64 9]] [z64 5; z64 5]
  = mlcr_interpn F64Ops release lin_grids lin_vals [[z64 1; z64 2]; [z64 0; z64 9]] [z64 5; z64 5].
Proof.
  apply C11_linear_rectilinear_interpn; try reflexivity; try (vm_compute; discriminate); right; vm_compute; reflexivity.
Qed.
Print Assumptions C11_linear_rectilinear_interpn.

Theorem C11_cubic_regular :
  forall F (o : Ops F) c dims starts steps vals lin maxdims s x,
  usize_converts o -> use_fma c = false -> reg_input c dims starts steps vals ->
  (length dims <= maxdims)%nat -> length x = length dims ->
  mcr_new o c dims starts steps vals lin = Ok s ->
  mcr_interp_one o c s x = mcrr_interp_one o c maxdims s x.
Proof. intros; eapply flat_rec_reg_cubic; eauto. Qed.
Example C11_cubic_regular_ex :
  mcr_interp_one F64Ops plain (cub_s true) cub_pt = mcrr_interp_one F64Ops plain 8 (cub_s true) cub_pt
  /\ is_ok (mcr_interp_one F64Ops plain (cub_s true) cub_pt) = true.
Proof.
  split; [|vm_compute; reflexivity].
  eapply C11_cubic_regular; [apply usize_converts_f64|reflexivity|apply cub_input|le_ok|reflexivity|apply (cub_new true)].
Qed.
Print Assumptions C11_cubic_regular.

Theorem C11_cubic_regular_new :
  forall F (o : Ops F) c dims starts steps vals lin maxdims,
  (1 <= length dims <= maxdims)%nat -> length starts = length dims -> length steps = length dims ->
  mcr_new o c dims starts steps vals lin = mcrr_new o c maxdims dims starts steps vals lin.
Proof. intros; apply new_flat_rec_reg_cubic; auto. Qed.
Example C11_cubic_regular_new_ex : mcrr_new F64Ops plain 2 cub_dims cub_starts cub_steps cub_vals true = Ok (cub_s true).
Proof. rewrite <- C11_cubic_regular_new; [apply (cub_new true)|split; le_ok|reflexivity|reflexivity]. Qed.
Print Assumptions C11_cubic_regular_new.

Theorem C11_cubic_regular_interpn :
  forall F (o : Ops F) c dims starts steps vals lin obs out,
  usize_converts o -> use_fma c = false -> 
  length starts = length dims -> length steps = length dims -> length obs = length dims ->
  zlen vals <= isize_max -> (ovf_checks c = true \/ zprod dims < two64) ->
  mcr_interpn o c dims starts steps vals lin obs out = mcrr_interpn o c dims starts steps vals lin obs out.
Proof. intros; apply interpn_flat_rec_reg_cubic; auto. Qed.
Example C11_cubic_regular_interpn_ex :
  mcr_interpn F64Ops release cub_dims cub_starts cub_steps cub_vals true [[z64 1; z64 2]; [z64 0; z64 9]] [z64 5; z64 5]
  = mcrr_interpn F64Ops release cub_dims cub_starts cub_steps cub_vals true [[z64 1; z64 2]; [z64 0; z64 9]] [z64 5; z64 5].
Proof.
  apply C11_cubic_regular_interpn; try reflexivity; try (apply usize_converts_f64); try (vm_compute; discriminate); right; vm_compute; reflexivity.
Qed.
Print Assumptions C11_cubic_regular_interpn.

Theorem C11_cubic_rectilinear :
  forall F (o : Ops F) c grids vals lin maxdims s x,
  use_fma c = false -> rect_input c grids vals ->
  (length grids <= maxdims)%nat -> length x = length grids ->
  mcc_new o c grids vals lin = Ok s ->
  mcc_interp_one o c s x = mccr_interp_one o c maxdims s x.
Proof. intros; eapply flat_rec_rect_cubic; eauto. Qed.
Example C11_cubic_rectilinear_ex :
  mcc_interp_one F64Ops plain (cub_g true) cub_pt = mccr_interp_one F64Ops plain 8 (cub_g true) cub_pt
  /\ is_ok (mcc_interp_one F64Ops plain (cub_g true) cub_pt) = true.
Proof.
  split; [|vm_compute; reflexivity].
  eapply C11_cubic_rectilinear; [reflexivity|apply cub_rinput|le_ok|reflexivity|apply (cub_gnew true)].
Qed.
Print Assumptions C11_cubic_rectilinear.

Theorem C11_cubic_rectilinear_new :
  forall F (o : Ops F) c grids vals lin maxdims,
  (1 <= length grids <= maxdims)%nat ->
  mcc_new o c grids vals lin = mccr_new o c maxdims grids vals lin.
Proof. intros; apply new_flat_rec_rect_cubic; auto. Qed.
Example C11_cubic_rectilinear_new_ex : mccr_new F64Ops plain 2 cub_grids cub_vals true = Ok (cub_g true).
Proof. rewrite <- C11_cubic_rectilinear_new; [apply (cub_gnew true)|split; le_ok]. Qed.
Print Assumptions C11_cubic_rectilinear_new.

Theorem C11_cubic_rectilinear_interpn :
  forall F (o : Ops F) c grids vals lin obs out,
  use_fma c = false -> 
  length obs = length grids ->
  zlen vals <= isize_max -> (ovf_checks c = true \/ zprod (map zlen grids) < two64) ->
  mcc_interpn o c grids vals lin obs out = mccr_interpn o c grids vals lin obs out.
Proof. intros; apply interpn_flat_rec_rect_cubic; auto. Qed.
Example C11_cubic_rectilinear_interpn_ex :
  mcc_interpn F64Ops release cub_grids cub_vals true [[z64 1; z64 2]; [z64 0; z64 9]] [z64 5; z64 5]
  = mccr_interpn F64Ops release cub_grids cub_vals true [[z64 1; z64 2]; [z64 0; z64 9]] [z64 5; z64 5].
Proof.
  apply C11_cubic_rectilinear_interpn; try reflexivity; try (vm_compute; discriminate); right; vm_compute; reflexivity.
Qed.
Print Assumptions C11_cubic_rectilinear_interpn.

(** * C12: evaluation of an accepted interpolator does not panic *)
Theorem C12_linear_regular :
  forall F (o : Ops F) c dims starts steps vals s x,
  usize_converts o -> reg_input c dims starts steps vals -> length x = length dims ->
  mlr_new o c dims starts steps vals = Ok s -> mlr_interp_one o c s x <> Panic.
Proof. intros; eapply nopanic_mlr; eauto. Qed.
Example C12_linear_regular_ex : mlr_interp_one F64Ops plain lin_s [B754_infinity true; B754_nan] <> Panic.
Proof. eapply C12_linear_regular; [apply usize_converts_f64|apply lin_input|reflexivity|apply lin_new]. Qed.
Print Assumptions C12_linear_regular.

Theorem C12_linear_regular_recursive :
  forall F (o : Ops F) c dims starts steps vals maxdims s x,
  usize_converts o -> reg_input c dims starts steps vals ->
  mlrr_new o c maxdims dims starts steps vals = Ok s -> mlrr_interp_one o c maxdims s x <> Panic.
Proof. intros; eapply nopanic_mlrr; eauto. Qed.
Example C12_linear_regular_recursive_ex : mlrr_interp_one F64Ops plain 2 lin_s [B754_infinity true; B754_nan] <> Panic.
Proof. eapply C12_linear_regular_recursive; [apply usize_converts_f64|apply lin_input|].
  rewrite <- C11_linear_regular_new; [apply lin_new|split; le_ok|reflexivity|reflexivity]. Qed.
Print Assumptions C12_linear_regular_recursive.

Theorem C12_nearest_regular :
  forall F (o : Ops F) c dims starts steps vals s x,
  usize_converts o -> reg_input c dims starts steps vals -> length x = length dims ->
  nr_new o c dims starts steps vals = Ok s -> nr_interp_one o c s x <> Panic.
Proof. intros; eapply nopanic_nr; eauto. Qed.
Example C12_nearest_regular_ex : nr_interp_one F64Ops plain lin_s [B754_infinity true; B754_nan] <> Panic.
Proof. eapply C12_nearest_regular; [apply usize_converts_f64|apply lin_input|reflexivity|apply lin_new]. Qed.
Print Assumptions C12_nearest_regular.

Theorem C12_linear_rectilinear :
  forall F (o : Ops F) c grids vals s x,
  rect_input c grids vals -> length x = length grids ->
  mlc_new o c grids vals = Ok s -> exists v, mlc_interp_one o c s x = Ok v.
Proof. intros; eapply total_mlc; eauto. Qed.
Example C12_linear_rectilinear_ex : exists v, mlc_interp_one F64Ops plain lin_g [B754_infinity true; B754_nan] = Ok v.
Proof. eapply C12_linear_rectilinear; [apply lin_rinput|reflexivity|apply lin_gnew]. Qed.
Print Assumptions C12_linear_rectilinear.

Theorem C12_nearest_rectilinear :
  forall F (o : Ops F) c grids vals s x,
  rect_input c grids vals -> length x = length grids ->
  nc_new o c grids vals = Ok s -> exists v, nc_interp_one o c s x = Ok v.
Proof. intros; eapply total_nc; eauto. Qed.
Example C12_nearest_rectilinear_ex : exists v, nc_interp_one F64Ops plain lin_g [B754_infinity true; B754_nan] = Ok v.
Proof. eapply C12_nearest_rectilinear; [apply lin_rinput|reflexivity|apply lin_gnew]. Qed.
Print Assumptions C12_nearest_rectilinear.

Theorem C12_cubic_rectilinear :
  forall F (o : Ops F) c grids vals lin s x,
  rect_input c grids vals -> length x = length grids ->
  mcc_new o c grids vals lin = Ok s -> exists v, mcc_interp_one o c s x = Ok v.
Proof. intros; eapply total_mcc; eauto. Qed.
Example C12_cubic_rectilinear_ex : exists v, mcc_interp_one F64Ops plain (cub_g true) [B754_infinity true; B754_nan] = Ok v.
Proof. eapply C12_cubic_rectilinear; [apply cub_rinput|reflexivity|apply (cub_gnew true)]. Qed.
Print Assumptions C12_cubic_rectilinear.

Theorem C12_linear_rectilinear_recursive :
  forall F (o : Ops F) c grids vals maxdims s x,
  rect_input c grids vals -> length x = length grids ->
  mlcr_new o c maxdims grids vals = Ok s -> exists v, mlcr_interp_one o c maxdims s x = Ok v.
Proof. intros; eapply total_mlcr; eauto. Qed.
Example C12_linear_rectilinear_recursive_ex : exists v, mlcr_interp_one F64Ops plain 2 lin_g [B754_infinity true; B754_nan] = Ok v.
Proof. eapply C12_linear_rectilinear_recursive; [apply lin_rinput|reflexivity|].
  rewrite <- C11_linear_rectilinear_new; [apply lin_gnew|split; le_ok]. Qed.
Print Assumptions C12_linear_rectilinear_recursive.

Theorem C12_cubic_rectilinear_recursive :
  forall F (o : Ops F) c grids vals lin maxdims s x,
  rect_input c grids vals -> length x = length grids ->
  mccr_new o c maxdims grids vals lin = Ok s -> exists v, mccr_interp_one o c maxdims s x = Ok v.
Proof. intros; eapply total_mccr; eauto. Qed.
Example C12_cubic_rectilinear_recursive_ex : exists v, mccr_interp_one F64Ops plain 2 (cub_g true) [B754_infinity true; B754_nan] = Ok v.
Proof. eapply C12_cubic_rectilinear_recursive; [apply cub_rinput|reflexivity|].
  rewrite <- C11_cubic_rectilinear_new; [apply (cub_gnew true)|split; le_ok]. Qed.
Print Assumptions C12_cubic_rectilinear_recursive.

(** * C13: cubic on a regular grid.
    The claim is false: with overflow checks, an observation in cell -2^63 panics. *)
Theorem C13_refuted :
  exists dims starts steps vals s x,
  reg_input plain dims starts steps vals /\ length x = length dims /\
  mcr_new F64Ops plain dims starts steps vals true = Ok s /\
  mcr_interp_one F64Ops plain s x = Panic.
Proof. 
  exists cub_dims, cub_starts, cub_steps, cub_vals, (cub_s true), [f64_lit (-1) 63; z64 1].
  split; [apply cub_input|]. split; [reflexivity|]. split; [apply cub_new|vm_compute; reflexivity].
 Qed.
Print Assumptions C13_refuted.

Theorem C13_recursive_refuted :
  exists dims starts steps vals s x,
  reg_input plain dims starts steps vals /\ length x = length dims /\
  mcrr_new F64Ops plain 8 dims starts steps vals true = Ok s /\
  mcrr_interp_one F64Ops plain 8 s x = Panic.
Proof. 
  exists cub_dims, cub_starts, cub_steps, cub_vals, (cub_s true), [f64_lit (-1) 63; z64 1].
  split; [apply cub_input|]. split; [reflexivity|]. split; [rewrite <- C11_cubic_regular_new; [apply cub_new|split; le_ok|reflexivity|reflexivity]|vm_compute; reflexivity].
 Qed.
Print Assumptions C13_recursive_refuted.

(** What remains true: no panic in a wrapping build, and none in a checked build
    unless the cell number of some axis is the smallest isize. *)
Theorem C13_partial :
  forall F (o : Ops F) c dims starts steps vals lin s x,
  usize_converts o -> reg_input c dims starts steps vals -> length x = length dims ->
  mcr_new o c dims starts steps vals lin = Ok s ->
  (ovf_checks c = false \/
   forall k i, (k < length dims)%nat ->
     to_isize o (ffloor o (fdiv o (fsub o (nth k x (fzero o)) (nth k starts (fzero o)))
                                  (nth k steps (fzero o)))) = Some i ->
     isize_min < i <= isize_max) ->
  mcr_interp_one o c s x <> Panic.
Proof. intros; eapply nopanic_mcr; eauto. Qed.
Example C13_partial_ex : mcr_interp_one F64Ops plain (cub_s true) cub_pt <> Panic.
Proof.
  eapply C13_partial; [apply usize_converts_f64|apply cub_input|reflexivity|apply cub_new|].
  right. intros [|[|k]] i Hk E; [| |change (length cub_dims) with 2%nat in Hk; lia].
  - assert (H : to_isize F64Ops (ffloor F64Ops (fdiv F64Ops (fsub F64Ops (nth 0 cub_pt (fzero F64Ops)) (nth 0 cub_starts (fzero F64Ops))) (nth 0 cub_steps (fzero F64Ops)))) = Some 1) by (vm_compute; reflexivity).
    rewrite H in E. injection E as <-. vm_compute; split; congruence.
  - assert (H : to_isize F64Ops (ffloor F64Ops (fdiv F64Ops (fsub F64Ops (nth 1 cub_pt (fzero F64Ops)) (nth 1 cub_starts (fzero F64Ops))) (nth 1 cub_steps (fzero F64Ops)))) = Some 32) by (vm_compute; reflexivity).
    rewrite H in E. injection E as <-. vm_compute; split; congruence.
Qed.
Print Assumptions C13_partial.

Theorem C13_recursive_partial :
  forall F (o : Ops F) c dims starts steps vals lin maxdims s x,
  usize_converts o -> reg_input c dims starts steps vals -> length x = length dims ->
  mcrr_new o c maxdims dims starts steps vals lin = Ok s ->
  (ovf_checks c = false \/
   forall k i, (k < length dims)%nat ->
     to_isize o (ffloor o (fdiv o (fsub o (nth k x (fzero o)) (nth k starts (fzero o)))
                                  (nth k steps (fzero o)))) = Some i ->
     isize_min < i <= isize_max) ->
  mcrr_interp_one o c maxdims s x <> Panic.
Proof. intros; eapply nopanic_mcrr; eauto. Qed.
Example C13_recursive_partial_ex : mcrr_interp_one F64Ops release 8 (cub_s true) [f64_lit (-1) 63; z64 1] <> Panic.
Proof.
  eapply C13_recursive_partial with (lin := true); [apply usize_converts_f64|apply cub_input|reflexivity| |left; reflexivity].
  destruct (@is_ok_ex _ (mcrr_new F64Ops release 8 cub_dims cub_starts cub_steps cub_vals true)) as (s & E);
    [vm_compute; reflexivity|].
  rewrite E. destruct (mcrr_new_inv F64Ops 8 true (cub_input _) E) as (_ & -> & _). reflexivity.
Qed.
Print Assumptions C13_recursive_partial.

(** * C14: what constructors accept, with which error otherwise *)
Theorem C14_linear_regular :
  forall F (o : Ops F) c dims starts steps vals,
  prefix_products_fit dims -> 
  checks_in_order
    [ (zlen vals = zprod dims, "Dimension mismatch");
      (Forall (fun d => 2 <= d) dims, "All grids must have at least two entries");
      (Forall (fun h => flt o (fzero o) h = true) steps, "All grids must be monotonically increasing") ]
    (mlr_new o c dims starts steps vals)
    (mkRegular dims starts steps vals).
Proof. intros; apply new_checks_mlr; auto. Qed.
Print Assumptions C14_linear_regular.

Theorem C14_nearest_regular :
  forall F (o : Ops F) c dims starts steps vals,
  prefix_products_fit dims -> 
  checks_in_order
    [ (zlen vals = zprod dims, "Dimension mismatch");
      (Forall (fun d => 2 <= d) dims, "All grids must have at least two entries");
      (Forall (fun h => flt o (fzero o) h = true) steps, "All grids must be monotonically increasing") ]
    (nr_new o c dims starts steps vals)
    (mkRegular dims starts steps vals).
Proof. intros; apply new_checks_mlr; auto. Qed.
Print Assumptions C14_nearest_regular.

Theorem C14_linear_regular_recursive :
  forall F (o : Ops F) c dims starts steps vals maxdims,
  prefix_products_fit dims -> (length dims <= maxdims)%nat ->
  checks_in_order
    [ (length starts = length dims /\ length steps = length dims /\
        zlen vals = zprod dims /\ (0 < length dims)%nat, "Dimension mismatch");
      (Forall (fun d => 2 <= d) dims, "All grids must have at least two entries");
      (Forall (fun h => flt o (fzero o) h = true) steps, "All grids must be monotonically increasing") ]
    (mlrr_new o c maxdims dims starts steps vals)
    (mkRegular dims starts steps vals).
Proof. intros; apply new_checks_mlrr; auto. Qed.
Print Assumptions C14_linear_regular_recursive.

Theorem C14_cubic_regular :
  forall F (o : Ops F) c dims starts steps vals lin,
  prefix_products_fit dims -> length starts = length dims ->
  length steps = length dims -> (1 <= length dims)%nat ->
  checks_in_order
    [ (zlen vals = zprod dims, "Dimension mismatch");
      (Forall (fun d => 4 <= d) dims, "All grids must have at least four entries");
      (Forall (fun h => flt o (fzero o) h = true) steps, "All grids must be monotonically increasing") ]
    (mcr_new o c dims starts steps vals lin)
    (mkCR (mkRegular dims starts steps vals) lin).
Proof. intros; apply new_checks_mcr; auto. Qed.
Print Assumptions C14_cubic_regular.

Theorem C14_cubic_regular_recursive :
  forall F (o : Ops F) c dims starts steps vals lin maxdims,
  prefix_products_fit dims -> (length dims <= maxdims)%nat ->
  checks_in_order
    [ (length starts = length dims /\ length steps = length dims /\
        zlen vals = zprod dims /\ (0 < length dims)%nat, "Dimension mismatch");
      (Forall (fun d => 4 <= d) dims, "All grids must have at least four entries");
      (Forall (fun h => flt o (fzero o) h = true) steps, "All grids must be monotonically increasing") ]
    (mcrr_new o c maxdims dims starts steps vals lin)
    (mkCR (mkRegular dims starts steps vals) lin).
Proof. intros; apply new_checks_mcrr; auto. Qed.
Print Assumptions C14_cubic_regular_recursive.

Theorem C14_linear_rectilinear :
  forall F (o : Ops F) c grids vals,
  prefix_products_fit (map zlen grids) -> 
  checks_in_order
    [ (zlen vals = zprod (map zlen grids), "Dimension mismatch");
      (Forall (fun g => 2 <= zlen g) grids, "All grids must have at least 2 entries");
      (Forall (first_two_increase o) grids, "All grids must be monotonically increasing") ]
    (mlc_new o c grids vals)
    (mkRect grids (map zlen grids) vals).
Proof. intros; apply new_checks_mlc; auto. Qed.
Print Assumptions C14_linear_rectilinear.

Theorem C14_nearest_rectilinear :
  forall F (o : Ops F) c grids vals,
  prefix_products_fit (map zlen grids) -> 
  checks_in_order
    [ (zlen vals = zprod (map zlen grids), "Dimension mismatch");
      (Forall (fun g => 2 <= zlen g) grids, "All grids must have at least 2 entries");
      (Forall (first_two_increase o) grids, "All grids must be monotonically increasing") ]
    (nc_new o c grids vals)
    (mkRect grids (map zlen grids) vals).
Proof. intros; apply new_checks_mlc; auto. Qed.
Print Assumptions C14_nearest_rectilinear.

Theorem C14_linear_rectilinear_recursive :
  forall F (o : Ops F) c grids vals maxdims,
  prefix_products_fit (map zlen grids) -> (1 <= length grids <= maxdims)%nat ->
  checks_in_order
    [ (zlen vals = zprod (map zlen grids), "Dimension mismatch");
      (Forall (fun g => 2 <= zlen g) grids, "All grids must have at least 2 entries");
      (Forall (first_two_increase o) grids, "All grids must be monotonically increasing") ]
    (mlcr_new o c maxdims grids vals)
    (mkRect grids (map zlen grids) vals).
Proof. intros; apply new_checks_mlcr; auto. Qed.
Print Assumptions C14_linear_rectilinear_recursive.

Theorem C14_cubic_rectilinear :
  forall F (o : Ops F) c grids vals lin,
  prefix_products_fit (map zlen grids) -> 
  checks_in_order
    [ (zlen vals = zprod (map zlen grids), "Dimension mismatch");
      (Forall (fun g => 4 <= zlen g) grids, "All grids must have at least 4 entries");
      (Forall (first_two_increase o) grids, "All grids must be monotonically increasing") ]
    (mcc_new o c grids vals lin)
    (mkCC (mkRect grids (map zlen grids) vals) lin).
Proof. intros; apply new_checks_mcc; auto. Qed.
Print Assumptions C14_cubic_rectilinear.

Theorem C14_cubic_rectilinear_recursive :
  forall F (o : Ops F) c grids vals lin maxdims,
  prefix_products_fit (map zlen grids) -> (1 <= length grids <= maxdims)%nat ->
  checks_in_order
    [ (zlen vals = zprod (map zlen grids), "Dimension mismatch");
      (Forall (fun g => 4 <= zlen g) grids, "All grids must have at least 4 entries");
      (Forall (first_two_increase o) grids, "All grids must be monotonically increasing") ]
    (mccr_new o c maxdims grids vals lin)
    (mkCC (mkRect grids (map zlen grids) vals) lin).
Proof. intros; apply new_checks_mccr; auto. Qed.
Print Assumptions C14_cubic_rectilinear_recursive.

(** Sizes whose products fit, and inputs that pass / fail each check. *)
Example C14_sizes_ex : prefix_products_fit lin_dims.
Proof.
  intros [|[|[|k]]]; try (vm_compute; split; congruence).
Qed.
Example C14_accept_ex : mlr_new F64Ops plain lin_dims lin_starts lin_steps lin_vals = Ok lin_s.
Proof. apply lin_new. Qed.
Example C14_size_ex :
  mlr_new F64Ops plain lin_dims lin_starts lin_steps [z64 1] = Err "Dimension mismatch".
Proof. vm_compute. reflexivity. Qed.
Example C14_len_ex :
  mcr_new F64Ops plain lin_dims lin_starts lin_steps lin_vals true
  = Err "All grids must have at least four entries".
Proof. vm_compute. reflexivity. Qed.
Example C14_mono_ex :
  mlc_new F64Ops plain [[z64 1; z64 1; z64 0]; [z64 0; z64 1]] lin_vals
  = Err "All grids must be monotonically increasing".
Proof. vm_compute. reflexivity. Qed.

(** * C15: the size check and integer overflow.
    False in builds without overflow checks (the default for release builds): the
    product of the sizes wraps around. *)
Theorem C15_refuted :
  exists dims starts steps vals s,
  mlr_new F64Ops release dims starts steps vals = Ok s /\ zlen vals <> zprod dims.
Proof. 
  exists [2 ^ 63; 2], lin_starts, lin_steps, [].
  destruct (@is_ok_ex _ (mlr_new F64Ops release [2 ^ 63; 2] lin_starts lin_steps [])) as (s & E);
    [vm_compute; reflexivity|].
  exists s. split; [exact E|vm_compute; discriminate].
 Qed.
Print Assumptions C15_refuted.

Theorem C15_evaluation_panics_refuted :
  exists dims starts steps vals s x,
  mlr_new F64Ops release dims starts steps vals = Ok s /\
  length x = length dims /\ mlr_interp_one F64Ops release s x = Panic.
Proof. 
  exists [2 ^ 63; 2], lin_starts, lin_steps, [], (mkRegular [2 ^ 63; 2] lin_starts lin_steps []), lin_pt.
  split; [|split; [reflexivity|vm_compute; reflexivity]].
  destruct (@is_ok_ex _ (mlr_new F64Ops release [2 ^ 63; 2] lin_starts lin_steps [])) as (s & E);
    [vm_compute; reflexivity|].
  rewrite E. unfold mlr_new in E. apply bind_ok in E as (nv & _ & E).
  repeat match type of E with (if ?b then _ else _) = _ => destruct b; try discriminate E end.
  inversion E; subst. reflexivity.
 Qed.
Print Assumptions C15_evaluation_panics_refuted.

(** In builds with overflow checks it holds. *)
Theorem C15_linear_regular_partial :
  forall F (o : Ops F) c dims starts steps vals s,
  ovf_checks c = true -> mlr_new o c dims starts steps vals = Ok s -> zlen vals = zprod dims.
Proof. intros; eapply size_mlr; eauto. Qed.
Print Assumptions C15_linear_regular_partial.

Theorem C15_linear_regular_recursive_partial :
  forall F (o : Ops F) c dims starts steps vals maxdims s,
  ovf_checks c = true -> mlrr_new o c maxdims dims starts steps vals = Ok s -> zlen vals = zprod dims.
Proof. intros; eapply size_mlrr; eauto. Qed.
Print Assumptions C15_linear_regular_recursive_partial.

Theorem C15_nearest_regular_partial :
  forall F (o : Ops F) c dims starts steps vals s,
  ovf_checks c = true -> nr_new o c dims starts steps vals = Ok s -> zlen vals = zprod dims.
Proof. intros; eapply size_mlr; eauto. Qed.
Print Assumptions C15_nearest_regular_partial.

Theorem C15_cubic_regular_partial :
  forall F (o : Ops F) c dims starts steps vals lin s,
  ovf_checks c = true -> mcr_new o c dims starts steps vals lin = Ok s -> zlen vals = zprod dims.
Proof. intros; eapply size_mcr; eauto. Qed.
Print Assumptions C15_cubic_regular_partial.

Theorem C15_cubic_regular_recursive_partial :
  forall F (o : Ops F) c dims starts steps vals lin maxdims s,
  ovf_checks c = true -> mcrr_new o c maxdims dims starts steps vals lin = Ok s -> zlen vals = zprod dims.
Proof. intros; eapply size_mcrr; eauto. Qed.
Print Assumptions C15_cubic_regular_recursive_partial.

Theorem C15_linear_rectilinear_partial :
  forall F (o : Ops F) c grids vals s,
  ovf_checks c = true -> mlc_new o c grids vals = Ok s -> zlen vals = zprod (map zlen grids).
Proof. intros; eapply size_mlc; eauto. Qed.
Print Assumptions C15_linear_rectilinear_partial.

Theorem C15_linear_rectilinear_recursive_partial :
  forall F (o : Ops F) c grids vals maxdims s,
  ovf_checks c = true -> mlcr_new o c maxdims grids vals = Ok s -> zlen vals = zprod (map zlen grids).
Proof. intros; eapply size_mlcr; eauto. Qed.
Print Assumptions C15_linear_rectilinear_recursive_partial.

Theorem C15_nearest_rectilinear_partial :
  forall F (o : Ops F) c grids vals s,
  ovf_checks c = true -> nc_new o c grids vals = Ok s -> zlen vals = zprod (map zlen grids).
Proof. intros; eapply size_mlc; eauto. Qed.
Print Assumptions C15_nearest_rectilinear_partial.

Theorem C15_cubic_rectilinear_partial :
  forall F (o : Ops F) c grids vals lin s,
  ovf_checks c = true -> mcc_new o c grids vals lin = Ok s -> zlen vals = zprod (map zlen grids).
Proof. intros; eapply size_mcc; eauto. Qed.
Print Assumptions C15_cubic_rectilinear_partial.

Theorem C15_cubic_rectilinear_recursive_partial :
  forall F (o : Ops F) c grids vals lin maxdims s,
  ovf_checks c = true -> mccr_new o c maxdims grids vals lin = Ok s -> zlen vals = zprod (map zlen grids).
Proof. intros; eapply size_mccr; eauto. Qed.
Print Assumptions C15_cubic_rectilinear_recursive_partial.

(** In every build the check holds modulo 2^64, so it is exact for every grid with fewer than 2^64 nodes
    (in particular for every rectilinear grid of a dimension and size that fits in memory). *)
Theorem C15_regular_all_builds_partial :
  forall F (o : Ops F) c dims starts steps vals maxdims lin, let n := zprod dims mod 2 ^ 64 in
  (forall s, mlr_new o c dims starts steps vals = Ok s -> zlen vals = n) /\
  (forall s, mlrr_new o c maxdims dims starts steps vals = Ok s -> zlen vals = n) /\
  (forall s, nr_new o c dims starts steps vals = Ok s -> zlen vals = n) /\
  (forall s, mcr_new o c dims starts steps vals lin = Ok s -> zlen vals = n) /\
  (forall s, mcrr_new o c maxdims dims starts steps vals lin = Ok s -> zlen vals = n).
Proof. intros F o c dims starts steps vals maxdims lin. exact (sizes_regular o c dims starts steps vals maxdims lin). Qed.
Print Assumptions C15_regular_all_builds_partial.
Theorem C15_rectilinear_all_builds_partial :
  forall F (o : Ops F) c grids vals maxdims lin, let n := zprod (map zlen grids) mod 2 ^ 64 in
  (forall s, mlc_new o c grids vals = Ok s -> zlen vals = n) /\
  (forall s, mlcr_new o c maxdims grids vals = Ok s -> zlen vals = n) /\
  (forall s, nc_new o c grids vals = Ok s -> zlen vals = n) /\
  (forall s, mcc_new o c grids vals lin = Ok s -> zlen vals = n) /\
  (forall s, mccr_new o c maxdims grids vals lin = Ok s -> zlen vals = n).
Proof. intros F o c grids vals maxdims lin. exact (sizes_rectilinear o c vals grids maxdims lin). Qed.
Print Assumptions C15_rectilinear_all_builds_partial.
Example C15_all_builds_ex : zlen lin_vals = zprod lin_dims mod 2 ^ 64.
Proof. exact (proj1 (@C15_regular_all_builds_partial _ F64Ops plain lin_dims lin_starts lin_steps lin_vals 8%nat true) _ lin_new). Qed.
Example C15_ex : zlen lin_vals = zprod lin_dims.
Proof. eapply C15_linear_regular_partial; [|apply lin_new]. reflexivity. Qed.

(** * C16: interpn reports mismatched lengths as errors, leaving the output alone *)
Theorem C16_linear_regular :
  forall F (o : Ops F) c dims starts steps vals obs out,
  prefix_products_fit dims ->
  ~ ((1 <= length dims <= 8)%nat /\ length starts = length dims /\
     length steps = length dims /\ length obs = length dims /\
     Forall (fun xs => length xs = length out) obs) ->
  exists e, mlr_interpn o c dims starts steps vals obs out = (Err e, out).
Proof. intros; apply interpn_err_mlr; auto. Qed.
Print Assumptions C16_linear_regular.

Theorem C16_linear_regular_recursive :
  forall F (o : Ops F) c dims starts steps vals obs out,
  prefix_products_fit dims ->
  ~ ((1 <= length dims <= 8)%nat /\ length starts = length dims /\
     length steps = length dims /\ length obs = length dims /\
     Forall (fun xs => length xs = length out) obs) ->
  exists e, mlrr_interpn o c dims starts steps vals obs out = (Err e, out).
Proof. intros; apply interpn_err_mlrr; auto. Qed.
Print Assumptions C16_linear_regular_recursive.

Theorem C16_linear_rectilinear :
  forall F (o : Ops F) c grids vals obs out,
  prefix_products_fit (map zlen grids) ->
  ~ ((1 <= length grids <= 8)%nat /\ length obs = length grids /\
     Forall (fun xs => length xs = length out) obs) ->
  exists e, mlc_interpn o c grids vals obs out = (Err e, out).
Proof. intros; apply interpn_err_mlc; auto. Qed.
Print Assumptions C16_linear_rectilinear.

Theorem C16_linear_rectilinear_recursive :
  forall F (o : Ops F) c grids vals obs out,
  prefix_products_fit (map zlen grids) ->
  ~ ((1 <= length grids <= 8)%nat /\ length obs = length grids /\
     Forall (fun xs => length xs = length out) obs) ->
  exists e, mlcr_interpn o c grids vals obs out = (Err e, out).
Proof. intros; apply interpn_err_mlcr; auto. Qed.
Print Assumptions C16_linear_rectilinear_recursive.

Theorem C16_nearest_regular :
  forall F (o : Ops F) c dims starts steps vals obs out,
  prefix_products_fit dims ->
  ~ ((1 <= length dims <= 6)%nat /\ length starts = length dims /\
     length steps = length dims /\ length obs = length dims /\
     Forall (fun xs => length xs = length out) obs) ->
  exists e, nr_interpn o c dims starts steps vals obs out = (Err e, out).
Proof. intros; apply interpn_err_nr; auto. Qed.
Print Assumptions C16_nearest_regular.

Theorem C16_nearest_rectilinear :
  forall F (o : Ops F) c grids vals obs out,
  prefix_products_fit (map zlen grids) ->
  ~ ((1 <= length grids <= 6)%nat /\ length obs = length grids /\
     Forall (fun xs => length xs = length out) obs) ->
  exists e, nc_interpn o c grids vals obs out = (Err e, out).
Proof. intros; apply interpn_err_nc; auto. Qed.
Print Assumptions C16_nearest_rectilinear.

Theorem C16_cubic_regular_recursive :
  forall F (o : Ops F) c dims starts steps vals lin obs out,
  prefix_products_fit dims ->
  ~ ((1 <= length dims <= 8)%nat /\ length starts = length dims /\
     length steps = length dims /\ length obs = length dims /\
     Forall (fun xs => length xs = length out) obs) ->
  exists e, mcrr_interpn o c dims starts steps vals lin obs out = (Err e, out).
Proof. intros; apply interpn_err_mcrr; auto. Qed.
Print Assumptions C16_cubic_regular_recursive.

Theorem C16_cubic_rectilinear_recursive :
  forall F (o : Ops F) c grids vals lin obs out,
  prefix_products_fit (map zlen grids) ->
  ~ ((1 <= length grids <= 8)%nat /\ length obs = length grids /\
     Forall (fun xs => length xs = length out) obs) ->
  exists e, mccr_interpn o c grids vals lin obs out = (Err e, out).
Proof. intros; apply interpn_err_mccr; auto. Qed.
Print Assumptions C16_cubic_rectilinear_recursive.

Example C16_ex : exists e, mlr_interpn F64Ops plain lin_dims lin_starts [] lin_vals [] [z64 1] = (Err e, [z64 1]).
Proof. apply C16_linear_regular; [apply C14_sizes_ex|]. intros (_ & _ & H & _). discriminate H. Qed.

(** The cubic functions panic instead, for 1 to 4 axes. *)
Theorem C16_cubic_regular_refuted :
  exists dims starts steps vals obs out,
  prefix_products_fit dims /\ length starts = length dims /\ length steps = length dims /\
  length obs <> length dims /\
  mcr_interpn F64Ops release dims starts steps vals true obs out = (Panic, out).
Proof. 
  exists cub_dims, cub_starts, cub_steps, cub_vals, [], [].
  split; [|split; [reflexivity|split; [reflexivity|split; [discriminate|vm_compute; reflexivity]]]].
  intros [|[|[|k]]]; try (vm_compute; split; congruence).
 Qed.
Print Assumptions C16_cubic_regular_refuted.

Theorem C16_cubic_rectilinear_refuted :
  exists grids vals obs out,
  length obs <> length grids /\
  mcc_interpn F64Ops release grids vals true obs out = (Panic, out).
Proof. 
  exists cub_grids, cub_vals, [], []. split; [discriminate|vm_compute; reflexivity].
 Qed.
Print Assumptions C16_cubic_rectilinear_refuted.

(** They return errors if the numbers of arrays match, or with five or more axes. *)
Theorem C16_cubic_regular_partial :
  forall F (o : Ops F) c dims starts steps vals lin obs out,
  prefix_products_fit dims ->
  ~ ((1 <= length dims <= 8)%nat /\ length starts = length dims /\
     length steps = length dims /\ length obs = length dims /\
     Forall (fun xs => length xs = length out) obs) ->
  (1 <= length dims <= 4)%nat -> length starts = length dims -> length steps = length dims ->
  length obs = length dims ->
  exists e, mcr_interpn o c dims starts steps vals lin obs out = (Err e, out).
Proof. intros; apply interpn_err_mcr; auto. Qed.
Print Assumptions C16_cubic_regular_partial.

Theorem C16_cubic_regular_big_partial :
  forall F (o : Ops F) c dims starts steps vals lin obs out,
  prefix_products_fit dims ->
  ~ ((1 <= length dims <= 8)%nat /\ length starts = length dims /\
     length steps = length dims /\ length obs = length dims /\
     Forall (fun xs => length xs = length out) obs) ->
  ~ (1 <= length dims <= 4)%nat ->
  exists e, mcr_interpn o c dims starts steps vals lin obs out = (Err e, out).
Proof. intros; apply interpn_err_mcr_big; auto. Qed.
Print Assumptions C16_cubic_regular_big_partial.

Theorem C16_cubic_rectilinear_partial :
  forall F (o : Ops F) c grids vals lin obs out,
  prefix_products_fit (map zlen grids) ->
  ~ ((1 <= length grids <= 8)%nat /\ length obs = length grids /\
     Forall (fun xs => length xs = length out) obs) ->
  (1 <= length grids <= 4)%nat -> length obs = length grids ->
  exists e, mcc_interpn o c grids vals lin obs out = (Err e, out).
Proof. intros; apply interpn_err_mcc; auto. Qed.
Print Assumptions C16_cubic_rectilinear_partial.

Theorem C16_cubic_rectilinear_big_partial :
  forall F (o : Ops F) c grids vals lin obs out,
  prefix_products_fit (map zlen grids) ->
  ~ ((1 <= length grids <= 8)%nat /\ length obs = length grids /\
     Forall (fun xs => length xs = length out) obs) ->
  ~ (1 <= length grids <= 4)%nat ->
  exists e, mcc_interpn o c grids vals lin obs out = (Err e, out).
Proof. intros; apply interpn_err_mcc_big; auto. Qed.
Print Assumptions C16_cubic_rectilinear_big_partial.

(** * C17, C18: batches.
    [batch_spec] is in Spec.v: on success every output is the result of its own point;
    at the first failing point the earlier outputs are written, the others untouched. On
    rectilinear grids no point fails, so there C18 says that every batch of matching lengths
    succeeds. *)
Theorem C17_linear_regular :
  forall F (o : Ops F) c (s : regular F) obs out,
  length obs = length (r_dims s) -> Forall (fun xs => length xs = length out) obs ->
  batch_spec (fzero o) (mlr_interp_one o c s) obs out
    (fst (mlr_interp o c s obs out)) (snd (mlr_interp o c s obs out)).
Proof. intros; unfold mlr_interp; apply interp_batch_spec; auto. Qed.
Print Assumptions C17_linear_regular.

Theorem C18_linear_regular :
  forall F (o : Ops F) c (s : regular F) obs out i vs e,
  length obs = length (r_dims s) -> Forall (fun xs => length xs = length out) obs ->
  first_failure (fzero o) (mlr_interp_one o c s) obs out i vs e ->
  mlr_interp o c s obs out = (Err e, (vs ++ skipn i out)%list).
Proof. intros; eapply batch_stops_pair; [apply C17_linear_regular; eauto|eassumption]. Qed.
Print Assumptions C18_linear_regular.

Theorem C18_linear_regular_mismatch :
  forall F (o : Ops F) c (s : regular F) obs out,
  length obs <> length (r_dims s) \/ ~ Forall (fun xs => length xs = length out) obs ->
  mlr_interp o c s obs out = (Err "Dimension mismatch", out).
Proof. intros; unfold mlr_interp; apply interp_batch_mismatch; auto. Qed.
Print Assumptions C18_linear_regular_mismatch.

Theorem C17_linear_regular_recursive :
  forall F (o : Ops F) c maxdims (s : regular F) obs out,
  length obs = length (r_dims s) -> Forall (fun xs => length xs = length out) obs ->
  batch_spec (fzero o) (mlrr_interp_one o c maxdims s) obs out
    (fst (mlrr_interp o c maxdims s obs out)) (snd (mlrr_interp o c maxdims s obs out)).
Proof. intros; unfold mlrr_interp; apply interp_batch_spec; auto. Qed.
Print Assumptions C17_linear_regular_recursive.

Theorem C18_linear_regular_recursive :
  forall F (o : Ops F) c maxdims (s : regular F) obs out i vs e,
  length obs = length (r_dims s) -> Forall (fun xs => length xs = length out) obs ->
  first_failure (fzero o) (mlrr_interp_one o c maxdims s) obs out i vs e ->
  mlrr_interp o c maxdims s obs out = (Err e, (vs ++ skipn i out)%list).
Proof. intros; eapply batch_stops_pair; [apply C17_linear_regular_recursive; eauto|eassumption]. Qed.
Print Assumptions C18_linear_regular_recursive.

Theorem C18_linear_regular_recursive_mismatch :
  forall F (o : Ops F) c maxdims (s : regular F) obs out,
  length obs <> length (r_dims s) \/ ~ Forall (fun xs => length xs = length out) obs ->
  mlrr_interp o c maxdims s obs out = (Err "Dimension mismatch", out).
Proof. intros; unfold mlrr_interp; apply interp_batch_mismatch; auto. Qed.
Print Assumptions C18_linear_regular_recursive_mismatch.

Theorem C17_nearest_regular :
  forall F (o : Ops F) c (s : regular F) obs out,
  length obs = length (r_dims s) -> Forall (fun xs => length xs = length out) obs ->
  batch_spec (fzero o) (nr_interp_one o c s) obs out
    (fst (nr_interp o c s obs out)) (snd (nr_interp o c s obs out)).
Proof. intros; unfold nr_interp; apply interp_batch_spec; auto. Qed.
Print Assumptions C17_nearest_regular.

Theorem C18_nearest_regular :
  forall F (o : Ops F) c (s : regular F) obs out i vs e,
  length obs = length (r_dims s) -> Forall (fun xs => length xs = length out) obs ->
  first_failure (fzero o) (nr_interp_one o c s) obs out i vs e ->
  nr_interp o c s obs out = (Err e, (vs ++ skipn i out)%list).
Proof. intros; eapply batch_stops_pair; [apply C17_nearest_regular; eauto|eassumption]. Qed.
Print Assumptions C18_nearest_regular.

Theorem C18_nearest_regular_mismatch :
  forall F (o : Ops F) c (s : regular F) obs out,
  length obs <> length (r_dims s) \/ ~ Forall (fun xs => length xs = length out) obs ->
  nr_interp o c s obs out = (Err "Dimension mismatch", out).
Proof. intros; unfold nr_interp; apply interp_batch_mismatch; auto. Qed.
Print Assumptions C18_nearest_regular_mismatch.

Theorem C17_cubic_regular :
  forall F (o : Ops F) c (s : @cubic_regular F) obs out,
  length obs = length (r_dims (cr_base s)) -> Forall (fun xs => length xs = length out) obs ->
  batch_spec (fzero o) (mcr_interp_one o c s) obs out
    (fst (mcr_interp o c s obs out)) (snd (mcr_interp o c s obs out)).
Proof. intros; unfold mcr_interp; apply interp_batch_spec; auto. Qed.
Print Assumptions C17_cubic_regular.

Theorem C18_cubic_regular :
  forall F (o : Ops F) c (s : @cubic_regular F) obs out i vs e,
  length obs = length (r_dims (cr_base s)) -> Forall (fun xs => length xs = length out) obs ->
  first_failure (fzero o) (mcr_interp_one o c s) obs out i vs e ->
  mcr_interp o c s obs out = (Err e, (vs ++ skipn i out)%list).
Proof. intros; eapply batch_stops_pair; [apply C17_cubic_regular; eauto|eassumption]. Qed.
Print Assumptions C18_cubic_regular.

Theorem C18_cubic_regular_mismatch :
  forall F (o : Ops F) c (s : @cubic_regular F) obs out,
  length obs <> length (r_dims (cr_base s)) \/ ~ Forall (fun xs => length xs = length out) obs ->
  mcr_interp o c s obs out = (Err "Dimension mismatch", out).
Proof. intros; unfold mcr_interp; apply interp_batch_mismatch; auto. Qed.
Print Assumptions C18_cubic_regular_mismatch.

Theorem C17_cubic_regular_recursive :
  forall F (o : Ops F) c maxdims (s : @cubic_regular F) obs out,
  length obs = length (r_dims (cr_base s)) -> Forall (fun xs => length xs = length out) obs ->
  batch_spec (fzero o) (mcrr_interp_one o c maxdims s) obs out
    (fst (mcrr_interp o c maxdims s obs out)) (snd (mcrr_interp o c maxdims s obs out)).
Proof. intros; unfold mcrr_interp; apply interp_batch_spec; auto. Qed.
Print Assumptions C17_cubic_regular_recursive.

Theorem C18_cubic_regular_recursive :
  forall F (o : Ops F) c maxdims (s : @cubic_regular F) obs out i vs e,
  length obs = length (r_dims (cr_base s)) -> Forall (fun xs => length xs = length out) obs ->
  first_failure (fzero o) (mcrr_interp_one o c maxdims s) obs out i vs e ->
  mcrr_interp o c maxdims s obs out = (Err e, (vs ++ skipn i out)%list).
Proof. intros; eapply batch_stops_pair; [apply C17_cubic_regular_recursive; eauto|eassumption]. Qed.
Print Assumptions C18_cubic_regular_recursive.

Theorem C18_cubic_regular_recursive_mismatch :
  forall F (o : Ops F) c maxdims (s : @cubic_regular F) obs out,
  length obs <> length (r_dims (cr_base s)) \/ ~ Forall (fun xs => length xs = length out) obs ->
  mcrr_interp o c maxdims s obs out = (Err "Dimension mismatch", out).
Proof. intros; unfold mcrr_interp; apply interp_batch_mismatch; auto. Qed.
Print Assumptions C18_cubic_regular_recursive_mismatch.

Theorem C17_linear_rectilinear :
  forall F (o : Ops F) c (s : rectilinear F) obs out,
  length obs = length (g_dims s) -> Forall (fun xs => length xs = length out) obs ->
  batch_spec (fzero o) (mlc_interp_one o c s) obs out
    (fst (mlc_interp o c s obs out)) (snd (mlc_interp o c s obs out)).
Proof. intros; unfold mlc_interp; apply interp_batch_spec; auto. Qed.
Print Assumptions C17_linear_rectilinear.

Theorem C18_linear_rectilinear :
  forall F (o : Ops F) c grids vals s obs out,
  rect_input c grids vals -> mlc_new o c grids vals = Ok s ->
  length obs = length grids -> Forall (fun xs => length xs = length out) obs ->
  exists vs, mlc_interp o c s obs out = (Ok tt, vs) /\ length vs = length out.
Proof.
  intros F o c grids vals s obs out H Hs Lo Ha. assert (Hs' := Hs). apply mlc_new_inv in Hs'; auto. destruct Hs' as (W & -> ).
  eapply (@batch_never F (fzero o) (length grids)); [apply C17_linear_rectilinear; auto; simpl; rewrite ?map_length; auto|exact Lo|].
  intros x Lx. eapply total_mlc; eauto.
Qed.
Print Assumptions C18_linear_rectilinear.

Theorem C18_linear_rectilinear_mismatch :
  forall F (o : Ops F) c (s : rectilinear F) obs out,
  length obs <> length (g_dims s) \/ ~ Forall (fun xs => length xs = length out) obs ->
  mlc_interp o c s obs out = (Err "Dimension mismatch", out).
Proof. intros; unfold mlc_interp; apply interp_batch_mismatch; auto. Qed.
Print Assumptions C18_linear_rectilinear_mismatch.

Theorem C17_linear_rectilinear_recursive :
  forall F (o : Ops F) c maxdims (s : rectilinear F) obs out,
  length obs = length (g_grids s) -> Forall (fun xs => length xs = length out) obs ->
  batch_spec (fzero o) (mlcr_interp_one o c maxdims s) obs out
    (fst (mlcr_interp o c maxdims s obs out)) (snd (mlcr_interp o c maxdims s obs out)).
Proof. intros; unfold mlcr_interp; apply interp_batch_spec; auto. Qed.
Print Assumptions C17_linear_rectilinear_recursive.

Theorem C18_linear_rectilinear_recursive :
  forall F (o : Ops F) c grids vals maxdims s obs out,
  rect_input c grids vals -> mlcr_new o c maxdims grids vals = Ok s ->
  length obs = length grids -> Forall (fun xs => length xs = length out) obs ->
  exists vs, mlcr_interp o c maxdims s obs out = (Ok tt, vs) /\ length vs = length out.
Proof.
  intros F o c grids vals maxdims s obs out H Hs Lo Ha. assert (Hs' := Hs). apply mlcr_new_inv in Hs'; auto. destruct Hs' as (W & -> & _).
  eapply (@batch_never F (fzero o) (length grids)); [apply C17_linear_rectilinear_recursive; auto; simpl; rewrite ?map_length; auto|exact Lo|].
  intros x Lx. eapply total_mlcr; eauto.
Qed.
Print Assumptions C18_linear_rectilinear_recursive.

Theorem C18_linear_rectilinear_recursive_mismatch :
  forall F (o : Ops F) c maxdims (s : rectilinear F) obs out,
  length obs <> length (g_grids s) \/ ~ Forall (fun xs => length xs = length out) obs ->
  mlcr_interp o c maxdims s obs out = (Err "Dimension mismatch", out).
Proof. intros; unfold mlcr_interp; apply interp_batch_mismatch; auto. Qed.
Print Assumptions C18_linear_rectilinear_recursive_mismatch.

Theorem C17_nearest_rectilinear :
  forall F (o : Ops F) c (s : rectilinear F) obs out,
  length obs = length (g_dims s) -> Forall (fun xs => length xs = length out) obs ->
  batch_spec (fzero o) (nc_interp_one o c s) obs out
    (fst (nc_interp o c s obs out)) (snd (nc_interp o c s obs out)).
Proof. intros; unfold nc_interp; apply interp_batch_spec; auto. Qed.
Print Assumptions C17_nearest_rectilinear.

Theorem C18_nearest_rectilinear :
  forall F (o : Ops F) c grids vals s obs out,
  rect_input c grids vals -> nc_new o c grids vals = Ok s ->
  length obs = length grids -> Forall (fun xs => length xs = length out) obs ->
  exists vs, nc_interp o c s obs out = (Ok tt, vs) /\ length vs = length out.
Proof.
  intros F o c grids vals s obs out H Hs Lo Ha. assert (Hs' := Hs). apply mlc_new_inv in Hs'; auto. destruct Hs' as (W & -> ).
  eapply (@batch_never F (fzero o) (length grids)); [apply C17_nearest_rectilinear; auto; simpl; rewrite ?map_length; auto|exact Lo|].
  intros x Lx. eapply total_nc; eauto.
Qed.
Print Assumptions C18_nearest_rectilinear.

Theorem C18_nearest_rectilinear_mismatch :
  forall F (o : Ops F) c (s : rectilinear F) obs out,
  length obs <> length (g_dims s) \/ ~ Forall (fun xs => length xs = length out) obs ->
  nc_interp o c s obs out = (Err "Dimension mismatch", out).
Proof. intros; unfold nc_interp; apply interp_batch_mismatch; auto. Qed.
Print Assumptions C18_nearest_rectilinear_mismatch.

Theorem C17_cubic_rectilinear :
  forall F (o : Ops F) c (s : @cubic_rect F) obs out,
  length obs = length (g_dims (cc_base s)) -> Forall (fun xs => length xs = length out) obs ->
  batch_spec (fzero o) (mcc_interp_one o c s) obs out
    (fst (mcc_interp o c s obs out)) (snd (mcc_interp o c s obs out)).
Proof. intros; unfold mcc_interp; apply interp_batch_spec; auto. Qed.
Print Assumptions C17_cubic_rectilinear.

Theorem C18_cubic_rectilinear :
  forall F (o : Ops F) c grids vals lin s obs out,
  rect_input c grids vals -> mcc_new o c grids vals lin = Ok s ->
  length obs = length grids -> Forall (fun xs => length xs = length out) obs ->
  exists vs, mcc_interp o c s obs out = (Ok tt, vs) /\ length vs = length out.
Proof.
  intros F o c grids vals lin s obs out H Hs Lo Ha. assert (Hs' := Hs). apply mcc_new_inv in Hs'; auto. destruct Hs' as (W & -> ).
  eapply (@batch_never F (fzero o) (length grids)); [apply C17_cubic_rectilinear; auto; simpl; rewrite ?map_length; auto|exact Lo|].
  intros x Lx. eapply total_mcc; eauto.
Qed.
Print Assumptions C18_cubic_rectilinear.

Theorem C18_cubic_rectilinear_mismatch :
  forall F (o : Ops F) c (s : @cubic_rect F) obs out,
  length obs <> length (g_dims (cc_base s)) \/ ~ Forall (fun xs => length xs = length out) obs ->
  mcc_interp o c s obs out = (Err "Dimension mismatch", out).
Proof. intros; unfold mcc_interp; apply interp_batch_mismatch; auto. Qed.
Print Assumptions C18_cubic_rectilinear_mismatch.

Theorem C17_cubic_rectilinear_recursive :
  forall F (o : Ops F) c maxdims (s : @cubic_rect F) obs out,
  length obs = length (g_grids (cc_base s)) -> Forall (fun xs => length xs = length out) obs ->
  batch_spec (fzero o) (mccr_interp_one o c maxdims s) obs out
    (fst (mccr_interp o c maxdims s obs out)) (snd (mccr_interp o c maxdims s obs out)).
Proof. intros; unfold mccr_interp; apply interp_batch_spec; auto. Qed.
Print Assumptions C17_cubic_rectilinear_recursive.

Theorem C18_cubic_rectilinear_recursive :
  forall F (o : Ops F) c grids vals lin maxdims s obs out,
  rect_input c grids vals -> mccr_new o c maxdims grids vals lin = Ok s ->
  length obs = length grids -> Forall (fun xs => length xs = length out) obs ->
  exists vs, mccr_interp o c maxdims s obs out = (Ok tt, vs) /\ length vs = length out.
Proof.
  intros F o c grids vals lin maxdims s obs out H Hs Lo Ha. assert (Hs' := Hs). apply mccr_new_inv in Hs'; auto. destruct Hs' as (W & -> & _).
  eapply (@batch_never F (fzero o) (length grids)); [apply C17_cubic_rectilinear_recursive; auto; simpl; rewrite ?map_length; auto|exact Lo|].
  intros x Lx. eapply total_mccr; eauto.
Qed.
Print Assumptions C18_cubic_rectilinear_recursive.

Theorem C18_cubic_rectilinear_recursive_mismatch :
  forall F (o : Ops F) c maxdims (s : @cubic_rect F) obs out,
  length obs <> length (g_grids (cc_base s)) \/ ~ Forall (fun xs => length xs = length out) obs ->
  mccr_interp o c maxdims s obs out = (Err "Dimension mismatch", out).
Proof. intros; unfold mccr_interp; apply interp_batch_mismatch; auto. Qed.
Print Assumptions C18_cubic_rectilinear_recursive_mismatch.

Theorem C17_one_dim :
  forall F (o : Ops F) (one : F -> outcome F) locs out,
  length locs = length out ->
  batch_spec (fzero o) (fun x => match x with [l] => one l | _ => Panic end) [locs] out
    (fst (eval1 one locs out)) (snd (eval1 one locs out)).
Proof. intros; apply eval1_spec; auto. Qed.
Print Assumptions C17_one_dim.

Theorem C18_one_dim :
  forall F (o : Ops F) (one : F -> outcome F) locs out i vs e,
  length locs = length out ->
  first_failure (fzero o) (fun x => match x with [l] => one l | _ => Panic end) [locs] out i vs e ->
  eval1 one locs out = (Err e, (vs ++ skipn i out)%list).
Proof. intros; eapply batch_stops_pair; [apply C17_one_dim; eauto|eassumption]. Qed.
Print Assumptions C18_one_dim.

Theorem C18_one_dim_mismatch :
  forall F (one : F -> outcome F) locs out,
  length locs <> length out -> eval1 one locs out = (Err "Length mismatch", out).
Proof. intros; apply eval1_mismatch; auto. Qed.
Print Assumptions C18_one_dim_mismatch.

(** interpn runs the constructor once and then the batch. *)
Theorem C17_interpn_linear_regular :
  forall F (o : Ops F) c dims starts steps vals obs out s,
  (1 <= length dims <= 6)%nat -> length starts = length dims -> length steps = length dims ->
  length obs = length dims -> Forall (fun xs => length xs = length out) obs ->
  mlr_new o c dims starts steps vals = Ok s ->
  let r := mlr_interpn o c dims starts steps vals obs out in
  batch_spec (fzero o) (mlr_interp_one o c s) obs out (fst r) (snd r).
Proof. intros; apply interpn_batch_mlr; auto. Qed.
Print Assumptions C17_interpn_linear_regular.

Theorem C18_interpn_linear_regular :
  forall F (o : Ops F) c dims starts steps vals obs out s i vs e,
  (1 <= length dims <= 6)%nat -> length starts = length dims -> length steps = length dims ->
  length obs = length dims -> Forall (fun xs => length xs = length out) obs ->
  mlr_new o c dims starts steps vals = Ok s ->
  first_failure (fzero o) (mlr_interp_one o c s) obs out i vs e ->
  mlr_interpn o c dims starts steps vals obs out = (Err e, (vs ++ skipn i out)%list).
Proof. intros; eapply batch_stops_pair; [apply C17_interpn_linear_regular; eauto|eassumption]. Qed.
Print Assumptions C18_interpn_linear_regular.

Theorem C17_interpn_linear_regular_7_8 :
  forall F (o : Ops F) c dims starts steps vals obs out s,
  (7 <= length dims <= 8)%nat -> length starts = length dims -> length steps = length dims ->
  length obs = length dims -> Forall (fun xs => length xs = length out) obs ->
  mlrr_new o c (length dims) dims starts steps vals = Ok s ->
  let r := mlr_interpn o c dims starts steps vals obs out in
  batch_spec (fzero o) (mlrr_interp_one o c (length dims) s) obs out (fst r) (snd r).
Proof. intros; apply interpn_batch_mlrr; auto. Qed.
Print Assumptions C17_interpn_linear_regular_7_8.

Theorem C18_interpn_linear_regular_7_8 :
  forall F (o : Ops F) c dims starts steps vals obs out s i vs e,
  (7 <= length dims <= 8)%nat -> length starts = length dims -> length steps = length dims ->
  length obs = length dims -> Forall (fun xs => length xs = length out) obs ->
  mlrr_new o c (length dims) dims starts steps vals = Ok s ->
  first_failure (fzero o) (mlrr_interp_one o c (length dims) s) obs out i vs e ->
  mlr_interpn o c dims starts steps vals obs out = (Err e, (vs ++ skipn i out)%list).
Proof. intros; eapply batch_stops_pair; [apply C17_interpn_linear_regular_7_8; eauto|eassumption]. Qed.
Print Assumptions C18_interpn_linear_regular_7_8.

Theorem C17_interpn_linear_rectilinear :
  forall F (o : Ops F) c grids vals obs out s,
  (1 <= length grids <= 6)%nat -> length obs = length grids -> Forall (fun xs => length xs = length out) obs ->
  mlc_new o c grids vals = Ok s ->
  let r := mlc_interpn o c grids vals obs out in
  batch_spec (fzero o) (mlc_interp_one o c s) obs out (fst r) (snd r).
Proof. intros; apply interpn_batch_mlc; auto. Qed.
Print Assumptions C17_interpn_linear_rectilinear.

Theorem C18_interpn_linear_rectilinear :
  forall F (o : Ops F) c grids vals s obs out,
  (1 <= length grids <= 6)%nat -> rect_input c grids vals -> mlc_new o c grids vals = Ok s ->
  length obs = length grids -> Forall (fun xs => length xs = length out) obs ->
  exists vs, mlc_interpn o c grids vals obs out = (Ok tt, vs) /\ length vs = length out.
Proof.
  intros F o c grids vals s obs out Hn H Hs Lo Ha.
  eapply (@batch_never F (fzero o) (length grids)); [eapply C17_interpn_linear_rectilinear; eauto|exact Lo|].
  intros x Lx. eapply total_mlc; eauto.
Qed.
Print Assumptions C18_interpn_linear_rectilinear.

Theorem C17_interpn_linear_rectilinear_7_8 :
  forall F (o : Ops F) c grids vals obs out s,
  (7 <= length grids <= 8)%nat -> length obs = length grids -> Forall (fun xs => length xs = length out) obs ->
  mlcr_new o c (length grids) grids vals = Ok s ->
  let r := mlc_interpn o c grids vals obs out in
  batch_spec (fzero o) (mlcr_interp_one o c (length grids) s) obs out (fst r) (snd r).
Proof. intros; apply interpn_batch_mlcr; auto. Qed.
Print Assumptions C17_interpn_linear_rectilinear_7_8.

Theorem C18_interpn_linear_rectilinear_7_8 :
  forall F (o : Ops F) c grids vals s obs out,
  (7 <= length grids <= 8)%nat -> rect_input c grids vals -> mlcr_new o c (length grids) grids vals = Ok s ->
  length obs = length grids -> Forall (fun xs => length xs = length out) obs ->
  exists vs, mlc_interpn o c grids vals obs out = (Ok tt, vs) /\ length vs = length out.
Proof.
  intros F o c grids vals s obs out Hn H Hs Lo Ha.
  eapply (@batch_never F (fzero o) (length grids)); [eapply C17_interpn_linear_rectilinear_7_8; eauto|exact Lo|].
  intros x Lx. eapply total_mlcr; eauto.
Qed.
Print Assumptions C18_interpn_linear_rectilinear_7_8.

Theorem C17_interpn_nearest_regular :
  forall F (o : Ops F) c dims starts steps vals obs out s,
  (1 <= length dims <= 6)%nat -> length starts = length dims -> length steps = length dims ->
  length obs = length dims -> Forall (fun xs => length xs = length out) obs ->
  nr_new o c dims starts steps vals = Ok s ->
  let r := nr_interpn o c dims starts steps vals obs out in
  batch_spec (fzero o) (nr_interp_one o c s) obs out (fst r) (snd r).
Proof. intros; apply interpn_batch_nr; auto. Qed.
Print Assumptions C17_interpn_nearest_regular.

Theorem C18_interpn_nearest_regular :
  forall F (o : Ops F) c dims starts steps vals obs out s i vs e,
  (1 <= length dims <= 6)%nat -> length starts = length dims -> length steps = length dims ->
  length obs = length dims -> Forall (fun xs => length xs = length out) obs ->
  nr_new o c dims starts steps vals = Ok s ->
  first_failure (fzero o) (nr_interp_one o c s) obs out i vs e ->
  nr_interpn o c dims starts steps vals obs out = (Err e, (vs ++ skipn i out)%list).
Proof. intros; eapply batch_stops_pair; [apply C17_interpn_nearest_regular; eauto|eassumption]. Qed.
Print Assumptions C18_interpn_nearest_regular.

Theorem C17_interpn_nearest_rectilinear :
  forall F (o : Ops F) c grids vals obs out s,
  (1 <= length grids <= 6)%nat -> length obs = length grids -> Forall (fun xs => length xs = length out) obs ->
  nc_new o c grids vals = Ok s ->
  let r := nc_interpn o c grids vals obs out in
  batch_spec (fzero o) (nc_interp_one o c s) obs out (fst r) (snd r).
Proof. intros; apply interpn_batch_nc; auto. Qed.
Print Assumptions C17_interpn_nearest_rectilinear.

Theorem C18_interpn_nearest_rectilinear :
  forall F (o : Ops F) c grids vals s obs out,
  (1 <= length grids <= 6)%nat -> rect_input c grids vals -> nc_new o c grids vals = Ok s ->
  length obs = length grids -> Forall (fun xs => length xs = length out) obs ->
  exists vs, nc_interpn o c grids vals obs out = (Ok tt, vs) /\ length vs = length out.
Proof.
  intros F o c grids vals s obs out Hn H Hs Lo Ha.
  eapply (@batch_never F (fzero o) (length grids)); [eapply C17_interpn_nearest_rectilinear; eauto|exact Lo|].
  intros x Lx. eapply total_nc; eauto.
Qed.
Print Assumptions C18_interpn_nearest_rectilinear.

Theorem C17_interpn_cubic_regular :
  forall F (o : Ops F) c dims starts steps vals lin obs out s,
  (1 <= length dims <= 4)%nat -> length starts = length dims -> length steps = length dims ->
  length obs = length dims -> Forall (fun xs => length xs = length out) obs ->
  mcr_new o c dims starts steps vals lin = Ok s ->
  let r := mcr_interpn o c dims starts steps vals lin obs out in
  batch_spec (fzero o) (mcr_interp_one o c s) obs out (fst r) (snd r).
Proof. intros; apply interpn_batch_mcr; auto. Qed.
Print Assumptions C17_interpn_cubic_regular.

Theorem C18_interpn_cubic_regular :
  forall F (o : Ops F) c dims starts steps vals lin obs out s i vs e,
  (1 <= length dims <= 4)%nat -> length starts = length dims -> length steps = length dims ->
  length obs = length dims -> Forall (fun xs => length xs = length out) obs ->
  mcr_new o c dims starts steps vals lin = Ok s ->
  first_failure (fzero o) (mcr_interp_one o c s) obs out i vs e ->
  mcr_interpn o c dims starts steps vals lin obs out = (Err e, (vs ++ skipn i out)%list).
Proof. intros; eapply batch_stops_pair; [apply C17_interpn_cubic_regular; eauto|eassumption]. Qed.
Print Assumptions C18_interpn_cubic_regular.

Theorem C17_interpn_cubic_regular_5_8 :
  forall F (o : Ops F) c dims starts steps vals lin obs out s,
  (5 <= length dims <= 8)%nat -> length starts = length dims -> length steps = length dims ->
  length obs = length dims -> Forall (fun xs => length xs = length out) obs ->
  mcrr_new o c (length dims) dims starts steps vals lin = Ok s ->
  let r := mcr_interpn o c dims starts steps vals lin obs out in
  batch_spec (fzero o) (mcrr_interp_one o c (length dims) s) obs out (fst r) (snd r).
Proof. intros; apply interpn_batch_mcrr; auto. Qed.
Print Assumptions C17_interpn_cubic_regular_5_8.

Theorem C18_interpn_cubic_regular_5_8 :
  forall F (o : Ops F) c dims starts steps vals lin obs out s i vs e,
  (5 <= length dims <= 8)%nat -> length starts = length dims -> length steps = length dims ->
  length obs = length dims -> Forall (fun xs => length xs = length out) obs ->
  mcrr_new o c (length dims) dims starts steps vals lin = Ok s ->
  first_failure (fzero o) (mcrr_interp_one o c (length dims) s) obs out i vs e ->
  mcr_interpn o c dims starts steps vals lin obs out = (Err e, (vs ++ skipn i out)%list).
Proof. intros; eapply batch_stops_pair; [apply C17_interpn_cubic_regular_5_8; eauto|eassumption]. Qed.
Print Assumptions C18_interpn_cubic_regular_5_8.

Theorem C17_interpn_cubic_rectilinear :
  forall F (o : Ops F) c grids vals lin obs out s,
  (1 <= length grids <= 4)%nat -> length obs = length grids -> Forall (fun xs => length xs = length out) obs ->
  mcc_new o c grids vals lin = Ok s ->
  let r := mcc_interpn o c grids vals lin obs out in
  batch_spec (fzero o) (mcc_interp_one o c s) obs out (fst r) (snd r).
Proof. intros; apply interpn_batch_mcc; auto. Qed.
Print Assumptions C17_interpn_cubic_rectilinear.

Theorem C18_interpn_cubic_rectilinear :
  forall F (o : Ops F) c grids vals lin s obs out,
  (1 <= length grids <= 4)%nat -> rect_input c grids vals -> mcc_new o c grids vals lin = Ok s ->
  length obs = length grids -> Forall (fun xs => length xs = length out) obs ->
  exists vs, mcc_interpn o c grids vals lin obs out = (Ok tt, vs) /\ length vs = length out.
Proof.
  intros F o c grids vals lin s obs out Hn H Hs Lo Ha.
  eapply (@batch_never F (fzero o) (length grids)); [eapply C17_interpn_cubic_rectilinear; eauto|exact Lo|].
  intros x Lx. eapply total_mcc; eauto.
Qed.
Print Assumptions C18_interpn_cubic_rectilinear.

Theorem C17_interpn_cubic_rectilinear_5_8 :
  forall F (o : Ops F) c grids vals lin obs out s,
  (5 <= length grids <= 8)%nat -> length obs = length grids -> Forall (fun xs => length xs = length out) obs ->
  mccr_new o c (length grids) grids vals lin = Ok s ->
  let r := mcc_interpn o c grids vals lin obs out in
  batch_spec (fzero o) (mccr_interp_one o c (length grids) s) obs out (fst r) (snd r).
Proof. intros; apply interpn_batch_mccr; auto. Qed.
Print Assumptions C17_interpn_cubic_rectilinear_5_8.

Theorem C18_interpn_cubic_rectilinear_5_8 :
  forall F (o : Ops F) c grids vals lin s obs out,
  (5 <= length grids <= 8)%nat -> rect_input c grids vals -> mccr_new o c (length grids) grids vals lin = Ok s ->
  length obs = length grids -> Forall (fun xs => length xs = length out) obs ->
  exists vs, mcc_interpn o c grids vals lin obs out = (Ok tt, vs) /\ length vs = length out.
Proof.
  intros F o c grids vals lin s obs out Hn H Hs Lo Ha.
  eapply (@batch_never F (fzero o) (length grids)); [eapply C17_interpn_cubic_rectilinear_5_8; eauto|exact Lo|].
  intros x Lx. eapply total_mccr; eauto.
Qed.
Print Assumptions C18_interpn_cubic_rectilinear_5_8.

Example C17_ex : ok_is (mlr_interp_one F64Ops plain lin_s [z64 0; z64 1])
    (nth 1 (snd (mlr_interp F64Ops plain lin_s [[z64 7; z64 0]; [z64 2; z64 1]] [z64 5; z64 6])) (z64 0)) = true
  /\ fst (mlr_interp F64Ops plain lin_s [[z64 7; z64 0]; [z64 2; z64 1]] [z64 5; z64 6]) = Ok tt.
Proof. split; vm_compute; reflexivity. Qed.
(** a batch that fails at its second point: the first output is written, the third kept *)
Example C18_ex :
  let r := mlr_interp F64Ops plain lin_s [[z64 0; B754_nan; z64 0]; [z64 1; z64 1; z64 1]] [z64 5; z64 6; z64 7] in
  fst r = Err msg_repr /\ Beqb (nth 0 (snd r) (z64 0)) (z64 1) = true
  /\ Beqb (nth 2 (snd r) (z64 0)) (z64 7) = true.
Proof. split; [|split]; vm_compute; reflexivity. Qed.

(** the same through the theorem *)
Example C18_first_failure_ex : exists v,
  mlr_interp F64Ops plain lin_s [[z64 0; B754_nan; z64 0]; [z64 1; z64 1; z64 1]] [z64 5; z64 6; z64 7]
  = (Err msg_repr, [v; z64 6; z64 7]).
Proof.
  destruct (@is_ok_ex _ (mlr_interp_one F64Ops plain lin_s [z64 0; z64 1])) as (v & E); [vm_compute; reflexivity|].
  exists v. apply (@C18_linear_regular _ F64Ops plain lin_s [[z64 0; B754_nan; z64 0]; [z64 1; z64 1; z64 1]] [z64 5; z64 6; z64 7] 1 [v]).
  - reflexivity.
  - repeat (apply Forall_cons; [reflexivity|]). apply Forall_nil.
  - split; [apply Nat.leb_le; reflexivity|]. split; [reflexivity|]. split; [|vm_compute; reflexivity].
    intros [|j] Hj; [exact E|lia].
Qed.

(** * C19: locality *)
Theorem C19_linear_regular :
  forall F (o : Ops F) c dims starts steps x,
  usize_converts o -> length x = length dims ->
  exists os, forall vals vals' s s',
   reg_input c dims starts steps vals -> reg_input c dims starts steps vals' ->
   mlr_new o c dims starts steps vals = Ok s -> mlr_new o c dims starts steps vals' = Ok s' ->
   box_in_grid 2 dims os /\
   ((forall idx, in_box 2 os idx -> entry (fzero o) dims vals idx = entry (fzero o) dims vals' idx) ->
    mlr_interp_one o c s x = mlr_interp_one o c s' x).
Proof. intros; apply local_mlr; auto. Qed.
Print Assumptions C19_linear_regular.

Theorem C19_linear_regular_recursive :
  forall F (o : Ops F) c maxdims dims starts steps x,
  usize_converts o -> length x = length dims ->
  exists os, forall vals vals' s s',
   reg_input c dims starts steps vals -> reg_input c dims starts steps vals' ->
   mlrr_new o c maxdims dims starts steps vals = Ok s -> mlrr_new o c maxdims dims starts steps vals' = Ok s' ->
   box_in_grid 2 dims os /\
   ((forall idx, in_box 2 os idx -> entry (fzero o) dims vals idx = entry (fzero o) dims vals' idx) ->
    mlrr_interp_one o c maxdims s x = mlrr_interp_one o c maxdims s' x).
Proof. intros; apply local_mlrr; auto. Qed.
Print Assumptions C19_linear_regular_recursive.

Theorem C19_cubic_regular :
  forall F (o : Ops F) c dims starts steps lin x,
  usize_converts o -> length x = length dims ->
  exists os, forall vals vals' s s',
   reg_input c dims starts steps vals -> reg_input c dims starts steps vals' ->
   mcr_new o c dims starts steps vals lin = Ok s -> mcr_new o c dims starts steps vals' lin = Ok s' ->
   box_in_grid 4 dims os /\
   ((forall idx, in_box 4 os idx -> entry (fzero o) dims vals idx = entry (fzero o) dims vals' idx) ->
    mcr_interp_one o c s x = mcr_interp_one o c s' x).
Proof. intros; apply local_mcr; auto. Qed.
Print Assumptions C19_cubic_regular.

Theorem C19_cubic_regular_recursive :
  forall F (o : Ops F) c maxdims dims starts steps lin x,
  usize_converts o -> length x = length dims ->
  exists os, forall vals vals' s s',
   reg_input c dims starts steps vals -> reg_input c dims starts steps vals' ->
   mcrr_new o c maxdims dims starts steps vals lin = Ok s -> mcrr_new o c maxdims dims starts steps vals' lin = Ok s' ->
   box_in_grid 4 dims os /\
   ((forall idx, in_box 4 os idx -> entry (fzero o) dims vals idx = entry (fzero o) dims vals' idx) ->
    mcrr_interp_one o c maxdims s x = mcrr_interp_one o c maxdims s' x).
Proof. intros; apply local_mcrr; auto. Qed.
Print Assumptions C19_cubic_regular_recursive.

Theorem C19_linear_rectilinear :
  forall F (o : Ops F) c grids x,
  length x = length grids ->
  exists os, forall vals vals' s s',
   rect_input c grids vals -> rect_input c grids vals' ->
   mlc_new o c grids vals = Ok s -> mlc_new o c grids vals' = Ok s' ->
   box_in_grid 2 (map zlen grids) os /\
   ((forall idx, in_box 2 os idx -> entry (fzero o) (map zlen grids) vals idx = entry (fzero o) (map zlen grids) vals' idx) ->
    mlc_interp_one o c s x = mlc_interp_one o c s' x).
Proof. intros; apply local_mlc; auto. Qed.
Print Assumptions C19_linear_rectilinear.

Theorem C19_linear_rectilinear_recursive :
  forall F (o : Ops F) c maxdims grids x,
  length x = length grids ->
  exists os, forall vals vals' s s',
   rect_input c grids vals -> rect_input c grids vals' ->
   mlcr_new o c maxdims grids vals = Ok s -> mlcr_new o c maxdims grids vals' = Ok s' ->
   box_in_grid 2 (map zlen grids) os /\
   ((forall idx, in_box 2 os idx -> entry (fzero o) (map zlen grids) vals idx = entry (fzero o) (map zlen grids) vals' idx) ->
    mlcr_interp_one o c maxdims s x = mlcr_interp_one o c maxdims s' x).
Proof. intros; apply local_mlcr; auto. Qed.
Print Assumptions C19_linear_rectilinear_recursive.

Theorem C19_cubic_rectilinear :
  forall F (o : Ops F) c grids lin x,
  length x = length grids ->
  exists os, forall vals vals' s s',
   rect_input c grids vals -> rect_input c grids vals' ->
   mcc_new o c grids vals lin = Ok s -> mcc_new o c grids vals' lin = Ok s' ->
   box_in_grid 4 (map zlen grids) os /\
   ((forall idx, in_box 4 os idx -> entry (fzero o) (map zlen grids) vals idx = entry (fzero o) (map zlen grids) vals' idx) ->
    mcc_interp_one o c s x = mcc_interp_one o c s' x).
Proof. intros; apply local_mcc; auto. Qed.
Print Assumptions C19_cubic_rectilinear.

Theorem C19_cubic_rectilinear_recursive :
  forall F (o : Ops F) c maxdims grids lin x,
  length x = length grids ->
  exists os, forall vals vals' s s',
   rect_input c grids vals -> rect_input c grids vals' ->
   mccr_new o c maxdims grids vals lin = Ok s -> mccr_new o c maxdims grids vals' lin = Ok s' ->
   box_in_grid 4 (map zlen grids) os /\
   ((forall idx, in_box 4 os idx -> entry (fzero o) (map zlen grids) vals idx = entry (fzero o) (map zlen grids) vals' idx) ->
    mccr_interp_one o c maxdims s x = mccr_interp_one o c maxdims s' x).
Proof. intros; apply local_mccr; auto. Qed.
Print Assumptions C19_cubic_rectilinear_recursive.

Theorem C19_nearest_regular :
  forall F (o : Ops F) c dims starts steps x,
  usize_converts o -> length x = length dims ->
  exists node : outcome (list Z), forall vals s,
   reg_input c dims starts steps vals -> nr_new o c dims starts steps vals = Ok s ->
   match node with
   | Ok idx => in_shape dims idx /\ nr_interp_one o c s x = Ok (entry (fzero o) dims vals idx)
   | Err e => nr_interp_one o c s x = Err e
   | Panic => False
   end.
Proof. intros; apply local_nr; auto. Qed.
Print Assumptions C19_nearest_regular.

Theorem C19_nearest_rectilinear :
  forall F (o : Ops F) c grids x,
  length x = length grids ->
  exists idx, forall vals s,
   rect_input c grids vals -> nc_new o c grids vals = Ok s ->
   in_shape (map zlen grids) idx /\ nc_interp_one o c s x = Ok (entry (fzero o) (map zlen grids) vals idx).
Proof. intros; apply local_nc; auto. Qed.
Print Assumptions C19_nearest_rectilinear.

(** two value arrays that differ outside the footprint of the point *)
Example C19_ex :
  match mlr_interp_one F64Ops plain lin_s lin_pt,
        mlr_interp_one F64Ops plain (mkRegular lin_dims lin_starts lin_steps lin_vals') lin_pt with
  | Ok a, Ok b => Beqb a b
  | _, _ => false
  end = true
  /\ forallb (fun p => Beqb (fst p) (snd p)) (combine lin_vals lin_vals') = false.
Proof. split; vm_compute; reflexivity. Qed.

(** * C37: allocating variants.  [alloc_of] is in Spec.v. *)
Theorem C37_linear_regular :
  forall F (o : Ops F) c dims starts steps vals obs0 rest out,
  length out = length obs0 ->
  mlr_interpn_alloc o c dims starts steps vals (obs0 :: rest)
  = alloc_of (mlr_interpn o c dims starts steps vals (obs0 :: rest) out).
Proof. intros; apply alloc_mlr; auto. Qed.
Print Assumptions C37_linear_regular.

Theorem C37_linear_regular_recursive :
  forall F (o : Ops F) c dims starts steps vals obs0 rest out,
  length out = length obs0 ->
  mlrr_interpn_alloc o c dims starts steps vals (obs0 :: rest)
  = alloc_of (mlrr_interpn o c dims starts steps vals (obs0 :: rest) out).
Proof. intros; apply alloc_mlrr; auto. Qed.
Print Assumptions C37_linear_regular_recursive.

Theorem C37_nearest_regular :
  forall F (o : Ops F) c dims starts steps vals obs0 rest out,
  length out = length obs0 ->
  nr_interpn_alloc o c dims starts steps vals (obs0 :: rest)
  = alloc_of (nr_interpn o c dims starts steps vals (obs0 :: rest) out).
Proof. intros; apply alloc_nr; auto. Qed.
Print Assumptions C37_nearest_regular.

Theorem C37_cubic_regular :
  forall F (o : Ops F) c dims starts steps vals lin obs0 rest out,
  length out = length obs0 ->
  mcr_interpn_alloc o c dims starts steps vals lin (obs0 :: rest)
  = alloc_of (mcr_interpn o c dims starts steps vals lin (obs0 :: rest) out).
Proof. intros; apply alloc_mcr; auto. Qed.
Print Assumptions C37_cubic_regular.

Theorem C37_cubic_regular_recursive :
  forall F (o : Ops F) c dims starts steps vals lin obs0 rest out,
  length out = length obs0 ->
  mcrr_interpn_alloc o c dims starts steps vals lin (obs0 :: rest)
  = alloc_of (mcrr_interpn o c dims starts steps vals lin (obs0 :: rest) out).
Proof. intros; apply alloc_mcrr; auto. Qed.
Print Assumptions C37_cubic_regular_recursive.

Theorem C37_linear_rectilinear :
  forall F (o : Ops F) c grids vals obs0 rest out,
  length out = length obs0 ->
  mlc_interpn_alloc o c grids vals (obs0 :: rest)
  = alloc_of (mlc_interpn o c grids vals (obs0 :: rest) out).
Proof. intros; apply alloc_mlc; auto. Qed.
Print Assumptions C37_linear_rectilinear.

Theorem C37_linear_rectilinear_recursive :
  forall F (o : Ops F) c grids vals obs0 rest out,
  length out = length obs0 ->
  mlcr_interpn_alloc o c grids vals (obs0 :: rest)
  = alloc_of (mlcr_interpn o c grids vals (obs0 :: rest) out).
Proof. intros; apply alloc_mlcr; auto. Qed.
Print Assumptions C37_linear_rectilinear_recursive.

Theorem C37_nearest_rectilinear :
  forall F (o : Ops F) c grids vals obs0 rest out,
  length out = length obs0 ->
  nc_interpn_alloc o c grids vals (obs0 :: rest)
  = alloc_of (nc_interpn o c grids vals (obs0 :: rest) out).
Proof. intros; apply alloc_nc; auto. Qed.
Print Assumptions C37_nearest_rectilinear.

Theorem C37_cubic_rectilinear :
  forall F (o : Ops F) c grids vals lin obs0 rest out,
  length out = length obs0 ->
  mcc_interpn_alloc o c grids vals lin (obs0 :: rest)
  = alloc_of (mcc_interpn o c grids vals lin (obs0 :: rest) out).
Proof. intros; apply alloc_mcc; auto. Qed.
Print Assumptions C37_cubic_rectilinear.

Theorem C37_cubic_rectilinear_recursive :
  forall F (o : Ops F) c grids vals lin obs0 rest out,
  length out = length obs0 ->
  mccr_interpn_alloc o c grids vals lin (obs0 :: rest)
  = alloc_of (mccr_interpn o c grids vals lin (obs0 :: rest) out).
Proof. intros; apply alloc_mccr; auto. Qed.
Print Assumptions C37_cubic_rectilinear_recursive.

Theorem C37_one_dim :
  forall F (o : Ops F) (one : F -> outcome F) locs out,
  length out = length locs -> eval1_alloc o one locs = alloc_of (eval1 one locs out).
Proof. intros; apply alloc_eval1; auto. Qed.
Print Assumptions C37_one_dim.

Example C37_ex : is_ok (mlr_interpn_alloc F64Ops plain lin_dims lin_starts lin_steps lin_vals
   [[z64 1; z64 2]; [z64 3; z64 4]]) = true.
Proof. vm_compute. reflexivity. Qed.
(** without observation arrays the allocating variants panic *)
Example C37_empty_ex : mlr_interpn_alloc F64Ops plain lin_dims lin_starts lin_steps lin_vals [] = Panic.
Proof. vm_compute. reflexivity. Qed.
