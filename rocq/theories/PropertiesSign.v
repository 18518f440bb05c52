(** Property C86: multilinear interpolation on rectilinear grids in floating point keeps signs and
    bounds that are powers of two, exactly. *)
From Coq Require Import Reals Lra PeanoNat Bool Lia List String.
From Flocq Require Import Core.Core IEEE754.BinarySingleNaN.
From Verif Require Import Base Ops RInst FInst ModelCore ModelLinear ModelOneDim ModelPython Spec SpecOrder SpecIEEE SpecError SpecReal Interpolators SpecPython SpecDetect SpecPixel.
From Verif Require Import GenLemmas FLemmas FProofs FProofs2 FSign ExampleData.
From Verif Require Import PropertiesExact PropertiesFloat PropertiesError PropertiesPython PropertiesDetect.
Import ListNotations.
Open Scope string_scope.
Open Scope R_scope.
Unset Implicit Arguments.

(** * C86: if no stored value is negative and none is above 2^e, no result inside the grid is negative
    or above 2^e. (In particular probabilities stay between 0 and 1: e = 0.) *)
Theorem C86_nonnegative :
  forall prec emax (Hp : Prec_gt_0 prec) (He : Prec_lt_emax prec emax), let o := BOps Hp He in
  forall c grids vals eval (x : list (binary_float prec emax)) e,
  float_rectilinear Hp He c grids vals eval -> length x = length grids ->
  Forall (increasing_grid o) grids -> Forall (Forall moderate) grids -> Forall2 (SpecIEEE.inside_grid Hp He) grids x ->
  (2 <= prec)%Z -> (2 - emax <= e < emax)%Z ->
  Forall (fun v => is_finite v = true /\ 0 <= B2R v <= bpow radix2 e) vals ->
  exists v, eval x = Ok v /\ is_finite v = true /\ 0 <= B2R v <= bpow radix2 e.
Proof.
  intros prec emax Hp He o c grids vals eval x e H L I S P P2 E V.
  exact (rectilinear_kept prec emax Hp He c grids vals eval x _ _ H L I S P (kept_positive prec emax Hp He e P2 E) V).
Qed.
(** If the absolute value of no stored value is above 2^e, neither is that of the result. *)
Theorem C86_magnitude :
  forall prec emax (Hp : Prec_gt_0 prec) (He : Prec_lt_emax prec emax), let o := BOps Hp He in
  forall c grids vals eval (x : list (binary_float prec emax)) e,
  float_rectilinear Hp He c grids vals eval -> length x = length grids ->
  Forall (increasing_grid o) grids -> Forall (Forall moderate) grids -> Forall2 (SpecIEEE.inside_grid Hp He) grids x ->
  (2 <= prec)%Z -> (2 - emax <= e < emax - 1)%Z ->
  Forall (fun v => is_finite v = true /\ - bpow radix2 e <= B2R v <= bpow radix2 e) vals ->
  exists v, eval x = Ok v /\ is_finite v = true /\ - bpow radix2 e <= B2R v <= bpow radix2 e.
Proof.
  intros prec emax Hp He o c grids vals eval x e H L I S P P2 E V.
  exact (rectilinear_kept prec emax Hp He c grids vals eval x _ _ H L I S P (kept_symmetric prec emax Hp He e P2 E) V).
Qed.
(** The Python function interpn with method "linear", if the grids are not all evenly spaced. *)
Theorem C86_python :
  forall prec emax (Hp : Prec_gt_0 prec) (He : Prec_lt_emax prec emax), let o := BOps Hp He in
  forall c obs grids vals o0 lin assume atol e,
  let gs := map nd_data grids in let xs := map nd_data obs in
  good_call 2 o0 obs grids vals -> (1 <= length grids <= 8)%nat -> Forall (increasing_grid o) gs ->
  assume = false -> ~ Forall (evenly_spaced o) gs -> Forall (Forall moderate) gs ->
  (forall j, (j < length (nd_data o0))%nat -> Forall2 (SpecIEEE.inside_grid Hp He) gs (point_of (fzero o) xs j)) ->
  (2 <= prec)%Z -> (2 - emax <= e < emax)%Z ->
  Forall (fun v => is_finite v = true /\ 0 <= B2R v <= bpow radix2 e) (nd_data vals) ->
  exists r, fst (py_interpn o c obs grids vals "linear" None lin assume false atol) = Ret r /\
  nd_shape r = nd_shape o0 /\ length (nd_data r) = length (nd_data o0) /\
  Forall (fun y => is_finite y = true /\ 0 <= B2R y <= bpow radix2 e) (nd_data r).
Proof.
  intros prec emax Hp He o c obs grids vals o0 lin assume atol e gs xs Hc Hn Hi Ha Hne Hm Hx P2 E V.
  exact (python_kept prec emax Hp He c obs grids vals o0 lin assume atol _ _ Hc Hn Hi Ha Hne Hm Hx (kept_positive prec emax Hp He e P2 E) V).
Qed.

(** The same on regular grids that start at 0 and have steps that are powers of two. *)
Theorem C86_pixel_nonnegative :
  forall prec emax (Hp : Prec_gt_0 prec) (He : Prec_lt_emax prec emax),
  forall c dims starts steps vals eval (x : list (binary_float prec emax)) e,
  float_regular Hp He c dims starts steps vals eval -> length x = length dims -> (2 <= prec <= 63)%Z ->
  (forall k start step d xk, nth_error starts k = Some start -> nth_error steps k = Some step -> nth_error dims k = Some d ->
     nth_error x k = Some xk ->
     pixel_axis prec emax start step d /\ is_finite xk = true /\ 0 <= B2R xk <= B2R step * IZR (d - 1)) ->
  (2 - emax <= e < emax)%Z ->
  Forall (fun v => is_finite v = true /\ 0 <= B2R v <= bpow radix2 e) vals ->
  exists v, eval x = Ok v /\ is_finite v = true /\ 0 <= B2R v <= bpow radix2 e.
Proof.
  intros prec emax Hp He c dims starts steps vals eval x e H L P2 P E V.
  exact (regular_kept prec emax Hp He c dims starts steps vals eval x _ _ H L P2 P (kept_positive prec emax Hp He e (proj1 P2) E) V).
Qed.
Theorem C86_pixel_magnitude :
  forall prec emax (Hp : Prec_gt_0 prec) (He : Prec_lt_emax prec emax),
  forall c dims starts steps vals eval (x : list (binary_float prec emax)) e,
  float_regular Hp He c dims starts steps vals eval -> length x = length dims -> (2 <= prec <= 63)%Z ->
  (forall k start step d xk, nth_error starts k = Some start -> nth_error steps k = Some step -> nth_error dims k = Some d ->
     nth_error x k = Some xk ->
     pixel_axis prec emax start step d /\ is_finite xk = true /\ 0 <= B2R xk <= B2R step * IZR (d - 1)) ->
  (2 - emax <= e < emax - 1)%Z ->
  Forall (fun v => is_finite v = true /\ - bpow radix2 e <= B2R v <= bpow radix2 e) vals ->
  exists v, eval x = Ok v /\ is_finite v = true /\ - bpow radix2 e <= B2R v <= bpow radix2 e.
Proof.
  intros prec emax Hp He c dims starts steps vals eval x e H L P2 P E V.
  exact (regular_kept prec emax Hp He c dims starts steps vals eval x _ _ H L P2 P (kept_symmetric prec emax Hp He e (proj1 P2) E) V).
Qed.
(** The Python function on such grids. *)
Theorem C86_pixel_python :
  forall prec emax (Hp : Prec_gt_0 prec) (He : Prec_lt_emax prec emax), let o := BOps Hp He in
  forall c obs grids vals o0 lin assume atol e,
  let gs := map nd_data grids in let xs := map nd_data obs in
  good_call 2 o0 obs grids vals -> (1 <= length grids <= 8)%nat -> assume = true \/ Forall (evenly_spaced o) gs ->
  Forall (fun g => pixel_axis prec emax (nth 0 g (fzero o)) (first_step prec emax Hp He g) (zlen g)) gs ->
  (forall j, (j < length (nd_data o0))%nat ->
     Forall2 (fun g x => is_finite x = true /\ 0 <= B2R x <= B2R (first_step prec emax Hp He g) * IZR (zlen g - 1)) gs (point_of (fzero o) xs j)) ->
  (2 <= prec <= 63)%Z -> (2 - emax <= e < emax)%Z ->
  Forall (fun v => is_finite v = true /\ 0 <= B2R v <= bpow radix2 e) (nd_data vals) ->
  exists r, fst (py_interpn o c obs grids vals "linear" None lin assume false atol) = Ret r /\
  nd_shape r = nd_shape o0 /\ length (nd_data r) = length (nd_data o0) /\
  Forall (fun y => is_finite y = true /\ 0 <= B2R y <= bpow radix2 e) (nd_data r).
Proof.
  intros prec emax Hp He o c obs grids vals o0 lin assume atol e gs xs Hc Hn Ha Hg Hx P2 E V.
  exact (python_pixel_kept prec emax Hp He c obs grids vals o0 lin assume atol _ _ Hc Hn Ha Hg Hx P2 (kept_positive prec emax Hp He e (proj1 P2) E) V).
Qed.

(** ** Examples *)
Definition prob_vals : list f64 := [z64 1; tenth; z64 0; tenth; z64 1; f64_lit 3 (-3)].
Lemma prob_ok : Forall (fun v : f64 => is_finite v = true /\ 0 <= B2R v <= bpow radix2 0) prob_vals.
Proof. unfold prob_vals, tenth. change (bpow radix2 0) with 1. repeat (apply Forall_cons; [split; [reflexivity|real_lit]|]). apply Forall_nil. Qed.
Example C86_nonnegative_ex : exists s v, mlc_new F64Ops fused lin_grids prob_vals = Ok s /\
  mlc_interp_one F64Ops fused s [tenth; z64 2] = Ok v /\ is_finite v = true /\ 0 <= B2R v <= 1.
Proof.
  destruct (@is_ok_ex _ (mlc_new F64Ops fused lin_grids prob_vals)) as (s & E); [vm_compute; reflexivity|].
  assert (I : rect_input fused lin_grids prob_vals) by rect_ok.
  destruct (C86_nonnegative _ _ Hp64 He64 fused lin_grids prob_vals (mlc_interp_one F64Ops fused s) [tenth; z64 2] 0) as (v & H1 & H2).
  - apply float_rectilinear_flat; assumption.
  - reflexivity.
  - apply lin_inc.
  - apply lin_mod.
  - inside_ok.
  - lia.
  - lia.
  - apply prob_ok.
  - exists s, v. auto.
Qed.
Example C86_magnitude_ex : exists s v, mlc_new F64Ops fused lin_grids lin_vals = Ok s /\
  mlc_interp_one F64Ops fused s [tenth; z64 2] = Ok v /\ is_finite v = true /\ -16 <= B2R v <= 16.
Proof.
  destruct (@is_ok_ex _ (mlc_new F64Ops fused lin_grids lin_vals)) as (s & E); [vm_compute; reflexivity|].
  assert (I : rect_input fused lin_grids lin_vals) by rect_ok.
  destruct (C86_magnitude _ _ Hp64 He64 fused lin_grids lin_vals (mlc_interp_one F64Ops fused s) [tenth; z64 2] 4) as (v & H1 & H2).
  - apply float_rectilinear_flat; assumption.
  - reflexivity.
  - apply lin_inc.
  - apply lin_mod.
  - inside_ok.
  - lia.
  - lia.
  - unfold lin_vals. change (bpow radix2 4) with 16. repeat (apply Forall_cons; [split; [reflexivity|real_lit]|]). apply Forall_nil.
  - exists s, v. auto.
Qed.
Example C86_python_ex : exists r,
  fst (py_interpn F64Ops plain u_obs uneven_grids (arr prob_vals) "linear" None true false false (z64 0)) = Ret r /\
  nd_shape r = [1]%nat /\ Forall (fun y : f64 => is_finite y = true /\ 0 <= B2R y <= 1) (nd_data r).
Proof.
  destruct (C86_python 53 1024 Hp64 He64 plain u_obs uneven_grids (arr prob_vals) _ true false (z64 0) 0 (u_call prob_vals eq_refl) ltac:(simpl; lia) lin_inc
    eq_refl uneven_ok lin_mod) as (r & E & S & _ & H).
  - intros j Hj. destruct j as [|j]; [|simpl in Hj; lia]. inside_ok.
  - lia.
  - lia.
  - exact prob_ok.
  - exists r. split; [exact E|]. split; [exact S|]. exact H.
Qed.

Lemma half_step : pixel_axis 53 1024 (z64 0) (f64_lit 1 (-1)) 3.
Proof.
  split; [reflexivity|]. split; [real_lit|]. split; [reflexivity|]. split; [|lia].
  exists (-1)%Z. split; [|lia]. change (bpow radix2 (-1)) with (/ 2). real_lit.
Qed.
Lemma unit_step : pixel_axis 53 1024 (z64 0) (z64 1) 2.
Proof. split; [reflexivity|]. split; [real_lit|]. split; [reflexivity|]. split; [|lia]. exists 0%Z. split; [|lia]. change (bpow radix2 0) with 1. real_lit. Qed.
Lemma pixel_ok : forall k (start step : f64) d xk, nth_error [z64 0; z64 0] k = Some start -> nth_error [f64_lit 1 (-1); z64 1] k = Some step ->
  nth_error [3; 2]%Z k = Some d -> nth_error [tenth; f64_lit 1 (-70)] k = Some xk ->
  pixel_axis 53 1024 start step d /\ is_finite xk = true /\ 0 <= B2R xk <= B2R step * IZR (d - 1).
Proof.
  intros k start step d xk E1 E2 E3 E4. assert (H : B2R (f64_lit 1 (-1)) = / 2) by real_lit. assert (H1 : B2R (z64 1) = 1) by real_lit.
  destruct k as [|[|k]]; cbn [nth_error] in *; [| |destruct k; discriminate E3];
  apply (f_equal (fun q => match q with Some v => v | None => z64 1 end)) in E1, E2, E4; injection E3 as <-; rewrite <- E1, <- E2, <- E4.
  - split; [exact half_step|]. split; [reflexivity|]. rewrite H. unfold tenth. assert (0 <= B2R tenth <= 1) by (unfold tenth; real_lit).
    unfold tenth in *. change (IZR (3 - 1)) with 2. lra.
  - split; [exact unit_step|]. split; [reflexivity|]. rewrite H1. assert (0 <= B2R (f64_lit 1 (-70)) <= 1) by real_lit. change (IZR (2 - 1)) with 1. lra.
Qed.
Example C86_pixel_nonnegative_ex : exists s v, mlr_new F64Ops fused [3; 2]%Z [z64 0; z64 0] [f64_lit 1 (-1); z64 1] prob_vals = Ok s /\
  mlr_interp_one F64Ops fused s [tenth; f64_lit 1 (-70)] = Ok v /\ is_finite v = true /\ 0 <= B2R v <= 1.
Proof.
  destruct (@is_ok_ex _ (mlr_new F64Ops fused [3; 2]%Z [z64 0; z64 0] [f64_lit 1 (-1); z64 1] prob_vals)) as (s & E); [vm_compute; reflexivity|].
  assert (I : reg_input fused [3; 2]%Z [z64 0; z64 0] [f64_lit 1 (-1); z64 1] prob_vals) by reg_ok.
  destruct (C86_pixel_nonnegative _ _ Hp64 He64 fused _ _ _ prob_vals (mlr_interp_one F64Ops fused s) [tenth; f64_lit 1 (-70)] 0
    (float_regular_flat Hp64 He64 I E) eq_refl ltac:(lia) pixel_ok ltac:(lia) prob_ok) as (v & H1 & H2).
  exists s, v. auto.
Qed.
Example C86_pixel_magnitude_ex : exists s v, mlr_new F64Ops fused [3; 2]%Z [z64 0; z64 0] [f64_lit 1 (-1); z64 1] lin_vals = Ok s /\
  mlr_interp_one F64Ops fused s [tenth; f64_lit 1 (-70)] = Ok v /\ is_finite v = true /\ -16 <= B2R v <= 16.
Proof.
  destruct (@is_ok_ex _ (mlr_new F64Ops fused [3; 2]%Z [z64 0; z64 0] [f64_lit 1 (-1); z64 1] lin_vals)) as (s & E); [vm_compute; reflexivity|].
  assert (I : reg_input fused [3; 2]%Z [z64 0; z64 0] [f64_lit 1 (-1); z64 1] lin_vals) by reg_ok.
  destruct (C86_pixel_magnitude _ _ Hp64 He64 fused _ _ _ lin_vals (mlr_interp_one F64Ops fused s) [tenth; f64_lit 1 (-70)] 4
    (float_regular_flat Hp64 He64 I E) eq_refl ltac:(lia) pixel_ok ltac:(lia)) as (v & H1 & H2).
  - unfold lin_vals. change (bpow radix2 4) with 16. repeat (apply Forall_cons; [split; [reflexivity|real_lit]|]). apply Forall_nil.
  - exists s, v. auto.
Qed.
(** A picture of 3 by 2 pixels. *)
Definition px_grids : list (ndarray f64) := [arr [z64 0; f64_lit 1 (-1); z64 1]; arr [z64 0; z64 1]].
Definition px_obs : list (ndarray f64) := [mkNd [1]%nat [tenth]; mkNd [1]%nat [f64_lit 1 (-70)]].
Example C86_pixel_python_ex : exists r,
  fst (py_interpn F64Ops plain px_obs px_grids (arr prob_vals) "linear" None true true false (z64 0)) = Ret r /\
  nd_shape r = [1]%nat /\ Forall (fun y : f64 => is_finite y = true /\ 0 <= B2R y <= 1) (nd_data r).
Proof.
  assert (S0 : first_step 53 1024 Hp64 He64 [z64 0; f64_lit 1 (-1); z64 1] = f64_lit 1 (-1)) by (apply B2SF_inj; vm_compute; reflexivity).
  assert (S1 : first_step 53 1024 Hp64 He64 [z64 0; z64 1] = z64 1) by (apply B2SF_inj; vm_compute; reflexivity).
  assert (C : good_call 2 (mkNd [1]%nat [tenth]) px_obs px_grids (arr prob_vals)).
  { split; [reflexivity|]. split; [reflexivity|]. split; [repeat constructor|]. split; [repeat constructor|]. split; [reflexivity|vm_compute; discriminate]. }
  destruct (C86_pixel_python 53 1024 Hp64 He64 plain px_obs px_grids (arr prob_vals) _ true true (z64 0) 0 C ltac:(simpl; lia) (or_introl eq_refl))
    as (r & E & S & _ & H).
  - apply Forall_cons; [|apply Forall_cons; [|apply Forall_nil]]; cbn [nd_data arr].
    + rewrite S0. exact half_step.
    + rewrite S1. exact unit_step.
  - intros j Hj. destruct j as [|j]; [|simpl in Hj; lia]. unfold px_obs. cbn [map nd_data point_of nth].
    apply Forall2_cons; [|apply Forall2_cons; [|apply Forall2_nil]]; cbn [nd_data arr].
    + rewrite S0. exact (proj2 (pixel_ok 0 _ _ 3 tenth eq_refl eq_refl eq_refl eq_refl)).
    + rewrite S1. exact (proj2 (pixel_ok 1 _ _ 2 _ eq_refl eq_refl eq_refl eq_refl)).
  - lia.
  - lia.
  - exact prob_ok.
  - exists r. split; [exact E|]. split; [exact S|]. exact H.
Qed.

(** ** Where it does not hold
    Other regular grids: on the grid -1, 0, 1 with the values 0, 0, 1, the result at -2^-60 is negative: the
    distance from the first point rounds to 1, so the cell from 0 to 1 is taken. The same with the
    Python function, which takes this path for evenly spaced grids. *)
Theorem C86_regular_refuted :
  exists s, mlr_new F64Ops plain [3%Z] [z64 (-1)] [z64 1] [z64 0; z64 0; z64 1] = Ok s /\
  ok_is (mlr_interp_one F64Ops plain s [f64_lit (-1) (-60)]) (f64_lit (-1) (-60)) = true /\
  match fst (py_interpn F64Ops plain [mkNd [1]%nat [f64_lit (-1) (-60)]] [arr [z64 (-1); z64 0; z64 1]]
    (arr [z64 0; z64 0; z64 1]) "linear" None true false true (z64 0)) with
  | Ret r => match nd_data r with [y] => Beqb y (f64_lit (-1) (-60)) | _ => false end | _ => false end = true.
Proof. eexists. split; [reflexivity|]. split; vm_compute; reflexivity. Qed.
(** The one-dimensional linear interpolator: on the grid 0, 25 with the values 411, 0, the result at 25
    is negative, -2^-44. *)
Theorem C86_one_dim_refuted :
  exists s, c1_new [z64 0; z64 25] [z64 411; z64 0] = Ok s /\
  ok_is (linear1 F64Ops plain (c1_at F64Ops plain s) (z64 25)) (f64_lit (-1) (-44)) = true.
Proof. eexists. split; [reflexivity|]. vm_compute. reflexivity. Qed.
Print Assumptions C86_nonnegative.
Print Assumptions C86_magnitude.
Print Assumptions C86_python.
Print Assumptions C86_pixel_nonnegative.
Print Assumptions C86_pixel_magnitude.
Print Assumptions C86_pixel_python.
Print Assumptions C86_regular_refuted.
Print Assumptions C86_one_dim_refuted.
