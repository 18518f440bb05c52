(** Properties C84, C85: the Python function interpn(method="nearest") in floating point, from the
    arrays passed to the array returned. *)
From Coq Require Import Reals Lra PeanoNat Bool Lia List String.
From Flocq Require Import Core.Core IEEE754.BinarySingleNaN.
From Verif Require Import Base Ops RInst FInst ModelCore ModelLinear ModelNearest ModelPython Spec SpecOrder SpecIEEE SpecError SpecReal Interpolators SpecApprox SpecPython SpecDetect SpecReach.
From Verif Require Import GenLemmas FLemmas FProofs FProofs2 FApprox FPyNearest RChar ExampleData ExampleReal.
From Verif Require Import PropertiesExact PropertiesFloat PropertiesError PropertiesApprox PropertiesAccuracy PropertiesPython PropertiesCubicError PropertiesDetect PropertiesPyCubic.
Import ListNotations.
Open Scope string_scope.
Open Scope R_scope.
Unset Implicit Arguments.

(** * C84: every number returned is the value of a grid point that is, along every axis, as near to
    the observation point as any other grid point, up to rounding. If the computed differences of the
    points of each grid are equal, up to [23 * u * kappa] steps; the observation points need not be
    inside the grid, they are at most [kappa] steps from zero: *)
Theorem C84_evenly_spaced :
  forall prec emax (Hp : Prec_gt_0 prec) (He : Prec_lt_emax prec emax), let o := BOps Hp He in
  forall c obs grids vals o0 lin assume atol,
  let gs := map nd_data grids in let xs := map nd_data obs in let axes := rect_axes (map (map B2R) gs) in
  good_call 2 o0 obs grids vals -> (1 <= length grids <= 6)%nat -> Forall (increasing_grid o) gs ->
  forall kappa, Forall (evenly_spaced o) gs -> Forall (grid_within prec emax Hp He kappa) gs ->
  525 * (roundoff prec * kappa) <= 1 -> (prec <= 64)%Z ->
  (forall j, (j < length (nd_data o0))%nat ->
    point_within prec emax kappa (map (first_step prec emax Hp He) gs) (point_of (fzero o) xs j)) ->
  exists r, fst (py_interpn o c obs grids vals "nearest" None lin assume false atol) = Ret r /\
  nd_shape r = nd_shape o0 /\ length (nd_data r) = length (nd_data o0) /\
  forall j, (j < length (nd_data o0))%nat -> exists idx, in_shape (map npts axes) idx /\
    nth j (nd_data r) (fzero o) = entry (fzero o) (map npts axes) (nd_data vals) idx /\
    forall k a, nth_error axes k = Some a ->
    nearest_up_to (23 * (roundoff prec * kappa) * B2R (first_step prec emax Hp He (nth k gs []))) a
      (nth k (map B2R (point_of (fzero o) xs j)) 0) (nth k idx 0%Z).
Proof. intros prec emax Hp He o. exact (C84_proof_even prec emax Hp He). Qed.
(** Any other grids: up to the factor 1 + 8u, at all finite observation points. *)
Theorem C84_unevenly_spaced :
  forall prec emax (Hp : Prec_gt_0 prec) (He : Prec_lt_emax prec emax), let o := BOps Hp He in
  forall c obs grids vals o0 lin assume atol,
  let gs := map nd_data grids in let xs := map nd_data obs in let axes := rect_axes (map (map B2R) gs) in
  good_call 2 o0 obs grids vals -> (1 <= length grids <= 6)%nat -> Forall (increasing_grid o) gs ->
  assume = false -> ~ Forall (evenly_spaced o) gs -> Forall (Forall moderate) gs -> 64 * roundoff prec <= 1 ->
  Forall (Forall (fun v => is_finite v = true)) xs ->
  exists r, fst (py_interpn o c obs grids vals "nearest" None lin assume false atol) = Ret r /\
  nd_shape r = nd_shape o0 /\ length (nd_data r) = length (nd_data o0) /\
  forall j, (j < length (nd_data o0))%nat -> exists idx, in_shape (map npts axes) idx /\
    nth j (nd_data r) (fzero o) = entry (fzero o) (map npts axes) (nd_data vals) idx /\
    forall k a, nth_error axes k = Some a ->
    nearest_up_to_factor (1 + 8 * roundoff prec) a (nth k (map B2R (point_of (fzero o) xs j)) 0) (nth k idx 0%Z).
Proof. intros prec emax Hp He o. exact (C84_proof_uneven prec emax Hp He). Qed.

(** * C85: if the values are samples, up to an error e, of a function whose slope along axis k is at
    most L k, every number returned for a point inside the grid is within e plus half a spacing times
    the slope, added over the axes, plus rounding, of the function at the point. *)
Theorem C85_evenly_spaced :
  forall prec emax (Hp : Prec_gt_0 prec) (He : Prec_lt_emax prec emax), let o := BOps Hp He in
  forall c obs grids vals o0 lin assume atol,
  let gs := map nd_data grids in let xs := map nd_data obs in let axes := rect_axes (map (map B2R) gs) in
  good_call 2 o0 obs grids vals -> (1 <= length grids <= 6)%nat -> Forall (increasing_grid o) gs ->
  forall kappa, Forall (evenly_spaced o) gs -> Forall (grid_within prec emax Hp He kappa) gs ->
  525 * (roundoff prec * kappa) <= 1 -> (prec <= 64)%Z ->
  (forall j, (j < length (nd_data o0))%nat ->
    point_within prec emax kappa (map (first_step prec emax Hp He) gs) (point_of (fzero o) xs j)) ->
  forall f e L h,
  (forall j, (j < length (nd_data o0))%nat -> SpecReal.inside_grid axes (map B2R (point_of (fzero o) xs j))) ->
  samples_within e axes (map B2R (nd_data vals)) f ->
  (forall k, (k < length axes)%nat -> slope_at_most axes f k (L k)) ->
  (forall k a, nth_error axes k = Some a -> spacing_at_most a (h k)) ->
  exists r, fst (py_interpn o c obs grids vals "nearest" None lin assume false atol) = Ret r /\
  nd_shape r = nd_shape o0 /\ length (nd_data r) = length (nd_data o0) /\
  forall j, (j < length (nd_data o0))%nat ->
    Rabs (B2R (nth j (nd_data r) (fzero o)) - f (map B2R (point_of (fzero o) xs j))) <=
    e + sum_upto (length axes) (fun k => L k * (h k / 2 + 23 * (roundoff prec * kappa) * B2R (first_step prec emax Hp He (nth k gs [])))).
Proof. intros prec emax Hp He o. exact (C85_proof_even prec emax Hp He). Qed.
Theorem C85_unevenly_spaced :
  forall prec emax (Hp : Prec_gt_0 prec) (He : Prec_lt_emax prec emax), let o := BOps Hp He in
  forall c obs grids vals o0 lin assume atol,
  let gs := map nd_data grids in let xs := map nd_data obs in let axes := rect_axes (map (map B2R) gs) in
  good_call 2 o0 obs grids vals -> (1 <= length grids <= 6)%nat -> Forall (increasing_grid o) gs ->
  assume = false -> ~ Forall (evenly_spaced o) gs -> Forall (Forall moderate) gs -> 64 * roundoff prec <= 1 ->
  Forall (Forall (fun v => is_finite v = true)) xs ->
  forall f e L h,
  (forall j, (j < length (nd_data o0))%nat -> SpecReal.inside_grid axes (map B2R (point_of (fzero o) xs j))) ->
  samples_within e axes (map B2R (nd_data vals)) f ->
  (forall k, (k < length axes)%nat -> slope_at_most axes f k (L k)) ->
  (forall k a, nth_error axes k = Some a -> spacing_at_most a (h k)) ->
  exists r, fst (py_interpn o c obs grids vals "nearest" None lin assume false atol) = Ret r /\
  nd_shape r = nd_shape o0 /\ length (nd_data r) = length (nd_data o0) /\
  forall j, (j < length (nd_data o0))%nat ->
    Rabs (B2R (nth j (nd_data r) (fzero o)) - f (map B2R (point_of (fzero o) xs j))) <=
    e + sum_upto (length axes) (fun k => L k * ((1 / 2 + 4 * roundoff prec) * h k)).
Proof. intros prec emax Hp He o. exact (C85_proof_uneven prec emax Hp He). Qed.

(** The grids 2^-60, 1, 2, 3 and -1, 1, 3, 5, 7 (equal computed differences) and the point (9, 25/4),
    which is outside: the value of the node (3, 7) is returned. *)
Definition n_obs : list (ndarray f64) := [mkNd [1]%nat [z64 9]; mkNd [1]%nat [f64_lit 25 (-2)]].
Lemma n_pt : map B2R (point_of (fzero F64Ops) (map nd_data n_obs) 0) = [9; 25 / 4].
Proof. unfold n_obs, point_of. cbn [map nd_data nth]. repeat (apply f_equal2); try reflexivity; real_lit. Qed.
Lemma n_obs_fin : Forall (Forall (fun v : f64 => is_finite v = true)) (map nd_data n_obs).
Proof. repeat (apply Forall_cons; [repeat (apply Forall_cons; [reflexivity|]); apply Forall_nil|]). apply Forall_nil. Qed.
Lemma n_call : good_call 2 (mkNd [1]%nat [z64 9]) n_obs p_grids (arr ws_vals).
Proof.
  split; [reflexivity|]. split; [reflexivity|]. split; [repeat (apply Forall_cons; [reflexivity|]); apply Forall_nil|].
  split; [repeat (apply Forall_cons; [le_ok|]); apply Forall_nil|]. split; [reflexivity|]. vm_compute. discriminate.
Qed.
Lemma p_call2 : good_call 2 (mkNd [1]%nat [f64_lit 5 (-1)]) p_obs p_grids (arr ws_vals).
Proof.
  split; [reflexivity|]. split; [reflexivity|]. split; [repeat (apply Forall_cons; [reflexivity|]); apply Forall_nil|].
  split; [repeat (apply Forall_cons; [le_ok|]); apply Forall_nil|]. split; [reflexivity|]. vm_compute. discriminate.
Qed.
Lemma n_within : Forall (grid_within 53 1024 Hp64 He64 10) (map nd_data p_grids).
Proof.
  assert (E1 : B2R (z64 1) = 1) by real_lit. assert (E2 : B2R (z64 2) = 2) by real_lit.
  assert (P : 20 <= bpow radix2 (1024 - 4)) by (apply Rle_trans with (bpow radix2 5); [simpl; lra|apply bpow_le; lia]).
  assert (S0 := p_step0). assert (S1 := p_step1).
  unfold p_grids, arr in *. cbn [map nd_data nth] in *. apply Forall_cons; [|apply Forall_cons; [|apply Forall_nil]].
  - unfold grid_within. rewrite S0, E1. split; [reflexivity|]. split; [lra|]. clear.
    repeat (apply Forall_cons; [split; [reflexivity|apply Rabs_le; real_lit]|]). apply Forall_nil.
  - unfold grid_within. rewrite S1, E2. split; [reflexivity|]. split; [lra|]. clear.
    repeat (apply Forall_cons; [split; [reflexivity|apply Rabs_le; real_lit]|]). apply Forall_nil.
Qed.
Lemma steps_eq : map (first_step 53 1024 Hp64 He64) (map nd_data p_grids) = [z64 1; z64 2].
Proof.
  change ([first_step 53 1024 Hp64 He64 (nth 0 (map nd_data p_grids) []); first_step 53 1024 Hp64 He64 (nth 1 (map nd_data p_grids) [])] = [z64 1; z64 2]).
  rewrite p_step0, p_step1. reflexivity.
Qed.
Lemma pts_within obs : Forall (Forall (fun v : f64 => is_finite v = true)) (map nd_data obs) ->
  (exists u v, map B2R (point_of (fzero F64Ops) (map nd_data obs) 0) = [u; v] /\ Rabs u <= 10 /\ Rabs v <= 20) ->
  point_within 53 1024 10 (map (first_step 53 1024 Hp64 He64) (map nd_data p_grids)) (point_of (fzero F64Ops) (map nd_data obs) 0).
Proof.
  intros F (u & v & E & Hu & Hv). rewrite steps_eq.
  assert (E1 : B2R (z64 1) = 1) by real_lit. assert (E2 : B2R (z64 2) = 2) by real_lit.
  assert (FP := FPython.pt_fin 53 1024 Hp64 He64 obs F 0).
  change (Forall (fun v : f64 => is_finite v = true) (point_of (fzero F64Ops) (map nd_data obs) 0)) in FP.
  revert E FP. generalize (point_of (fzero F64Ops) (map nd_data obs) 0). intros l E FP.
  destruct l as [|a [|b [|]]]; try discriminate E. cbn [map] in E. injection E as Ea Eb.
  inversion FP as [|? ? F1 FP']. inversion FP' as [|? ? F2 _].
  intros k h w Eh Ew. destruct k as [|[|k]]; [| |destruct k; discriminate Eh]; cbn [nth_error] in Eh, Ew;
    apply (f_equal (fun q => match q with Some v => v | None => z64 1 end)) in Eh; apply (f_equal (fun q => match q with Some v => v | None => z64 1 end)) in Ew;
    rewrite <- Eh, <- Ew.
  - split; [exact F1|]. rewrite Ea. replace (B2R (z64 1)) with 1 by (symmetry; exact E1). lra.
  - split; [exact F2|]. rewrite Eb. replace (B2R (z64 2)) with 2 by (symmetry; exact E2). lra.
Qed.
Example C84_evenly_spaced_ex : exists r,
  fst (py_interpn F64Ops plain n_obs p_grids (arr ws_vals) "nearest" None true false false (z64 0)) = Ret r /\
  nd_shape r = [1]%nat /\ nth 0 (nd_data r) (fzero F64Ops) = entry (fzero F64Ops) [4; 5]%Z ws_vals [3; 4]%Z.
Proof.
  assert (U := roundoff_64). assert (U0 : 0 <= roundoff 53) by apply bpow_ge_0.
  assert (E1 : B2R (z64 1) = 1) by real_lit. assert (E2 : B2R (z64 2) = 2) by real_lit.
  destruct (C84_evenly_spaced 53 1024 Hp64 He64 plain n_obs p_grids (arr ws_vals) _ true false (z64 0) n_call ltac:(simpl; lia) p_inc
    10 p_even n_within ltac:(lra) ltac:(lia)) as (r & E & S & _ & H).
  - intros j Hj. simpl in Hj. assert (j = 0)%nat as -> by lia. apply pts_within; [exact n_obs_fin|]. exists 9, (25 / 4).
    split; [exact n_pt|]. split; apply Rabs_le; lra.
  - exists r. split; [exact E|]. split; [exact S|]. destruct (H 0%nat ltac:(simpl; lia)) as (idx & Hi & Ev & K).
    assert (Ev' : nth 0 (nd_data r) (fzero F64Ops) = entry (fzero F64Ops) [4; 5]%Z ws_vals idx) by exact Ev. eapply eq_trans; [exact Ev'|]. clear Ev Ev'.
    assert (K0 : nearest_up_to (23 * (roundoff 53 * 10) * B2R (first_step 53 1024 Hp64 He64 (nth 0 (map nd_data p_grids) []))) (list_axis (map B2R (nth 0 (map nd_data p_grids) [])))
      (nth 0 (map B2R (point_of (fzero F64Ops) (map nd_data n_obs) 0)) 0) (nth 0 idx 0%Z)) by exact (K 0%nat _ eq_refl).
    assert (K1 : nearest_up_to (23 * (roundoff 53 * 10) * B2R (first_step 53 1024 Hp64 He64 (nth 1 (map nd_data p_grids) []))) (list_axis (map B2R (nth 1 (map nd_data p_grids) [])))
      (nth 1 (map B2R (point_of (fzero F64Ops) (map nd_data n_obs) 0)) 0) (nth 1 idx 0%Z)) by exact (K 1%nat _ eq_refl).
    rewrite n_pt in K0, K1. rewrite p_step0, E1 in K0. rewrite p_step1, E2 in K1.
    assert (G := p_grids_real). assert (G0 : map B2R (nth 0 (map nd_data p_grids) []) = [tiny; 1; 2; 3]) by exact (f_equal (fun l => nth 0 l []) G).
    assert (G1 : map B2R (nth 1 (map nd_data p_grids) []) = [-1; 1; 3; 5; 7]) by exact (f_equal (fun l => nth 1 l []) G).
    rewrite G0 in K0. rewrite G1 in K1. clear K G G0 G1 H E S.
    assert (Hi' : in_shape [4; 5]%Z idx) by exact Hi. clear Hi. inversion Hi' as [|? i ? ? Hi0 Hi1]; subst; inversion Hi1 as [|? j ? ? Hj0 Hj1]; subst; inversion Hj1; subst.
    change (nth 0 [9; 25 / 4] 0) with 9 in K0. change (nth 1 [9; 25 / 4] 0) with (25 / 4) in K1.
    change (nth 0 [i; j] 0%Z) with i in K0. change (nth 1 [i; j] 0%Z) with j in K1. clear Hi' Hi1 Hj1.
    assert (i = 3%Z /\ j = 4%Z) as (-> & ->); [|reflexivity].
    set (u := roundoff 53) in *. clearbody u. clear E1 E2.
    destruct K0 as (_ & K0). specialize (K0 3%Z ltac:(unfold list_axis, zlen; simpl; lia)).
    destruct K1 as (_ & K1). specialize (K1 4%Z ltac:(unfold list_axis, zlen; simpl; lia)).
    assert (Ei : (i = 0 \/ i = 1 \/ i = 2 \/ i = 3)%Z) by lia. assert (Ej : (j = 0 \/ j = 1 \/ j = 2 \/ j = 3 \/ j = 4)%Z) by lia. clear Hi0 Hj0.
    split.
    + clear K1 Ej. destruct Ei as [-> | [-> | [-> | ->]]]; auto; exfalso; unfold list_axis in K0; simpl in K0; unfold tiny in K0;
        rewrite !Rabs_right in K0 by lra; lra.
    + clear K0 Ei. destruct Ej as [-> | [-> | [-> | [-> | ->]]]]; auto; exfalso; unfold list_axis in K1; simpl in K1;
        rewrite Rabs_right, Rabs_left in K1 by lra; lra.
Qed.
Lemma sub_slopes axes k : (forall x, SpecReal.inside_grid axes x -> SpecReal.inside_grid p_box x) -> (k < 2)%nat -> slope_at_most axes wave k (p_slope k).
Proof. intros H Hk x t Hx Ht. apply p_slopes; auto. Qed.
Ltac in_box := let x := fresh in let Hx := fresh in let Hc := fresh in
  intros x (Hx & Hc); destruct x as [|u [|v [|]]]; try discriminate Hx;
  assert (R0 := Hc 0%nat _ eq_refl); assert (R1 := Hc 1%nat _ eq_refl); simpl in R0, R1; try unfold tiny in R0; split; [reflexivity|];
  intros k a Hk; destruct k as [|[|k]]; [| |destruct k; discriminate Hk]; injection Hk as <-; simpl; lra.
(** x^3 + y^2 = 413/8 at (5/2, 6). *)
Example C85_evenly_spaced_ex : exists r,
  fst (py_interpn F64Ops plain p_obs p_grids (arr ws_vals) "nearest" None true false false (z64 0)) = Ret r /\
  Rabs (B2R (nth 0 (nd_data r) (fzero F64Ops)) - 413 / 8) <= 40 + / 1000000.
Proof.
  assert (U := roundoff_64). assert (U0 : 0 <= roundoff 53) by apply bpow_ge_0.
  assert (E1 : B2R (z64 1) = 1) by real_lit. assert (E2 : B2R (z64 2) = 2) by real_lit.
  destruct (C85_evenly_spaced 53 1024 Hp64 He64 plain p_obs p_grids (arr ws_vals) _ true false (z64 0) p_call2 ltac:(simpl; lia) p_inc
    10 p_even n_within ltac:(lra) ltac:(lia)) with (f := wave) (e := / 1000000000000) (L := p_slope) (h := fun k => match k with O => 1 | _ => 2 end) as (r & E & S & _ & H).
  - intros j Hj. simpl in Hj. assert (j = 0)%nat as -> by lia. apply pts_within; [exact p_obs_fin|]. exists (5 / 2), 6.
    split; [exact p_pt|]. split; apply Rabs_le; lra.
  - exact p_inside.
  - exact p_samples.
  - intros k Hk. apply sub_slopes; [|exact Hk]. clear.
    change (forall x, SpecReal.inside_grid (rect_axes (map (map B2R) (map nd_data p_grids))) x -> SpecReal.inside_grid p_box x). rewrite p_grids_real. in_box.
  - clear. change (forall k a, nth_error (rect_axes (map (map B2R) (map nd_data p_grids))) k = Some a -> spacing_at_most a (match k with O => 1 | _ => 2 end)).
    rewrite p_grids_real. intros k a Hk. destruct k as [|[|k]]; [| |destruct k; discriminate]; injection Hk as <-;
      intros j Hj; unfold spacing, list_axis, zlen in *; simpl in *.
    + assert (Ej : (j = 0 \/ j = 1 \/ j = 2)%Z) by lia. destruct Ej as [-> | [-> | ->]]; simpl; unfold tiny; lra.
    + assert (Ej : (j = 0 \/ j = 1 \/ j = 2 \/ j = 3)%Z) by lia. destruct Ej as [-> | [-> | [-> | ->]]]; simpl; lra.
  - exists r. split; [exact E|]. assert (B := H 0%nat ltac:(simpl; lia)).
    assert (Ef : wave (map B2R (point_of (fzero F64Ops) (map nd_data p_obs) 0)) = 413 / 8) by (rewrite p_pt; unfold wave; simpl; lra).
    assert (B' : Rabs (B2R (nth 0 (nd_data r) (fzero F64Ops)) - wave (map B2R (point_of (fzero F64Ops) (map nd_data p_obs) 0))) <= 40 + / 1000000).
    { eapply Rle_trans; [exact B|]. change (length (rect_axes _)) with 2%nat.
      unfold sum_upto, Rsum. cbn [seq map fold_right]. p_steps. rewrite E1, E2. unfold p_slope. clear - U U0. lra. }
    rewrite Ef in B'. exact B'.
Qed.

(** The uneven grids 0, 1, 3, 4 and -1, 0, 1, 5, 7. *)
Lemma pu_call2 : good_call 2 (mkNd [1]%nat [f64_lit 5 (-1)]) p_obs pu_grids (arr wg_vals).
Proof.
  split; [reflexivity|]. split; [reflexivity|]. split; [repeat (apply Forall_cons; [reflexivity|]); apply Forall_nil|].
  split; [repeat (apply Forall_cons; [le_ok|]); apply Forall_nil|]. split; [reflexivity|]. vm_compute. discriminate.
Qed.
Example C84_unevenly_spaced_ex : exists r idx,
  fst (py_interpn F64Ops plain p_obs pu_grids (arr wg_vals) "nearest" None true false false (z64 0)) = Ret r /\
  nth 0 (nd_data r) (fzero F64Ops) = entry (fzero F64Ops) [4; 5]%Z wg_vals idx /\
  nearest_up_to_factor (1 + 8 * roundoff 53) (list_axis [0; 1; 3; 4]) (5 / 2) (nth 0 idx 0%Z).
Proof.
  assert (U := roundoff_64).
  destruct (C84_unevenly_spaced 53 1024 Hp64 He64 plain p_obs pu_grids (arr wg_vals) _ true false (z64 0) pu_call2 ltac:(simpl; lia) wg_inc
    eq_refl pu_uneven wg_mod ltac:(lra) p_obs_fin) as (r & E & S & _ & H).
  destruct (H 0%nat ltac:(simpl; lia)) as (idx & Hi & E' & K). exists r, idx. split; [exact E|]. split; [exact E'|].
  assert (K0 : nearest_up_to_factor (1 + 8 * roundoff 53) (list_axis (map B2R (nth 0 wg_grids [])))
    (nth 0 (map B2R (point_of (fzero F64Ops) (map nd_data p_obs) 0)) 0) (nth 0 idx 0%Z)) by exact (K 0%nat _ eq_refl).
  rewrite p_pt in K0. assert (G0 : map B2R (nth 0 wg_grids []) = [0; 1; 3; 4]) by exact (f_equal (fun l => nth 0 l []) wg_grids_real).
  rewrite G0 in K0. exact K0.
Qed.
Example C85_unevenly_spaced_ex : exists r,
  fst (py_interpn F64Ops plain p_obs pu_grids (arr wg_vals) "nearest" None true false false (z64 0)) = Ret r /\
  Rabs (B2R (nth 0 (nd_data r) (fzero F64Ops)) - 413 / 8) <= 81.
Proof.
  assert (U := roundoff_64). assert (U0 : 0 <= roundoff 53) by apply bpow_ge_0.
  destruct (C85_unevenly_spaced 53 1024 Hp64 He64 plain p_obs pu_grids (arr wg_vals) _ true false (z64 0) pu_call2 ltac:(simpl; lia) wg_inc
    eq_refl pu_uneven wg_mod ltac:(lra) p_obs_fin) with (f := wave) (e := 0) (L := p_slope) (h := rcu_spacing) as (r & E & S & _ & H).
  - exact pu_inside.
  - change (samples_within 0 (rect_axes (map (map B2R) wg_grids)) (map B2R wg_vals) wave).
    rewrite wg_grids_real, wg_vals_real. intros idx Hi. rewrite (wave_samples _ Hi). apply Rabs_le. lra.
  - intros k Hk. apply sub_slopes; [|exact Hk]. clear.
    change (forall x, SpecReal.inside_grid (rect_axes (map (map B2R) wg_grids)) x -> SpecReal.inside_grid p_box x). rewrite wg_grids_real. in_box.
  - change (forall k a, nth_error (rect_axes (map (map B2R) wg_grids)) k = Some a -> spacing_at_most a (rcu_spacing k)).
    rewrite wg_grids_real. apply rcu_spacing_ok.
  - exists r. split; [exact E|]. assert (B := H 0%nat ltac:(simpl; lia)).
    assert (Ef : wave (map B2R (point_of (fzero F64Ops) (map nd_data p_obs) 0)) = 413 / 8) by (rewrite p_pt; unfold wave; simpl; lra).
    assert (B' : Rabs (B2R (nth 0 (nd_data r) (fzero F64Ops)) - wave (map B2R (point_of (fzero F64Ops) (map nd_data p_obs) 0))) <= 81).
    { eapply Rle_trans; [exact B|]. change (length (rect_axes _)) with 2%nat.
      unfold sum_upto, Rsum. cbn [seq map fold_right]. unfold p_slope, rcu_spacing. clear - U U0. lra. }
    rewrite Ef in B'. exact B'.
Qed.
Print Assumptions C84_evenly_spaced.
Print Assumptions C84_unevenly_spaced.
Print Assumptions C85_evenly_spaced.
Print Assumptions C85_unevenly_spaced.
